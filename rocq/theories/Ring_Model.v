(** Model of SRingBuffer (libstuff/SRingBuffer.h:25-101) as a transition system whose steps
    are the individual atomic accesses.

    Simplifications: indices are unbounded (2^64 pushes are out of reach); the relaxed or
    acquire loads of the two indices may return any earlier value of the same variable (the
    event carries the value read), every other access is sequentially consistent; moving an
    element in or out is a start and an end step with other threads in between; wait() and
    notify_one() are not modelled. *)
From Verif Require Import Base Ring_Spec.

Section Ring.
Variable T : Type.
(** SRingBuffer.h:25: the capacity [C]. *)
Variable C : nat.

(** SRingBuffer.h:14-19. *)
Inductive sstate := Empty | Ready | Shut.
(** SRingBuffer.h:27-31.  [sl_busy]: some thread is moving the element in or out. *)
Record slot := mkSlot { sl_data : option T; sl_state : sstate; sl_busy : bool }.

(** Program counter of a producer. *)
Inductive ppc :=
| PIdle
| PLoaded (v : T) (w : nat)      (* :35 or :41 failed: holds currentWriteIndex *)
| PChecked (v : T) (w : nat)     (* :38 passed, before :41 *)
| PClaimed (v : T) (i : nat)     (* :41 succeeded, before :47 *)
| PWriting (v : T) (i : nat)     (* inside :47 *)
| PWritten (v : T) (i : nat)     (* before :48 *)
| PShut (i : nat).               (* :87 done, before :88 *)

(** Program counter of the consumer. *)
Inductive cpc :=
| CIdle
| CReady                         (* :59 read Ready, before :71 *)
| CTaking                        (* inside :71 *)
| CTaken (d : option T)          (* before :72 *)
| CEmptied (d : option T)        (* before :74 *)
| CShut                          (* :59 read Shutdown, before :66 *)
| CShutEmptied.                  (* before :67 *)

(** SRingBuffer.h:92-100, the threads, and what the callers see. *)
Record ring := mkRing {
  r_w : nat; r_r : nat; r_slots : nat -> slot;
  r_prod : nat -> ppc; r_cons : cpc;
  r_line : list (nat * entry T);       (* places in line: order of the successful :41 / :87 *)
  r_out : list (delivery T);           (* what pop returned, without the empty answers *)
  r_true : list (nat * T);             (* pushes that returned true *)
  r_false : list (nat * T);            (* pushes that returned false *)
  r_race : bool                        (* two threads touched one element at the same time *)
}.

Definition upd {A} (f : nat -> A) (k : nat) (v : A) : nat -> A := fun x => if Nat.eqb x k then v else f x.

Definition ring_init : ring :=
  mkRing 0 0 (fun _ => mkSlot None Empty false) (fun _ => PIdle) CIdle [] [] [] [] false.

(** SRingBuffer.h:93, :45, :57, :87. *)
Definition slot_of (i : nat) : nat := i mod (C + 1).

Inductive event :=
| EPush (p : nat) (v : T) (g : nat)   (* :35, the load returned [g] *)
| ECheck (p : nat) (g : nat)          (* :38, the load of readIndex returned [g] *)
| ECas (p : nat) (weak : bool) (g : nat) (* :41; [weak]: fails spuriously; [g]: value read on failure *)
| EWriteBegin (p : nat) | EWriteEnd (p : nat)   (* :47 *)
| EReady (p : nat)                    (* :48-51 *)
| EShutdown (p : nat)                 (* :87 *)
| EShutStore (p : nat)                (* :88 *)
| EPeek (stale : bool)                (* :56-63; [stale]: the load still returns Empty *)
| ETakeBegin | ETakeEnd               (* :71 *)
| EEmpty                              (* :72 or :66 *)
| EAdvance.                           (* :74-76 or :67-68 *)

Definition set_prod (s : ring) (p : nat) (c : ppc) : ring :=
  mkRing (r_w s) (r_r s) (r_slots s) (upd (r_prod s) p c) (r_cons s) (r_line s) (r_out s) (r_true s) (r_false s) (r_race s).
Definition set_cons (s : ring) (c : cpc) : ring :=
  mkRing (r_w s) (r_r s) (r_slots s) (r_prod s) c (r_line s) (r_out s) (r_true s) (r_false s) (r_race s).
Definition set_slot (s : ring) (k : nat) (x : slot) (race : bool) : ring :=
  mkRing (r_w s) (r_r s) (upd (r_slots s) k x) (r_prod s) (r_cons s) (r_line s) (r_out s) (r_true s) (r_false s)
         (r_race s || race).

(** SRingBuffer.h:38: unsigned subtraction; a write index behind the read index wraps to a
    huge number, which is at least [C]. *)
Definition full_check (w g : nat) : bool := if Nat.leb g w then Nat.leb C (w - g) else true.

(** One step; [None] when the event is not possible in this state. *)
Definition rstep (s : ring) (e : event) : option ring :=
  match e with
  | EPush p v g =>
      match r_prod s p with
      | PIdle => if Nat.leb g (r_w s) then Some (set_prod s p (PLoaded v g)) else None
      | _ => None
      end
  | ECheck p g =>
      match r_prod s p with
      | PLoaded v w =>
          if Nat.leb g (r_r s) then
            if full_check w g then
              Some (mkRing (r_w s) (r_r s) (r_slots s) (upd (r_prod s) p PIdle) (r_cons s) (r_line s) (r_out s)
                           (r_true s) (r_false s ++ [(p, v)]) (r_race s))
            else Some (set_prod s p (PChecked v w))
          else None
      | _ => None
      end
  | ECas p weak g =>
      match r_prod s p with
      | PChecked v w =>
          if Nat.eqb (r_w s) w && negb weak then
            Some (mkRing (r_w s + 1) (r_r s) (r_slots s) (upd (r_prod s) p (PClaimed v w)) (r_cons s)
                         (r_line s ++ [(p, Item v)]) (r_out s) (r_true s) (r_false s) (r_race s))
          else if Nat.leb g (r_w s) then Some (set_prod s p (PLoaded v g)) else None
      | _ => None
      end
  | EWriteBegin p =>
      match r_prod s p with
      | PClaimed v i =>
          let k := slot_of i in let x := r_slots s k in
          Some (set_prod (set_slot s k (mkSlot None (sl_state x) true) (sl_busy x)) p (PWriting v i))
      | _ => None
      end
  | EWriteEnd p =>
      match r_prod s p with
      | PWriting v i =>
          let k := slot_of i in let x := r_slots s k in
          Some (set_prod (set_slot s k (mkSlot (Some v) (sl_state x) false) false) p (PWritten v i))
      | _ => None
      end
  | EReady p =>
      match r_prod s p with
      | PWritten v i =>
          let k := slot_of i in let x := r_slots s k in
          Some (mkRing (r_w s) (r_r s) (upd (r_slots s) k (mkSlot (sl_data x) Ready (sl_busy x)))
                       (upd (r_prod s) p PIdle) (r_cons s) (r_line s) (r_out s) (r_true s ++ [(p, v)]) (r_false s) (r_race s))
      | _ => None
      end
  | EShutdown p =>
      match r_prod s p with
      | PIdle =>
          Some (mkRing (r_w s + 1) (r_r s) (r_slots s) (upd (r_prod s) p (PShut (r_w s))) (r_cons s)
                       (r_line s ++ [(p, Marker)]) (r_out s) (r_true s) (r_false s) (r_race s))
      | _ => None
      end
  | EShutStore p =>
      match r_prod s p with
      | PShut i =>
          let k := slot_of i in let x := r_slots s k in
          Some (set_prod (set_slot s k (mkSlot (sl_data x) Shut (sl_busy x)) false) p PIdle)
      | _ => None
      end
  | EPeek stale =>
      match r_cons s with
      | CIdle =>
          if stale then Some s else
          match sl_state (r_slots s (slot_of (r_r s))) with
          | Empty => Some s
          | Ready => Some (set_cons s CReady)
          | Shut => Some (set_cons s CShut)
          end
      | _ => None
      end
  | ETakeBegin =>
      match r_cons s with
      | CReady =>
          let k := slot_of (r_r s) in let x := r_slots s k in
          Some (set_cons (set_slot s k (mkSlot (sl_data x) (sl_state x) true) (sl_busy x)) CTaking)
      | _ => None
      end
  | ETakeEnd =>
      match r_cons s with
      | CTaking =>
          let k := slot_of (r_r s) in let x := r_slots s k in
          Some (set_cons (set_slot s k (mkSlot None (sl_state x) false) false) (CTaken (sl_data x)))
      | _ => None
      end
  | EEmpty =>
      let k := slot_of (r_r s) in let x := r_slots s k in
      let s' := set_slot s k (mkSlot (sl_data x) Empty (sl_busy x)) false in
      match r_cons s with
      | CTaken d => Some (set_cons s' (CEmptied d))
      | CShut => Some (set_cons s' CShutEmptied)
      | _ => None
      end
  | EAdvance =>
      let adv d := Some (mkRing (r_w s) (r_r s + 1) (r_slots s) (r_prod s) CIdle (r_line s) (r_out s ++ [d])
                                (r_true s) (r_false s) (r_race s)) in
      match r_cons s with
      | CEmptied d => adv (match d with Some v => Got v | None => Torn end)
      | CShutEmptied => adv GotShutdown
      | _ => None
      end
  end.

Fixpoint rrun (s : ring) (es : list event) : option ring :=
  match es with
  | [] => Some s
  | e :: es' => match rstep s e with Some s' => rrun s' es' | None => None end
  end.

Definition is_shutdown (e : event) : bool := match e with EShutdown _ => true | _ => false end.
Definition shutdowns (es : list event) : nat := List.length (filter is_shutdown es).

(** Steps of the consumer. *)
Definition consumer_event (e : event) : Prop :=
  match e with EPeek _ | ETakeBegin | ETakeEnd | EEmpty | EAdvance => True | _ => False end.

End Ring.
Arguments consumer_event {T}.
Arguments mkSlot {T}. Arguments sl_data {T}. Arguments sl_state {T}. Arguments sl_busy {T}.
Arguments PIdle {T}. Arguments PLoaded {T}. Arguments PChecked {T}. Arguments PClaimed {T}. Arguments PWriting {T}.
Arguments PWritten {T}. Arguments PShut {T}.
Arguments CIdle {T}. Arguments CReady {T}. Arguments CTaking {T}. Arguments CTaken {T}. Arguments CEmptied {T}.
Arguments CShut {T}. Arguments CShutEmptied {T}.
Arguments mkRing {T}. Arguments r_w {T}. Arguments r_r {T}. Arguments r_slots {T}. Arguments r_prod {T}.
Arguments r_cons {T}. Arguments r_line {T}. Arguments r_out {T}. Arguments r_true {T}. Arguments r_false {T}. Arguments r_race {T}.
Arguments ring_init {T}.
Arguments EPush {T}. Arguments ECheck {T}. Arguments ECas {T}. Arguments EWriteBegin {T}. Arguments EWriteEnd {T}.
Arguments EReady {T}. Arguments EShutdown {T}. Arguments EShutStore {T}. Arguments EPeek {T}. Arguments ETakeBegin {T}.
Arguments ETakeEnd {T}. Arguments EEmpty {T}. Arguments EAdvance {T}.
Arguments set_prod {T}. Arguments set_cons {T}. Arguments set_slot {T}. Arguments rstep {T}. Arguments rrun {T}.
Arguments is_shutdown {T}. Arguments shutdowns {T}.
