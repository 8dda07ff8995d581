(** Model of SFastBuffer (libstuff/SFastBuffer.h, libstuff/SFastBuffer.cpp).
    size_t is a natural number; the one subtraction that can wrap is modelled as wrapping.
    [contentLength] is never read and is omitted. *)
From Verif Require Import Base FastBuffer_Spec.

(** SFastBuffer.h:23-28. *)
Record fbuf := mkFB { fb_front : nat; fb_data : bytes; fb_next : nat; fb_hl : N }.

(** SFastBuffer.cpp:4-10 (empty, and from a string). *)
Definition fb_init : fbuf := mkFB 0 [] 0 0.
Definition fb_of (s : bytes) : fbuf := mkFB 0 s 0 0.

(** SFastBuffer.cpp:70-73 [size]; :75-78 [c_str] (the bytes it exposes). *)
Definition fb_size (f : fbuf) : nat := List.length (fb_data f) - fb_front f.
Definition fb_contents (f : fbuf) : bytes := skipn (fb_front f) (fb_data f).
(** SFastBuffer.cpp:65-68. *)
Definition fb_empty (f : fbuf) : bool := Nat.eqb (fb_size f) 0.

Definition at_is (d : bytes) (i : nat) (c : ascii) : bool :=
  match nth_error d i with Some x => Ascii.eqb x c | None => false end.

Definition size_max : N := 18446744073709551615.

(** SFastBuffer.cpp:35-47: the header length assigned when looking at the line feed at
    position [p] (0 = not assigned, or assigned 0).  Line 45's [next - front - 1] wraps to
    SIZE_MAX when [p = front]. *)
Definition hl_at (d : bytes) (front p : nat) : N :=
  let h1 := if Nat.ltb p (List.length d - 1) && at_is d (p + 1) LF then N.of_nat (p - front) else 0%N in
  if negb (Nat.eqb p 0) && Nat.ltb p (List.length d - 2) && at_is d (p - 1) CR
     && at_is d (p + 1) CR && at_is d (p + 2) LF
  then (if Nat.ltb front p then N.of_nat (p - front - 1) else size_max)
  else h1.

(** SFastBuffer.cpp:23-51: [n] positions left to look at, starting at [p].  [data.find]
    followed by the test is the same as testing each position that holds a line feed. *)
Fixpoint scan (d : bytes) (front p n : nat) : N :=
  match n with
  | O => 0%N
  | S n' => let h := if at_is d p LF then hl_at d front p else 0%N in
            if N.eqb h 0 then scan d front (S p) n' else h
  end.

(** SFastBuffer.cpp:12-63. *)
Definition fb_starts (f : fbuf) : fbuf * bool :=
  if Nat.ltb (fb_size f) 4 then (f, false)
  else
    let h := if N.eqb (fb_hl f) 0
             then scan (fb_data f) (fb_front f) (fb_next f) (List.length (fb_data f) - fb_next f)
             else fb_hl f in
    (mkFB (fb_front f) (fb_data f)
          (if N.eqb h 0 then List.length (fb_data f) - 4 else fb_next f) h,
     negb (N.eqb h 0)).

(** SFastBuffer.cpp:80-87. *)
Definition fb_clear (f : fbuf) : fbuf := mkFB 0 [] 0 0.

(** SFastBuffer.cpp:89-101. *)
Definition fb_consume (f : fbuf) (n : nat) : fbuf :=
  let front := fb_front f + n in
  if Nat.eqb front (List.length (fb_data f)) then fb_clear f
  else mkFB front (fb_data f) front 0.

(** SFastBuffer.cpp:103-127; [grow] is [data.capacity() - data.size() < bytes].  The
    shrink_to_fit at 119-121 only concerns the capacity. *)
Definition fb_append (f : fbuf) (grow : bool) (s : bytes) : fbuf :=
  if negb (Nat.eqb (fb_front f) 0) && grow
  then mkFB 0 (skipn (fb_front f) (fb_data f) ++ s) 0 0
  else mkFB (fb_front f) (fb_data f ++ s) (fb_next f) (fb_hl f).

(** SFastBuffer.cpp:135-143. *)
Definition fb_assign (f : fbuf) (s : bytes) : fbuf := mkFB 0 s 0 0.

Definition fb_step (f : fbuf) (o : fop) : fbuf :=
  match o with
  | Fappend g s => fb_append f g s
  | Fconsume n => fb_consume f n
  | Fclear => fb_clear f
  | Fassign s => fb_assign f s
  | Fstarts => fst (fb_starts f)
  end.
Definition fb_run (f : fbuf) (ops : list fop) : fbuf := fold_left fb_step ops f.

(** SFastBuffer.cpp:145-149: stream output goes through a C string, so it stops at NUL. *)
Fixpoint until_nul (l : bytes) : bytes :=
  match l with [] => [] | c :: l' => if Ascii.eqb c "000"%char then [] else c :: until_nul l' end.
Definition fb_print (f : fbuf) : bytes := until_nul (fb_contents f).
