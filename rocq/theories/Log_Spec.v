(** What C60 is about: log lines. *)
From Verif Require Import Base Table.

(** What a thread writes in front of its lines: the identifier of the request and the parameter it came with; the name of the command it
    carries out, and its own. *)
Record context := Context { request_id : bytes; log_param : bytes; command : bytes; thread_name : bytes }.
(** A call: the tag and the message, where in the program, and the parameters. *)
Record call := Call { tag : bytes; message : bytes; file : bytes; line : N; function : bytes; params : stable }.

(** Two tables of parameters that differ only in values whose names are not on the list [wl]. *)
Definition same_for (wl : list bytes) (p q : stable) : Prop :=
  Forall2 (fun a b => fst a = fst b /\ (In (fst a) wl -> snd a = snd b)) p q.

(** Scopes: a thread begins with a request or with a part of one that has an identifier of its own; leaves what it has begun last;
    logs. *)
Inductive act := Enter (id param : option bytes) (method : bytes) | EnterPart (id : bytes) | Leave | Say (c : call).
Inductive balanced : list act -> Prop :=
  | b_nil : balanced []
  | b_say c l : balanced l -> balanced (Say c :: l)
  | b_enter i p m l l' : balanced l -> balanced l' -> balanced (Enter i p m :: l ++ Leave :: l')
  | b_part i l l' : balanced l -> balanced l' -> balanced (EnterPart i :: l ++ Leave :: l').

(** The list of names is extended by threads at any time: thread [t] looks at the list; it tries to put its own in place. *)
Inductive listing := Begin (t : nat) (names : list bytes) | Try (t : nat).

(** What the network says when a record is to be sent: whether a connection can be opened, and how many bytes each attempt to send
    takes; None: it fails. *)
Record luck := Luck { opens : bool; takes : list (option nat) }.

(** How parameters are shown: the values whose names are on the list, and for the others only that there is one. *)
Definition shown (wl : list bytes) (p : stable) : bytes :=
  flat_map (fun a => lit " " ++ fst a ++ lit ": '" ++ (if existsb (bytes_eqb (fst a)) wl then snd a else lit "<REDACTED>") ++ lit "'") p.
(** The records of [l] with the fate [b]. *)
Definition pick (b : bool) (l : list bytes) (fates : list bool) : list bytes :=
  map fst (filter (fun p => Bool.eqb (snd p) b) (combine l fates)).
