(** Specification of SFastBuffer: it is a byte string. *)
From Verif Require Import Base.

(** The calls, with the allocator's choice (does the string have to grow?) made visible
    on append, because it decides whether the buffer is compacted. *)
Inductive fop :=
| Fappend (grow : bool) (s : bytes)
| Fconsume (n : nat)
| Fclear
| Fassign (s : bytes)
| Fstarts.

Definition spec_step (l : bytes) (o : fop) : bytes :=
  match o with
  | Fappend _ s => l ++ s
  | Fconsume n => skipn n l
  | Fclear => []
  | Fassign s => s
  | Fstarts => l
  end.
Definition spec_run (l : bytes) (ops : list fop) : bytes := fold_left spec_step ops l.

(** The caller's obligation: never consume more than there is. *)
Fixpoint valid (l : bytes) (ops : list fop) : Prop :=
  match ops with
  | [] => True
  | o :: ops' => (match o with Fconsume n => n <= List.length l | _ => True end)
                 /\ valid (spec_step l o) ops'
  end.

Definition LF : ascii := "010"%char.
Definition CR : ascii := "013"%char.

(** "Starts with an HTTP request" (its method line and headers, at least): at least four
    bytes, and an empty line (LF LF, or CR LF CR LF) after a non-empty prefix. *)
Definition has_header_block (l : bytes) : Prop :=
  4 <= List.length l /\
  exists a b, a <> [] /\ (l = a ++ LF :: LF :: b \/ l = a ++ CR :: LF :: CR :: LF :: b).
