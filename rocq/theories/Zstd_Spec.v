(** What C51 is about: the texts of the commits of a node and the hashes that chain them, whatever way they are stored. *)
From Verif Require Import Base Text_Spec Text_Model.
Local Open Scope N_scope.

(** The zstd library as its documentation describes it.  A dictionary is the bytes it is made from. *)
Record zstd := Zstd {
  z_compress : bytes -> bytes -> bytes;                     (* dictionary, data *)
  z_decompress : option bytes -> bytes -> option bytes;
  z_is_frame : bytes -> bool;
  z_frame_id : bytes -> N;                                  (* ZSTD_getDictID_fromFrame; 0: none *)
  z_dict_id : bytes -> N;                                   (* the number a dictionary has in itself; 0: none *)
  z_content_size : bytes -> option N }.
Definition zstd_ok (z : zstd) : Prop := forall d x, x <> [] ->
  z_compress z d x <> [] /\ z_is_frame z (z_compress z d x) = true /\ z_frame_id z (z_compress z d x) = z_dict_id z d /\
  z_content_size z (z_compress z d x) = Some (N.of_nat (List.length x)) /\
  z_decompress z (Some d) (z_compress z d x) = Some x.

(** The dictionaries by number, as in the table zstdDictionaries. *)
Definition dictionaries := list (N * bytes).
Fixpoint lookup (i : N) (l : dictionaries) : option bytes := match l with [] => None | (j, d) :: l => if i =? j then Some d else lookup i l end.
(** Each dictionary is listed under the number it has in itself. *)
Definition numbered (z : zstd) (l : dictionaries) : Prop := forall i d, lookup i l = Some d -> i <> 0 /\ z_dict_id z d = i.

(** A text a transaction may have: it is no zstd frame and holds no zero byte. *)
Definition plain (z : zstd) (t : bytes) : Prop := z_is_frame z t = false /\ nul_free t.
(** The hashes of the commits with these texts: each covers the one before it. *)
Fixpoint chain (sha : bytes -> bytes) (last : bytes) (ts : list bytes) : list bytes :=
  match ts with [] => [] | t :: ts => let h := sha (last ++ t) in h :: chain sha h ts end.
(** [x] is a frame that can be read with these dictionaries, or with none if it names none; it holds [y]. *)
Definition opens (z : zstd) (l : dictionaries) (x y : bytes) : Prop :=
  x <> [] /\ z_is_frame z x = true /\ z_content_size z x <> None /\
  ((z_frame_id z x = 0 /\ z_decompress z None x = Some y) \/
   (z_frame_id z x <> 0 /\ exists d, lookup (z_frame_id z x) l = Some d /\ z_decompress z (Some d) x = Some y)).
