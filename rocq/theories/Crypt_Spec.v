(** C67: what encryption, message authentication and base 32 are. *)
From Verif Require Import Base Text_Spec.

(** Bytes combined bit by bit. *)
Definition xor8 (a b : ascii) : ascii :=
  match a, b with Ascii a0 a1 a2 a3 a4 a5 a6 a7, Ascii b0 b1 b2 b3 b4 b5 b6 b7 =>
    Ascii (xorb a0 b0) (xorb a1 b1) (xorb a2 b2) (xorb a3 b3) (xorb a4 b4) (xorb a5 b5) (xorb a6 b6) (xorb a7 b7) end.

(** RFC 2104, for a hash function with blocks of 64 bytes: H((K xor opad) || H((K xor ipad) || text)), where K is the key, or
    its hash if it is longer than a block, filled up with zeroes. *)
Definition rfc2104 (H : bytes -> bytes) (key text : bytes) : bytes :=
  let k := if 64 <? List.length key then H key else key in
  let k := k ++ repeat NUL (64 - List.length k) in
  H (map (xor8 "092") k ++ H (map (xor8 "054") k ++ text)).

(** RFC 4648, sections 6 and 7, for whole groups of five bytes: each group is a number of 40 bits, written as eight digits
    of base 32, the highest first. *)
Definition base32_alphabet : bytes := lit "ABCDEFGHIJKLMNOPQRSTUVWXYZ234567".
Definition base32hex_alphabet : bytes := lit "0123456789ABCDEFGHIJKLMNOPQRSTUV".
Definition number (b : bytes) : N := fold_left (fun n c => n * 256 + bcode c)%N b 0%N.
Fixpoint digits32 (k : nat) (v : N) : list N := match k with O => [] | S k' => digits32 k' (v / 32)%N ++ [(v mod 32)%N] end.
Definition digit (alphabet : bytes) (d : N) : ascii := nth (N.to_nat d) alphabet NUL.
Fixpoint base32 (alphabet : bytes) (groups : list bytes) : bytes :=
  match groups with [] => [] | g :: gs => map (digit alphabet) (digits32 8 (number g)) ++ base32 alphabet gs end.
