(** SEncodeBase64 and SDecodeBase64: libstuff/libstuff.cpp 2677-2712, on top of mbedtls_base64_encode and _decode, which are
    not part of /repo: they are modelled from their documentation, RFC 4648 section 4. *)
From Verif Require Import Base.
Local Open Scope N_scope.

(** 26 + 26 + 10 + 2 letters *)
Definition letter (n : N) : ascii :=
  if n <? 26 then ascii_of_N (65 + n)
  else if n <? 52 then ascii_of_N (97 + (n - 26))
  else if n <? 62 then ascii_of_N (48 + (n - 52))
  else if n =? 62 then "+"%char else "/"%char.
Definition value (c : ascii) : option N :=
  let n := bcode c in
  if (65 <=? n) && (n <=? 90) then Some (n - 65)
  else if (97 <=? n) && (n <=? 122) then Some (n - 97 + 26)
  else if (48 <=? n) && (n <=? 57) then Some (n - 48 + 52)
  else if n =? 43 then Some 62 else if n =? 47 then Some 63 else None.

(** mbedtls_base64_encode *)
Fixpoint encode (b : bytes) : bytes :=
  match b with
  | x :: y :: z :: r =>
      letter (bcode x / 4) :: letter ((bcode x mod 4) * 16 + bcode y / 16) :: letter ((bcode y mod 16) * 4 + bcode z / 64)
      :: letter (bcode z mod 64) :: encode r
  | [x; y] => [letter (bcode x / 4); letter ((bcode x mod 4) * 16 + bcode y / 16); letter ((bcode y mod 16) * 4); "="%char]
  | [x] => [letter (bcode x / 4); letter ((bcode x mod 4) * 16); "="%char; "="%char]
  | [] => []
  end.
(** 2677-2693.  For no bytes mbedtls reports a length of 0 and olen - 1 is the largest size_t: resize throws, [None]. *)
Definition SEncodeBase64 (b : bytes) : option bytes := match b with [] => None | _ => Some (encode b) end.

(** mbedtls_base64_decode on texts of whole groups of four; [None] for any other text (simplified: mbedtls skips line ends and
    spaces, and what it leaves behind for texts that are cut short is not modelled). *)
Fixpoint decode (t : bytes) : option bytes :=
  match t with
  | [] => Some []
  | c1 :: c2 :: c3 :: c4 :: r =>
      if Ascii.eqb c4 "=" then
        match r with
        | [] =>
            if Ascii.eqb c3 "=" then
              match value c1, value c2 with Some a, Some b => Some [ascii_of_N (a * 4 + b / 16)] | _, _ => None end
            else
              match value c1, value c2, value c3 with
              | Some a, Some b, Some c => Some [ascii_of_N (a * 4 + b / 16); ascii_of_N ((b mod 16) * 16 + c / 4)]
              | _, _, _ => None
              end
        | _ => None
        end
      else
        match value c1, value c2, value c3, value c4, decode r with
        | Some a, Some b, Some c, Some d, Some l =>
            Some (ascii_of_N (a * 4 + b / 16) :: ascii_of_N ((b mod 16) * 16 + c / 4) :: ascii_of_N ((c mod 4) * 64 + d) :: l)
        | _, _, _, _, _ => None
        end
  | _ => None
  end.
(** 2696-2712: a text mbedtls refuses gives the empty string *)
Definition SDecodeBase64 (t : bytes) : bytes := match decode t with Some b => b | None => [] end.
