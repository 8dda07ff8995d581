(** C67: SAESEncrypt, SAESDecrypt, SAESDecryptNoStrip, SHMACSHA1, SHMACSHA256, SBase32HexStringFromBase32 and
    SHexStringFromBase32, libstuff/libstuff.cpp 400-430, 2414-2485, 2715-2753.
    AES on one block and the hash functions are parameters; mbedtls_aes_crypt_cbc, which is not part of /repo, is modelled
    from its documentation.  Buffers are shorter than 2 GiB, so the casts to int are exact. *)
From Verif Require Import Base Text_Spec Text_Model Crypt_Spec.

(** A result | SASSERT ends the process | an exception | memory outside the buffers is read or written *)
Inductive result (A : Type) := Ret (a : A) | Abort | Throws | Undefined.
Arguments Ret {A}. Arguments Abort {A}. Arguments Throws {A}. Arguments Undefined {A}.

Fixpoint xors (a b : bytes) : bytes := match a, b with x :: a', y :: b' => xor8 x y :: xors a' b' | _, _ => [] end.

Section Aes.
Variables E D : bytes -> bytes -> bytes.        (* mbedtls_aes_crypt_ecb with a key: one block of 16 bytes, both ways *)

(** mbedtls_aes_crypt_cbc on [n] blocks; it leaves the last encrypted block in [iv]. *)
Fixpoint cbc_encrypt (key : bytes) (n : nat) (iv s : bytes) : bytes :=
  match n with
  | O => []
  | S n' => let c := E key (xors (firstn 16 s) iv) in c ++ cbc_encrypt key n' c (skipn 16 s)
  end.
Fixpoint cbc_decrypt (key : bytes) (n : nat) (iv s : bytes) : bytes * bytes :=
  match n with
  | O => ([], iv)
  | S n' => let c := firstn 16 s in
            let (rest, iv') := cbc_decrypt key n' c (skipn 16 s) in (xors (D key c) iv ++ rest, iv')
  end.

(** 2414-2435; memcpy takes 16 bytes from ivStr.c_str(), which has ivStr.size() + 1 *)
Definition SAESEncrypt (buffer ivStr key : bytes) : result bytes :=
  if negb (List.length key =? 32) then Abort
  else
    let padded := if List.length buffer mod 16 =? 0 then buffer else buffer ++ repeat NUL (16 - List.length buffer mod 16) in
    if List.length ivStr + 1 <? 16 then Undefined
    else Ret (cbc_encrypt key (List.length padded / 16) (firstn 16 (ivStr ++ [NUL])) padded).

(** 2460-2476, with [iv] given by pointer: the text and what is left in [iv].  The result has room for bufferSize bytes,
    buffer.size() are written. *)
Definition SAESDecryptNoStrip (buffer : bytes) (bufferSize : nat) (iv key : bytes) : result (bytes * bytes) :=
  if negb (List.length key =? 32) then Abort
  else if negb (List.length buffer mod 16 =? 0) then Ret ([], iv)
  else if bufferSize <? List.length buffer then Undefined
  else let (t, iv') := cbc_decrypt key (List.length buffer / 16) iv buffer in Ret (t ++ repeat NUL (bufferSize - List.length buffer), iv').
(** 2437-2448: up to the first NUL *)
Definition SAESDecryptP (buffer iv key : bytes) : result (bytes * bytes) :=
  match SAESDecryptNoStrip buffer (List.length buffer) iv key with Ret (t, iv') => Ret (cstr t, iv') | Abort => Abort | Throws => Throws | Undefined => Undefined end.
(** 2450-2456 *)
Definition SAESDecrypt (buffer ivStr key : bytes) : result bytes :=
  if negb (List.length ivStr =? 16) then Abort
  else match SAESDecryptP buffer ivStr key with Ret (t, _) => Ret t | Abort => Abort | Throws => Throws | Undefined => Undefined end.
(** 2478-2484 *)
Definition SAESDecryptNoStripS (buffer : bytes) (bufferSize : nat) (ivStr key : bytes) : result bytes :=
  if negb (List.length ivStr =? 16) then Abort
  else match SAESDecryptNoStrip buffer bufferSize ivStr key with Ret (t, _) => Ret t | Abort => Abort | Throws => Throws | Undefined => Undefined end.
End Aes.

(** 2715-2732, 2735-2753: SHMACSHA1 and SHMACSHA256 differ in the hash function only.  The loop writes
    ipadSecret[c] for every c below key.size(); the string has 64 characters. *)
Fixpoint mask (pad key : bytes) : option bytes :=
  match key, pad with
  | [], _ => Some pad
  | k :: key', p :: pad' => option_map (cons (xor8 p k)) (mask pad' key')
  | _ :: _, [] => None
  end.
Definition SHMAC (H : bytes -> bytes) (key buffer : bytes) : result bytes :=
  match mask (repeat "054"%char 64) key, mask (repeat "092"%char 64) key with
  | Some ipadSecret, Some opadSecret => Ret (H (opadSecret ++ H (ipadSecret ++ buffer)))
  | _, _ => Undefined
  end.

(** 400-415; [map] has 41 characters and the NUL at its end, mapLength is 42; a char is signed *)
Definition b32map : bytes := lit "QRSTUV" ++ repeat NUL 9 ++ lit "0123456789ABCDEFGHIJKLMNOP" ++ [NUL].
Definition to_char (c : ascii) : Z := let n := Z.of_N (bcode c) in if (n <? 128)%Z then n else (n - 256)%Z.
Fixpoint SBase32HexStringFromBase32 (s : bytes) : result bytes :=
  match s with
  | [] => Ret []
  | c :: s' =>
      let i := (to_char c - 50)%Z in
      if (42 <? i)%Z then Throws
      else if (i <? 0)%Z then Undefined                       (* map[shiftedIndex] *)
      else match nth_error b32map (Z.to_nat i) with
           | None => Undefined
           | Some m => if Ascii.eqb m NUL then Throws
                       else match SBase32HexStringFromBase32 s' with Ret r => Ret (m :: r) | x => x end
           end
  end.

(** stoull(text, 0, 32) on at most eight characters: no overflow *)
Definition val32 (c : ascii) : option N :=
  if within "0" c "9" then Some (bcode c - 48)%N
  else if within "a" c "v" then Some (bcode c - 97 + 10)%N
  else if within "A" c "V" then Some (bcode c - 65 + 10)%N
  else None.
Fixpoint prefix32 (acc : N) (s : bytes) : N :=
  match s with c :: s' => match val32 c with Some d => prefix32 (32 * acc + d)%N s' | None => acc end | [] => acc end.
Definition stoull32 (s : bytes) : option N :=
  let s1 := skip_space (cstr s) in
  let (neg, s2) := match s1 with "-"%char :: r => (true, r) | "+"%char :: r => (false, r) | _ => (false, s1) end in
  match s2 with
  | c :: _ => match val32 c with
              | Some _ => let v := prefix32 0 s2 in Some (if neg then (2 ^ 64 - v) mod 2 ^ 64 else v)%N
              | None => None
              end
  | [] => None
  end.
(** 417-430: from the last group of eight to the first, each put before what is there *)
Fixpoint hex_groups (n : nat) (s hex : bytes) : result bytes :=
  match n with
  | O => Ret hex
  | S n' => match stoull32 (firstn 8 (skipn (8 * n') s)) with
            | Some v => hex_groups n' s (SToHexN v 10 ++ hex)
            | None => Throws
            end
  end.
Definition SHexStringFromBase32 (s : bytes) : result bytes :=
  if negb (List.length s mod 8 =? 0) then Throws else hex_groups (List.length s / 8) s [].
