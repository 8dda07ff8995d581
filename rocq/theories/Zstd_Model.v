(** The journal with compression: plugins/Compression.cpp; SQLite.cpp 1029-1065, 1329-1365; SQLiteNode.cpp 1753-1820, 1952-1976;
    BedrockServer.cpp 107-121.

    [sha]: SToHex(SHashSHA1(.)).  [kept]: the text SQuery keeps of a text that is given to it, and None when it fails on it (C50). *)
From Verif Require Import Base Text_Spec Text_Model Zstd_Spec.
Local Open Scope N_scope.

(** What SQLite functions get and return. *)
Inductive sqlvalue := SNull | SInt (z : Z) | SText (b : bytes) | SBlob (b : bytes) | SError.
Section model.
  Context (z : zstd) (sha : bytes -> bytes) (kept : bytes -> option bytes).

  (** A node: -journalZstdDictionaryID; the dictionaries it read when it started (Compression.cpp 75-110, BedrockServer.cpp 119-121: only
      then); its journal rows, oldest first: query and hash. *)
  Record node := Node { n_id : N; n_dicts : dictionaries; n_journal : list (bytes * bytes) }.
  Inductive outcome (T : Type) := Ok (x : T) | Refuses | Dies.          (* an exception; abort() *)
  Arguments Ok {T} x. Arguments Refuses {T}. Arguments Dies {T}.

  (** Compression.cpp 267-303: SERROR ends the process. *)
  Definition compress (n : node) (x : bytes) : outcome bytes :=
    if (n_id n =? 0) || match x with [] => true | _ => false end then Ok x
    else match lookup (n_id n) (n_dicts n) with None => Dies | Some d => Ok (z_compress z d x) end.
  (** 305-357 *)
  Definition decompress (l : dictionaries) (x : bytes) : bytes :=
    match x with
    | [] => x
    | _ =>
        if negb (z_is_frame z x) then x
        else
          let id := z_frame_id z x in
          match (if id =? 0 then Some None else match lookup id l with Some d => Some (Some d) | None => None end) with
          | None => x
          | Some d =>
              match z_content_size z x with
              | None => x
              | Some _ => match z_decompress z d x with Some y => y | None => x end
              end
          end
    end.
  Definition last_hash (n : node) : bytes := match rev (n_journal n) with [] => [] | (_, h) :: _ => h end.
  (** SQLite.cpp 1035-1060: the hash is that of the text before it is compressed. *)
  Definition prepare (n : node) (text : bytes) : outcome (bytes * bytes) :=
    match compress n text with Ok q => Ok (q, sha (last_hash n ++ text)) | Refuses => Refuses | Dies => Dies end.
  Definition add (n : node) (r : bytes * bytes) : node := Node (n_id n) (n_dicts n) (n_journal n ++ [r]).
  (** A transaction on the leader; [text] is _uncommittedQuery. *)
  Definition lead (n : node) (text : bytes) : outcome node :=
    match prepare n text with Ok r => Ok (add n r) | Refuses => Refuses | Dies => Dies end.
  Definition ends_in_semicolon (q : bytes) : bool := match q with [] => true | _ => Ascii.eqb (last q " "%char) ";" end.
  (** SQLiteNode.cpp 1797-1815 (and 1973, 1994, 2035-2058): the row of another node, in the form it has in that node's journal; SQLite.cpp 864
      is an assertion. *)
  Definition follow (n : node) (r : bytes * bytes) : outcome node :=
    let text := decompress (n_dicts n) (fst r) in
    if negb (ends_in_semicolon text) then Dies
    else match kept text with
         | None => Refuses
         | Some text => match prepare n text with
                        | Ok (q, h) => if bytes_eqb h (snd r) then Ok (add n (q, h)) else Refuses
                        | Refuses => Refuses
                        | Dies => Dies
                        end
         end.

  (** The SQL functions.  [raw]: sqlite3_value_blob and sqlite3_value_bytes; [shown]: numbers as text. *)
  Context (shown : Z -> bytes).
  Definition raw (v : sqlvalue) : bytes := match v with SInt i => shown i | SText b | SBlob b => b | _ => [] end.
  (** Compression.cpp 114-184; the dictionary number as (size_t) int64 *)
  Definition sqliteCompress (l : dictionaries) (v id : sqlvalue) : sqlvalue :=
    match v with
    | SNull => SNull
    | _ =>
        match id with
        | SInt i =>
            let i := Z.to_N (i mod 2 ^ 64) in
            if i =? 0 then v
            else match lookup i l with
                 | None => SError
                 | Some d => match raw v with [] => v | b => SBlob (z_compress z d b) end
                 end
        | _ => v               (* NULL; and text or blobs that are no number, which read as 0 (simplified) *)
        end
    end.
  (** 186-252 *)
  Definition sqliteDecompress (l : dictionaries) (v : sqlvalue) : sqlvalue :=
    match v with
    | SNull => SNull
    | _ =>
        match raw v with
        | [] => v
        | x =>
            if negb (z_is_frame z x) then v
            else
              let id := z_frame_id z x in
              match (if id =? 0 then Some None else match lookup id l with Some d => Some (Some d) | None => None end) with
              | None => SError
              | Some d => match z_content_size z x with
                          | None => SError
                          | Some _ => match z_decompress z d x with Some y => SText y | None => SError end
                          end
              end
        end
    end.
  (** SQLite.cpp 1329-1347, for one row: SELECT decompress(query), hash.  SQuery reads TEXT as a C string (libstuff.cpp 2988); an
      error of the function fails an assertion. *)
  Definition getCommit (n : node) (i : nat) : outcome (option (bytes * bytes)) :=
    match nth_error (n_journal n) i with
    | None => Ok None
    | Some (q, h) =>
        match sqliteDecompress (n_dicts n) (SBlob q) with
        | SText t => Ok (Some (cstr t, h))
        | SBlob b => Ok (Some (b, h))
        | SError => Dies
        | _ => Refuses
        end
    end.

  (** A cluster at work: a node commits a text of its own, or copies the next row it lacks from the journal of another. *)
  Inductive op := Lead (i : nat) (text : bytes) | Follow (i j : nat).
  Definition set_nth (i : nat) (n : node) (c : list node) : list node := firstn i c ++ n :: skipn (S i) c.
  Definition step (c : list node) (o : op) : outcome (list node) :=
    match o with
    | Lead i text => match nth_error c i with
                     | None => Refuses
                     | Some n => match lead n text with Ok n' => Ok (set_nth i n' c) | Refuses => Refuses | Dies => Dies end
                     end
    | Follow i j =>
        match nth_error c i, nth_error c j with
        | Some n, Some m => match nth_error (n_journal m) (List.length (n_journal n)) with
                            | None => Refuses
                            | Some r => match follow n r with Ok n' => Ok (set_nth i n' c) | Refuses => Refuses | Dies => Dies end
                            end
        | _, _ => Refuses
        end
    end.
  (** An operation that is refused leaves everything as it was; a node that dies ends the run. *)
  Fixpoint run (c : list node) (l : list op) : option (list node) :=
    match l with
    | [] => Some c
    | o :: l => match step c o with Ok c' => run c' l | Refuses => run c l | Dies => None end
    end.
End model.
Arguments Ok {T} x. Arguments Refuses {T}. Arguments Dies {T}.
