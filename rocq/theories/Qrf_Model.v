(** The JSON style of query results: libstuff/qrf.c 732-963, 1083-1240, 2501-2536, 2857-2863 with the settings of plugins/DB.cpp
    262-290, 326-327 (eStyle Json, hence eText Json, eBlob Json, zNull "null", eEsc Ascii: qrf.c 2739-2744, 2796-2819), and
    reading it back: libstuff/SQResult.cpp 149-243.

    Left out: memory exhaustion.  [jsonb]: qrf.c 971-1062, the JSON text of a blob that SQLite takes for JSONB.  [cut]: qrf.c
    1208-1237, what is left of a value of more than nCharLimit bytes; it depends on the width of each character on a screen. *)
From Verif Require Import Base Dec Text_Spec Text_Model Table Json_Model Result_Model Qrf_Spec.

(** qrf.c 926-951: one character of a text. *)
Definition json_char (c : ascii) : bytes :=
  if (32 <=? bcode c)%N && negb (Ascii.eqb c "\") && negb (Ascii.eqb c """") then [c]
  else if Ascii.eqb c """" then ["\"; """"]%char
  else if Ascii.eqb c "\" then ["\"; "\"]%char
  else if Ascii.eqb c "008" then ["\"; "b"]%char
  else if Ascii.eqb c "012" then ["\"; "f"]%char
  else if Ascii.eqb c "010" then ["\"; "n"]%char
  else if Ascii.eqb c "013" then ["\"; "r"]%char
  else if Ascii.eqb c "009" then ["\"; "t"]%char
  else "\"%char :: u_code c.
(** qrf.c 732-796 with QRF_ESC_Ascii *)
Fixpoint qrfEscape (s : bytes) : bytes :=
  match s with
  | [] => []
  | c :: s' =>
      if (31 <? bcode c)%N || Ascii.eqb c "009" || Ascii.eqb c "010" || (Ascii.eqb c "013" && Ascii.eqb (at0 s') "010") then c :: qrfEscape s'
      else "^"%char :: ascii_of_N (64 + bcode c) :: qrfEscape s'
  end.
(** qrf.c 865-963, eText Json; the text is a C string. *)
Definition qrfEncodeText (t : bytes) : bytes := qrfEscape (""""%char :: flat_map json_char (cstr t) ++ [""""%char]).
(** DB.cpp 277 *)
Definition nCharLimit : N := 16 * 1024 * 1024.

Section render.
  Context (jsonb : bytes -> option bytes) (cut : bytes -> bytes).
  (** qrf.c 1099-1203 *)
  Definition rendered (v : value) : bytes :=
    match v with
    | Int z => decZ z
    | Real t => t
    | Blob b => match jsonb b with Some j => qrfEncodeText j | None => """"%char :: flat_map (fun c => "\"%char :: u_code c) b ++ [""""%char] end
    | Null => lit "null"
    | Text t => qrfEncodeText t
    end.
  (** qrf.c 1083-1240 *)
  Definition qrfRenderValue (v : value) : bytes := if (nCharLimit <? N.of_nat (List.length (rendered v)))%N then cut (rendered v) else rendered v.
  (** qrf.c 2501-2513 *)
  Fixpoint qrfOneJsonRow (cols : list bytes) (row : list value) : bytes :=
    match cols, row with
    | c :: cols', v :: row' =>
        qrfEncodeText c ++ ":"%char :: qrfRenderValue v ++ (match cols' with [] => [] | _ => ","%char :: qrfOneJsonRow cols' row' end)
    | _, _ => []
    end.
  (** qrf.c 2528-2536: [first] is nRow = 0; 2857-2863 *)
  Fixpoint rows_out (first : bool) (cols : list bytes) (rows : list (list value)) : bytes :=
    match rows with
    | [] => if first then [] else lit "}]" ++ ["010"%char]
    | row :: rows' => (if first then lit "[{" else lit "}," ++ "010"%char :: lit "{") ++ qrfOneJsonRow cols row ++ rows_out false cols rows'
    end.
  (** sqlite3_format_query_result for a statement with these columns that gives these rows. *)
  Definition format_json (cols : list bytes) (rows : list (list value)) : bytes := rows_out true cols rows.
End render.

(** SQResult.cpp 155-162: what json.find_first_of("[{") finds. *)
Fixpoint first_bracket (json : bytes) : option bool :=
  match json with
  | [] => None
  | c :: json' => if Ascii.eqb c "{" then Some true else if Ascii.eqb c "[" then Some false else first_bracket json'
  end.
(** SQResult.cpp 149-243 [deserialize], both styles.  An element of the array that is no complete object gives the callback what
    was read before the error; this is not modelled (Json_Model.v [SParseJSONObject_cb]). *)
Definition deserialize_any (json : bytes) : outcome :=
  match first_bracket json with
  | None => Failed
  | Some true => deserialize json
  | Some false =>
      match SParseJSONArray json (lit "null") with
      | None => Aborted
      | Some [] => Loaded (mkResult [] [])
      | Some (j :: js) =>
          match SParseJSONObject_cb j [], opt_map (fun x => SParseJSONObject_cb x []) (j :: js) with
          | Some (_, l), Some ls => Loaded (mkResult (map fst l) (map (fun p => map snd (snd p)) ls))
          | _, _ => Aborted
          end
      end
  end.
