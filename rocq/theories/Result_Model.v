(** Query results as JSON: libstuff/SQResultFormatter.cpp:29-43 and libstuff/SQResult.cpp:129-200.
    A cell is the string SQValue converts to.  The array style of input (SQResult.cpp:201-236) is not
    modelled: [deserialize] is for texts whose first bracket is a brace. *)
From Verif Require Import Base Text_Model Table Json_Model.

Record sqresult := mkResult { headers : list bytes; rows : list (list bytes) }.

(** Some [f x] for every x of the list, or None if one of them aborts. *)
Fixpoint opt_map {X Y} (f : X -> option Y) (l : list X) : option (list Y) :=
  match l with
  | [] => Some []
  | x :: l' => match f x, opt_map f l' with Some y, Some r => Some (y :: r) | _, _ => None end
  end.

(** SQResultFormatter.cpp:29-43 [formatJSON] with options.header; None is abort(). *)
Definition serializeToJSON (is_float : bytes -> bool) (r : sqresult) : option bytes :=
  match SComposeJSONArray is_float (headers r), opt_map (SComposeJSONArray is_float) (rows r) with
  | Some h, Some rs =>
      match SComposeJSONArray is_float rs with
      | Some rj => SComposeJSONObject is_float (tput (lit "rows") rj (tput (lit "headers") h [])) false
      | None => None
      end
  | _, _ => None
  end.

Inductive outcome := Aborted | Failed | Loaded (r : sqresult).
(** json.find_first_of("[{") finds a brace: SQResult.cpp:157-164. *)
Fixpoint is_object (json : bytes) : bool :=
  match json with
  | [] => false
  | c :: json' => if Ascii.eqb c "{" then true else if Ascii.eqb c "[" then false else is_object json'
  end.
(** SQResult.cpp:151-200 [deserialize], object style. *)
Definition deserialize (json : bytes) : outcome :=
  if negb (is_object json) then Failed
  else match SParseJSONObject json (lit "null") with
  | None => Aborted
  | Some content =>
      match tfind (lit "headers") content, tfind (lit "rows") content with
      | Some h, Some r =>
          match SParseJSONArray h (lit "null"), SParseJSONArray r (lit "null") with
          | Some hs, Some jsonRows =>
              match opt_map (fun j => SParseJSONArray j (lit "null")) jsonRows with
              | None => Aborted
              | Some rs => if forallb (fun row => Nat.eqb (List.length row) (List.length hs)) rs
                           then Loaded (mkResult hs rs) else Failed
              end
          | _, _ => Aborted
          end
      | _, _ => Failed
      end
  end.
