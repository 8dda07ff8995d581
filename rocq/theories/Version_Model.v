(** Creating the plugins of a server, and its version: BedrockServer.cpp 1031-1073, main.cpp 357. *)
From Verif Require Import Base Text_Spec Text_Model Start_Model Version_Spec.

(** operator< of std::string compares unsigned bytes; this is <= *)
Fixpoint leb (a b : bytes) : bool :=
  match a, b with
  | [], _ => true
  | _ :: _, [] => false
  | x :: a', y :: b' => if (N_of_ascii x <? N_of_ascii y)%N then true else if (N_of_ascii y <? N_of_ascii x)%N then false else leb a' b'
  end.
Fixpoint insert (x : bytes) (l : list bytes) : list bytes :=
  match l with [] => [x] | y :: l' => if leb x y then x :: l else y :: insert x l' end.
(** std::sort (1057) and list::sort (1071) of texts, and the order in which a set<string> is walked (main.cpp 357): equal texts
    cannot be told apart, so how they are sorted does not matter. *)
Definition sort (l : list bytes) : list bytes := fold_right insert [] l.

(** main.cpp, 357. [enabled]: what loadPlugins returns, each name once ([Start_Model.load_plugins]) *)
Definition plugins_option (enabled : list bytes) : bytes := SComposeList (sort enabled) (lit ", ").

(** 1048: emplace into the map of plugins keeps the first of a name *)
Definition emplace (p : plugin) (m : list plugin) : list plugin :=
  if existsb (fun q => bytes_eqb (p_name q) (p_name p)) m then m else m ++ [p].
(** 1040-1056. [make name]: what the function registered for the name gives; None: the server aborts (1043) *)
Fixpoint create (registered : list bytes) (make : bytes -> plugin) (l : list bytes) (plugins : list plugin) (versions : list bytes) : option (list plugin * list bytes) :=
  match l with
  | [] => Some (plugins, versions)
  | n :: l' =>
      if known (SToUpper n) registered
      then let p := make (SToUpper n) in
           create registered make l' (emplace p plugins)
             (match p_version p with Some v => versions ++ [p_name p ++ lit "_" ++ v] | None => versions end)
      else None
  end.
(** 1031-1073. [override]: the option -versionOverride, if it is set *)
Definition construct (VERSION : bytes) (registered : list bytes) (make : bytes -> plugin) (plugins : bytes) (override : option bytes) : option (list plugin * bytes) :=
  match create registered make (SParseList plugins ",") [] [VERSION] with
  | None => None
  | Some (ps, versions) =>
      Some (ps, match override with
                | Some o => SComposeList (sort (SParseList o ":")) (lit ":")
                | None => SComposeList (sort versions) (lit ":")
                end)
  end.
