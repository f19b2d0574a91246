(** Words for settings: what a key means in a tree of tables, and which of several trees has the say. *)
From Verif Require Import Base Json.
Open Scope string_scope. Open Scope list_scope.

(** [p] leads from [j] to [v], one table after the other. *)
Inductive at_path : json -> list text -> json -> Prop :=
| at_here j : at_path j [] j
| at_below m k x p v : In (k, x) m -> at_path x p v -> at_path (JObj m) (k :: p) v.
(** Tables have every name once, at every depth. *)
Inductive tidy : json -> Prop :=
| tidy_null : tidy JNull
| tidy_bool b : tidy (JBool b)
| tidy_num n : tidy (JNum n)
| tidy_str s : tidy (JStr s)
| tidy_arr l : (forall x, In x l -> tidy x) -> tidy (JArr l)
| tidy_obj m : NoDup (map fst m) -> (forall k x, In (k, x) m -> tidy x) -> tidy (JObj m).
Definition table (j : json) : Prop := exists m, j = JObj m.
(** [p] is the beginning of [q]. *)
Definition begins (p q : list text) : Prop := exists r, q = p ++ r.
(** Neither is the beginning of the other. *)
Definition apart (p q : list text) : Prop := ~ begins p q /\ ~ begins q p.
(** [j] has the say about the path [p]: it has something there, or something that is no table on the way. *)
Definition settles (j : json) (p : list text) : Prop := (exists w, at_path j p w) \/ (exists q w, begins q p /\ at_path j q w /\ ~ table w).
(** The dotted spelling of a path, and the paths that can be spelled. *)
Definition spelled (p : list text) : text := join (T ".") p.
Definition plain_name (k : text) : Prop := ~ In "."%char k.
(** [v] is a setting on the last of the layers that says something about [p]; the first in the list is the weakest. *)
Fixpoint layered (l : list json) (p : list text) (v : json) : Prop :=
  match l with
  | [] => False
  | j :: r => layered r p v \/ (at_path j p v /\ forall x, In x r -> ~ settles x p)
  end.
(** The variable of a path of small letters and digits: REZ and the names in capitals, each after an underscore. *)
Definition simple_name (k : text) : Prop := k <> [] /\ forall c, In c k -> is_lower c = true \/ is_digit c = true.
Definition variable (p : list text) : text := T "REZ" ++ concat (map (fun k => "_"%char :: map to_upper k) p).
(** The last thing on the way to [p] that is there is a table, or the way ends in nothing. *)
Definition open_way (j : json) (p : list text) : Prop := forall q w, begins q p -> q <> p -> at_path j q w -> table w.
(** A variable stands for the path that its name spells after REZ_, in small letters, with dots for underscores. *)
Definition dotted_lower (c : ascii) : ascii := if Ascii.eqb c "_" then "."%char else to_lower c.
Definition stands_for (n : text) (p : list text) : Prop := exists s, n = T "REZ_" ++ s /\ p <> [] /\ Forall plain_name p /\ spelled p = map dotted_lower s.
(** Files: nothing, something that is no file of text, or a file with its text. *)
Definition disk := text -> option (option text).
(** The first of the places that exists is the file of the layer; it gives one tree, or none if nothing exists. *)
Inductive provides (reads : text -> option json) (d : disk) : list text -> list json -> Prop :=
| no_file l : (forall p, In p l -> d p = None) -> provides reads d l []
| one_file l1 p l2 s j : (forall q, In q l1 -> d q = None) -> d p = Some (Some s) -> reads s = Some j -> provides reads d (l1 ++ p :: l2) [j].
(** ... or the layer is broken: the first that exists cannot be read. *)
Definition broken (reads : text -> option json) (d : disk) (l : list text) : Prop :=
  exists l1 p l2, l = l1 ++ p :: l2 /\ (forall q, In q l1 -> d q = None) /\ (d p = Some None \/ exists s, d p = Some (Some s) /\ reads s = None).
(** A directory named as usual: not empty and without a slash at the end. *)
Definition usual_dir (d : text) : Prop := d <> [] /\ forall x, d <> x ++ T "/".
(** The places of the three layers in the documentation. *)
Definition documented_system : list text := [T "/etc/rez/rezconfig.toml"; T "/etc/rezconfig.toml"; T "C:\ProgramData\rez\rezconfig.toml"].
Definition documented_user (confdir home : text) : list text := [confdir ++ T "/rez/rezconfig.toml"; home ++ T "/.rez/rezconfig.toml"].
Definition documented_project (cwd : text) : list text := [cwd ++ T "/.rez/rezconfig.toml"].
(** The fields of the settings of the commands that have no default of their own in a file. *)
Definition required_fields : list text :=
  [T "use_rust_version"; T "use_rust_solver"; T "use_rust_repository"; T "rust_fallback"; T "cache"; T "packages_path"; T "local_packages_path";
   T "release_packages_path"; T "default_shell"; T "version"; T "plugin_path"; T "package_cache_path"; T "tmpdir"; T "editor"; T "image_viewer";
   T "browser"; T "difftool"; T "terminal_emulator_command"].
(** The places that are searched for settings of the commands without any variable: beside the program, for the machine, for the user. *)
Definition fixed_places (exe home : text) : list text :=
  [exe ++ T "/rezconfig.yaml"; exe ++ T "/rezconfig.json"; T "/etc/rez/config.yaml"; T "/usr/local/etc/rez/config.yaml";
   home ++ T "/.rezconfig"; home ++ T "/.rezconfig.yaml"; home ++ T "/.rez/config.yaml"].
(** A list of directories as it is written into a variable: separated by colons; the directories are not empty, hold no colon, and have no blanks around. *)
Definition directories (l : list text) : Prop := l <> [] /\ forall p, In p l -> p <> [] /\ ~ In ":"%char p /\ trim p = p.
(** The text, read as YAML or as JSON, is no settings because a field is missing (or it cannot be read at all). *)
Definition lacks (reads : text -> option json) (s k : text) : Prop := forall j, reads s = Some j -> exists m, j = JObj m /\ ~ In k (map fst m).
(** Every variable stands for a path apart from those of the others. *)
Fixpoint all_apart (vars : list (text * text)) : Prop :=
  match vars with
  | [] => True
  | (n, _) :: r => (forall n' s' p q, In (n', s') r -> stands_for n p -> stands_for n' q -> apart p q) /\ all_apart r
  end.
(** The libraries give tables with every name once. *)
Definition toml_gives (toml : text -> option json) : Prop := forall s j, toml s = Some j -> tidy j /\ table j.
Definition json_gives (parse : text -> option json) : Prop := forall s j, parse s = Some j -> tidy j.
