(** Model of how packages are written to and read from files and texts.
    Sources in crates/rez-next-package/src: serialization/save.rs (abbreviated SV), serialization/load.rs (LD), serialization/types.rs (ST),
    package/types.rs (KT), package/serialize.rs (SE), package/methods.rs (MT), package_py_utils.rs (PU);
    crates/rez-next-python/src/package_bindings.rs (PB).
    Simplifications: the printers and parsers of JSON, YAML and TOML, gzip, base64 and bincode are libraries, given as parameters; what passes
    through them is a tree of values.  Numbers in a tree are integers, every other YAML scalar is [YOther].  A hash map is the list of its
    bindings in the order the map gives them.  A file is its content; reading and writing do not fail.  Texts are ASCII.  Error messages are
    left out.  The fields of the metadata other than the path, the time and the format are constants. *)
From Verif Require Import Base Maps Json Version_model Rex_model Requirement_model Pyfile_model.
Open Scope string_scope. Open Scope list_scope.

(** ** Packages *)
(** KT:8-89 [Package]: the fields that are written, in the order in which they are written, then the others *)
Record pkg := mkPkg {
  k_name : text;
  k_version : option version;
  k_description : option text;
  k_authors : list text;
  k_requires : list text;
  k_build_requires : list text;
  k_private_build_requires : list text;
  k_variants : list (list text);
  k_tools : list text;
  k_commands : option text;
  k_build_command : option text;
  k_build_system : option text;
  k_pre_commands : option text;
  k_post_commands : option text;
  k_pre_test_commands : option text;
  k_pre_build_commands : option text;
  k_tests : list (text * text);
  k_requires_rez_version : option text;
  k_uuid : option text;
  k_help : option text;
  k_relocatable : option bool;
  k_cachable : option bool;
  k_timestamp : option Z;
  k_revision : option text;
  k_changelog : option text;
  k_release_message : option text;
  k_previous_version : option version;
  k_previous_revision : option text;
  k_vcs : option text;
  k_format_version : option Z;
  k_base : option text;
  k_has_plugins : option bool;
  k_plugin_for : list text;
  k_hashed_variants : option bool;
  k_preprocess : option text;
  k_is_dev_package : option bool;
  k_commands_function : option text;
  k_config : list (text * text);
  k_filepath : option text;
  k_includes : option (list text)
}.
(** MT:10-52 [Package::new] *)
Definition new_pkg (n : text) : pkg :=
  mkPkg n None None [] [] [] [] [] [] None None None None None None None [] None None None None None None None None None None None None None None None [] None None None None [] None None.
(** KT:8-89 an assignment to the field [version] *)
Definition set_version (v : option version) (p : pkg) : pkg :=
  mkPkg (k_name p) v (k_description p) (k_authors p) (k_requires p) (k_build_requires p) (k_private_build_requires p) (k_variants p) (k_tools p) (k_commands p) (k_build_command p) (k_build_system p) (k_pre_commands p) (k_post_commands p) (k_pre_test_commands p) (k_pre_build_commands p) (k_tests p) (k_requires_rez_version p) (k_uuid p) (k_help p) (k_relocatable p) (k_cachable p) (k_timestamp p) (k_revision p) (k_changelog p) (k_release_message p) (k_previous_version p) (k_previous_revision p) (k_vcs p) (k_format_version p) (k_base p) (k_has_plugins p) (k_plugin_for p) (k_hashed_variants p) (k_preprocess p) (k_is_dev_package p) (k_commands_function p) (k_config p) (k_filepath p) (k_includes p).
(** KT:8-89 an assignment to the field [description] *)
Definition set_description (v : option text) (p : pkg) : pkg :=
  mkPkg (k_name p) (k_version p) v (k_authors p) (k_requires p) (k_build_requires p) (k_private_build_requires p) (k_variants p) (k_tools p) (k_commands p) (k_build_command p) (k_build_system p) (k_pre_commands p) (k_post_commands p) (k_pre_test_commands p) (k_pre_build_commands p) (k_tests p) (k_requires_rez_version p) (k_uuid p) (k_help p) (k_relocatable p) (k_cachable p) (k_timestamp p) (k_revision p) (k_changelog p) (k_release_message p) (k_previous_version p) (k_previous_revision p) (k_vcs p) (k_format_version p) (k_base p) (k_has_plugins p) (k_plugin_for p) (k_hashed_variants p) (k_preprocess p) (k_is_dev_package p) (k_commands_function p) (k_config p) (k_filepath p) (k_includes p).
(** KT:8-89 an assignment to the field [authors] *)
Definition set_authors (v : list text) (p : pkg) : pkg :=
  mkPkg (k_name p) (k_version p) (k_description p) v (k_requires p) (k_build_requires p) (k_private_build_requires p) (k_variants p) (k_tools p) (k_commands p) (k_build_command p) (k_build_system p) (k_pre_commands p) (k_post_commands p) (k_pre_test_commands p) (k_pre_build_commands p) (k_tests p) (k_requires_rez_version p) (k_uuid p) (k_help p) (k_relocatable p) (k_cachable p) (k_timestamp p) (k_revision p) (k_changelog p) (k_release_message p) (k_previous_version p) (k_previous_revision p) (k_vcs p) (k_format_version p) (k_base p) (k_has_plugins p) (k_plugin_for p) (k_hashed_variants p) (k_preprocess p) (k_is_dev_package p) (k_commands_function p) (k_config p) (k_filepath p) (k_includes p).
(** KT:8-89 an assignment to the field [requires] *)
Definition set_requires (v : list text) (p : pkg) : pkg :=
  mkPkg (k_name p) (k_version p) (k_description p) (k_authors p) v (k_build_requires p) (k_private_build_requires p) (k_variants p) (k_tools p) (k_commands p) (k_build_command p) (k_build_system p) (k_pre_commands p) (k_post_commands p) (k_pre_test_commands p) (k_pre_build_commands p) (k_tests p) (k_requires_rez_version p) (k_uuid p) (k_help p) (k_relocatable p) (k_cachable p) (k_timestamp p) (k_revision p) (k_changelog p) (k_release_message p) (k_previous_version p) (k_previous_revision p) (k_vcs p) (k_format_version p) (k_base p) (k_has_plugins p) (k_plugin_for p) (k_hashed_variants p) (k_preprocess p) (k_is_dev_package p) (k_commands_function p) (k_config p) (k_filepath p) (k_includes p).
(** KT:8-89 an assignment to the field [build_requires] *)
Definition set_build_requires (v : list text) (p : pkg) : pkg :=
  mkPkg (k_name p) (k_version p) (k_description p) (k_authors p) (k_requires p) v (k_private_build_requires p) (k_variants p) (k_tools p) (k_commands p) (k_build_command p) (k_build_system p) (k_pre_commands p) (k_post_commands p) (k_pre_test_commands p) (k_pre_build_commands p) (k_tests p) (k_requires_rez_version p) (k_uuid p) (k_help p) (k_relocatable p) (k_cachable p) (k_timestamp p) (k_revision p) (k_changelog p) (k_release_message p) (k_previous_version p) (k_previous_revision p) (k_vcs p) (k_format_version p) (k_base p) (k_has_plugins p) (k_plugin_for p) (k_hashed_variants p) (k_preprocess p) (k_is_dev_package p) (k_commands_function p) (k_config p) (k_filepath p) (k_includes p).
(** KT:8-89 an assignment to the field [private_build_requires] *)
Definition set_private_build_requires (v : list text) (p : pkg) : pkg :=
  mkPkg (k_name p) (k_version p) (k_description p) (k_authors p) (k_requires p) (k_build_requires p) v (k_variants p) (k_tools p) (k_commands p) (k_build_command p) (k_build_system p) (k_pre_commands p) (k_post_commands p) (k_pre_test_commands p) (k_pre_build_commands p) (k_tests p) (k_requires_rez_version p) (k_uuid p) (k_help p) (k_relocatable p) (k_cachable p) (k_timestamp p) (k_revision p) (k_changelog p) (k_release_message p) (k_previous_version p) (k_previous_revision p) (k_vcs p) (k_format_version p) (k_base p) (k_has_plugins p) (k_plugin_for p) (k_hashed_variants p) (k_preprocess p) (k_is_dev_package p) (k_commands_function p) (k_config p) (k_filepath p) (k_includes p).
(** KT:8-89 an assignment to the field [variants] *)
Definition set_variants (v : list (list text)) (p : pkg) : pkg :=
  mkPkg (k_name p) (k_version p) (k_description p) (k_authors p) (k_requires p) (k_build_requires p) (k_private_build_requires p) v (k_tools p) (k_commands p) (k_build_command p) (k_build_system p) (k_pre_commands p) (k_post_commands p) (k_pre_test_commands p) (k_pre_build_commands p) (k_tests p) (k_requires_rez_version p) (k_uuid p) (k_help p) (k_relocatable p) (k_cachable p) (k_timestamp p) (k_revision p) (k_changelog p) (k_release_message p) (k_previous_version p) (k_previous_revision p) (k_vcs p) (k_format_version p) (k_base p) (k_has_plugins p) (k_plugin_for p) (k_hashed_variants p) (k_preprocess p) (k_is_dev_package p) (k_commands_function p) (k_config p) (k_filepath p) (k_includes p).
(** KT:8-89 an assignment to the field [tools] *)
Definition set_tools (v : list text) (p : pkg) : pkg :=
  mkPkg (k_name p) (k_version p) (k_description p) (k_authors p) (k_requires p) (k_build_requires p) (k_private_build_requires p) (k_variants p) v (k_commands p) (k_build_command p) (k_build_system p) (k_pre_commands p) (k_post_commands p) (k_pre_test_commands p) (k_pre_build_commands p) (k_tests p) (k_requires_rez_version p) (k_uuid p) (k_help p) (k_relocatable p) (k_cachable p) (k_timestamp p) (k_revision p) (k_changelog p) (k_release_message p) (k_previous_version p) (k_previous_revision p) (k_vcs p) (k_format_version p) (k_base p) (k_has_plugins p) (k_plugin_for p) (k_hashed_variants p) (k_preprocess p) (k_is_dev_package p) (k_commands_function p) (k_config p) (k_filepath p) (k_includes p).
(** KT:8-89 an assignment to the field [help] *)
Definition set_help (v : option text) (p : pkg) : pkg :=
  mkPkg (k_name p) (k_version p) (k_description p) (k_authors p) (k_requires p) (k_build_requires p) (k_private_build_requires p) (k_variants p) (k_tools p) (k_commands p) (k_build_command p) (k_build_system p) (k_pre_commands p) (k_post_commands p) (k_pre_test_commands p) (k_pre_build_commands p) (k_tests p) (k_requires_rez_version p) (k_uuid p) v (k_relocatable p) (k_cachable p) (k_timestamp p) (k_revision p) (k_changelog p) (k_release_message p) (k_previous_version p) (k_previous_revision p) (k_vcs p) (k_format_version p) (k_base p) (k_has_plugins p) (k_plugin_for p) (k_hashed_variants p) (k_preprocess p) (k_is_dev_package p) (k_commands_function p) (k_config p) (k_filepath p) (k_includes p).
(** KT:8-89 an assignment to the field [uuid] *)
Definition set_uuid (v : option text) (p : pkg) : pkg :=
  mkPkg (k_name p) (k_version p) (k_description p) (k_authors p) (k_requires p) (k_build_requires p) (k_private_build_requires p) (k_variants p) (k_tools p) (k_commands p) (k_build_command p) (k_build_system p) (k_pre_commands p) (k_post_commands p) (k_pre_test_commands p) (k_pre_build_commands p) (k_tests p) (k_requires_rez_version p) v (k_help p) (k_relocatable p) (k_cachable p) (k_timestamp p) (k_revision p) (k_changelog p) (k_release_message p) (k_previous_version p) (k_previous_revision p) (k_vcs p) (k_format_version p) (k_base p) (k_has_plugins p) (k_plugin_for p) (k_hashed_variants p) (k_preprocess p) (k_is_dev_package p) (k_commands_function p) (k_config p) (k_filepath p) (k_includes p).
(** KT:8-89 an assignment to the field [relocatable] *)
Definition set_relocatable (v : option bool) (p : pkg) : pkg :=
  mkPkg (k_name p) (k_version p) (k_description p) (k_authors p) (k_requires p) (k_build_requires p) (k_private_build_requires p) (k_variants p) (k_tools p) (k_commands p) (k_build_command p) (k_build_system p) (k_pre_commands p) (k_post_commands p) (k_pre_test_commands p) (k_pre_build_commands p) (k_tests p) (k_requires_rez_version p) (k_uuid p) (k_help p) v (k_cachable p) (k_timestamp p) (k_revision p) (k_changelog p) (k_release_message p) (k_previous_version p) (k_previous_revision p) (k_vcs p) (k_format_version p) (k_base p) (k_has_plugins p) (k_plugin_for p) (k_hashed_variants p) (k_preprocess p) (k_is_dev_package p) (k_commands_function p) (k_config p) (k_filepath p) (k_includes p).
(** KT:8-89 an assignment to the field [cachable] *)
Definition set_cachable (v : option bool) (p : pkg) : pkg :=
  mkPkg (k_name p) (k_version p) (k_description p) (k_authors p) (k_requires p) (k_build_requires p) (k_private_build_requires p) (k_variants p) (k_tools p) (k_commands p) (k_build_command p) (k_build_system p) (k_pre_commands p) (k_post_commands p) (k_pre_test_commands p) (k_pre_build_commands p) (k_tests p) (k_requires_rez_version p) (k_uuid p) (k_help p) (k_relocatable p) v (k_timestamp p) (k_revision p) (k_changelog p) (k_release_message p) (k_previous_version p) (k_previous_revision p) (k_vcs p) (k_format_version p) (k_base p) (k_has_plugins p) (k_plugin_for p) (k_hashed_variants p) (k_preprocess p) (k_is_dev_package p) (k_commands_function p) (k_config p) (k_filepath p) (k_includes p).

(** ** Writing with serde *)
(** SE:11-56: a missing value is null *)
Definition jopt {A} (f : A -> json) (o : option A) : json := match o with Some a => f a | None => JNull end.
(** crates/rez-next-version/src/version.rs:26-34: a version is its text *)
Definition jver (v : version) : json := JStr (v_str v).
(** SE:11-56: a list of texts, of lists of texts, a map of texts *)
Definition jtexts (l : list text) : json := JArr (map JStr l).
(** SE:11-56, with the above *)
Definition jvariants (l : list (list text)) : json := JArr (map jtexts l).
(** SE:11-56, with the above *)
Definition jmap (l : list (text * text)) : json := JObj (map (fun b => (fst b, JStr (snd b))) l).
(** SE:12-56 [Serialize for Package] *)
Definition ser_fields (p : pkg) : list (text * json) :=
  [(T "name", JStr (k_name p));
   (T "version", jopt jver (k_version p));
   (T "description", jopt JStr (k_description p));
   (T "authors", jtexts (k_authors p));
   (T "requires", jtexts (k_requires p));
   (T "build_requires", jtexts (k_build_requires p));
   (T "private_build_requires", jtexts (k_private_build_requires p));
   (T "variants", jvariants (k_variants p));
   (T "tools", jtexts (k_tools p));
   (T "commands", jopt JStr (k_commands p));
   (T "build_command", jopt JStr (k_build_command p));
   (T "build_system", jopt JStr (k_build_system p));
   (T "pre_commands", jopt JStr (k_pre_commands p));
   (T "post_commands", jopt JStr (k_post_commands p));
   (T "pre_test_commands", jopt JStr (k_pre_test_commands p));
   (T "pre_build_commands", jopt JStr (k_pre_build_commands p));
   (T "tests", jmap (k_tests p));
   (T "requires_rez_version", jopt JStr (k_requires_rez_version p));
   (T "uuid", jopt JStr (k_uuid p));
   (T "help", jopt JStr (k_help p));
   (T "relocatable", jopt JBool (k_relocatable p));
   (T "cachable", jopt JBool (k_cachable p));
   (T "timestamp", jopt JNum (k_timestamp p));
   (T "revision", jopt JStr (k_revision p));
   (T "changelog", jopt JStr (k_changelog p));
   (T "release_message", jopt JStr (k_release_message p));
   (T "previous_version", jopt jver (k_previous_version p));
   (T "previous_revision", jopt JStr (k_previous_revision p));
   (T "vcs", jopt JStr (k_vcs p));
   (T "format_version", jopt JNum (k_format_version p));
   (T "base", jopt JStr (k_base p));
   (T "has_plugins", jopt JBool (k_has_plugins p));
   (T "plugin_for", jtexts (k_plugin_for p));
   (T "hashed_variants", jopt JBool (k_hashed_variants p));
   (T "preprocess", jopt JStr (k_preprocess p))].
(** SE:11-56 [serialize] *)
Definition ser (p : pkg) : json := JObj (ser_fields p).

(** ** Reading with serde *)
Notation "'let*' x := e 'in' k" := (match e with Some x => k | None => None end) (at level 200, x name, e at level 200, k at level 200, right associativity).
(** SE:273-578: a text, by serde's own instance *)
Definition de_text (j : json) : option text := as_str j.
(** [Option<T>] *)
Definition de_opt {A} (f : json -> option A) (j : json) : option (option A) :=
  match j with JNull => Some None | _ => match f j with Some a => Some (Some a) | None => None end end.
(** SE:273-578: every part is read or the whole is an error *)
Fixpoint all_some {A B} (f : A -> option B) (l : list A) : option (list B) :=
  match l with [] => Some [] | x :: l' => let* y := f x in let* r := all_some f l' in Some (y :: r) end.
(** [Vec<T>] *)
Definition de_list {A} (f : json -> option A) (j : json) : option (list A) :=
  match j with JArr l => all_some f l | _ => None end.
(** a key that is met again takes the place of the earlier one *)
Definition last_wins {A} (l : list (text * A)) : list (text * A) := fold_left (fun m b => aput (fst b) (snd b) m) l [].
(** [HashMap<String, String>] *)
Definition de_map (j : json) : option (list (text * text)) :=
  match j with
  | JObj m => let* l := all_some (fun b => let* s := as_str (snd b) in Some (fst b, s)) m in Some (last_wins l)
  | _ => None
  end.
(** [i32] *)
Definition de_i32 (j : json) : option Z :=
  match j with JNum n => if ((-2147483648 <=? n) && (n <=? 2147483647))%Z then Some n else None | _ => None end.
(** crates/rez-next-version/src/version.rs:42-50 *)
Definition de_version (j : json) : option version := let* s := as_str j in parse_version s.
(** SE:68-105, 581-618: the fields that are known *)
Definition FIELDS : list text :=
  [T "name"; T "version"; T "description"; T "authors"; T "requires"; T "build_requires";
   T "private_build_requires"; T "variants"; T "tools"; T "commands"; T "build_command"; T "build_system";
   T "pre_commands"; T "post_commands"; T "pre_test_commands"; T "pre_build_commands"; T "tests"; T "requires_rez_version";
   T "uuid"; T "help"; T "relocatable"; T "cachable"; T "timestamp"; T "revision";
   T "changelog"; T "release_message"; T "previous_version"; T "previous_revision"; T "vcs"; T "format_version";
   T "base"; T "has_plugins"; T "plugin_for"; T "hashed_variants"; T "preprocess"; T "is_dev_package"].
(** SE:535-577: a value that was not met has its default *)
Definition or_default {A} (f : json -> option A) (d : A) (o : option json) : option A := match o with Some j => f j | None => Some d end.
(** SE:535-577: the package of the values that were met *)
Definition de_fields (m : list (text * json)) : option pkg :=
  let* name := match aget (T "name") m with Some j => de_text j | None => None end in
  let* version := or_default (de_opt de_version) None (aget (T "version") m) in
  let* description := or_default (de_opt de_text) None (aget (T "description") m) in
  let* authors := or_default (de_list de_text) [] (aget (T "authors") m) in
  let* requires := or_default (de_list de_text) [] (aget (T "requires") m) in
  let* build_requires := or_default (de_list de_text) [] (aget (T "build_requires") m) in
  let* private_build_requires := or_default (de_list de_text) [] (aget (T "private_build_requires") m) in
  let* variants := or_default (de_list (de_list de_text)) [] (aget (T "variants") m) in
  let* tools := or_default (de_list de_text) [] (aget (T "tools") m) in
  let* commands := or_default (de_opt de_text) None (aget (T "commands") m) in
  let* build_command := or_default (de_opt de_text) None (aget (T "build_command") m) in
  let* build_system := or_default (de_opt de_text) None (aget (T "build_system") m) in
  let* pre_commands := or_default (de_opt de_text) None (aget (T "pre_commands") m) in
  let* post_commands := or_default (de_opt de_text) None (aget (T "post_commands") m) in
  let* pre_test_commands := or_default (de_opt de_text) None (aget (T "pre_test_commands") m) in
  let* pre_build_commands := or_default (de_opt de_text) None (aget (T "pre_build_commands") m) in
  let* tests := or_default (de_map) [] (aget (T "tests") m) in
  let* requires_rez_version := or_default (de_opt de_text) None (aget (T "requires_rez_version") m) in
  let* uuid := or_default (de_opt de_text) None (aget (T "uuid") m) in
  let* help := or_default (de_opt de_text) None (aget (T "help") m) in
  let* relocatable := or_default (de_opt as_bool) None (aget (T "relocatable") m) in
  let* cachable := or_default (de_opt as_bool) None (aget (T "cachable") m) in
  let* timestamp := or_default (de_opt as_i64) None (aget (T "timestamp") m) in
  let* revision := or_default (de_opt de_text) None (aget (T "revision") m) in
  let* changelog := or_default (de_opt de_text) None (aget (T "changelog") m) in
  let* release_message := or_default (de_opt de_text) None (aget (T "release_message") m) in
  let* previous_version := or_default (de_opt de_version) None (aget (T "previous_version") m) in
  let* previous_revision := or_default (de_opt de_text) None (aget (T "previous_revision") m) in
  let* vcs := or_default (de_opt de_text) None (aget (T "vcs") m) in
  let* format_version := or_default (de_opt de_i32) None (aget (T "format_version") m) in
  let* base := or_default (de_opt de_text) None (aget (T "base") m) in
  let* has_plugins := or_default (de_opt as_bool) None (aget (T "has_plugins") m) in
  let* plugin_for := or_default (de_list de_text) [] (aget (T "plugin_for") m) in
  let* hashed_variants := or_default (de_opt as_bool) None (aget (T "hashed_variants") m) in
  let* preprocess := or_default (de_opt de_text) None (aget (T "preprocess") m) in
  let* is_dev_package := or_default (de_opt as_bool) None (aget (T "is_dev_package") m) in
  Some (mkPkg name version description authors requires build_requires private_build_requires variants tools commands build_command build_system pre_commands post_commands pre_test_commands pre_build_commands tests requires_rez_version uuid help relocatable cachable timestamp revision changelog release_message previous_version previous_revision vcs format_version base has_plugins plugin_for hashed_variants preprocess is_dev_package None [] None None).
(** SE:273-578: the check of every field that it was not met before *)
Fixpoint no_repeat (l : list text) : bool := match l with [] => true | x :: l' => negb (mem_text x l') && no_repeat l' end.
(** SE:273-578 [visit_map]: a field that is met twice or is not known is an error *)
Definition visit_map (m : list (text * json)) : option pkg :=
  if no_repeat (akeys m) && forallb (fun x => mem_text x FIELDS) (akeys m) then de_fields m else None.
(** [seq.next_element]: the element at a place, an error when the sequence is over *)
Definition next {A} (f : json -> option A) (i : nat) (l : list json) : option A :=
  match nth_error l i with Some j => f j | None => None end.
(** SE:116-271 [visit_seq] *)
Definition de_seq (l : list json) : option pkg :=
  let* name := next (de_text) 0 l in
  let* version := next (de_opt de_version) 1 l in
  let* description := next (de_opt de_text) 2 l in
  let* authors := next (de_list de_text) 3 l in
  let* requires := next (de_list de_text) 4 l in
  let* build_requires := next (de_list de_text) 5 l in
  let* private_build_requires := next (de_list de_text) 6 l in
  let* variants := next (de_list (de_list de_text)) 7 l in
  let* tools := next (de_list de_text) 8 l in
  let* commands := next (de_opt de_text) 9 l in
  let* build_command := next (de_opt de_text) 10 l in
  let* build_system := next (de_opt de_text) 11 l in
  let* pre_commands := next (de_opt de_text) 12 l in
  let* post_commands := next (de_opt de_text) 13 l in
  let* pre_test_commands := next (de_opt de_text) 14 l in
  let* pre_build_commands := next (de_opt de_text) 15 l in
  let* tests := next (de_map) 16 l in
  let* requires_rez_version := next (de_opt de_text) 17 l in
  let* uuid := next (de_opt de_text) 18 l in
  let* help := next (de_opt de_text) 19 l in
  let* relocatable := next (de_opt as_bool) 20 l in
  let* cachable := next (de_opt as_bool) 21 l in
  let* timestamp := next (de_opt as_i64) 22 l in
  let* revision := next (de_opt de_text) 23 l in
  let* changelog := next (de_opt de_text) 24 l in
  let* release_message := next (de_opt de_text) 25 l in
  let* previous_version := next (de_opt de_version) 26 l in
  let* previous_revision := next (de_opt de_text) 27 l in
  let* vcs := next (de_opt de_text) 28 l in
  let* format_version := next (de_opt de_i32) 29 l in
  let* base := next (de_opt de_text) 30 l in
  let* has_plugins := next (de_opt as_bool) 31 l in
  let* plugin_for := next (de_list de_text) 32 l in
  let* hashed_variants := next (de_opt as_bool) 33 l in
  let* preprocess := next (de_opt de_text) 34 l in
  let* is_dev_package := next (de_opt as_bool) 35 l in
  Some (mkPkg name version description authors requires build_requires private_build_requires variants tools commands build_command build_system pre_commands post_commands pre_test_commands pre_build_commands tests requires_rez_version uuid help relocatable cachable timestamp revision changelog release_message previous_version previous_revision vcs format_version base has_plugins plugin_for hashed_variants preprocess is_dev_package None [] None None).
(** SE:619 [deserialize_struct] for JSON: an object or an array with all the fields *)
Definition de_package (j : json) : option pkg :=
  match j with JObj m => visit_map m | JArr l => if Nat.eqb (length l) (length FIELDS) then de_seq l else None | _ => None end.

(** ** Validation *)
Definition no_empty (l : list text) : bool := forallb (fun r => negb (is_nil r)) l.
(** MT:137-197 [validate] *)
Definition valid (p : pkg) : bool :=
  negb (is_nil (k_name p)) && forallb Pyfile_model.name_char (k_name p)
  && match k_version p with Some v => negb (is_nil (v_str v)) | None => true end
  && no_empty (k_requires p) && no_empty (k_build_requires p) && no_empty (k_private_build_requires p) && forallb no_empty (k_variants p).

(** ** Reading trees of values *)
(** LD:148-156, 158-213: the texts of an array *)
Definition texts_of (l : list json) : list text := filter_map as_str l.
(** [if let Some(x) = get(k) && let Some(y) = as(x)] *)
Definition got {A} (f : json -> option A) (k : text) (m : list (text * json)) : option A := let* j := aget k m in f j.
(** LD:121-217: an assignment under [if let] *)
Definition put_if {A} (o : option A) (f : A -> pkg -> pkg) (p : pkg) : pkg := match o with Some a => f a p | None => p end.
(** LD:121-217 [load_from_json_data] *)
Definition load_data (m : list (text * json)) : res pkg :=
  match got as_str (T "name") m with
  | None => Err
  | Some n =>
      match match got as_str (T "version") m with
            | None => Some None
            | Some s => match parse_version s with Some v => Some (Some v) | None => None end
            end with
      | None => Err
      | Some ov =>
          let p := new_pkg n in
          let p := put_if ov (fun v => set_version (Some v)) p in
          let p := put_if (got as_str (T "description") m) (fun d => set_description (Some d)) p in
          let p := put_if (got as_array (T "authors") m) (fun l => set_authors (texts_of l)) p in
          let p := put_if (got as_array (T "requires") m) (fun l => set_requires (texts_of l)) p in
          let p := put_if (got as_array (T "build_requires") m) (fun l => set_build_requires (texts_of l)) p in
          let p := put_if (got as_array (T "private_build_requires") m) (fun l => set_private_build_requires (texts_of l)) p in
          let p := put_if (got as_array (T "variants") m) (fun l => set_variants (map texts_of (filter_map as_array l))) p in
          let p := put_if (got as_array (T "tools") m) (fun l => set_tools (texts_of l)) p in
          if valid p then Ok p else Err
      end
  end.
(** [serde_yaml::Value], as far as SV:429-460 tells it apart *)
Inductive yaml :=
| YNull | YBool (b : bool) | YNum (n : Z) | YOther | YStr (s : text) | YSeq (l : list yaml) | YMap (m : list (yaml * yaml)) | YTagged (y : yaml).
Section YamlPairs.
Context (f : yaml -> json).
(** SV:449-457: only keys that are texts are kept *)
Fixpoint yaml_pairs (m : list (yaml * yaml)) : list (text * json) :=
  match m with
  | [] => []
  | (YStr k, v) :: m' => (k, f v) :: yaml_pairs m'
  | _ :: m' => yaml_pairs m'
  end.
End YamlPairs.
(** SV:429-460 [yaml_to_json_value] *)
Fixpoint yaml_json (y : yaml) : json :=
  match y with
  | YNull | YOther | YTagged _ => JNull
  | YBool b => JBool b
  | YNum n => JNum n
  | YStr s => JStr s
  | YSeq l => JArr (map yaml_json l)
  | YMap m => JObj (last_wins (yaml_pairs yaml_json m))
  end.
(** LD:79-84, 110-118: the bindings of a document, all its keys are texts *)
Fixpoint yaml_keys (m : list (yaml * yaml)) : option (list (text * yaml)) :=
  match m with
  | [] => Some []
  | (YStr k, v) :: m' => let* r := yaml_keys m' in Some ((k, v) :: r)
  | _ :: _ => None
  end.
(** LD:79-85, 110-119, SV:429-460: the YAML value is turned into a JSON value *)
Definition load_yaml_tree (y : yaml) : res pkg :=
  match y with
  | YMap m => match yaml_keys m with Some l => load_data (map (fun b => (fst b, yaml_json (snd b))) (last_wins l)) | None => Err end
  | _ => Err
  end.
(** LD:87-92, 100-107: a repeated key of a JSON document takes the place of the earlier one *)
Definition load_json_tree (j : json) : res pkg := match j with JObj m => load_data (last_wins m) | _ => Err end.

(** ** Formats and options *)
(** ST:10-30 *)
Inductive format := Yaml | Json | Python | YamlGz | JsonGz | Binary | Toml | Xml.
(** ST:33-51; nothing reads the field filters and the custom rules *)
Record options := mkOptions { o_pretty : bool; o_metadata : bool; o_times : bool; o_level : N; o_only : option (list text); o_exclude : option (list text) }.
(** ST:146-157, 160-171, 174-185 *)
Definition default_options : options := mkOptions true true true 6 None None.
(** ST:160-171 *)
Definition minimal_options : options := mkOptions false false false 1 None None.
(** ST:174-185 *)
Definition compact_options : options := mkOptions false true false 9 None (Some [T "description"; T "help"]).
(** the components of a path that count: [std::path] leaves out empty ones and the dot *)
Definition path_parts (p : text) : list text := filter (fun c => negb (is_nil c || text_eqb c (T "."))) (split_on "/"%char p).
(** [Path::file_name] *)
Definition file_name (p : text) : option text :=
  match rev (path_parts p) with [] => None | c :: _ => if text_eqb c (T "..") then None else Some c end.
(** the text after the last dot and the text before it *)
Definition rsplit_dot (s : text) : option (text * text) :=
  match rev (split_on "."%char s) with [] | [_] => None | e :: before => Some (join (T ".") (rev before), e) end.
(** [Path::extension] *)
Definition extension (p : text) : option text :=
  let* n := file_name p in let* b := rsplit_dot n in if is_nil (fst b) then None else Some (snd b).
(** ST:83-104 [from_extension] *)
Definition from_extension (p : text) : option format :=
  if ends_with (T ".yaml.gz") p || ends_with (T ".yml.gz") p then Some YamlGz else
  if ends_with (T ".json.gz") p then Some JsonGz else
  let* e := extension p in
  if text_eqb e (T "yaml") || text_eqb e (T "yml") then Some Yaml else
  if text_eqb e (T "json") then Some Json else
  if text_eqb e (T "py") then Some Python else
  if text_eqb e (T "bin") then Some Binary else
  if text_eqb e (T "toml") then Some Toml else
  if text_eqb e (T "xml") then Some Xml else None.
(** ST:107-118 *)
Definition default_filename (f : format) : text :=
  match f with
  | Yaml => T "package.yaml" | Json => T "package.json" | Python => T "package.py" | YamlGz => T "package.yaml.gz"
  | JsonGz => T "package.json.gz" | Binary => T "package.bin" | Toml => T "package.toml" | Xml => T "package.xml"
  end.
(** ST:121-123 *)
Definition compressed (f : format) : bool := match f with YamlGz | JsonGz => true | _ => false end.

(** ** Filters *)
(** SV:160-170 *)
Definition exclude_field (p : pkg) (x : text) : pkg :=
  if text_eqb x (T "description") then set_description None p else
  if text_eqb x (T "help") then set_help None p else
  if text_eqb x (T "authors") then set_authors [] p else
  if text_eqb x (T "tools") then set_tools [] p else p.
(** SV:172-190 *)
Definition include_field (from : pkg) (p : pkg) (x : text) : pkg :=
  if text_eqb x (T "version") then set_version (k_version from) p else
  if text_eqb x (T "description") then set_description (k_description from) p else
  if text_eqb x (T "authors") then set_authors (k_authors from) p else
  if text_eqb x (T "requires") then set_requires (k_requires from) p else
  if text_eqb x (T "build_requires") then set_build_requires (k_build_requires from) p else
  if text_eqb x (T "variants") then set_variants (k_variants from) p else
  if text_eqb x (T "tools") then set_tools (k_tools from) p else p.
(** SV:154-195 [apply_field_filters]; SV:114-119 without filters the package is left as it is *)
Definition filter_fields (o : options) (p : pkg) : pkg :=
  let p := match o_exclude o with Some l => fold_left exclude_field l p | None => p end in
  match o_only o with Some l => fold_left (include_field p) l (new_pkg (k_name p)) | None => p end.

(** ** Python texts *)
(** SV:256-329: a text between quotes, as the format strings have it *)
Definition quoted (s : text) : text := DQ :: s ++ [DQ].
(** SV:256-329: the end of a line, as the format strings have it *)
Definition ln (s : text) : text := s ++ [NL].
(** SV:279-301, 319-325: a list, one text in a line *)
Definition list_block (x : text) (l : list text) : text :=
  if is_nil l then [] else ln (x ++ T " = [") ++ concat (map (fun a => ln (T "    " ++ quoted a ++ T ",")) l) ++ ln (T "]").
(** SV:303-317 *)
Definition variants_block (l : list (list text)) : text :=
  if is_nil l then [] else
  ln (T "variants = [") ++ concat (map (fun v => ln (T "    [" ++ join (T ", ") (map quoted v) ++ T "],")) l) ++ ln (T "]").
(** SV:256-328 [save_to_python_with_options]; [now] is the text of the time *)
Definition save_python (now : text) (o : options) (p : pkg) : text :=
  (if o_metadata o && o_times o then ln (T "# Generated by rez-next serializer at " ++ now) ++ ln (T "# Do not edit manually") ++ [NL] else []) ++
  ln (T "name = " ++ quoted (k_name p)) ++
  match k_version p with Some v => ln (T "version = " ++ quoted (v_str v)) | None => [] end ++
  match k_description p with Some d => ln (T "description = " ++ quoted d) | None => [] end ++
  list_block (T "authors") (k_authors p) ++ list_block (T "requires") (k_requires p) ++ list_block (T "build_requires") (k_build_requires p) ++
  variants_block (k_variants p) ++ list_block (T "tools") (k_tools p).
(** [str::lines] *)
Definition drop_cr (s : text) : text := match rev s with c :: r => if Ascii.eqb c CR then rev r else s | [] => s end.
(** SV:228-241, MT:363-394, PB:649-657: [str::lines] *)
Definition lines_of (s : text) : list text :=
  let l := split_on NL s in
  map drop_cr (match rev l with [] :: r => rev r | _ => l end).
(** a quote is written with a backslash *)
Definition escape_dq (s : text) : text := replace_char DQ [BS; DQ] s.
(** MT:363-372, 375-383, 386-394 a function; PB:649-657 *)
Definition body_lines (s : text) : list text := map (fun l => if is_nil (trim l) then [] else T "    " ++ l) (lines_of s).
(** MT:363-372, 375-383, 386-394 *)
Definition function_lines (f : text) (o : option text) : list text :=
  match o with Some s => (NL :: T "def " ++ f ++ T "():") :: body_lines s | None => [] end.
(** MT:306-337: the items of a list in lines of their own *)
Definition tall_list (x : text) (items : list text) : list text :=
  if is_nil items then [] else [x ++ T " = [" ++ NL :: join (T "," ++ [NL]) (map (fun r => T "    " ++ r) items) ++ NL :: T "]"].
(** MT:297-304, 351-358: the items of a list in one line *)
Definition wide_list (x : text) (items : list text) : list text :=
  if is_nil items then [] else [x ++ T " = [" ++ join (T ", ") items ++ T "]"].
(** MT:278-433 [to_package_py] *)
Definition to_package_py (p : pkg) : text :=
  join [NL] (
    [T "name = " ++ quoted (k_name p)] ++
    match k_version p with Some v => [T "version = " ++ quoted (v_str v)] | None => [] end ++
    match k_description p with Some d => [T "description = " ++ quoted (escape_dq d)] | None => [] end ++
    wide_list (T "authors") (map (fun a => quoted (escape_dq a)) (k_authors p)) ++
    tall_list (T "requires") (map quoted (k_requires p)) ++
    tall_list (T "build_requires") (map quoted (k_build_requires p)) ++
    tall_list (T "private_build_requires") (map quoted (k_private_build_requires p)) ++
    tall_list (T "variants") (map (fun v => T "[" ++ join (T ", ") (map quoted v) ++ T "]") (k_variants p)) ++
    wide_list (T "tools") (map quoted (k_tools p)) ++
    match k_uuid p with Some u => [T "uuid = " ++ quoted u] | None => [] end ++
    match k_relocatable p with Some b => [T "relocatable = " ++ show_bool b] | None => [] end ++
    match k_cachable p with Some b => [T "cachable = " ++ show_bool b] | None => [] end ++
    function_lines (T "commands") (k_commands p) ++ function_lines (T "pre_commands") (k_pre_commands p) ++
    function_lines (T "post_commands") (k_post_commands p) ++
    (if is_nil (k_tests p) then [] else
     [NL :: T "tests = {"] ++
     concat (map (fun b => [T "    " ++ quoted (fst b) ++ T ": {"; T "        # test definition"; T "    },"]) (k_tests p)) ++ [T "}"])).
(** PB:573-585, 587-600, 602-616, 636-648: a list of the Python class *)
Definition short_list (x : text) (l : list text) : list text :=
  match l with
  | [] => []
  | [a] => [[]; x ++ T " = [" ++ quoted a ++ T "]"]
  | _ => [[]; x ++ T " = ["] ++ map (fun a => T "    " ++ quoted a ++ T ",") l ++ [T "]"]
  end.
(** PB:618-634 *)
Definition variant_lines (v : list text) : list text :=
  match v with
  | [a] => [T "    [" ++ quoted a ++ T "],"]
  | _ => [T "    ["] ++ map (fun a => T "        " ++ quoted a ++ T ",") v ++ [T "    ],"]
  end.
(** PB:659-676: the text of a flag *)
Definition py_bool (b : bool) : text := if b then T "True" else T "False".
(** PB:544-686 [to_package_py] of the Python class *)
Definition binding_package_py (p : pkg) : text :=
  join [NL] (
    [T "name = " ++ quoted (k_name p)] ++
    match k_version p with Some v => [T "version = " ++ quoted (v_str v)] | None => [] end ++
    match k_description p with
    | Some d => if Nat.ltb 40 (length d) then [[]; T "description = " ++ [DQ; DQ; DQ]; d; [DQ; DQ; DQ]] else [T "description = " ++ quoted (escape_dq d)]
    | None => []
    end ++
    short_list (T "authors") (k_authors p) ++ short_list (T "requires") (k_requires p) ++ short_list (T "build_requires") (k_build_requires p) ++
    (if is_nil (k_variants p) then [] else [[]; T "variants = ["] ++ concat (map variant_lines (k_variants p)) ++ [T "]"]) ++
    short_list (T "tools") (k_tools p) ++
    match k_commands p with Some s => [[]; T "def commands():"] ++ body_lines s | None => [] end ++
    match k_relocatable p with Some b => [[]; T "relocatable = " ++ py_bool b] | None => [] end ++
    match k_cachable p with Some b => [[]; T "cachable = " ++ py_bool b] | None => [] end ++
    match k_uuid p with Some u => [[]; T "uuid = " ++ quoted u] | None => [] end).

(** ** XML texts *)
(** SV:350-391: a value between its tags, as the format strings have it *)
Definition tagged (x s : text) : text := T "<" ++ x ++ T ">" ++ s ++ T "</" ++ x ++ T ">".
(** SV:350-390: a list between tags *)
Definition xml_list (outer inner : text) (l : list text) : text :=
  if is_nil l then [] else
  ln (T "  <" ++ outer ++ T ">") ++ concat (map (fun a => ln (T "    " ++ tagged inner a)) l) ++ ln (T "  </" ++ outer ++ T ">").
(** SV:350-390 [save_to_xml] *)
Definition save_xml (o : options) (p : pkg) : text :=
  (if o_pretty o then ln (T "<?xml version=" ++ quoted (T "1.0") ++ T " encoding=" ++ quoted (T "UTF-8") ++ T "?>") else []) ++
  ln (T "<package>") ++ ln (T "  " ++ tagged (T "name") (k_name p)) ++
  match k_version p with Some v => ln (T "  " ++ tagged (T "version") (v_str v)) | None => [] end ++
  match k_description p with Some d => ln (T "  " ++ tagged (T "description") d) | None => [] end ++
  xml_list (T "authors") (T "author") (k_authors p) ++ xml_list (T "requires") (T "requirement") (k_requires p) ++ ln (T "</package>").
(** [str::find] *)
Fixpoint find_text (x s : text) : option nat :=
  if starts_with x s then Some 0 else match s with [] => None | _ :: s' => let* n := find_text x s' in Some (S n) end.
(** a slice of a text: the end before the start is a panic *)
Definition slice (s : text) (i j : nat) : res text := if Nat.ltb j i then Panic else Ok (firstn (j - i) (skipn i s)).
(** LD:242-249, 252-255, 261-265: the text between the first opening and the first closing tag *)
Definition between (x s : text) : option (res text) :=
  let op := T "<" ++ x ++ T ">" in
  let* i := find_text op s in let* j := find_text (T "</" ++ x ++ T ">") s in Some (slice s (i + length op) j).
(** LD:241-270 [load_from_xml] *)
Definition load_xml (s : text) : res pkg :=
  match between (T "name") s with
  | None => Err
  | Some r =>
      bind r (fun n =>
        bind match between (T "version") s with None => Ok None | Some r => bind r (fun v => Ok (Some v)) end (fun ov =>
          bind match between (T "description") s with None => Ok None | Some r => bind r (fun d => Ok (Some d)) end (fun od =>
            let p := new_pkg n in
            let p := match ov with Some s => put_if (parse_version s) (fun v => set_version (Some v)) p | None => p end in
            Ok (put_if od (fun d => set_description (Some d)) p))))
  end.

(** ** Whole texts and files *)
(** the libraries: printers and parsers of trees ([bool]: in pretty print), gzip with a level, bincode in base64, the reader of Python *)
Record library := mkLibrary {
  l_json : bool -> json -> text; l_unjson : text -> option json;
  l_yaml : json -> text; l_unyaml : text -> option yaml;
  l_toml : list (text * json) -> text; l_untoml : text -> option (list (text * json));
  l_gzip : N -> text -> text; l_gunzip : text -> option text;
  l_bin : list json -> text; l_unbin : text -> option (list json);
  l_python : text -> option (list stmt)
}.
(** SV:228-241: the pretty form of a YAML text *)
Definition pretty_yaml (raw : text) : text :=
  ln (T "# ---") ++ concat (map (fun l => ln ((if starts_with (T "- ") l then T "  " else []) ++ l)) (lines_of raw)).
(** SV:342-348: the TOML library leaves nulls out *)
Definition is_null (j : json) : bool := match j with JNull => true | _ => false end.
Section Library.
Context (L : library) (now : text).
(** SV:342-348 [save_to_toml]: TOML has no null, the fields that are absent are left out *)
Definition save_toml (p : pkg) : text := l_toml L (filter (fun b => negb (is_null (snd b))) (ser_fields p)).
(** SV:331-340 [save_to_binary]: the values alone, one after the other *)
Definition save_binary (p : pkg) : text := l_bin L (map snd (ser_fields p)).
(** SV:77-106 [save_to_string] *)
Definition save_to_string (p : pkg) (f : format) : text :=
  match f with
  | Yaml | YamlGz => l_yaml L (ser p)
  | Json | JsonGz => l_json L true (ser p)
  | Python => save_python now minimal_options p
  | Binary => save_binary p
  | Toml => save_toml p
  | Xml => save_xml default_options p
  end.
(** ST:53-68, 211-221 the metadata, ST:70-79, 244-262 the container *)
Definition metadata (fmt : text) (path : option text) : json :=
  JObj [(T "serialized_at", JStr now); (T "format", JStr fmt); (T "serializer_version", JStr (T "0.1.0")); (T "original_path", jopt JStr path);
        (T "checksum", JNull); (T "custom", JObj [])].
(** ST:70-79, 244-262 *)
Definition container (p : pkg) (meta : json) : json := JObj [(T "package", ser p); (T "metadata", meta); (T "schema_version", JStr (T "1.0"))].
(** SV:109-151 [save_container_to_string], SV:197-254 its parts *)
Definition container_text (p : pkg) (meta : json) (f : format) (o : options) : text :=
  let p := filter_fields o p in
  match f with
  | Yaml | YamlGz =>
      if o_metadata o then l_yaml L (container p meta) else
      let raw := l_yaml L (ser p) in if o_pretty o then pretty_yaml raw else raw
  | Json | JsonGz => l_json L (o_pretty o) (if o_metadata o then container p meta else ser p)
  | Python => save_python now o p
  | Binary => save_binary p
  | Toml => save_toml p
  | Xml => save_xml o p
  end.
(** SV:18-65 [save_to_file_with_options]: the content of the file *)
Definition save_to_file (p : pkg) (path : text) (f : format) (o : options) : text :=
  match f with
  | Binary => l_json L false (ser p)
  | _ =>
      let meta := metadata (default_filename f) (if o_metadata o then Some path else None) in
      let content := container_text p meta f o in
      if compressed f then l_gzip L (o_level o) content else content
  end.
(** the package a reader of package.py gives, MT:10-52 with crates/rez-next-package/src/python_ast_parser/mod.rs:364-408 *)
Definition of_python (q : pypackage) : pkg :=
  let d := y_data q in
  mkPkg (y_name q) (y_version q) (text_field (T "description") d) (texts_field (T "authors") d) (texts_field (T "requires") d)
    (texts_field (T "build_requires") d) (texts_field (T "private_build_requires") d) (variants_field d) (texts_field (T "tools") d)
    (text_field (T "commands") d) (text_field (T "build_command") d) (text_field (T "build_system") d) (text_field (T "pre_commands") d)
    (text_field (T "post_commands") d) (text_field (T "pre_test_commands") d) (text_field (T "pre_build_commands") d) (tests_field d)
    (text_field (T "requires_rez_version") d) (text_field (T "uuid") d) (text_field (T "help") d) (bool_field (T "relocatable") d)
    (bool_field (T "cachable") d) None None None None None None None (int_field (T "format_version") d) (text_field (T "base") d)
    (bool_field (T "has_plugins") d) (texts_field (T "plugin_for") d) (bool_field (T "hashed_variants") d) (text_field (T "preprocess") d)
    None (text_field (T "commands") d) [] None None.
(** LD:95-97 [load_from_python] *)
Definition load_python (w : world) (s : text) : res pkg :=
  match l_python L s with Some file => bind (load w file) (fun q => Ok (of_python q)) | None => Err end.
(** LD:67-76, 220-238: the error of a library is an error *)
Definition ok_or {A} (o : option A) : res A := match o with Some a => Ok a | None => Err end.
(** LD:67-76 [load_from_string], LD:220-238 binary and TOML texts *)
Definition load_from_string (w : world) (s : text) (f : format) : res pkg :=
  match f with
  | Yaml | YamlGz => match l_unyaml L s with Some y => load_yaml_tree y | None => Err end
  | Json | JsonGz => match l_unjson L s with Some j => load_json_tree j | None => Err end
  | Python => load_python w s
  | Binary => ok_or (let* l := l_unbin L s in de_seq l)
  | Toml => ok_or (let* m := l_untoml L s in visit_map m)
  | Xml => load_xml s
  end.
(** LD:16-64 [load_from_file]: the path gives the format *)
Definition load_from_file (w : world) (path content : text) : res pkg :=
  match from_extension path with
  | None => Err
  | Some Binary => ok_or (let* j := l_unjson L content in de_package j)
  | Some f =>
      if compressed f then match l_gunzip L content with Some s => load_from_string w s f | None => Err end
      else load_from_string w content f
  end.
End Library.
