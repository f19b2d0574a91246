(** Properties C130 to C135: package.py files. *)
From Verif Require Import Base Base_lemmas Maps Version_model Rex_model Filter_model Pyfile_model Pyfile_spec Pyfile_format Pyfile_proofs Pyfile_files Pyfile_commands.
Open Scope string_scope. Open Scope list_scope.

(** ** Syntax for the examples *)
Definition es (s : string) : pexpr := EConst (KStr (T s)).
Definition ei (z : Z) : pexpr := EConst (KInt z).
Definition nm (s : string) : pexpr := EName (T s).
Definition el (l : list string) : pexpr := EList (map es l).
Definition set (x : string) (e : pexpr) : stmt := SAssign [nm x] e.
Definition method (o : pexpr) (m : string) (args : list pexpr) : pexpr := ECall (EAttr o (T m)) args [].
Definition w0 : world := mkWorld (fun n => if text_eqb n (T "HOME") then Some (T "/home/me") else None) (T "linux") (T "posix").

(** ** C130: the loader computes what Python computes *)
(** what the loader and Python compute for one expression without variables *)
Definition both (e : pexpr) : res value * option pyval := (eval w0 [] e, py w0 [] e).
Theorem C130_refuted : ~ (forall w vars env e v, vars_agree vars env -> eval w vars e = Ok v -> exists p, py w env e = Some p /\ same v p).
Proof.
  intros H. destruct (H w0 [] [] (ECmp (ei 1) [(CLt, ei 3); (CLt, ei 2)]) (VBool true) ltac:(intros x; left; reflexivity) eq_refl) as (p & E & S). injection E as <-. inversion S.
Qed.
Print Assumptions C130_refuted.
(** a chained comparison compares with its first operand: 1 < 3 < 2 holds *)
Theorem C130_chain_refuted : both (ECmp (ei 1) [(CLt, ei 3); (CLt, ei 2)]) = (Ok (VBool true), Some (PyBool false)).
Proof. reflexivity. Qed.
Print Assumptions C130_chain_refuted.
(** [or] and [and] only look at booleans: the usual default for a missing variable is lost *)
Theorem C130_or_refuted : both (EBool false [method (nm "os") "getenv" [es "MISSING"]; es "fallback"]) = (Ok (VBool false), Some (PyStr (T "fallback"))).
Proof. reflexivity. Qed.
Print Assumptions C130_or_refuted.
(** fields without a number are left as they are; texts put in are searched again; a brace after a field is misread; booleans are written small *)
Theorem C130_format_refuted :
  both (method (es "{}-{}") "format" [es "a"; es "b"]) = (Ok (VStr (T "{}-{}")), Some (PyStr (T "a-b"))) /\
  both (method (es "{0}") "format" [es "{1}"; es "b"]) = (Ok (VStr (T "b")), Some (PyStr (T "{1}"))) /\
  both (method (es "${{{0}}}") "format" [es "HOME"]) = (Ok (VStr (T "${{0}}")), Some (PyStr (T "${HOME}"))) /\
  both (method (es "{0}") "format" [EConst (KBool true)]) = (Ok (VStr (T "true")), Some (PyStr (T "True"))).
Proof. repeat split; vm_compute; reflexivity. Qed.
Print Assumptions C130_format_refuted.
(** integers wrap, a spread is passed over *)
Theorem C130_wrap_refuted :
  both (EBin Add (ei 9223372036854775807) (ei 1)) = (Ok (VInt (-9223372036854775808)), Some (PyInt 9223372036854775808)) /\
  both (EDict [(None, EDict [(Some (es "a"), es "b")])]) = (Ok (VDict []), Some (PyDict [(T "a", PyStr (T "b"))])).
Proof. split; vm_compute; reflexivity. Qed.
Print Assumptions C130_wrap_refuted.
(** on the rest of the language every value is Python's *)
Theorem C130_values_partial : forall w vars env e v, vars_agree vars env -> tame w env e -> eval w vars e = Ok v -> exists p, py w env e = Some p /\ same v p.
Proof. intros w vars env e v VA Te E. exact (eval_agrees w vars env VA e Te v E). Qed.
Print Assumptions C130_values_partial.
(** a template with two fields and doubled braces *)
Definition tpl : pexpr := method (es "{0}/{{x}}/{1}") "format" [method (nm "os") "getenv" [es "HOME"; es "/tmp"]; EBin Mult (ei 6) (ei 7)].
Example C130_example : tame w0 [] tpl /\ both tpl = (Ok (VStr (T "/home/me/{x}/42")), Some (PyStr (T "/home/me/{x}/42"))).
Proof.
  split; [|vm_compute; reflexivity]. unfold tpl, method.
  assert (Tm : template 2 (T "{0}/{{x}}/{1}")).
  { exists [PField 0; PChar "/"; POpen; PChar "x"; PClose; PChar "/"; PField 1]. split; [reflexivity|]. cbn. unfold plain_char. repeat split; try discriminate; try lia; reflexivity. }
  cbn -[T]. repeat split; try discriminate; try lia; try reflexivity.
  - intros n d [= <- <-]. discriminate.
  - intros x y [= <-] [= <-]. cbn. unfold fits. lia.
  - intros s [= <-]. exact Tm.
  - intros v E. assert (E' : Some (PyStr (T "/home/me")) = Some v) by exact E. injection E' as <-. intros c I. cbn in I. unfold plain_char. repeat (destruct I as [<-|I]; [repeat split; try discriminate; reflexivity|]). destruct I.
  - intros v [= <-]. exact I.
Qed.

(** ** C131: loading ends in a package or an error *)
Theorem C131_refuted : ~ (forall w file, load w file <> Panic).
Proof. intros H. apply (H w0 [set "name" (EBin Mult (es "ab") (EUn USub (ei 1)))]). reflexivity. Qed.
Print Assumptions C131_refuted.
Theorem C131_calm_partial : forall w file, (forall s, In s file -> unmultiplied_stmt s) -> load w file <> Panic.
Proof. exact load_calm. Qed.
Print Assumptions C131_calm_partial.
Example C131_example : forall s, In s [set "name" (es "a"); SDef (T "commands") [SExpr (ECall (nm "error") [EBin Sub (ei 1) (es "x")] [])]] -> unmultiplied_stmt s.
Proof. intros s [<-|[<-|[]]]; cbn; repeat split; discriminate. Qed.

(** ** C132: fields hold the final values of the variables *)
Definition values_held (file : list stmt) : Prop :=
  forall p, load w0 file = Ok p -> exists env, exec_all w0 [] file = Some env /\ forall x v, aget x env = Some v -> holds x v (y_data p).
(** an assignment is evaluated again after it was carried out: what is added is added twice *)
Definition twice : list stmt := [set "name" (es "a"); set "requires" (el ["b"]); set "requires" (EBin Add (nm "requires") (el ["c"]))].
Theorem C132_refuted : ~ values_held twice.
Proof.
  intros H. destruct (load w0 twice) as [p| |] eqn:E; try (vm_compute in E; discriminate E). destruct (H p E) as (env & X & HO). vm_compute in E. injection E as <-. vm_compute in X. injection X as <-.
  specialize (HO (T "requires") _ eq_refl). destruct HO as (_ & HO & _). specialize (HO [T "b"; T "c"] (or_introl eq_refl) eq_refl). vm_compute in HO. discriminate HO.
Qed.
Print Assumptions C132_refuted.
Theorem C132_twice_refuted :
  (exists p, load w0 twice = Ok p /\ texts_field (T "requires") (y_data p) = [T "b"; T "c"; T "c"]) /\
  (exists p, load w0 [set "name" (es "a"); set "version" (es "1"); set "version" (EBin Add (nm "version") (es ".2"))] = Ok p /\ text_field (T "version") (y_data p) = Some (T "1.2.2")).
Proof. split; eexists; split; vm_compute; reflexivity. Qed.
Print Assumptions C132_twice_refuted.
(** only the first target of a chain is assigned, a pair of names is passed over *)
Theorem C132_targets_refuted :
  (exists p, load w0 [SAssign [nm "name"; nm "description"] (es "a")] = Ok p /\ text_field (T "description") (y_data p) = None) /\
  (exists p, load w0 [set "name" (es "a"); SAssign [ETuple [nm "version"; nm "description"]] (ETuple [es "2"; es "d"])] = Ok p /\ y_version p = None) /\
  exec_all w0 [] [SAssign [nm "name"; nm "description"] (es "a")] = Some [(T "name", PyStr (T "a")); (T "description", PyStr (T "a"))].
Proof. split; [|split]; [eexists; split; vm_compute; reflexivity|eexists; split; vm_compute; reflexivity|reflexivity]. Qed.
Print Assumptions C132_targets_refuted.
Theorem C132_fields_partial : forall w file p, tidy_all w [] file -> load w file = Ok p ->
  exists env, exec_all w [] file = Some env /\ (forall x v, aget x env = Some v -> holds x v (y_data p)) /\ (forall x, aget x env = None -> aget x (y_data p) = None) /\ head_ok p.
Proof. exact load_fields. Qed.
Print Assumptions C132_fields_partial.
(** a file with a helper variable, a condition and all kinds of fields *)
Definition file1 : list stmt :=
  [set "name" (es "tool"); set "base" (es "1.2"); set "version" (EBin Add (nm "base") (es ".3"));
   SIf (ECmp (EAttr (nm "system") (T "platform")) [(CEq, es "linux")]) [set "requires" (el ["gcc-9"])] [set "requires" (el ["msvc"])];
   set "variants" (EList [el ["python-2"]; el ["python-3"]]); set "tests" (EDict [(Some (es "unit"), es "pytest")]);
   set "relocatable" (EConst (KBool true)); set "format_version" (ei 2)].
Ltac tidies := repeat match goal with
  | |- _ /\ _ => split
  | |- exists x, _ = [EName x] /\ _ => eexists; split; [reflexivity|]
  | |- forall env', exec _ _ _ = Some env' -> _ => let e := fresh in let E := fresh in intros e E; vm_compute in E; injection E as <-
  | |- _ => progress cbn [tidy_all tidy_loop tidy tame unread all_of fold_right set nm es ei el map fst snd]
  | |- True => exact I
  end.
Example C132_example : tidy_all w0 [] file1 /\ exists p, load w0 file1 = Ok p /\ texts_field (T "requires") (y_data p) = [T "gcc-9"] /\ option_map v_str (y_version p) = Some (T "1.2.3") /\
  variants_field (y_data p) = [[T "python-2"]; [T "python-3"]].
Proof.
  split; [|eexists; split; [vm_compute; reflexivity|repeat split; vm_compute; reflexivity]].
  unfold file1, tidy_all. tidies; try discriminate; try lia; try reflexivity; try (intros E; vm_compute in E; discriminate E).
  - intros x y E F. vm_compute in E, F. injection E as <-. injection F as <-. exact I.
  - intros v E. vm_compute in E. injection E as <-. now exists true.
  - intros _. tidies.
Qed.

(** ** C133: the commands that are kept do what the function does *)
(** the actions of the text that was kept, and those of the function *)
Definition kept (f : string) (file : list stmt) : option (list action) :=
  match load w0 file with Ok p => match text_field (T f) (y_data p) with Some t => parse_commands t | None => Some [] end | _ => None end.
Definition commands_file (body : list stmt) : list stmt := [set "name" (es "a"); SDef (T "commands") body].
Definition setenv_of (x v : string) : action := Setenv (T x) (T v).
Theorem C133_refuted : ~ (forall w file p f t acts, load w file = Ok p -> text_field f (y_data p) = Some t -> file_commands w f file = Some acts -> parse_commands t = Some acts).
Proof.
  intros H. pose (file := commands_file [SExpr (method (nm "env") "setenv" [es "MSG"; es "it's"])]). destruct (load w0 file) as [p| |] eqn:E; try (vm_compute in E; discriminate E).
  assert (Et : text_field (T "commands") (y_data p) = Some (T "env.setenv('MSG', 'it's')")) by (vm_compute in E; injection E as <-; reflexivity).
  specialize (H w0 file p (T "commands") _ [setenv_of "MSG" "it's"] E Et ltac:(vm_compute; reflexivity)). vm_compute in H. discriminate H.
Qed.
Print Assumptions C133_refuted.
(** assignments by subscript, of lists and of unknown values, and all targets but the first, disappear without an error *)
Theorem C133_lost_refuted :
  let by_key := commands_file [SAssign [ESub (nm "env") (es "A")] (es "1")] in
  let chain := commands_file [SAssign [EAttr (nm "env") (T "A"); EAttr (nm "env") (T "B")] (es "1")] in
  let none := commands_file [SAssign [EAttr (nm "env") (T "A")] (EConst KNone)] in
  kept "commands" by_key = Some [] /\ file_commands w0 (T "commands") by_key = Some [setenv_of "A" "1"] /\
  kept "commands" chain = Some [setenv_of "A" "1"] /\ file_commands w0 (T "commands") chain = Some [setenv_of "A" "1"; setenv_of "B" "1"] /\
  kept "commands" none = Some [] /\ file_commands w0 (T "commands") none = Some [setenv_of "A" "None"].
Proof. repeat split; vm_compute; reflexivity. Qed.
Print Assumptions C133_lost_refuted.
(** variables are read where the function is written, not when it runs *)
Theorem C133_early_refuted :
  let file := [set "name" (es "a"); set "v" (es "old"); SDef (T "commands") [SAssign [EAttr (nm "env") (T "V")] (nm "v")]; set "v" (es "new")] in
  kept "commands" file = Some [setenv_of "V" "old"] /\ file_commands w0 (T "commands") file = Some [setenv_of "V" "new"].
Proof. split; vm_compute; reflexivity. Qed.
Print Assumptions C133_early_refuted.
(** a call of [unset] on a variable is an error, though it takes no argument *)
Theorem C133_unset_refuted :
  let file := commands_file [SExpr (method (EAttr (nm "env") (T "A")) "unset" [])] in
  load w0 file = Err /\ file_commands w0 (T "commands") file = Some [Unsetenv (T "A")].
Proof. split; vm_compute; reflexivity. Qed.
Print Assumptions C133_unset_refuted.
Theorem C133_commands_partial : forall w pre f body post p,
  tidy_all w [] (pre ++ SDef f body :: post) -> Forall (leaves f) post ->
  (forall env, exec_all w [] (pre ++ SDef f body :: post) = Some env -> plain_commands w env body) ->
  load w (pre ++ SDef f body :: post) = Ok p ->
  exists acts, file_commands w f (pre ++ SDef f body :: post) = Some acts /\
    match text_field f (y_data p) with Some t => parse_commands t = Some acts | None => acts = [] end.
Proof. exact commands_meant. Qed.
Print Assumptions C133_commands_partial.
Definition body1 : list stmt :=
  [SAssign [EAttr (nm "env") (T "ROOT")] (EBin Add (es "/opt/") (nm "name"));
   SExpr (method (EAttr (nm "env") (T "PATH")) "prepend" [es "{root}/bin"]);
   SIf (ECmp (EAttr (nm "system") (T "platform")) [(CEq, es "linux")]) [SExpr (ECall (nm "alias") [es "t"; es "tool -v"] []); SExpr (ECall (nm "stop") [] [])] [SPass]].
Definition pre1 : list stmt := [set "name" (es "tool")].
Definition post1 : list stmt := [SDef (T "post_commands") [SPass]].
Lemma safe_lit env s : line_safe (T s) -> safe_arg w0 env (es s).
Proof. intros H. split; [exact I|]. intros v [= <-]. exists (T s). split; [reflexivity|exact H]. Qed.
Ltac safely := intros ? ?I; cbn in I; repeat (destruct I as [<-|I]; [repeat split; discriminate|]); destruct I.
Lemma body1_plain env : aget (T "name") env = Some (PyStr (T "tool")) -> free (T "system") env = true -> plain_commands w0 env body1.
Proof.
  intros Hn Hs. unfold plain_commands, body1. cbn [plain_loop]. split; [|intros p Ep; split; [|intros q Eq; split; [|intros r Er; exact I]]].
  - right. exists (T "ROOT"), (T "/opt/" ++ T "tool"). split; [reflexivity|]. split; [discriminate|]. split; [safely|]. split; [|safely].
    apply simple_add; [apply simple_const|apply simple_name, Hn].
  - split; [reflexivity|]. exists (OnVar (T "PATH"), T "prepend"). split; [reflexivity|]. cbn [fst snd all_of fold_right]. split; [split; [discriminate|split; [safely|discriminate]]|].
    split; [split; [apply safe_lit; safely|exact I]|]. split; [intros []|]. intros [|t [|u ts]] L; cbn in L; try discriminate L. cbn. discriminate.
  - assert (Envs : snd p = env /\ snd q = env).
    { assert (P1 : snd p = env). { unfold run_command in Ep. cbn [py es nm obind] in Ep. rewrite Hn in Ep. cbn in Ep. injection Ep as <-. reflexivity. }
      split; [exact P1|]. rewrite P1 in Eq. cbn in Eq. injection Eq as <-. reflexivity. }
    destruct Envs as [_ ->].
    cbn [plain_command]. split; [|split; [|split]].
    + cbn. repeat split; try discriminate; try lia. exact Hs.
    + intros v E. cbn -[T free] in E. rewrite Hs in E. vm_compute in E. injection E as <-. now exists true.
    + intros _. cbn [plain_loop]. split; [|intros r Er; split; [|intros ? _; exact I]].
      * split; [reflexivity|]. exists (Bare, T "alias"). split; [reflexivity|]. split; [exact I|]. split; [split; [apply safe_lit; safely|split; [apply safe_lit; safely|exact I]]|].
        split; [intros _ v [= <-]; discriminate|]. intros [|t [|u [|x ts]]] L; cbn in L; try discriminate L. cbn. discriminate.
      * split; [reflexivity|]. exists (Bare, T "stop"). split; [reflexivity|]. split; [exact I|]. split; [exact I|]. split; [intros _; exact I|].
        intros [|t ts] L; cbn in L; try discriminate L. cbn. discriminate.
    + intros _. cbn [plain_loop]. split; [exact I|]. intros ? _. exact I.
Qed.
Example C133_example : tidy_all w0 [] (pre1 ++ SDef (T "commands") body1 :: post1) /\ Forall (leaves (T "commands")) post1 /\
  (forall env, exec_all w0 [] (pre1 ++ SDef (T "commands") body1 :: post1) = Some env -> plain_commands w0 env body1) /\
  kept "commands" (pre1 ++ SDef (T "commands") body1 :: post1) = Some [setenv_of "ROOT" "/opt/tool"; PrependPath (T "PATH") (T "{root}/bin") None; Alias (T "t") (T "tool -v"); Stop None].
Proof.
  split; [|split; [|split]].
  - unfold tidy_all, pre1, post1. cbn [app]. tidies; intros v E; vm_compute in E; discriminate E.
  - repeat constructor. cbn. discriminate.
  - intros env E. vm_compute in E. injection E as <-. apply body1_plain; reflexivity.
  - vm_compute. reflexivity.
Qed.

(** ** C134: a command function changes its own field and nothing else *)
Theorem C134_function : forall w pre f body post p, load w (pre ++ SDef f body :: post) = Ok p ->
  exists p', load w (pre ++ post) = Ok p' /\ y_name p' = y_name p /\ y_version p' = y_version p /\ forall x, x <> f -> aget x (y_data p') = aget x (y_data p).
Proof. exact function_removed. Qed.
Print Assumptions C134_function.
(** the function sets a local variable with the name of a field *)
Example C134_example : exists p, load w0 ([set "name" (es "a")] ++ SDef (T "commands") [set "description" (es "local")] :: [set "help" (nm "name")]) = Ok p /\
  text_field (T "description") (y_data p) = None /\ text_field (T "help") (y_data p) = Some (T "a").
Proof. eexists. split; [vm_compute; reflexivity|split; reflexivity]. Qed.

(** ** C135: what is loaded is valid *)
Theorem C135_valid : forall w file p, load w file = Ok p -> valid_package p.
Proof. exact load_valid. Qed.
Print Assumptions C135_valid.
(** and nothing else stands in the way: fields that make a valid package are accepted *)
Theorem C135_accepted : forall d n v, text_field (T "name") d = Some n ->
  match text_field (T "version") d with Some s => v = parse_version s /\ v <> None | None => v = None end ->
  valid_package (mkPy n v d) -> build_package d = Ok (mkPy n v d).
Proof.
  intros d n v En Ev Va. apply validate_iff in Va. unfold build_package. rewrite En. destruct (text_field (T "version") d) as [s|].
  - destruct Ev as [-> N]. destruct (parse_version s); [|congruence]. cbv zeta. rewrite Va. reflexivity.
  - subst v. cbv zeta. rewrite Va. reflexivity.
Qed.
Print Assumptions C135_accepted.
Example C135_example : (exists p, load w0 file1 = Ok p /\ y_name p = T "tool") /\
  load w0 [set "name" (es "a b")] = Err /\ load w0 [set "name" (es "a"); set "requires" (el [""])] = Err /\ load w0 [set "version" (es "1")] = Err.
Proof. split; [eexists; split; vm_compute; reflexivity|repeat split; vm_compute; reflexivity]. Qed.
