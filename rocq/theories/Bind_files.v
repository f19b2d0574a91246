(** The files that are written, what is read in them, and the disk. *)
From Verif Require Import Base Base_lemmas Maps Version_model Rex_model Range_model Requirement_model Pyfile_model Pyfile_spec Pyfile_proofs Pkgfile_model Pkgfile_spec Pkgfile_python Pkgfile_loads.
From Verif Require Import Files_model Files_spec Files_proofs Bind_model Bind_spec Bind_text.
From Verif Require Pip_files Requirement_text.
Open Scope string_scope. Open Scope list_scope.

(** ** Reading *)
Lemma read_text x v s l : variable x -> plain1 v -> py s l -> py (ln (x ++ T " = " ++ sq v) ++ s) (SAssign [EName x] (EConst (KStr v)) :: l).
Proof. intros X V S. assert (H := py_text x v s l X V S). unfold ln. rewrite <- !app_assoc. exact H. Qed.
Lemma read_one x v s l : variable x -> plain1 v -> py s l -> py (ln (x ++ T " = [" ++ sq v ++ T "]") ++ s) (SAssign [EName x] (EList [EConst (KStr v)]) :: l).
Proof. intros X V S. assert (H := py_one x v s l X V S). unfold ln. rewrite <- !app_assoc. exact H. Qed.
Definition list_stmt (x : text) (vs : list text) : list stmt := if is_nil vs then [] else [SAssign [EName x] (EList (map (fun v => EConst (KStr v)) vs))].
Lemma read_list x vs s l : variable x -> (forall v, In v vs -> plain1 v) -> py s l -> py (listed x vs ++ s) (list_stmt x vs ++ l).
Proof.
  intros X V S. unfold listed, list_stmt. destruct (is_nil vs) eqn:E; [exact S|]. assert (H := py_list x vs _ l X V (py_blank s l S)).
  unfold ln. rewrite <- !app_assoc. assert (G : flat_map (fun v => T "    " ++ quoted1 v ++ T "," ++ [NL]) vs = flat_map (fun r => (T "    " ++ sq r ++ T ",") ++ [NL]) vs).
  { clear. induction vs as [|v vs IH]; [reflexivity|]. cbn [flat_map]. rewrite IH, <- !app_assoc. reflexivity. }
  rewrite G in H. exact H.
Qed.
Definition prepend_stmt (d : text) : stmt := SExpr (ECall (EAttr (EAttr (EName (T "env")) (T "PATH")) (T "prepend")) [EConst (KStr d)] []).
Lemma read_body d : plain1 d -> py_body (ln (T "    env.PATH.prepend(" ++ sq d ++ T ")")) [prepend_stmt d].
Proof. intros D. assert (H := body_prepend d [] [] D body_nil). unfold ln. rewrite <- !app_assoc. exact H. Qed.
Lemma read_import d : plain1 d -> py_body (ln (T "    import os") ++ ln (T "    env.PATH.prepend(" ++ sq d ++ T ")")) [SImport; prepend_stmt d].
Proof. intros D. assert (H := body_import _ _ (read_body d D)). unfold ln in *. rewrite <- !app_assoc in *. exact H. Qed.
Lemma read_path d : plain1 d -> py_body (ln (T "    env.prepend_path('PATH', r" ++ sq d ++ T ")")) [SExpr (ECall (EAttr (EName (T "env")) (T "prepend_path")) [EConst (KStr (T "PATH")); EConst (KStr d)] [])].
Proof. intros D. assert (H := body_prepend_path d [] [] D body_nil). unfold ln. rewrite <- !app_assoc. exact H. Qed.
Lemma read_def b ss s l : py_body b ss -> ss <> [] -> py s l -> py (ln (T "def commands():") ++ b ++ s) (SDef (T "commands") ss :: l).
Proof. intros B N S. assert (H := py_function b ss s l B N S). unfold ln. rewrite <- !app_assoc. exact H. Qed.
Lemma variable_of x : is_nil x = false -> forallb (fun c => is_lower c || Ascii.eqb c "_") x = true -> variable x.
Proof. intros N H. split; [destruct x; [discriminate N|discriminate]|]. intros c C. rewrite forallb_forall in H. apply H in C. apply orb_true_iff in C. rewrite Ascii.eqb_eq in C. exact C. Qed.
Lemma plain1b s : forallb (fun c => negb (mem_text [c] [["'"%char]; ["\"%char]; [NL]; ["013"%char]; ["000"%char]])) s = true -> plain1 s.
Proof. rewrite forallb_forall. intros H c C I. apply H in C. repeat (destruct I as [<-|I]; [discriminate C|]). destruct I. Qed.
Lemma plain1_app a b : plain1 a -> plain1 b -> plain1 (a ++ b).
Proof. intros A B c C. apply in_app_iff in C. destruct C; auto. Qed.
Lemma good_plain n : good_name n -> plain1 n.
Proof.
  intros [_ H] c C I. destruct (H c C) as [A|[-> | ->]]; [|cbn in I; intuition discriminate|cbn in I; intuition discriminate].
  repeat (destruct I as [<-|I]; [discriminate A|]). destruct I.
Qed.
(** ** Loading *)
Definition bind_fields (name version description : text) (requires tools : list text) : list (text * option lit) :=
  [(T "name", Some (LText name)); (T "version", Some (LText version)); (T "description", Some (LText description)); (T "requires", lit_list requires); (T "tools", lit_list tools)].
Definition sets_commands (o : option stmt) (k : option text) : Prop :=
  match o, k with
  | None, None => True
  | Some c, Some t => forall w st, process w st c = Ok (mkState (s_vars st) (aput (T "commands") (FText (Some t)) (s_data st)))
  | _, _ => False
  end.
Definition opt_list {A} (o : option A) : list A := match o with Some a => [a] | None => [] end.
Definition bind_stmts (name version description : text) (requires tools : list text) (o : option stmt) : list stmt :=
  map (fun b => SAssign [EName (fst b)] (lit_expr (snd b))) (lits_of (bind_fields name version description requires tools)) ++ opt_list o.
Lemma bind_data (name version description : text) (requires tools : list text) (o : option stmt) (k : option text) v : parse_version version = Some v -> sets_commands o k ->
  forall W, exists q, of_python q = a_package name v description requires tools k /\ load W (bind_stmts name version description requires tools o) = if validate q then Ok q else Err.
Proof.
  intros V S W. unfold bind_stmts. pose (fs := bind_fields name version description requires tools).
  assert (Fits : forall y a, In (y, a) (lits_of fs) -> lit_fits y a).
  { intros y a Ha. unfold fs, bind_fields, lits_of, lit_list in Ha. destruct (is_nil requires), (is_nil tools); cbn [flat_map fst snd app In] in Ha; repeat (destruct Ha as [Ha|Ha]; [injection Ha as <- <-; reflexivity|]); destruct Ha. }
  pose (D := match k with Some t => aput (T "commands") (FText (Some t)) (lit_data fs) | None => lit_data fs end).
  assert (L : load W (map (fun b => SAssign [EName (fst b)] (lit_expr (snd b))) (lits_of fs) ++ opt_list o) = Pyfile_model.build_package D).
  { unfold load. rewrite Pip_files.loop_app. destruct (process_lits W (lits_of fs) Fits (mkState [] [])) as [vars E]. rewrite E. cbn [Pyfile_model.bind].
    destruct o as [c|], k as [t|]; try (destruct S; fail); cbn [opt_list process_loop]; [rewrite S; reflexivity|reflexivity]. }
  assert (Nd : NoDup (map fst fs)). { unfold fs, bind_fields. cbn [map fst]. repeat (constructor; [cbn; intuition discriminate|]). constructor. }
  assert (G : forall y, aget y D = match k with Some t => if text_eqb y (T "commands") then Some (FText (Some t)) else match aget y fs with Some (Some a) => Some (lit_field a) | _ => None end
                                   | None => match aget y fs with Some (Some a) => Some (lit_field a) | _ => None end end).
  { intros y. unfold D. destruct k as [t|]; [|apply lits_get, Nd]. destruct (text_eqb_spec y (T "commands")) as [->|E]; [apply aget_put_same|]. rewrite aget_put_other by exact E. apply lits_get, Nd. }
  assert (E : of_python (mkPy name (Some v) D) = a_package name v description requires tools k).
  { unfold of_python, a_package. cbn [y_name y_version y_data]. unfold text_field, texts_field, variants_field, tests_field, bool_field, int_field. rewrite !G. unfold fs, bind_fields, lit_list.
    destruct requires as [|r1 r2], tools as [|t1 t2], k; reflexivity. }
  exists (mkPy name (Some v) D). split; [exact E|]. unfold fs in L. rewrite L.
  unfold Pyfile_model.build_package. assert (T1 : text_field (T "name") D = Some name) by (unfold text_field; rewrite G; destruct k; reflexivity). assert (T2 : text_field (T "version") D = Some version) by (unfold text_field; rewrite G; destruct k; reflexivity).
  rewrite T1, T2, V. reflexivity.
Qed.
Lemma bind_load (name version description : text) (requires tools : list text) (o : option stmt) (k : option text) v : good_name name -> parse_version version = Some v -> v_str v <> [] -> ~ In [] requires -> sets_commands o k ->
  forall W, exists q, load W (bind_stmts name version description requires tools o) = Ok q /\ of_python q = a_package name v description requires tools k.
Proof.
  intros [N1 N2] V Vn R S W. destruct (bind_data name version description requires tools o k v V S W) as (q & E & L). exists q. split; [|exact E].
  assert (A : acceptable (a_package name v description requires tools k)).
  { unfold acceptable, a_package. cbn [k_name k_version k_requires k_build_requires k_private_build_requires k_variants]. split; [exact N1|]. split; [exact N2|]. split; [intros v0 H; injection H as <-; exact Vn|].
    split; [exact R|]. split; [intros []|]. split; [intros []|intros l []]. }
  apply valid_iff in A. rewrite <- E in A. assert (X : validate q = true) by exact A. rewrite L, X. reflexivity.
Qed.
Lemma bind_bad (name version description : text) (requires tools : list text) (o : option stmt) (k : option text) v : ~ good_name name -> parse_version version = Some v -> sets_commands o k ->
  forall W, load W (bind_stmts name version description requires tools o) = Err.
Proof.
  intros N V S W. destruct (bind_data name version description requires tools o k v V S W) as (q & E & L). rewrite L. destruct (validate q) eqn:X; [|reflexivity]. exfalso. apply N.
  assert (A : acceptable (of_python q)) by (apply valid_iff; exact X). rewrite E in A. destruct A as (A1 & A2 & _). split; [exact A1|exact A2].
Qed.
Lemma list_stmts x vs l : map (fun b => SAssign [EName (fst b)] (lit_expr (snd b))) (lits_of ((x, lit_list vs) :: l)) = list_stmt x vs ++ map (fun b => SAssign [EName (fst b)] (lit_expr (snd b))) (lits_of l).
Proof. unfold lit_list, list_stmt. destruct (is_nil vs); reflexivity. Qed.
Lemma prepend_runs d (imp : bool) : sets_commands (Some (SDef (T "commands") (if imp then [SImport; prepend_stmt d] else [prepend_stmt d] : list stmt))) (Some (prepends d)).
Proof. intros w st. destruct imp; reflexivity. Qed.
Lemma path_runs d : sets_commands (Some (SDef (T "commands") [SExpr (ECall (EAttr (EName (T "env")) (T "prepend_path")) [EConst (KStr (T "PATH")); EConst (KStr d)] [])])) (Some (prepends d)).
Proof. intros w st. reflexivity. Qed.
(** what the commands of a package do: the directory that is prepended, if any *)
Definition command_dir (name : text) (exe : option text) : option text :=
  if mem_text name [T "python"; T "pip"; T "cmake"; T "git"; T "gcc"; T "clang"] then
    match exe with
    | Some p => if is_nil (parent_dir p) then (if text_eqb name (T "python") then Some (T "{root}/bin") else None) else Some (slashes (parent_dir p))
    | None => if text_eqb name (T "python") then Some (T "{root}/bin") else None
    end
  else None.
Lemma commands_read name exe : (forall d, command_dir name exe = Some d -> plain1 d) ->
  match package_commands name exe with
  | Some c => exists d (imp : bool), command_dir name exe = Some d /\ py_body c (if imp then [SImport; prepend_stmt d] else [prepend_stmt d])
  | None => command_dir name exe = None
  end.
Proof.
  unfold command_dir, package_commands. destruct (mem_text name _); [|reflexivity]. intros P.
  assert (F : if text_eqb name (T "python") then exists d (imp : bool), Some (T "{root}/bin") = Some d /\ py_body (ln (T "    env.PATH.prepend('{root}/bin')")) (if imp then [SImport; prepend_stmt d] else [prepend_stmt d]) else True).
  { destruct (text_eqb name (T "python")); [|exact I]. exists (T "{root}/bin"), false. split; [reflexivity|]. exact (read_body (T "{root}/bin") ltac:(apply plain1b; reflexivity)). }
  destruct exe as [p|].
  - destruct (is_nil (parent_dir p)).
    + destruct (text_eqb name (T "python")); [exact F|reflexivity].
    + exists (slashes (parent_dir p)), true. split; [reflexivity|]. unfold prepend_lines. apply read_import, P, eq_refl.
  - destruct (text_eqb name (T "python")); [exact F|reflexivity].
Qed.
Lemma generate_loads (name version description : text) (requires tools : list text) (exe : option text) v : good_name name -> plain1 version -> parse_version version = Some v -> v_str v <> [] -> plain1 description ->
  (forall r, In r requires -> plain1 r) -> ~ In [] requires -> (forall r, In r tools -> plain1 r) -> (forall d, command_dir name exe = Some d -> plain1 d) ->
  loads_as (generate name version description requires tools (package_commands name exe)) (a_package name v description requires tools (option_map prepends (command_dir name exe))).
Proof.
  intros N PV V Vn PD PR NR PT PC.
  assert (K : exists o, py (match package_commands name exe with Some c => ln (T "def commands():") ++ c ++ [NL] | None => [] end) (opt_list o) /\ sets_commands o (option_map prepends (command_dir name exe))).
  { assert (C := commands_read name exe PC). destruct (package_commands name exe) as [c|].
    - destruct C as (d & imp & -> & B). exists (Some (SDef (T "commands") (if imp then [SImport; prepend_stmt d] else [prepend_stmt d]))). split; [|apply prepend_runs].
      cbn [opt_list]. apply read_def; [exact B|destruct imp; discriminate|]. exact (py_blank [] [] py_end).
    - rewrite C. exists None. split; [exact py_end|exact I]. }
  destruct K as (o & K & S). exists (bind_stmts name version description requires tools o). split.
  - unfold generate, bind_stmts, bind_fields.
    change (lits_of ((T "name", Some (LText name)) :: (T "version", Some (LText version)) :: (T "description", Some (LText description)) :: ?l)) with ((T "name", LText name) :: (T "version", LText version) :: (T "description", LText description) :: lits_of l).
    cbn [map fst snd lit_expr]. rewrite !list_stmts. cbn [lits_of flat_map map]. rewrite app_nil_r. cbn [app].
    apply (read_text (T "name")); [apply variable_of; reflexivity|apply good_plain, N|].
    apply (read_text (T "version")); [apply variable_of; reflexivity|exact PV|].
    apply (py_blank (ln (T "description = " ++ sq description) ++ [NL] ++ listed (T "requires") requires ++ listed (T "tools") tools ++ match package_commands name exe with Some c => ln (T "def commands():") ++ c ++ [NL] | None => [] end)).
    apply (read_text (T "description")); [apply variable_of; reflexivity|exact PD|].
    apply (py_blank (listed (T "requires") requires ++ listed (T "tools") tools ++ match package_commands name exe with Some c => ln (T "def commands():") ++ c ++ [NL] | None => [] end)).
    rewrite <- !app_assoc. apply read_list; [apply variable_of; reflexivity|exact PR|]. apply read_list; [apply variable_of; reflexivity|exact PT|]. exact K.
  - exact (bind_load name version description requires tools o _ v N V Vn NR S).
Qed.
Definition lib_dir (exe : option text) : option text := match exe with Some p => if is_nil (parent_dir p) then None else Some (slashes (parent_dir p)) | None => None end.
Lemma parent_sub p c : In c (parent_dir p) -> In c p.
Proof.
  unfold parent_dir, rfind_char. destruct (find_char "/" (rev p)) as [[a b]|] eqn:F; [|intros []]. apply Requirement_text.find_char_some in F. destruct F as [F _].
  assert (P : p = rev b ++ "/"%char :: rev a). { rewrite <- (rev_involutive p), F, rev_app_distr. cbn [rev]. rewrite <- app_assoc. reflexivity. }
  rewrite P. destruct (rev b) as [|d t] eqn:B.
  - destruct (is_nil (rev a)); [intros []|]. intros [<-|[]]. left. reflexivity.
  - intros H. apply in_app_iff. left. exact H.
Qed.
Lemma parent_plain p : plain1 (slashes p) -> plain1 (slashes (parent_dir p)).
Proof. intros H c C. apply H. unfold slashes in *. apply in_map_iff in C as (d & <- & D). apply in_map_iff. exists d. split; [reflexivity|apply parent_sub, D]. Qed.
Lemma lib_reads name version exe : plain1 name -> plain1 version -> (forall p, exe = Some p -> plain1 (slashes p)) ->
  exists o, py (lib_text name version exe []) (bind_stmts name version (T "System-installed " ++ name ++ T " bound by rez-next bind") [] [name] o) /\ sets_commands o (option_map prepends (lib_dir exe)).
Proof.
  intros PN PV PE.
  assert (Sl := parent_plain).
  assert (Nl : forall p, plain1 (slashes p) -> ~ In NL p).
  { intros p H I. apply (H NL). - unfold slashes. apply in_map_iff. exists NL. split; [reflexivity|exact I]. - right. right. left. reflexivity. }
  set (o := match lib_dir exe with Some d => Some (SDef (T "commands") [SExpr (ECall (EAttr (EName (T "env")) (T "prepend_path")) [EConst (KStr (T "PATH")); EConst (KStr d)] [])]) | None => None end).
  assert (K : py ((if is_nil (match exe with Some p => slashes (parent_dir p) | None => [] end) then [] else [NL] ++ ln (T "def commands():") ++ ln (T "    env.prepend_path('PATH', r" ++ sq (match exe with Some p => slashes (parent_dir p) | None => [] end) ++ T ")")) ++ [NL]) (opt_list o)).
  { unfold o, lib_dir. destruct exe as [p|]; [|exact (py_blank [] [] py_end)]. assert (E : is_nil (slashes (parent_dir p)) = is_nil (parent_dir p)) by (unfold slashes; destruct (parent_dir p); reflexivity). rewrite E.
    destruct (is_nil (parent_dir p)); [exact (py_blank [] [] py_end)|]. cbn [opt_list]. rewrite <- !app_assoc. apply py_blank. apply read_def; [apply read_path, Sl, PE, eq_refl|discriminate|exact (py_blank [] [] py_end)]. }
  assert (S : sets_commands o (option_map prepends (lib_dir exe))). { unfold o. destruct (lib_dir exe); [apply path_runs|exact I]. }
  exists o. split; [|exact S].
  - unfold lib_text, bind_stmts, bind_fields. cbn [flat_map]. cbv zeta.
    change (lits_of ((T "name", Some (LText name)) :: (T "version", Some (LText version)) :: (T "description", Some (LText ?d)) :: ?l)) with ((T "name", LText name) :: (T "version", LText version) :: (T "description", LText d) :: lits_of l).
    cbn [map fst snd lit_expr]. rewrite !list_stmts. cbn [lits_of flat_map map]. rewrite app_nil_r. cbn [app list_stmt is_nil map].
    set (rest := ln (T "name = " ++ sq name) ++ _).
    assert (H : py rest (SAssign [EName (T "name")] (EConst (KStr name)) :: SAssign [EName (T "version")] (EConst (KStr version)) ::
      SAssign [EName (T "description")] (EConst (KStr (T "System-installed " ++ name ++ T " bound by rez-next bind"))) :: SAssign [EName (T "tools")] (EList [EConst (KStr name)]) :: opt_list o)).
    { unfold rest. apply (read_text (T "name")); [apply variable_of; reflexivity|exact PN|]. apply (read_text (T "version")); [apply variable_of; reflexivity|exact PV|].
      apply (read_text (T "description")); [apply variable_of; reflexivity|apply plain1_app; [apply plain1b; reflexivity|apply plain1_app; [exact PN|apply plain1b; reflexivity]]|].
      apply (read_one (T "tools")); [apply variable_of; reflexivity|exact PN|]. exact K. }
    assert (C : forall c s l, ~ In NL c -> py s l -> py (ln ("#"%char :: c) ++ s) l). { intros c s l NC Hs. unfold ln. rewrite <- app_assoc. exact (py_comment c s l NC Hs). }
    apply (C (T " Auto-generated by rez-next bind")); [vm_compute; intuition discriminate|]. destruct exe as [p|].
    + apply (C (T " Bound executable: " ++ p)); [|exact H]. intros I. apply in_app_iff in I. destruct I as [I|I]; [revert I; vm_compute; intuition discriminate|]. exact (Nl p (PE p eq_refl) I).
    + apply (C (T " Executable path not detected")); [vm_compute; intuition discriminate|exact H].
Qed.
Lemma lib_loads name version exe v : good_name name -> plain1 version -> parse_version version = Some v -> v_str v <> [] -> (forall p, exe = Some p -> plain1 (slashes p)) ->
  loads_as (lib_text name version exe []) (a_package name v (T "System-installed " ++ name ++ T " bound by rez-next bind") [] [name] (option_map prepends (lib_dir exe))).
Proof.
  intros N PV V Vn PE. destruct (lib_reads name version exe (good_plain name N) PV PE) as (o & R & S). eexists. split; [exact R|].
  exact (bind_load name version _ [] [name] o _ v N V Vn (fun H => H) S).
Qed.
Lemma lib_bad name version exe v : ~ good_name name -> plain1 name -> plain1 version -> parse_version version = Some v -> (forall p, exe = Some p -> plain1 (slashes p)) ->
  exists l, py (lib_text name version exe []) l /\ forall W, load W l = Err.
Proof.
  intros N PN PV V PE. destruct (lib_reads name version exe PN PV PE) as (o & R & S). eexists. split; [exact R|].
  exact (bind_bad name version _ [] [name] o _ v N V S).
Qed.
