(** The package.py files written for pip packages are read back. *)
From Verif Require Import Base Base_lemmas Text_lemmas Maps Json Version_model Rex_model Requirement_model Query_model Pyfile_model Pkgfile_model Pkgfile_spec Pyfile_files Pkgfile_python Pkgfile_loads Release_model Pip_model Pip_spec.
Open Scope string_scope.
Open Scope list_scope.

Lemma cli_commands_text : cli_commands = commands_text (T "{root}/python").
Proof. reflexivity. Qed.
Lemma api_commands_text : api_commands = commands_text (T "{root}/lib/python{python.major}.{python.minor}/site-packages").
Proof. reflexivity. Qed.
(** ** the parts *)
Lemma lines_text_of x s : word x -> plain s -> lines_read (ln (x ++ T " = " ++ quoted s)) (assigns x (EConst (KStr s))).
Proof. intros W P. apply block_lines, block_quoted; assumption. Qed.
Lemma lines_author s : plain s -> lines_read (ln (T "authors = [" ++ quoted s ++ T "]")) (assigns (T "authors") (str_list [s])).
Proof.
  intros P r. unfold ln. rewrite <- !app_assoc. change (T "authors = [" ++ ?t) with (T "authors" ++ T " = " ++ T "[" ++ t). rewrite R_assign by (apply word_of; reflexivity).
  pose proof (R_bracket 0 (T "authors") [] [s] ([NL] ++ r)) as B. cbn [map join] in B. rewrite B by (intros a [<-|[]]; exact P). rewrite (R_end _ _ _ r) by (right; reflexivity). reflexivity.
Qed.
Lemma lines_cli_requires l : plain_all l -> lines_read (ln (T "requires = " ++ cli_requires l)) (assigns (T "requires") (str_list l)).
Proof.
  intros P r. unfold ln, cli_requires. rewrite <- !app_assoc. change (T "requires = " ++ ?t) with (T "requires" ++ T " = " ++ t). rewrite R_assign by (apply word_of; reflexivity).
  destruct l as [|a l].
  - cbn [is_nil]. change (T "[]" ++ [NL] ++ r) with ("["%char :: "]"%char :: NL :: r). rewrite R_open, R_close_value, (R_end _ _ (NL :: r) r) by (right; reflexivity). reflexivity.
  - cbn [is_nil]. rewrite <- !app_assoc. change (T "[" ++ ?t) with ("["%char :: t). rewrite R_open. change ([NL] ++ ?t) with (NL :: t). rewrite R_inner_line, R_indent.
    change (T "," ++ [NL] ++ T "    ") with (","%char :: (NL :: T "    ")).
    change ([NL] ++ T "]" ++ [NL] ++ r) with ([NL] ++ "]"%char :: NL :: r).
    rewrite (R_joined quoted (fun s => EConst (KStr s)) plain (NL :: T "    ") (T "requires") 0 []);
      [|reflexivity|intros b es r' Pb U; apply R_quoted; auto; right; reflexivity|exact P|reflexivity|reflexivity].
    rewrite (R_end _ _ (NL :: r) r) by (right; reflexivity). reflexivity.
Qed.
Lemma lines_api_requires l : plain_all l -> lines_read (ln (api_requires l)) (opt_assign (T "requires") (some_list l)).
Proof.
  intros P. unfold api_requires, some_list. destruct l as [|a l]; cbn [is_nil]; [exact lines_blank|]. change (opt_assign (T "requires") (Some (str_list (a :: l)))) with (assigns (T "requires") (str_list (a :: l))).
  intros r. unfold ln. cbn [app]. rewrite R_blank. rewrite <- !app_assoc. change (T "requires = [" ++ ?t) with (T "requires" ++ T " = " ++ ("["%char :: t)). rewrite R_assign by (apply word_of; reflexivity).
  rewrite R_open. cbn [app]. rewrite R_inner_line. rewrite <- !app_assoc. cbn [app]. rewrite <- ?app_assoc. cbn [app].
  assert (E : forall l es r, plain_all l -> R MBetween 1 (XValue (T "requires") [FList es]) (join [NL] (map (fun r => T "    " ++ quoted r ++ T ",") l) ++ NL :: r) =
     R MBetween 1 (XValue (T "requires") [FList (es ++ map (fun s => EConst (KStr s)) l)]) r).
  { clear. induction l as [|b l IH]; intros es r P.
    - cbn [map join app]. rewrite R_inner_line, app_nil_r. reflexivity.
    - assert (Pb : plain b) by (apply P; left; reflexivity). assert (Pl : plain_all l) by (intros x X; apply P; right; exact X).
      destruct l as [|c l].
      + cbn [map join]. rewrite <- !app_assoc. rewrite R_indent. change (T "," ++ NL :: r) with (","%char :: NL :: r). rewrite R_item by exact Pb. apply R_inner_line.
      + cbn [map] in *. change (join [NL] (?x :: ?y :: ?z)) with (x ++ [NL] ++ join [NL] (y :: z)). rewrite <- !app_assoc. rewrite R_indent. change (T "," ++ [NL] ++ ?t) with (","%char :: NL :: t).
        rewrite R_item by exact Pb. rewrite R_inner_line, IH by exact Pl. rewrite <- app_assoc. reflexivity. }
  rewrite E by exact P. change (T "]" ++ NL :: NL :: r) with ("]"%char :: NL :: NL :: r). rewrite R_close_value, (R_end _ _ (NL :: NL :: r) (NL :: r)) by (right; reflexivity). rewrite R_blank. reflexivity.
Qed.
(** ** values and a function *)
Lemma command_loads w st x : process w st (commands_stmt x) = Ok (mkState (s_vars st) (aput (T "commands") (FText (Some (write2 (T "env.prepend_path") (T "PYTHONPATH") x))) (s_data st))).
Proof. reflexivity. Qed.
Lemma loop_app (f : pstate -> stmt -> res pstate) a : forall st b, process_loop f st (a ++ b) = bind (process_loop f st a) (fun st' => process_loop f st' b).
Proof. induction a as [|s a IH]; intros st b; cbn [app process_loop]; [destruct b; reflexivity|]. destruct (f st s); cbn [bind]; [apply IH|reflexivity|reflexivity]. Qed.
Lemma load_commands w l x : (forall y a, In (y, a) (lits_of l) -> lit_fits y a) ->
  load w (map (fun b => SAssign [EName (fst b)] (lit_expr (snd b))) (lits_of l) ++ [commands_stmt x]) =
  Pyfile_model.build_package (aput (T "commands") (FText (Some (write2 (T "env.prepend_path") (T "PYTHONPATH") x))) (lit_data l)).
Proof.
  intros H. unfold load. rewrite loop_app. destruct (process_lits w (lits_of l) H (mkState [] [])) as [vars E]. rewrite E. cbn [bind process_loop]. rewrite command_loads. reflexivity.
Qed.
Lemma write_line x : write2 (T "env.prepend_path") (T "PYTHONPATH") x = command_line x.
Proof. unfold write2, command_line. reflexivity. Qed.
(** the fields both writers set *)
Definition pip_fields (name version description author : text) (requires : option (list text)) : list (text * option lit) :=
  [(T "name", Some (LText name)); (T "version", Some (LText version)); (T "description", Some (LText description)); (T "authors", Some (LTexts [author]));
   (T "requires", match requires with Some l => Some (LTexts l) | None => None end)].
Lemma pip_load w name version description author requires x v : good_name name -> parse_version version = Some v -> v_str v <> [] -> (forall l, requires = Some l -> ~ In [] l) ->
  exists q, load w (map (fun b => SAssign [EName (fst b)] (lit_expr (snd b))) (lits_of (pip_fields name version description author requires)) ++ [commands_stmt x]) = Ok q /\
    of_python q = pip_pkg name v description author (match requires with Some l => l | None => [] end) (command_line x).
Proof.
  intros [N1 N2] V Vn R. rewrite load_commands.
  2:{ intros y a Ha. unfold pip_fields, lits_of in Ha. cbn [flat_map fst snd app] in Ha. destruct requires as [l|]; cbn [app] in Ha; repeat (destruct Ha as [Ha|Ha]; [injection Ha as <- <-; reflexivity|]); destruct Ha. }
  set (D := aput (T "commands") _ _).
  assert (G : forall y, aget y D = if text_eqb y (T "commands") then Some (FText (Some (command_line x))) else match aget y (pip_fields name version description author requires) with Some (Some a) => Some (lit_field a) | _ => None end).
  { intros y. unfold D. destruct (text_eqb_spec y (T "commands")) as [->|E]; [rewrite aget_put_same, write_line; reflexivity|]. rewrite aget_put_other by exact E. unfold lit_data. apply lits_get.
    unfold pip_fields. cbn [map fst]. repeat (constructor; [cbn; intuition discriminate|]). constructor. }
  assert (E : of_python (mkPy name (Some v) D) = pip_pkg name v description author (match requires with Some l => l | None => [] end) (command_line x)).
  { unfold of_python, pip_pkg. cbn [y_name y_version y_data]. unfold text_field, texts_field, variants_field, tests_field, bool_field, int_field. rewrite !G. destruct requires; reflexivity. }
  exists (mkPy name (Some v) D). split; [|exact E].
  assert (A : acceptable (pip_pkg name v description author (match requires with Some l => l | None => [] end) (command_line x))).
  { unfold acceptable, pip_pkg. cbn [k_name k_version k_requires k_build_requires k_private_build_requires k_variants]. split; [exact N1|]. split; [exact N2|]. split; [intros v0 H; injection H as <-; exact Vn|].
    split; [destruct requires as [l|]; [apply (R l eq_refl)|intros []]|]. split; [intros []|]. split; [intros []|intros l []]. }
  apply valid_iff in A. rewrite <- E in A. assert (W : validate (mkPy name (Some v) D) = true) by exact A.
  unfold Pyfile_model.build_package. assert (T1 : text_field (T "name") D = Some name) by (unfold text_field; rewrite G; reflexivity). assert (T2 : text_field (T "version") D = Some version) by (unfold text_field; rewrite G; reflexivity).
  rewrite T1, T2, V, W. reflexivity.
Qed.
(** ** the two files *)
Lemma swap_in a b c s : In c (swap a b s) -> (In c s /\ c <> a) \/ c = b.
Proof.
  unfold swap. intros H. apply in_map_iff in H. destruct H as (d & E & D). revert E. case (Ascii.eqb_spec d a); intros X E; [right; symmetry; exact E|]. left. subst d. split; assumption.
Qed.
Lemma lower_plain s : plain s -> plain (lower s).
Proof.
  intros P c C I. unfold lower in C. apply in_map_iff in C as (d & <- & D). apply (P d D). revert I. destruct d as [[] [] [] [] [] [] [] []]; vm_compute; intros I; repeat (destruct I as [I|I]; [try discriminate I; tauto|]); destruct I.
Qed.
Lemma swap_plain a b s : plain s -> ~ In b [DQ; BS; NL; CR; "000"%char] -> plain (swap a b s).
Proof. intros P B c C. destruct (swap_in a b c s C) as [[H _]| ->]; [apply P, H|exact B]. Qed.
Lemma cli_plain s : plain s -> plain (cli_name s).
Proof. intros P. apply swap_plain; [apply lower_plain, P|cbn; intuition discriminate]. Qed.
Lemma lower_nil s : lower s = [] <-> s = [].
Proof. unfold lower. destruct s; cbn; split; congruence. Qed.
Lemma cli_nil s : cli_name s = [] <-> s = [].
Proof. unfold cli_name, swap, lower. destruct s; cbn; split; congruence. Qed.
Lemma cli_good n : good_name n -> good_name (cli_name n).
Proof.
  intros [N H]. split; [rewrite cli_nil; exact N|]. intros c C. destruct (swap_in "-" "_" c (lower n) C) as [[D _]| ->]; [|tauto]. unfold lower in D. apply in_map_iff in D as (d & <- & D). destruct (H d D) as [H1|[-> | ->]]; [left|right; left; reflexivity|right; right; reflexivity].
  revert H1. destruct d as [[] [] [] [] [] [] [] []]; vm_compute; congruence.
Qed.
Lemma summary_plain s : (forall c, In c s -> ~ In c [BS; NL; CR; "000"%char]) -> plain (swap DQ SQ s).
Proof.
  intros H c C I. destruct (swap_in DQ SQ c s C) as [[D N]| ->]; [|cbn in I; intuition discriminate]. destruct I as [<-|I]; [contradiction|]. exact (H c D I).
Qed.
Lemma lits_stmts l : map (fun b => SAssign [EName (fst b)] (lit_expr (snd b))) (lits_of l) = concat (map (fun b => match snd b with Some a => assigns (fst b) (lit_expr a) | None => [] end) l).
Proof. induction l as [|[x [a|]] l IH]; cbn [map concat snd fst]; [reflexivity| |exact IH]. change (lits_of ((x, Some a) :: l)) with ((x, a) :: lits_of l). cbn [map]. rewrite IH. reflexivity. Qed.
Lemma cli_loads L w i v : reads_functions L -> good_name (n_name i) -> plain (n_version i) -> parse_version (n_version i) = Some v -> v_str v <> [] ->
  (forall c, In c (n_summary i) -> ~ In c [BS; NL; CR; "000"%char]) -> plain_all (n_requires i) ->
  load_python L w (cli_package_py i) =
  Ok (pip_pkg (cli_name (n_name i)) v (swap DQ SQ (n_summary i)) (T "pip-rez-next") (map cli_name (filter (fun r => negb (is_nil r)) (n_requires i))) (command_line (T "{root}/python"))).
Proof.
  intros HL N PV V Vn S PR. set (rs := map cli_name (filter (fun r => negb (is_nil r)) (n_requires i))).
  assert (Prs : plain_all rs). { intros r H. unfold rs in H. apply in_map_iff in H as (r' & <- & H). apply filter_In in H as [H _]. apply cli_plain, PR, H. }
  assert (Pn : plain (cli_name (n_name i))).
  { intros c C I. destruct (cli_good _ N) as [_ G]. apply G in C. destruct C as [C|[-> | ->]]; [|cbn in I; intuition discriminate|cbn in I; intuition discriminate]. revert C. repeat (destruct I as [<-|I]; [discriminate|]). destruct I. }
  assert (Nn : ~ In [] rs). { intros H. unfold rs in H. apply in_map_iff in H as (r' & E & H). apply filter_In in H as [_ H]. apply (proj1 (cli_nil r')) in E. subst. discriminate H. }
  destruct (pip_load w (cli_name (n_name i)) (n_version i) (swap DQ SQ (n_summary i)) (T "pip-rez-next") (Some rs) (T "{root}/python") v (cli_good _ N) V Vn ltac:(intros l H; injection H as <-; exact Nn)) as (q & Q1 & Q2).
  set (head := ln (T "name = " ++ quoted (cli_name (n_name i))) ++ ln (T "version = " ++ quoted (n_version i)) ++ ln (T "description = " ++ quoted (swap DQ SQ (n_summary i))) ++
    ln (T "authors = [" ++ quoted (T "pip-rez-next") ++ T "]") ++ [NL] ++ ln (T "requires = " ++ cli_requires rs) ++ [NL]).
  assert (EH : cli_package_py i = head ++ commands_text (T "{root}/python")).
  { unfold cli_package_py, head. rewrite cli_commands_text. fold rs. rewrite <- !app_assoc. reflexivity. }
  assert (RH : python_reads head = Some (map (fun b => SAssign [EName (fst b)] (lit_expr (snd b))) (lits_of (pip_fields (cli_name (n_name i)) (n_version i) (swap DQ SQ (n_summary i)) (T "pip-rez-next") (Some rs))))).
  { rewrite lits_stmts. apply lines_end. unfold head, pip_fields. cbn [map concat snd fst lit_expr].
    apply lines_app; [apply (lines_text_of (T "name")); [apply word_of; reflexivity|exact Pn]|].
    apply lines_app; [apply (lines_text_of (T "version")); [apply word_of; reflexivity|exact PV]|].
    apply lines_app; [apply (lines_text_of (T "description")); [apply word_of; reflexivity|apply summary_plain, S]|].
    apply lines_app; [apply lines_author; apply plainb; reflexivity|].
    apply (lines_app _ _ [] _ lines_blank). exact (lines_app _ _ (assigns (T "requires") (str_list rs)) [] (lines_cli_requires rs Prs) lines_blank). }
  unfold load_python. rewrite EH. rewrite (HL head _ (T "{root}/python") ltac:(apply plainb; reflexivity) ltac:(right; eexists; unfold head; rewrite !app_assoc; reflexivity) RH).
  rewrite Q1. cbn [bind]. rewrite Q2. reflexivity.
Qed.
Lemma api_loads L w p v : reads_functions L -> good_name (i_name p) -> plain (i_version p) -> parse_version (i_version p) = Some v -> v_str v <> [] -> plain (i_description p) ->
  plain_all (i_requires p) -> ~ In [] (i_requires p) ->
  load_python L w (api_package_py p) =
  Ok (pip_pkg (i_name p) v (i_description p) (T "pip") (i_requires p) (command_line (T "{root}/lib/python{python.major}.{python.minor}/site-packages"))).
Proof.
  intros HL N PV V Vn PD PR Nn. set (rs := i_requires p) in *. set (x := T "{root}/lib/python{python.major}.{python.minor}/site-packages").
  assert (Pn : plain (i_name p)).
  { intros c C I. destruct N as [_ G]. apply G in C. destruct C as [C|[-> | ->]]; [|cbn in I; intuition discriminate|cbn in I; intuition discriminate]. revert C. repeat (destruct I as [<-|I]; [discriminate|]). destruct I. }
  set (o := if is_nil rs then None else Some rs).
  destruct (pip_load w (i_name p) (i_version p) (i_description p) (T "pip") o x v N V Vn) as (q & Q1 & Q2).
  { unfold o. intros l H. destruct (is_nil rs); [discriminate|injection H as <-; exact Nn]. }
  assert (Q3 : of_python q = pip_pkg (i_name p) v (i_description p) (T "pip") rs (command_line x)) by (rewrite Q2; unfold o; destruct rs; reflexivity).
  set (head := ln (T "name = " ++ quoted (i_name p)) ++ ln (T "version = " ++ quoted (i_version p)) ++ ln (T "description = " ++ quoted (i_description p)) ++
    ln (T "authors = [" ++ quoted (T "pip") ++ T "]") ++ ln (api_requires rs)).
  assert (EH : api_package_py p = head ++ commands_text x).
  { unfold api_package_py, head. rewrite api_commands_text. fold rs x. rewrite <- !app_assoc. reflexivity. }
  assert (RH : python_reads head = Some (map (fun b => SAssign [EName (fst b)] (lit_expr (snd b))) (lits_of (pip_fields (i_name p) (i_version p) (i_description p) (T "pip") o)))).
  { rewrite lits_stmts. apply lines_end. unfold head, pip_fields. cbn [map concat snd fst lit_expr].
    apply lines_app; [apply (lines_text_of (T "name")); [apply word_of; reflexivity|exact Pn]|].
    apply lines_app; [apply (lines_text_of (T "version")); [apply word_of; reflexivity|exact PV]|].
    apply lines_app; [apply (lines_text_of (T "description")); [apply word_of; reflexivity|exact PD]|].
    apply lines_app; [apply lines_author; apply plainb; reflexivity|]. rewrite app_nil_r.
    pose proof (lines_api_requires rs PR) as LR. unfold o, some_list in *. destruct (is_nil rs); exact LR. }
  assert (EN : exists r, head = r ++ [NL]).
  { unfold head, ln. exists (ln (T "name = " ++ quoted (i_name p)) ++ ln (T "version = " ++ quoted (i_version p)) ++ ln (T "description = " ++ quoted (i_description p)) ++
      ln (T "authors = [" ++ quoted (T "pip") ++ T "]") ++ api_requires rs). unfold ln. rewrite <- !app_assoc. reflexivity. }
  unfold load_python. rewrite EH. rewrite (HL head _ x ltac:(apply plainb; reflexivity) (or_intror EN) RH). rewrite Q1. cbn [bind]. rewrite Q3. reflexivity.
Qed.
