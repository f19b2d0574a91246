(** Properties C38, C39 and C90-C94: suites. *)
From Verif Require Import Base Base_lemmas Maps Order_spec Suite_model Suite_spec Suite_proofs Suite_edits Codec.
Open Scope string_scope. Open Scope list_scope.

(** ** Concrete data *)
Definition plain_order (i : nat) (l : list (text * text)) : list (text * text) := l.
Definition back_order (i : nat) (l : list (text * text)) : list (text * text) := rev l.
Lemma plain_every : every_order plain_order. Proof. intros i l. apply Permutation_refl. Qed.
Lemma back_every : every_order back_order. Proof. intros i l. apply Permutation_sym, Permutation_rev. Qed.
Definition then_ (o : option suite) (f : suite -> option suite) : option suite := match o with Some s => f s | None => None end.
Definition some_suite (o : option suite) : suite := match o with Some s => s | None => new_suite end.
Definition with_mode (m : mode) (s : suite) : suite := mkSuite (su_contexts s) (su_desc s) m.
(** two contexts share the tool run, one hides a tool *)
Definition shop_opt : option suite :=
  then_ (add_context (T "maya") [T "maya-2024"] new_suite) (fun s =>
  then_ (alias_tool (T "maya") (T "run") (T "maya") s) (fun s =>
  then_ (alias_tool (T "maya") (T "render") (T "render") s) (fun s =>
  then_ (hide_tool (T "maya") (T "render") s) (fun s =>
  then_ (add_context (T "nuke") [T "nuke-13"; T "python"] s) (fun s =>
  then_ (alias_tool (T "nuke") (T "run") (T "nuke") s) (fun s =>
  alias_tool (T "nuke") (T "view") (T "view") s)))))).
Definition shop : suite := Eval vm_compute in some_suite shop_opt.
Lemma shop_eq : shop_opt = Some shop. Proof. vm_compute. reflexivity. Qed.
Lemma then_history o f s : then_ o f = Some s -> (forall x, o = Some x -> history x) -> (forall x y, f x = Some y -> edit x y) -> history s.
Proof. destruct o as [x|]; [|discriminate]. cbn. intros E H Hf. eapply history_edit; [apply H; reflexivity|apply Hf, E]. Qed.
Lemma shop_history : history shop.
Proof.
  assert (H := shop_eq). unfold shop_opt, then_ in H.
  destruct (add_context (T "maya") _ new_suite) as [s1|] eqn:E1; [|discriminate].
  destruct (alias_tool _ _ _ s1) as [s2|] eqn:E2; [|discriminate]. destruct (alias_tool _ _ _ s2) as [s3|] eqn:E3; [|discriminate].
  destruct (hide_tool _ _ s3) as [s4|] eqn:E4; [|discriminate]. destruct (add_context _ _ s4) as [s5|] eqn:E5; [|discriminate].
  destruct (alias_tool _ _ _ s5) as [s6|] eqn:E6; [|discriminate].
  eapply history_edit; [|exact (edit_alias _ _ _ _ _ H)]. eapply history_edit; [|exact (edit_alias _ _ _ _ _ E6)]. eapply history_edit; [|exact (edit_add _ _ _ _ E5)].
  eapply history_edit; [|exact (edit_hide _ _ _ _ E4)]. eapply history_edit; [|exact (edit_alias _ _ _ _ _ E3)]. eapply history_edit; [|exact (edit_alias _ _ _ _ _ E2)].
  eapply history_edit; [|exact (edit_add _ _ _ _ E1)]. constructor.
Qed.
Lemma mode_history m s : history s -> history (with_mode m s).
Proof. intros H. eapply history_edit; [exact H|apply edit_mode]. Qed.
(** a writer and a reader of suite files *)
Definition ctx_codec : codec sctx.
Proof.
  refine (iso_codec (pair_codec text_codec (pair_codec (list_codec text_codec) (pair_codec (list_codec (pair_codec text_codec text_codec))
    (pair_codec (list_codec text_codec) (pair_codec (option_codec text_codec) (pair_codec Z_codec bool_codec))))))
    (fun c => (sc_name c, (sc_requests c, (sc_aliases c, (sc_hidden c, (sc_prefix c, (sc_priority c, sc_disabled c)))))))
    (fun p => match p with (a, (b, (c, (d, (e, (f, g)))))) => mkSctx a b c d e f g end) _).
  intros []; reflexivity.
Defined.
Definition file_codec : codec suite_file.
Proof.
  refine (iso_codec (pair_codec (list_codec ctx_codec) (pair_codec (option_codec text_codec) (option_codec text_codec)))
    (fun f => (sf_contexts f, (sf_desc f, sf_mode f))) (fun p => match p with (a, (b, c)) => mkSfile a b c end) _).
  intros []; reflexivity.
Defined.
Lemma same_ctxs_refl l : Forall2 same_ctx l l.
Proof. induction l as [|c l IH]; constructor; [|exact IH]. unfold same_ctx. repeat split; try reflexivity. Qed.
Lemma codec_faithful : faithful (enc file_codec) (read_all file_codec).
Proof. split; [reflexivity|]. intros f. exists f. split; [apply read_all_enc|]. split; [apply same_ctxs_refl|]. auto. Qed.

(** ** C38 *)
(** Whatever the edits, context names are distinct and made of letters, digits, dashes and underscores. *)
Theorem C38_unique : forall s, history s -> NoDup (map sc_name (su_contexts s)) /\ forall c, In c (su_contexts s) -> good_name (sc_name c).
Proof. intros s H. destruct (history_fine s H) as (A & B & _). auto. Qed.
Print Assumptions C38_unique.
(** In first mode the table maps each exposed name to the first context exposing it. *)
Theorem C38_first : forall ord s, every_order ord -> history s -> su_mode s = MFirst -> exists m, get_tools ord s = Tools m /\ NoDup (akeys m) /\
  (forall a t, aget a m = Some t -> exists c o, first_of (su_contexts s) a o c /\ entry a o c t) /\
  (forall a o c, first_of (su_contexts s) a o c -> exists t, aget a m = Some t /\ entry a o c t).
Proof. intros ord s Ho H Em. apply table_first; [exact Ho|apply history_fine, H|exact Em]. Qed.
Print Assumptions C38_first.
(** In last mode it maps each exposed name to the last one. *)
Theorem C38_last : forall ord s, every_order ord -> history s -> su_mode s = MLast -> exists m, get_tools ord s = Tools m /\ NoDup (akeys m) /\
  (forall a t, aget a m = Some t -> exists c o, last_of (su_contexts s) a o c /\ entry a o c t) /\
  (forall a o c, last_of (su_contexts s) a o c -> exists t, aget a m = Some t /\ entry a o c t).
Proof. intros ord s Ho H Em. apply table_last; [exact Ho|apply history_fine, H|exact Em]. Qed.
Print Assumptions C38_last.
(** In error mode there is a table only without clashes, and then it lists everything exposed; an error names a real clash. *)
Theorem C38_error : forall ord s, every_order ord -> history s -> su_mode s = MError ->
  match get_tools ord s with
  | Tools m => NoDup (akeys m) /\ (forall a c c', ~ clash (su_contexts s) a c c') /\
      (forall a t, aget a m = Some t -> exists c o, In c (su_contexts s) /\ provides c a o /\ entry a o c t) /\
      (forall c a o, In c (su_contexts s) -> provides c a o -> exists t, aget a m = Some t /\ entry a o c t)
  | Conflict a t => exists c c', clash (su_contexts s) a c c' /\ t = sc_name c ++ T ", " ++ sc_name c'
  end.
Proof. intros ord s Ho H Em. apply table_error; [exact Ho|apply history_fine, H|exact Em]. Qed.
Print Assumptions C38_error.
(** The order in which the alias maps are walked does not matter. *)
Theorem C38_order : forall ord ord' s m, every_order ord -> every_order ord' -> history s -> su_mode s <> MPrefix -> get_tools ord s = Tools m ->
  exists m', get_tools ord' s = Tools m' /\ forall a, aget a m = aget a m'.
Proof. intros ord ord' s m Ho Ho' H. apply table_order; [exact Ho|exact Ho'|apply history_fine, H]. Qed.
Print Assumptions C38_order.
Example C38_example : history shop /\ get_tools plain_order shop = Conflict (T "run") (T "maya, nuke") /\
  get_tools back_order (with_mode MFirst shop) = Tools [(T "run", mkStool (T "run") (T "maya") (T "maya") (T "maya-2024") true false);
    (T "view", mkStool (T "view") (T "view") (T "nuke") (T "nuke-13") false false)] /\
  get_tools plain_order (with_mode MLast shop) = Tools [(T "run", mkStool (T "run") (T "nuke") (T "nuke") (T "nuke-13") true false);
    (T "view", mkStool (T "view") (T "view") (T "nuke") (T "nuke-13") false false)] /\
  add_context (T "maya") [] shop = None /\ add_context (T "a b") [] shop = None.
Proof. split; [exact shop_history|]. vm_compute. repeat split. Qed.

(** ** C39 *)
(** context b exposes x, which clashes with a, and is filed under b_x, which a exposes too *)
Definition lossy_opt : option suite :=
  then_ (add_context (T "a") [] new_suite) (fun s => then_ (alias_tool (T "a") (T "x") (T "ax") s) (fun s => then_ (alias_tool (T "a") (T "b_x") (T "abx") s) (fun s =>
  then_ (add_context (T "b") [] s) (fun s => alias_tool (T "b") (T "x") (T "bx") s)))).
Definition lossy : suite := Eval vm_compute in with_mode MPrefix (some_suite lossy_opt).
Lemma lossy_history : history lossy.
Proof.
  assert (H : lossy_opt = Some (some_suite lossy_opt)) by (vm_compute; reflexivity).
  change lossy with (with_mode MPrefix (some_suite lossy_opt)). apply mode_history. revert H. generalize (some_suite lossy_opt). intros s H. unfold lossy_opt, then_ in H.
  destruct (add_context (T "a") _ new_suite) as [s1|] eqn:E1; [|discriminate].
  destruct (alias_tool _ _ _ s1) as [s2|] eqn:E2; [|discriminate]. destruct (alias_tool _ _ _ s2) as [s3|] eqn:E3; [|discriminate].
  destruct (add_context _ _ s3) as [s4|] eqn:E4; [|discriminate].
  eapply history_edit; [|exact (edit_alias _ _ _ _ _ H)]. eapply history_edit; [|exact (edit_add _ _ _ _ E4)].
  eapply history_edit; [|exact (edit_alias _ _ _ _ _ E3)]. eapply history_edit; [|exact (edit_alias _ _ _ _ _ E2)].
  eapply history_edit; [|exact (edit_add _ _ _ _ E1)]. constructor.
Qed.
(** A tool can be lost: the name made for a clash overwrites a tool of that name. *)
Theorem C39_refuted : exists s c a o m, history s /\ su_mode s = MPrefix /\ In c (su_contexts s) /\ provides c a o /\ get_tools plain_order s = Tools m /\
  forall x t, aget x m = Some t -> ~ (st_context t = sc_name c /\ st_original t = o).
Proof.
  exists lossy, (mkSctx (T "a") [] [(T "x", T "ax"); (T "b_x", T "abx")] [] None 0 false), (T "b_x"), (T "abx").
  eexists. split; [exact lossy_history|]. split; [reflexivity|]. split; [left; reflexivity|]. split; [split; [reflexivity|split; [reflexivity|intros []]]|].
  split; [vm_compute; reflexivity|]. intros x t H [_ E]. apply aget_in in H. destruct H as [[= <- <-]|[[= <- <-]|[]]]; discriminate E.
Qed.
Print Assumptions C39_refuted.
(** The table can even depend on the order of an alias map. *)
Theorem C39_order_refuted : exists s m m', history s /\ su_mode s = MPrefix /\ get_tools plain_order s = Tools m /\ get_tools back_order s = Tools m' /\
  aget (T "b_b_x") m <> aget (T "b_b_x") m'.
Proof.
  pose (o := then_ (add_context (T "a") [] new_suite) (fun s => then_ (alias_tool (T "a") (T "x") (T "ax") s) (fun s =>
  then_ (add_context (T "b") [] s) (fun s => then_ (alias_tool (T "b") (T "x") (T "bx") s) (fun s => alias_tool (T "b") (T "b_x") (T "bbx") s))))).
  exists (with_mode MPrefix (some_suite o)). eexists. eexists.
  split; [|split; [reflexivity|split; [vm_compute; reflexivity|split; [vm_compute; reflexivity|intros E; vm_compute in E; discriminate E]]]].
  apply mode_history. assert (H : o = Some (some_suite o)) by (vm_compute; reflexivity). revert H. generalize (some_suite o). intros s H. unfold o, then_ in H.
  destruct (add_context (T "a") _ new_suite) as [s1|] eqn:E1; [|discriminate].
  destruct (alias_tool _ _ _ s1) as [s2|] eqn:E2; [|discriminate]. destruct (add_context _ _ s2) as [s3|] eqn:E3; [|discriminate].
  destruct (alias_tool _ _ _ s3) as [s4|] eqn:E4; [|discriminate].
  eapply history_edit; [|exact (edit_alias _ _ _ _ _ H)]. eapply history_edit; [|exact (edit_alias _ _ _ _ _ E4)].
  eapply history_edit; [|exact (edit_add _ _ _ _ E3)]. eapply history_edit; [|exact (edit_alias _ _ _ _ _ E2)].
  eapply history_edit; [|exact (edit_add _ _ _ _ E1)]. constructor.
Qed.
Print Assumptions C39_order_refuted.
(** Each entry is a tool some context exposes, under its own name or the one made for a clash. *)
Theorem C39_sound : forall ord s, every_order ord -> history s -> su_mode s = MPrefix -> exists m, get_tools ord s = Tools m /\
  forall x t, aget x m = Some t -> exists c a o, In c (su_contexts s) /\ provides c a o /\ (x = a \/ x = sc_name c ++ T "_" ++ a) /\ entry x o c t.
Proof. intros ord s Ho H Em. apply table_prefix_sound; [exact Ho|apply history_fine, H|exact Em]. Qed.
Print Assumptions C39_sound.
(** If the names made for clashes are new and distinct, the first context keeps the name, the others get theirs, and nothing else is listed. *)
Theorem C39_exact_partial : forall ord s, every_order ord -> history s -> su_mode s = MPrefix -> apart (su_contexts s) ->
  exists m, get_tools ord s = Tools m /\
  (forall a o c, first_of (su_contexts s) a o c -> exists t, aget a m = Some t /\ entry a o c t) /\
  (forall a o c c', clash (su_contexts s) a c' c -> provides c a o -> exists t, aget (sc_name c ++ T "_" ++ a) m = Some t /\ entry (sc_name c ++ T "_" ++ a) o c t) /\
  (forall x t, aget x m = Some t ->
     (exists o c, first_of (su_contexts s) x o c /\ entry x o c t) \/
     (exists a o c c', x = sc_name c ++ T "_" ++ a /\ clash (su_contexts s) a c' c /\ provides c a o /\ entry x o c t)).
Proof. intros ord s Ho H Em A. destruct (history_fine s H) as (N & _ & P). apply table_prefix; assumption. Qed.
Print Assumptions C39_exact_partial.
Lemma shop_apart : apart (su_contexts shop).
Proof.
  assert (Q : forall c a o, In c (su_contexts shop) -> provides c a o -> (sc_name c = T "maya" /\ a = T "run") \/ (sc_name c = T "nuke" /\ (a = T "run" \/ a = T "view"))).
  { intros c a o Hc (_ & H & Hh). destruct Hc as [<-|[<-|[]]]; apply aget_in in H; cbn in H.
    - destruct H as [[= <- <-]|[[= <- <-]|[]]]; [left; auto|]. destruct Hh. left. reflexivity.
    - destruct H as [[= <- <-]|[[= <- <-]|[]]]; right; auto. }
  split.
  - intros c a o c' a' o' Hc Hc' Hp Hp'. destruct (Q c a o Hc Hp) as [[-> ->]|[-> [-> | ->]]], (Q c' a' o' Hc' Hp') as [[_ ->]|[_ [-> | ->]]]; discriminate.
  - intros c a o c' a' o' Hc Hc' Hp Hp'. destruct (Q c a o Hc Hp) as [[-> ->]|[-> [-> | ->]]], (Q c' a' o' Hc' Hp') as [[-> ->]|[-> [-> | ->]]]; intros E; (discriminate E || auto).
Qed.
Example C39_example : history (with_mode MPrefix shop) /\ apart (su_contexts shop) /\
  get_tools plain_order (with_mode MPrefix shop) = Tools [(T "run", mkStool (T "run") (T "maya") (T "maya") (T "maya-2024") true false);
    (T "nuke_run", mkStool (T "nuke_run") (T "nuke") (T "nuke") (T "nuke-13") true false);
    (T "view", mkStool (T "view") (T "view") (T "nuke") (T "nuke-13") false false)].
Proof. split; [apply mode_history, shop_history|]. split; [exact shop_apart|]. vm_compute. reflexivity. Qed.

(** ** C90 *)
(** A saved suite loads back as it was, with any serialisation library that reads what it writes. *)
Theorem C90_round_trip : forall write read p s d, faithful write read ->
  (exists s', load read p (save write p s d) = Some s' /\ same_suite s s') /\ is_suite p (save write p s d) = true.
Proof. intros w r p s d H. split; [apply load_saved, H|apply saved_is_suite]. Qed.
Print Assumptions C90_round_trip.
(** Tables of suites that are the same up to the order of the alias maps are the same, up to that order. *)
Theorem C90_tools : forall ord' s s', every_order ord' -> same_suite s s' -> exists ord, every_order ord /\ get_tools ord s = get_tools ord' s'.
Proof. exact tools_same. Qed.
Print Assumptions C90_tools.
(** Nothing else on disk changes, and other suites load as before. *)
Theorem C90_others : forall write read p s d, (forall q, q <> yaml_path p -> q <> marker_path p -> aget q (save write p s d) = aget q d) /\
  forall q, p <> q -> load read q (save write p s d) = load read q d.
Proof. intros w r p s d. split; [intros q; apply saved_others|intros q; apply load_others]. Qed.
Print Assumptions C90_others.
(** A file gives the mode it names, whatever the case of its letters, and the error mode if it names none. *)
Theorem C90_mode : forall read p d t f, aget (yaml_path p) d = Some t -> read t = Some f -> exists s, load read p d = Some s /\
  ((exists n m, sf_mode f = Some n /\ map to_lower n = mode_text m /\ su_mode s = m) \/
   ((forall n m, sf_mode f = Some n -> map to_lower n <> mode_text m) /\ su_mode s = MError)).
Proof.
  intros read p d t f E R. unfold load. rewrite E, R. eexists. split; [reflexivity|]. cbn [su_mode]. unfold file_mode. destruct (sf_mode f) as [n|]; [|right; split; [discriminate|reflexivity]].
  destruct (parse_mode n) as [m|] eqn:P; [left; exists n, m; apply parse_mode_some in P; auto|]. right. split; [|reflexivity]. intros n' m [= <-] K. apply parse_mode_some in K. congruence.
Qed.
Print Assumptions C90_mode.
Example C90_example : faithful (enc file_codec) (read_all file_codec) /\
  load (read_all file_codec) (T "/s") (save (enc file_codec) (T "/s") (with_mode MLast shop) [(T "/s/other", [])]) = Some (with_mode MLast shop).
Proof. split; [exact codec_faithful|]. vm_compute. reflexivity. Qed.

(** ** C91 *)
(** A file with two contexts of one name is loaded as it is. *)
Theorem C91_refuted : exists p d s, load (read_all file_codec) p d = Some s /\ ~ NoDup (map sc_name (su_contexts s)) /\ exists c, In c (su_contexts s) /\ ~ good_name (sc_name c).
Proof.
  exists (T "/s"), (aput (yaml_path (T "/s")) (enc file_codec (mkSfile [new_ctx [] []; new_ctx [] []] None None)) []). eexists. split; [vm_compute; reflexivity|]. split.
  - intros N. inversion N as [|? ? H _]. apply H. left. reflexivity.
  - eexists. split; [left; reflexivity|]. intros [H _]. apply H. reflexivity.
Qed.
Print Assumptions C91_refuted.
(** A suite made by the editing methods, saved and loaded, has distinct valid names. *)
Theorem C91_saved_partial : forall write read p s d s', faithful write read -> history s -> load read p (save write p s d) = Some s' ->
  NoDup (map sc_name (su_contexts s')) /\ (forall c, In c (su_contexts s') -> good_name (sc_name c)) /\ proper (su_contexts s').
Proof.
  intros w r p s d s' Hf H E. destruct (load_saved w r p s d Hf) as (s2 & E2 & S2). rewrite E in E2. injection E2 as <-. exact (same_fine s s' S2 (history_fine s H)).
Qed.
Print Assumptions C91_saved_partial.
Example C91_example : history shop /\ load (read_all file_codec) (T "/s") (save (enc file_codec) (T "/s") shop []) = Some shop.
Proof. split; [exact shop_history|]. vm_compute. reflexivity. Qed.

(** ** C92 *)
(** Priorities are documented to decide clashes; the table does not look at them, nor at the prefix. *)
Theorem C92_ignored : forall ord s s', Forall2 same_but_rank (su_contexts s) (su_contexts s') -> su_mode s = su_mode s' -> get_tools ord s = get_tools ord s'.
Proof. exact tools_rank. Qed.
Print Assumptions C92_ignored.
Definition ranked (m : mode) (i j : Z) : suite :=
  mkSuite [mkSctx (T "a") [] [(T "x", T "ax")] [] None i false; mkSctx (T "b") [] [(T "x", T "bx")] [] None j false] None m.
(** In no mode does the context of higher priority win. *)
Theorem C92_refuted : forall m, exists s c c', su_mode s = m /\ clash (su_contexts s) (T "x") c c' /\ exists top low, (top = c /\ low = c' \/ top = c' /\ low = c) /\
  (sc_priority low < sc_priority top)%Z /\
  match get_tools plain_order s with Tools tbl => match aget (T "x") tbl with Some t => st_context t = sc_name low | None => True end | Conflict _ _ => True end.
Proof.
  assert (C : forall m i j, clash (su_contexts (ranked m i j)) (T "x") (mkSctx (T "a") [] [(T "x", T "ax")] [] None i false) (mkSctx (T "b") [] [(T "x", T "bx")] [] None j false)).
  { intros m i j. exists [], [], [], (T "ax"), (T "bx"). split; [reflexivity|]. split; (split; [reflexivity|split; [reflexivity|intros []]]). }
  assert (H : (1 < 2)%Z) by reflexivity.
  intros [| | |].
  - exists (ranked MError 2 1). do 2 eexists. split; [reflexivity|]. split; [apply C|]. do 2 eexists. split; [left; split; reflexivity|]. split; [exact H|]. vm_compute. exact I.
  - exists (ranked MFirst 1 2). do 2 eexists. split; [reflexivity|]. split; [apply C|]. do 2 eexists. split; [right; split; reflexivity|]. split; [exact H|]. vm_compute. reflexivity.
  - exists (ranked MLast 2 1). do 2 eexists. split; [reflexivity|]. split; [apply C|]. do 2 eexists. split; [left; split; reflexivity|]. split; [exact H|]. vm_compute. reflexivity.
  - exists (ranked MPrefix 1 2). do 2 eexists. split; [reflexivity|]. split; [apply C|]. do 2 eexists. split; [right; split; reflexivity|]. split; [exact H|]. vm_compute. reflexivity.
Qed.
Print Assumptions C92_refuted.
Example C92_example : Forall2 same_but_rank (su_contexts (ranked MFirst 1 2)) (su_contexts (ranked MFirst 2 1)) /\
  get_tools plain_order (ranked MFirst 1 2) = get_tools plain_order (ranked MFirst 2 1).
Proof. split; [repeat constructor|]. vm_compute. reflexivity. Qed.

(** ** C93 *)
(** A save that stops half way can leave neither the old nor the new suite. *)
Theorem C93_refuted : exists write read p old s d, faithful write read /\ load read p d = Some old /\
  exists d', In d' (save_steps write p s d) /\ load read p d' = None /\ is_suite p d' = true.
Proof.
  exists (enc file_codec), (read_all file_codec), (T "/s"), shop, (with_mode MLast shop), (save (enc file_codec) (T "/s") shop []).
  split; [exact codec_faithful|]. split; [vm_compute; reflexivity|]. eexists. split; [right; left; reflexivity|]. split; vm_compute; reflexivity.
Qed.
Print Assumptions C93_refuted.
(** That is the only bad moment: at all others the old disk is untouched or the new suite is complete; other suites are never touched. *)
Theorem C93_steps_partial : forall write read p s d d', faithful write read -> In d' (save_steps write p s d) ->
  (d' = d \/ (load read p d' = None /\ aget (yaml_path p) d' = Some []) \/ exists s', load read p d' = Some s' /\ same_suite s s') /\
  forall q, p <> q -> load read q d' = load read q d.
Proof. intros w r p s d d' H Hd. split; [apply (save_cut w), Hd; exact H|]. intros q N. exact (cut_others w r p q s d d' N Hd). Qed.
Print Assumptions C93_steps_partial.
Example C93_example : exists d', In d' (save_steps (enc file_codec) (T "/s") shop [(T "/s/.rez_suite", [])]) /\ load (read_all file_codec) (T "/s") d' = Some shop.
Proof. eexists. split; [right; right; left; reflexivity|]. vm_compute. reflexivity. Qed.

(** ** C94 *)
(** A directory with the marker but no suite file hides the suite of that name on a later path. *)
Theorem C94_refuted : exists s d, load (read_all file_codec) (T "/b/s") d = Some s /\ load_suite (read_all file_codec) [T "/a"; T "/b"] (T "s") d = None.
Proof. exists shop, ((marker_path (T "/a/s"), []) :: save (enc file_codec) (T "/b/s") shop []). split; vm_compute; reflexivity. Qed.
Print Assumptions C94_refuted.
(** If every marked directory has a suite file, the suite on the first path that has one is loaded. *)
Theorem C94_first_partial : forall read n d u b v,
  (forall x, In x (u ++ b :: v) -> ahas (marker_path (x ++ T "/" ++ n)) d = true -> ahas (yaml_path (x ++ T "/" ++ n)) d = true) ->
  (forall x, In x u -> ahas (yaml_path (x ++ T "/" ++ n)) d = false) -> ahas (yaml_path (b ++ T "/" ++ n)) d = true ->
  load_suite read (u ++ b :: v) n d = load read (b ++ T "/" ++ n) d.
Proof. exact load_suite_first. Qed.
Print Assumptions C94_first_partial.
(** A suite saved on a path is found by name when no earlier path has one. *)
Theorem C94_saved_partial : forall write read b n s d u v, faithful write read ->
  (forall x, In x u -> is_suite (x ++ T "/" ++ n) d = false /\ x ++ T "/" ++ n <> b ++ T "/" ++ n) ->
  exists s', load_suite read (u ++ b :: v) n (save write (b ++ T "/" ++ n) s d) = Some s' /\ same_suite s s'.
Proof. exact saved_found. Qed.
Print Assumptions C94_saved_partial.
(** No suite, no result. *)
Theorem C94_none : forall read n d paths, (forall x, In x paths -> is_suite (x ++ T "/" ++ n) d = false) -> load_suite read paths n d = None.
Proof. exact load_suite_none. Qed.
Print Assumptions C94_none.
Example C94_example : load_suite (read_all file_codec) [T "/a"; T "/b"] (T "s") (save (enc file_codec) (T "/b/s") shop []) = Some shop /\
  load_suite (read_all file_codec) [T "/a"; T "/b"] (T "z") (save (enc file_codec) (T "/b/s") shop []) = None.
Proof. split; vm_compute; reflexivity. Qed.

(** ** C112 *)
(** Editing a context that is not there fails, and so does removing it. *)
Theorem C112_missing : forall n a t s, (alias_tool n a t s = None <-> ~ has_context n s) /\ (hide_tool n t s = None <-> ~ has_context n s) /\ (remove_context n s = None <-> ~ has_context n s).
Proof. intros n a t s. split; [apply modify_context_none|]. split; [apply modify_context_none|apply remove_context_none]. Qed.
Print Assumptions C112_missing.
(** Hiding takes back all names of the tool in that context and nothing else. *)
Theorem C112_hide : forall n t s s', hide_tool n t s = Some s' -> exists c c', swapped n s s' c c' /\ same_outside c c' /\ forall a o, provides c' a o <-> provides c a o /\ o <> t.
Proof. intros n t s s' H. apply modify_context_some in H. destruct H as (c & H). exists c, (ctx_hide t c). split; [exact H|]. split; [repeat split|]. apply hide_provides. Qed.
Print Assumptions C112_hide.
(** An alias gives the name to the tool, if that is not hidden, and nothing else. *)
Theorem C112_alias : forall n x t s s', alias_tool n x t s = Some s' -> exists c c', swapped n s s' c c' /\ same_outside c c' /\
  forall a o, provides c' a o <-> (a = x /\ o = t /\ sc_disabled c = false /\ ~ In t (sc_hidden c)) \/ (a <> x /\ provides c a o).
Proof. intros n x t s s' H. apply modify_context_some in H. destruct H as (c & H). exists c, (ctx_alias x t c). split; [exact H|]. split; [repeat split|]. apply alias_provides. Qed.
Print Assumptions C112_alias.
(** A context is added at the end, without tools, if its name is good and new. *)
Theorem C112_add : forall n rs s, (add_context n rs s = None <-> ~ good_name n \/ has_context n s) /\
  forall s', add_context n rs s = Some s' -> exists c, su_contexts s' = su_contexts s ++ [c] /\ sc_name c = n /\ sc_requests c = rs /\ (forall a o, ~ provides c a o) /\ su_desc s' = su_desc s /\ su_mode s' = su_mode s.
Proof. intros n rs s. split; [apply add_context_none|apply add_context_some]. Qed.
Print Assumptions C112_add.
(** Removing takes out the contexts of that name and keeps the others in their order. *)
Theorem C112_remove : forall n s s', history s -> remove_context n s = Some s' -> (forall c, In c (su_contexts s') <-> In c (su_contexts s) /\ sc_name c <> n) /\
  (exists u c v, su_contexts s = u ++ c :: v /\ su_contexts s' = u ++ v /\ sc_name c = n) /\ su_desc s' = su_desc s /\ su_mode s' = su_mode s.
Proof. exact remove_context_some. Qed.
Print Assumptions C112_remove.
Example C112_example : history shop /\ has_context (T "maya") shop /\ hide_tool (T "maya") (T "maya") shop <> None /\ alias_tool (T "nuke") (T "see") (T "view") shop <> None /\
  add_context (T "houdini") [T "houdini-20"] shop <> None /\ remove_context (T "maya") shop <> None.
Proof. split; [exact shop_history|]. split; [eexists; split; [left; reflexivity|reflexivity]|]. split; [discriminate|]. split; [discriminate|]. split; [intros E; vm_compute in E; discriminate E|discriminate]. Qed.
