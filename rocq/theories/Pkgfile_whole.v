(** Whole texts and files: what was saved is loaded. *)
From Verif Require Import Base Base_lemmas Maps Json Codec Version_model Rex_model Requirement_model Pyfile_model Pkgfile_model Pkgfile_spec Pkgfile_python Pkgfile_loads Pkgfile_writers Pkgfile_proofs Pkgfile_files.
Open Scope string_scope. Open Scope list_scope.

Section Whole.
Context (L : library) (now : text) (w : world).
Lemma python_text o p : python_library L -> plain now -> plain_eight p -> acceptable p -> version_ok (k_version p) ->
  load_python L w (save_python now o p) = Ok (only_eight p).
Proof.
  intros HL Hn P A V. unfold load_python. rewrite (HL _ _ (save_python_reads now o p Hn P)). apply load_saved; assumption.
Qed.
Lemma mt_text p : python_library L -> plain_ten p -> values_only p -> acceptable p -> version_ok (k_version p) -> load_python L w (to_package_py p) = Ok (only_ten p).
Proof. intros HL P S A V. unfold load_python. rewrite (HL _ _ (mt_reads p P S)). apply load_mt; assumption. Qed.
Lemma mt_text_fails p : python_library L -> plain_ten p -> k_commands p = None -> k_pre_commands p = None -> k_post_commands p = None -> (forall b, In b (k_tests p) -> plain (fst b)) ->
  k_relocatable p <> None \/ k_cachable p <> None \/ k_tests p <> [] -> load_python L w (to_package_py p) = Err.
Proof. intros HL P E1 E2 E3 Ht H. unfold load_python. rewrite (HL _ _ (mt_reads_all p P E1 E2 E3 Ht)), load_mt_fails by exact H. reflexivity. Qed.
Lemma pb_text p : python_library L -> plain_eight p -> plain_opt (k_uuid p) -> k_commands p = None -> acceptable p -> version_ok (k_version p) ->
  load_python L w (binding_package_py p) = Ok (set_description (framed_description p) (only_eleven p)).
Proof. intros HL P U E A V. unfold load_python. rewrite (HL _ _ (pb_reads p P U E)). apply load_pb; assumption. Qed.
Lemma if_valid p : acceptable p -> (if valid p then Ok (only_nine p) else Err) = Ok (only_nine p).
Proof. intros A. apply valid_iff in A. rewrite A. reflexivity. Qed.
Lemma json_text b p f : json_library L -> sized p -> version_ok (k_version p) -> f = Json \/ f = JsonGz ->
  load_from_string L w (l_json L b (ser p)) f = if valid p then Ok (only_nine p) else Err.
Proof. intros HL S V [-> | ->]; cbn [load_from_string]; rewrite (HL b (ser p) (fits_ser p S)); apply load_json_ser; exact V. Qed.
Lemma yaml_text p f : yaml_library L -> sized p -> version_ok (k_version p) -> f = Yaml \/ f = YamlGz ->
  load_from_string L w (l_yaml L (ser p)) f = if valid p then Ok (only_nine p) else Err.
Proof. intros HL S V [-> | ->]; cbn [load_from_string]; rewrite (HL (ser p) (fits_ser p S)); apply load_yaml_ser; (exact V || apply S). Qed.
Lemma toml_text p : toml_library L -> sized p -> versions_ok p -> load_from_string L w (save_toml L p) Toml = Ok (only_written p).
Proof.
  intros HL S V. cbn [load_from_string]. unfold save_toml. destruct (HL _ (fits_toml p S)) as (m & E & P). rewrite E. rewrite (toml_visit m p V S P). reflexivity.
Qed.
Lemma binary_text p : bin_library L -> load_from_string L w (save_binary L p) Binary = Err.
Proof. intros HL. cbn [load_from_string]. unfold save_binary. rewrite HL, de_seq_ser. reflexivity. Qed.
Lemma binary_file p path o : json_library L -> sized p -> versions_ok p -> from_extension path = Some Binary ->
  load_from_file L w path (save_to_file L now p path Binary o) = Ok (only_written p).
Proof. intros HL S V E. unfold load_from_file. rewrite E. cbn [save_to_file]. rewrite (HL false (ser p) (fits_ser p S)), de_ser by assumption. reflexivity. Qed.
Lemma container_fits p fmt path : sized p -> fits true (container p (metadata now fmt path)) = true.
Proof.
  intros S. unfold container. rewrite fits_obj. cbn [map forallb fst snd]. rewrite (fits_ser p S). unfold metadata. rewrite fits_obj. cbn [map forallb fst snd]. destruct path; reflexivity.
Qed.
Lemma load_container p meta : load_json_tree (container p meta) = Err.
Proof. reflexivity. Qed.
Lemma load_yaml_container p meta : load_yaml_tree (as_yaml (container p meta)) = Err.
Proof. unfold container. rewrite load_yaml_obj by (apply distinct_nodup; reflexivity). reflexivity. Qed.
Lemma container_file p path f o : json_library L -> yaml_library L -> gzip_library L -> sized p -> o_metadata o = true -> data_format f -> from_extension path = Some f ->
  load_from_file L w path (save_to_file L now p path f o) = Err.
Proof.
  intros HJ HY HG S M F E. unfold load_from_file. rewrite E. unfold save_to_file. rewrite M.
  pose proof (container_fits (filter_fields o p) (default_filename f) (Some path) (filter_sized o p S)) as Ft.
  destruct F as [-> | [-> | [-> | ->]]]; cbn [compressed]; cbn [load_from_string]; unfold container_text; rewrite M; rewrite ?HG;
    first [rewrite (HY _ Ft); apply load_yaml_container | rewrite (HJ _ _ Ft); reflexivity | idtac];
    cbn [load_from_string]; first [rewrite (HY _ Ft); apply load_yaml_container | rewrite (HJ _ _ Ft); reflexivity].
Qed.
Lemma json_file p path f o : json_library L -> gzip_library L -> sized p -> version_ok (k_version p) -> acceptable p -> o_metadata o = false -> f = Json \/ f = JsonGz -> from_extension path = Some f ->
  load_from_file L w path (save_to_file L now p path f o) = Ok (only_nine (filter_fields o p)).
Proof.
  intros HJ HG S V A M F E. unfold load_from_file. rewrite E. unfold save_to_file. rewrite M. rewrite <- (if_valid _ (filter_acceptable o p A)).
  rewrite <- (json_text (o_pretty o) (filter_fields o p) f HJ (filter_sized o p S) (filter_version_ok o p V) F).
  destruct F as [-> | ->]; cbn [compressed]; unfold container_text; rewrite M; [|rewrite HG]; reflexivity.
Qed.
Lemma yaml_file p path f o : yaml_library L -> gzip_library L -> sized p -> version_ok (k_version p) -> acceptable p -> o_metadata o = false -> o_pretty o = false -> f = Yaml \/ f = YamlGz -> from_extension path = Some f ->
  load_from_file L w path (save_to_file L now p path f o) = Ok (only_nine (filter_fields o p)).
Proof.
  intros HJ HG S V A M Pr F E. unfold load_from_file. rewrite E. unfold save_to_file. rewrite M. rewrite <- (if_valid _ (filter_acceptable o p A)).
  rewrite <- (yaml_text (filter_fields o p) f HJ (filter_sized o p S) (filter_version_ok o p V) F).
  destruct F as [-> | ->]; cbn [compressed]; unfold container_text; rewrite M, Pr; [|rewrite HG]; reflexivity.
Qed.
Lemma toml_file p path o : toml_library L -> sized p -> versions_ok p -> from_extension path = Some Toml ->
  load_from_file L w path (save_to_file L now p path Toml o) = Ok (only_written (filter_fields o p)).
Proof.
  intros HL S V E. unfold load_from_file. rewrite E. apply (toml_text (filter_fields o p) HL (filter_sized o p S) (filter_versions_ok o p V)).
Qed.
Lemma python_file p path o : python_library L -> plain now -> plain_eight p -> acceptable p -> version_ok (k_version p) -> from_extension path = Some Python ->
  load_from_file L w path (save_to_file L now p path Python o) = Ok (only_eight (filter_fields o p)).
Proof.
  intros HL Hn P A V E. unfold load_from_file. rewrite E.
  apply (python_text o (filter_fields o p) HL Hn (filter_plain o p P) (filter_acceptable o p A) (filter_version_ok o p V)).
Qed.
Lemma filter_tagless o p : tagless_five p -> tagless_five (filter_fields o p).
Proof.
  intros (N1 & N2 & N3 & N4 & N5). unfold tagless_five. rewrite filter_name, filter_version, filter_description, filter_authors, filter_requires.
  split; [exact N1|]. split; [intros v; destruct (asked o _); [exact (N2 v)|discriminate]|]. split; [intros d; destruct (kept o _); [exact (N3 d)|discriminate]|].
  split; intros a I; apply if_list_in in I; auto.
Qed.
Lemma xml_file p path o : version_ok (k_version p) -> tagless_five p -> from_extension path = Some Xml ->
  load_from_file L w path (save_to_file L now p path Xml o) = Ok (only_three (filter_fields o p)).
Proof.
  intros V N E. unfold load_from_file. rewrite E. apply (load_save_xml o (filter_fields o p) (filter_version_ok o p V) (filter_tagless o p N)).
Qed.
End Whole.

(** ** A library that meets what is assumed *)
Fixpoint depth (j : json) : nat :=
  match j with
  | JArr l => S (fold_right (fun x n => Nat.max (depth x) n) 0 l)
  | JObj m => S ((fix go (m : list (text * json)) := match m with [] => 0 | (_, v) :: m' => Nat.max (depth v) (go m') end) m)
  | _ => 1
  end.
Fixpoint enc_json (j : json) : text :=
  match j with
  | JNull => T "n"
  | JBool b => T "b" ++ enc bool_codec b
  | JNum n => T "i" ++ enc bin_codec n
  | JStr s => T "s" ++ enc text_codec s
  | JArr l => T "a" ++ enc_nat (length l) ++ (fix go (l : list json) := match l with [] => [] | x :: l' => enc_json x ++ go l' end) l
  | JObj m => T "o" ++ enc_nat (length m) ++ (fix go (m : list (text * json)) := match m with [] => [] | (k, v) :: m' => enc text_codec k ++ enc_json v ++ go m' end) m
  end.
Section Dec.
Context (f : text -> option (json * text)).
Fixpoint dec_arr (n : nat) (t : text) : option (list json * text) :=
  match n with O => Some ([], t) | S n' => match f t with Some (x, t') => match dec_arr n' t' with Some (l, r) => Some (x :: l, r) | None => None end | None => None end end.
Fixpoint dec_obj (n : nat) (t : text) : option (list (text * json) * text) :=
  match n with
  | O => Some ([], t)
  | S n' => match dec text_codec t with
            | Some (k, t1) => match f t1 with Some (x, t2) => match dec_obj n' t2 with Some (l, r) => Some ((k, x) :: l, r) | None => None end | None => None end
            | None => None
            end
  end.
End Dec.
Definition tag_dec (f : text -> option (json * text)) (t : text) : option (json * text) :=
  match t with
  | c :: r =>
      if Ascii.eqb c "n"%char then Some (JNull, r) else
      if Ascii.eqb c "b"%char then (match dec bool_codec r with Some (x, r') => Some (JBool x, r') | None => None end) else
      if Ascii.eqb c "i"%char then (match dec bin_codec r with Some (x, r') => Some (JNum x, r') | None => None end) else
      if Ascii.eqb c "s"%char then (match dec text_codec r with Some (x, r') => Some (JStr x, r') | None => None end) else
      if Ascii.eqb c "a"%char then (match dec_nat r with Some (n, r') => match dec_arr f n r' with Some (l, r2) => Some (JArr l, r2) | None => None end | None => None end) else
      (match dec_nat r with Some (n, r') => match dec_obj f n r' with Some (l, r2) => Some (JObj l, r2) | None => None end | None => None end)
  | [] => None
  end.
Fixpoint dec_json (n : nat) (t : text) : option (json * text) := match n with O => None | S n' => tag_dec (dec_json n') t end.
Lemma json_codec : forall n j, depth j <= n -> forall r, dec_json n (enc_json j ++ r) = Some (j, r).
Proof.
  induction n as [|n IH]; intros j D r; [destruct j; cbn in D; lia|]. cbn [dec_json]. destruct j as [|b|z|s|l|m]; cbn [enc_json].
  - reflexivity.
  - rewrite <- app_assoc. change (tag_dec (dec_json n) (T "b" ++ ?x)) with (match dec bool_codec x with Some (y, r1) => Some (JBool y, r1) | None => None end). rewrite codec_ok. reflexivity.
  - rewrite <- app_assoc. change (tag_dec (dec_json n) (T "i" ++ ?x)) with (match dec bin_codec x with Some (y, r1) => Some (JNum y, r1) | None => None end). rewrite codec_ok. reflexivity.
  - rewrite <- app_assoc. change (tag_dec (dec_json n) (T "s" ++ ?x)) with (match dec text_codec x with Some (y, r1) => Some (JStr y, r1) | None => None end). rewrite codec_ok. reflexivity.
  - rewrite <- !app_assoc. change (tag_dec (dec_json n) (T "a" ++ ?x)) with (match dec_nat x with Some (k, r') => match dec_arr (dec_json n) k r' with Some (l, r2) => Some (JArr l, r2) | None => None end | None => None end).
    rewrite nat_ok. enough (E : dec_arr (dec_json n) (length l) ((fix go (l : list json) := match l with [] => [] | x :: l' => enc_json x ++ go l' end) l ++ r) = Some (l, r)) by (rewrite E; reflexivity).
    cbn [depth] in D. apply le_S_n in D. induction l as [|x l IHl]; [reflexivity|]. cbn [fold_right] in D. cbn [length dec_arr]. rewrite <- app_assoc, IH by lia. rewrite IHl by lia. reflexivity.
  - rewrite <- !app_assoc. change (tag_dec (dec_json n) (T "o" ++ ?x)) with (match dec_nat x with Some (k, r') => match dec_obj (dec_json n) k r' with Some (l, r2) => Some (JObj l, r2) | None => None end | None => None end).
    rewrite nat_ok. enough (E : dec_obj (dec_json n) (length m) ((fix go (m : list (text * json)) := match m with [] => [] | (k, v) :: m' => enc text_codec k ++ enc_json v ++ go m' end) m ++ r) = Some (m, r)) by (rewrite E; reflexivity).
    cbn [depth] in D. apply le_S_n in D. induction m as [|[k v] m IHm]; [reflexivity|]. cbn [length dec_obj]. rewrite <- !app_assoc, codec_ok, IH by lia. rewrite IHm by lia. reflexivity.
Qed.
Definition print_json (j : json) : text := enc_nat (depth j) ++ enc_json j.
Definition read_json (t : text) : option json := match dec_nat t with Some (n, r) => match dec_json n r with Some (j, []) => Some j | _ => None end | None => None end.
Lemma read_print j : read_json (print_json j) = Some j.
Proof. unfold read_json, print_json. rewrite nat_ok. pose proof (json_codec (depth j) j (le_n _) []) as E. rewrite app_nil_r in E. rewrite E. reflexivity. Qed.
Definition sample : library :=
  mkLibrary (fun _ => print_json) read_json print_json (fun t => match read_json t with Some j => Some (as_yaml j) | None => None end)
    (fun m => print_json (JObj m)) (fun t => match read_json t with Some (JObj m) => Some m | _ => None end)
    (fun _ s => s) (fun s => Some s) (fun l => print_json (JArr l)) (fun t => match read_json t with Some (JArr l) => Some l | _ => None end) python_reads.
Lemma sample_ok : json_library sample /\ yaml_library sample /\ toml_library sample /\ gzip_library sample /\ bin_library sample /\ python_library sample.
Proof.
  split; [intros b j _; apply read_print|]. split; [intros j _; cbn [sample l_yaml l_unyaml]; rewrite read_print; reflexivity|].
  split; [intros m _; exists m; split; [cbn [sample l_toml l_untoml]; rewrite read_print; reflexivity|apply Permutation_refl]|].
  split; [intros n s; reflexivity|]. split; [intros l; cbn [sample l_bin l_unbin]; rewrite read_print; reflexivity|]. intros s f E. exact E.
Qed.
