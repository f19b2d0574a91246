(** A small writer and reader for plain data: it shows that the hypotheses about serialisation libraries can be met.
    It models no code of the project. *)
From Verif Require Import Base.
Open Scope char_scope.

Record codec (A : Type) := mkCodec { enc : A -> text; dec : text -> option (A * text); codec_ok : forall x r, dec (enc x ++ r) = Some (x, r) }.
Arguments enc {A}. Arguments dec {A}. Arguments codec_ok {A}.

(** numbers in unary *)
Fixpoint enc_nat (n : nat) : text := match n with O => ["0"] | S n' => "1" :: enc_nat n' end.
Fixpoint dec_nat (t : text) : option (nat * text) :=
  match t with
  | [] => None
  | c :: t' => if Ascii.eqb c "0" then Some (0, t') else match dec_nat t' with Some (n, r) => Some (S n, r) | None => None end
  end.
Lemma nat_ok n r : dec_nat (enc_nat n ++ r) = Some (n, r).
Proof. induction n as [|n IH]; [reflexivity|]. cbn [enc_nat app dec_nat]. rewrite IH. reflexivity. Qed.
Definition nat_codec : codec nat := mkCodec nat enc_nat dec_nat nat_ok.
(** pairs *)
Definition dec_pair {A B} (a : codec A) (b : codec B) (t : text) : option ((A * B) * text) :=
  match dec a t with Some (x, t') => match dec b t' with Some (y, r) => Some ((x, y), r) | None => None end | None => None end.
Definition pair_codec {A B} (a : codec A) (b : codec B) : codec (A * B).
Proof.
  refine (mkCodec _ (fun p => enc a (fst p) ++ enc b (snd p)) (dec_pair a b) _).
  intros [x y] r. unfold dec_pair. cbn. rewrite <- app_assoc, codec_ok, codec_ok. reflexivity.
Defined.
(** lists *)
Fixpoint enc_items {A} (a : codec A) (l : list A) : text := match l with [] => [] | x :: l' => enc a x ++ enc_items a l' end.
Fixpoint dec_items {A} (a : codec A) (n : nat) (t : text) : option (list A * text) :=
  match n with
  | O => Some ([], t)
  | S n' => match dec a t with Some (x, t') => match dec_items a n' t' with Some (l, r) => Some (x :: l, r) | None => None end | None => None end
  end.
Definition dec_list {A} (a : codec A) (t : text) : option (list A * text) := match dec_nat t with Some (n, t') => dec_items a n t' | None => None end.
Definition list_codec {A} (a : codec A) : codec (list A).
Proof.
  refine (mkCodec _ (fun l => enc_nat (length l) ++ enc_items a l) (dec_list a) _).
  intros l r. unfold dec_list. rewrite <- app_assoc, nat_ok. induction l as [|x l IH]; [reflexivity|]. cbn [length enc_items dec_items]. rewrite <- app_assoc, codec_ok, IH. reflexivity.
Defined.
(** a type mapped into another *)
Definition iso_codec {A B} (a : codec A) (f : B -> A) (g : A -> B) (H : forall y, g (f y) = y) : codec B.
Proof.
  refine (mkCodec _ (fun y => enc a (f y)) (fun t => match dec a t with Some (x, r) => Some (g x, r) | None => None end) _).
  intros y r. rewrite codec_ok, H. reflexivity.
Defined.
Definition ascii_codec : codec ascii := iso_codec nat_codec nat_of_ascii ascii_of_nat ascii_nat_embedding.
Definition text_codec : codec text := list_codec ascii_codec.
Definition bool_codec : codec bool := iso_codec nat_codec (fun b : bool => if b then 1 else 0) (fun n => Nat.eqb n 1) (fun b => match b return Nat.eqb (if b then 1 else 0) 1 = b with true => eq_refl | false => eq_refl end).
Definition option_codec {A} (a : codec A) : codec (option A).
Proof.
  refine (iso_codec (list_codec a) (fun o => match o with Some x => [x] | None => [] end) (fun l => match l with x :: _ => Some x | [] => None end) _).
  intros [x|]; reflexivity.
Defined.
Definition Z_codec : codec Z.
Proof.
  refine (iso_codec (pair_codec bool_codec nat_codec) (fun z => (Z.leb 0 z, Z.abs_nat z)) (fun p => if fst p then Z.of_nat (snd p) else Z.opp (Z.of_nat (snd p))) _).
  intros z. cbn [fst snd]. rewrite Zabs2Nat.id_abs. destruct (Z.leb_spec 0 z); lia.
Defined.
(** whole texts *)
Definition read_all {A} (a : codec A) (t : text) : option A := match dec a t with Some (x, []) => Some x | _ => None end.
Lemma read_all_enc {A} (a : codec A) x : read_all a (enc a x) = Some x.
Proof. unfold read_all. assert (H := codec_ok a x []). rewrite app_nil_r in H. rewrite H. reflexivity. Qed.
(** numbers in binary *)
Fixpoint pos_bits (p : positive) : list bool := match p with xH => [] | xO q => false :: pos_bits q | xI q => true :: pos_bits q end.
Fixpoint bits_pos (l : list bool) : positive := match l with [] => xH | false :: l' => xO (bits_pos l') | true :: l' => xI (bits_pos l') end.
Lemma bits_pos_bits p : bits_pos (pos_bits p) = p.
Proof. induction p as [p IH|p IH|]; cbn; congruence. Qed.
Definition bin_codec : codec Z.
Proof.
  refine (iso_codec (pair_codec nat_codec (list_codec bool_codec)) (fun z => match z with Z0 => (0, []) | Zpos p => (1, pos_bits p) | Zneg p => (2, pos_bits p) end)
    (fun x => match fst x with 0 => Z0 | 1 => Zpos (bits_pos (snd x)) | _ => Zneg (bits_pos (snd x)) end) _).
  intros [|p|p]; cbn [fst snd]; rewrite ?bits_pos_bits; reflexivity.
Defined.
(** texts that say how long they are *)
Definition seal (t : text) : text := enc_nat (length t) ++ t.
Definition unseal (t : text) : option text := match dec_nat t with Some (n, r) => if Nat.eqb (length r) n then Some r else None | None => None end.
Lemma unseal_seal t : unseal (seal t) = Some t.
Proof. unfold unseal, seal. rewrite nat_ok, Nat.eqb_refl. reflexivity. Qed.
Lemma dec_nat_ones n k : k <= n -> dec_nat (firstn k (enc_nat n)) = None.
Proof. revert n. induction k as [|k IH]; intros n L; [reflexivity|]. destruct n as [|n]; [lia|]. cbn. rewrite IH by lia. reflexivity. Qed.
Lemma enc_nat_length n : length (enc_nat n) = S n.
Proof. induction n as [|n IH]; cbn; [reflexivity|congruence]. Qed.
Lemma unseal_cut t k : k < length (seal t) -> unseal (firstn k (seal t)) = None.
Proof.
  unfold seal. rewrite app_length, enc_nat_length. intros L. rewrite firstn_app, enc_nat_length. unfold unseal.
  destruct (Nat.le_gt_cases k (length t)) as [H|H].
  - replace (k - S (length t)) with 0 by lia. rewrite firstn_O, app_nil_r, dec_nat_ones by exact H. reflexivity.
  - rewrite firstn_all2 by (rewrite enc_nat_length; lia). rewrite nat_ok. rewrite firstn_length. destruct (Nat.eqb_spec (Nat.min (k - S (length t)) (length t)) (length t)); [lia|reflexivity].
Qed.
