(** Specification vocabulary for versions, independent of the parser's scanning functions. *)
From Verif Require Import Base Version_model.

(** A word: a non-empty run of ASCII letters, digits and underscores. *)
Definition word_char (c : ascii) : Prop :=
  is_lower c = true \/ is_upper c = true \/ is_digit c = true \/ c = "_"%char.
Definition word (t : text) : Prop := t <> [] /\ Forall word_char t.
(** A separator is one of . - + *)
Definition sep_char (c : ascii) : Prop := c = "."%char \/ c = "-"%char \/ c = "+"%char.

(** [shape s ts cs]: [s] is the words [ts] separated by the single characters [cs] *)
Inductive shape : text -> list text -> list ascii -> Prop :=
| shape_one t : word t -> shape t [t] []
| shape_cons t c s ts cs :
    word t -> sep_char c -> shape s ts cs -> shape (t ++ c :: s) (t :: ts) (c :: cs).

(** admissible word in a version *)
Definition good_word (t : text) : Prop :=
  hd_error t <> Some "_"%char /\ hd_error (rev t) <> Some "_"%char /\
  t <> T "not" /\ t <> T "version" /\
  ~ (Forall (fun c => is_lower c = true \/ is_upper c = true) t /\ 10 < length t).
Definition digits_only (t : text) : Prop := Forall (fun c => is_digit c = true) t.
Inductive count_digit_words : list text -> nat -> Prop :=
| cd_nil : count_digit_words [] 0
| cd_yes t ts n : digits_only t -> count_digit_words ts n -> count_digit_words (t :: ts) (S n)
| cd_no t ts n : ~ digits_only t -> count_digit_words ts n -> count_digit_words (t :: ts) n.

(** the documented grammar of ordinary (non-special) versions *)
Definition version_grammar (s : text) (ts : list text) (cs : list ascii) : Prop :=
  shape s ts cs /\
  hd_error s <> Some "v"%char /\ hd_error s <> Some "V"%char /\
  length ts <= 10 /\ (exists n, count_digit_words ts n /\ n <= 5) /\
  Forall good_word ts.

(** interleaving of words and separators *)
Fixpoint weave (ts : list text) (ss : list text) : text :=
  match ts, ss with
  | [], _ => concat ss
  | t :: ts', [] => t ++ concat ts'
  | t :: ts', s :: ss' => t ++ s ++ weave ts' ss'
  end.

(** versions that some text parses to *)
Definition parsed (v : version) : Prop := exists s, parse_version s = Some v.

(** the three special spellings *)
Definition special (s : text) : Prop := s = [] \/ s = T "inf" \/ s = T "epsilon".

(** every digit run of the token is below 2^64 *)
Definition small_token (t : text) : Prop :=
  forall a d b, t = a ++ d ++ b -> digits_only d -> (digits_val d <= U64_MAX)%N.

(** digit runs of every token fit in 64 bits *)
Definition small_version (v : version) : Prop := Forall small_token (v_tokens v).

(** the token list does not end in "0" *)
Definition no_trailing_zero (l : list text) : Prop := forall l', l <> l' ++ [T "0"].

(** a numeral without superfluous leading zeros *)
Definition canonical_numeral (d : text) : Prop := d = T "0" \/ hd_error d <> Some "0"%char.
(** every maximal digit run of the token is a canonical numeral; a run is maximal when it
    is neither preceded nor followed by a digit *)
Definition canonical_token (t : text) : Prop :=
  forall a d b, t = a ++ d ++ b -> d <> [] -> digits_only d ->
    (forall c, hd_error (rev a) = Some c -> is_digit c = false) ->
    (forall c, hd_error b = Some c -> is_digit c = false) ->
    canonical_numeral d.
(** dotted version, canonical numerals, no trailing "0" token, numbers below 2^64 *)
Definition canonical_version (v : version) : Prop :=
  parsed v /\ small_version v /\ no_trailing_zero (v_tokens v) /\
  Forall canonical_token (v_tokens v) /\ Forall (fun s => s = T ".") (v_seps v).


(** what the tokenizer must report for a word *)
Definition token_kind (t : text) (r : sm_token) : Prop :=
  (digits_only t /\ (digits_val t <= U64_MAX)%N /\ r = Numeric (digits_val t)) \/
  (~ (digits_only t /\ (digits_val t <= U64_MAX)%N) /\ r = Alphanumeric t).
