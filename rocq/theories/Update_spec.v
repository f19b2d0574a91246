(** What is claimed about replacing the program by a released one, without the helpers of the model. *)
From Verif Require Import Base.
From Verif Require Export Files_model Files_spec.
Open Scope string_scope. Open Scope list_scope.

(** a version that is no path *)
Definition plain_version (v : text) : Prop := ~ In "/"%char v.
(** where an update to such a version works *)
Definition temp_dir (tmp : path) (v : text) : path := tmp ++ [T "rez-next-update-" ++ v].
(** the names of the program *)
Definition program_name (n : text) : Prop := n = T "rez-next" \/ n = T "rez-next.exe".
(** addresses *)
Definition repo : text := T "https://github.com/loonghao/rez-next".
Definition asset_url (v f : text) : text := repo ++ T "/releases/download/v" ++ v ++ T "/" ++ f.
Definition sums_url (v : text) : text := asset_url v (T "checksums-sha256.txt").
Definition api_url : text := T "https://api.github.com/repos/loonghao/rez-next/releases/latest".
Definition archive_of (t : text) : text := T "rez-next-" ++ t ++ T ".tar.gz".
(** hexadecimal digits *)
Definition hex_digit (c : ascii) : Prop := In c (T "0123456789abcdefABCDEF").
Definition a_sum (h : text) : Prop := length h = 64 /\ forall c, In c h -> hex_digit c.
Definition blank (w : text) : Prop := forall c, In c w -> is_ws c = true.
(** a file of sums has a line with this sum and this name *)
Definition in_sums (sums h name : text) : Prop :=
  exists a w b, sums = a ++ h ++ w ++ name ++ b /\ w <> [] /\ blank w /\ ~ In "010"%char w /\ a_sum h.
(** lines of text *)
Definition text_of (ls : list text) : text := flat_map (fun l => l ++ ["010"%char]) ls.
Definition one_line (l : text) : Prop := ~ In "010"%char l /\ forall r, l <> r ++ ["013"%char].
(** a line of a file of sums *)
Definition row (h f : text) : text := h ++ T "  " ++ f.
(** a quoted text *)
Definition quoted (s : text) : text := "034"%char :: s ++ ["034"%char].
(** the architectures and systems with releases *)
Definition known_arch (a : text) : Prop := a = T "x86_64" \/ a = T "aarch64".
(** a text that has another in it, in any case *)
Definition mentions (p s : text) : Prop := exists a q b, s = a ++ q ++ b /\ map to_lower q = p.
(** the files of an archive without directories *)
Definition flat_files (es : list (text * text)) : list (path * text) := map (fun e => ([fst e], snd e)) es.
(** the last of the files of a name *)
Fixpoint last_of (n : text) (es : list (text * text)) (d : option text) : option text := match es with [] => d | (m, c) :: r => last_of n r (if text_eqb m n then Some c else d) end.
(** characters of a tag *)
Definition tag_char (c : ascii) : Prop := c <> "034"%char /\ c <> ","%char /\ is_ws c = false.
(** the number of a release: a text that does not start with the letter before numbers *)
Definition bare (v : text) : Prop := match v with c :: _ => c <> "v"%char | [] => False end.
