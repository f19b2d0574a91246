(** Model of the expansion of wildcards in requirements.
    Source: crates/rez-next-package/src/package_py_utils.rs (PU).
    Simplifications: the placeholders [Uuid::new_v4] gives are an argument, the one with number [n] is used for the wildcard that is replaced
    as number [n]; the order in which the hash map of placeholders is gone through is an argument.  Error texts are left out.  Texts are ASCII. *)
From Verif Require Import Base Rex_model Requirement_model Pyfile_model Pkgfile_model.
Open Scope string_scope. Open Scope list_scope.

(** [String::replace_range] of [k] characters from place [i]: a range that ends after the text is a panic; used in PU:28, 37 *)
Definition replace_range (i k : nat) (v s : text) : res text :=
  if Nat.ltb (length s) (i + k) then Panic else Ok (firstn i s ++ v ++ skipn (i + k) s).
Section Expand.
Context (uid : nat -> text) (order : list (text * text) -> list (text * text)).
(** PU:24-31, 34-41: the loop over one kind of wildcard [w]; [k] characters are taken away; [n] placeholders are used already.
    Every round takes a star away, so the length of the text is enough fuel. *)
Fixpoint put_marks (w : text) (k : nat) (fuel n : nat) (s : text) (m : list (text * text)) : res (text * nat * list (text * text)) :=
  match find_text w s with
  | None => Ok (s, n, m)
  | Some i =>
      match fuel with
      | O => Err
      | S f => bind (replace_range i k (uid n) s) (fun s' => put_marks w k f (S n) s' (m ++ [(uid n, w)]))
      end
  end.
(** PU:18-42 [replace_wildcards]: three characters are taken away for two stars *)
Definition replace_wildcards (s : text) : res (text * list (text * text)) :=
  bind (put_marks (T "**") 3 (length s) 0 s []) (fun r =>
    let '(s1, n, m) := r in
    bind (put_marks (T "*") 1 (length s1) n s1 m) (fun r2 => let '(s2, _, m2) := r2 in Ok (s2, m2))).
(** PU:45-51 [restore_wildcards] *)
Definition restore_wildcards (s : text) (m : list (text * text)) : text := fold_left (fun s b => replace (fst b) (snd b) s) (order m) s.
(** PU:61-98 [expand_requirement]; [q] is the callback *)
Definition expand_requirement (q : text -> option text -> option text) (request : text) : res text :=
  if negb (existsb (Ascii.eqb "*"%char) request) then Ok request else
  bind (replace_wildcards request) (fun r =>
    let '(request', m) := r in
    match parse_package_req request' with
    | None => Err
    | Some p =>
        match q (pr_name p) (pr_spec p) with
        | None => Ok request
        | Some v =>
            Ok (restore_wildcards (pr_name p ++ T "-" ++ match pr_spec p with Some s => replace request' v s | None => v end) m)
        end
    end).
(** PU:101-109 [expand_requirements]: a request with an error is kept; a panic ends all *)
Fixpoint expand_requirements (q : text -> option text -> option text) (l : list text) : res (list text) :=
  match l with
  | [] => Ok []
  | r :: l' =>
      match expand_requirement q r with
      | Panic => Panic
      | Ok x => bind (expand_requirements q l') (fun y => Ok (x :: y))
      | Err => bind (expand_requirements q l') (fun y => Ok (r :: y))
      end
  end.
End Expand.
