(** Model of the file-based repository and of the manager of several repositories.
    Source: crates/rez-next-repository/src/simple_repository.rs (SR).
    Simplifications: a directory tree is finite, is visited in a fixed order and does not change; loading a descriptor is a fixed outcome
    for each directory; the text of an error is the family it is filed under; the two maps are one state, as they are written together. *)
From Verif Require Import Base Maps Sorting Version_model Package_model Order_model.

(** SR:80-121: what a scan sees of a directory: its own descriptor, if any, with the outcome of loading it, whether the directory can be
    listed, and the directories in it with their names *)
Inductive rdir := RDir (descr : option (option package)) (readable : bool) (subs : list (text * rdir)).
(** SR:80-121, with the above *)
Definition d_descr (d : rdir) : option (option package) := match d with RDir x _ _ => x end.

(** SR:41-44: packages by name and failures by family *)
Record rstate := mkRstate { rs_cache : list (text * list package); rs_errors : list (text * text) }.
(** SR:53-60 [new]; 66-67 [clear] *)
Definition cold : rstate := mkRstate [] [].
(** SR:98-101: [entry(name).or_default().push] *)
Definition push (p : package) (c : list (text * list package)) : list (text * list package) :=
  aput (p_name p) (match aget (p_name p) c with Some l => l | None => [] end ++ [p]) c.
(** SR:103-113: a failure goes to the first directory below the root *)
Definition blame (f : text) (s : rstate) : rstate := mkRstate (rs_cache s) (aput f f (rs_errors s)).
(** SR:76-128 [scan_directory]; [fam] is the directory below the root, once known; the flag tells that no listing failed *)
Fixpoint scan_directory (fam : option text) (d : rdir) (s : rstate) : bool * rstate :=
  match d with
  | RDir _ readable subs =>
    if readable then
      (fix loop (l : list (text * rdir)) (s : rstate) : bool * rstate :=
         match l with
         | [] => (true, s)
         | (n, x) :: r =>
           let f := match fam with Some f => f | None => n end in
           match d_descr x with
           | Some (Some p) => loop r (mkRstate (push p (rs_cache s)) (rs_errors s))
           | Some None => loop r (blame f s)
           | None => match scan_directory (Some f) x s with (true, s') => loop r s' | (false, s') => (false, s') end
           end
         end) subs s
    else (false, s)
  end.
(** SR:63-73 [scan] *)
Definition scan (root : rdir) : bool * rstate := scan_directory None root cold.

(** SR:16-24: an answer or an error *)
Inductive answer (A : Type) := Ok (a : A) | Err.
Arguments Ok {A}. Arguments Err {A}.
(** SR:143-164 [find_packages] *)
Definition find_packages (root : rdir) (n : text) (s : rstate) : answer (list package) * rstate :=
  match aget n (rs_cache s) with
  | Some l => (Ok l, s)
  | None =>
    match aget n (rs_errors s) with
    | Some _ => (Err, s)
    | None =>
      match scan root with
      | (false, s') => (Err, s')
      | (true, s') =>
        match aget n (rs_errors s') with
        | Some _ => (Err, s')
        | None => (Ok (match aget n (rs_cache s') with Some l => l | None => [] end), s')
        end
      end
    end
  end.
(** SR:172-182, 184-195: the choice among the packages found *)
Definition choose (v : option text) (l : list package) : answer (option package) :=
  match v with
  | Some t =>
    match parse_version t with
    | None => Err
    | Some x => Ok (find (fun p => match p_version p with Some y => veq y x | None => false end) l)
    end
  | None => Ok (match sort_by descending l with p :: _ => Some p | [] => None end)
  end.
(** SR:166-197 [get_package] *)
Definition get_package (root : rdir) (n : text) (v : option text) (s : rstate) : answer (option package) * rstate :=
  match find_packages root n s with
  | (Ok l, s') => (choose v l, s')
  | (Err, s') => (Err, s')
  end.
(** SR:199-207 [list_packages]; [ord] is the order of the map *)
Definition list_packages (ord : list text -> list text) (root : rdir) : answer (list text) * rstate :=
  match scan root with
  | (true, s) => (Ok (sort_by text_cmp (ord (akeys (rs_cache s)))), s)
  | (false, s) => (Err, s)
  end.

(** SR:219-222 [RepositoryManager]: the repositories with their states *)
Definition manager : Type := list (rdir * rstate).
(** SR:226-236 [new], [add_repository] *)
Definition fresh (roots : list rdir) : manager := map (fun r => (r, cold)) roots.
(** SR:241-245: all repositories in turn; an error ends the loop *)
Fixpoint collect (n : text) (m : manager) : answer (list package) * manager :=
  match m with
  | [] => (Ok [], [])
  | (r, s) :: m' =>
    match find_packages r n s with
    | (Err, s') => (Err, (r, s') :: m')
    | (Ok l, s') => match collect n m' with (Ok l', m2) => (Ok (l ++ l'), (r, s') :: m2) | (Err, m2) => (Err, (r, s') :: m2) end
    end
  end.
(** SR:238-255 [find_packages] *)
Definition find_all (n : text) (m : manager) : answer (list package) * manager :=
  match collect n m with (Ok l, m') => (Ok (sort_by descending l), m') | (Err, m') => (Err, m') end.
(** SR:258-269 [get_package] *)
Fixpoint get_first (n : text) (v : option text) (m : manager) : answer (option package) * manager :=
  match m with
  | [] => (Ok None, [])
  | (r, s) :: m' =>
    match get_package r n v s with
    | (Err, s') => (Err, (r, s') :: m')
    | (Ok (Some p), s') => (Ok (Some p), (r, s') :: m')
    | (Ok None, s') => let (a, m2) := get_first n v m' in (a, (r, s') :: m2)
    end
  end.
(** SR:275-278: the names of all repositories; a set keeps each once *)
Fixpoint all_names (ord : list text -> list text) (m : manager) : answer (list text) * manager :=
  match m with
  | [] => (Ok [], [])
  | (r, s) :: m' =>
    match list_packages ord r with
    | (Err, s') => (Err, (r, s') :: m')
    | (Ok l, s') => match all_names ord m' with (Ok l', m2) => (Ok (l ++ filter (fun x => negb (mem_text x l)) l'), (r, s') :: m2) | (Err, m2) => (Err, (r, s') :: m2) end
    end
  end.
(** SR:272-283 [list_packages] *)
Definition list_all (ord : list text -> list text) (m : manager) : answer (list text) * manager :=
  match all_names ord m with (Ok l, m') => (Ok (sort_by text_cmp (ord l)), m') | (Err, m') => (Err, m') end.

(** SR:238-284: the questions, and the state after one *)
Inductive question := QFind (n : text) | QGet (n : text) (v : option text) | QList (ord : list text -> list text).
(** SR:238-284, with the above *)
Definition asked (q : question) (m : manager) : manager :=
  match q with QFind n => snd (find_all n m) | QGet n v => snd (get_first n v m) | QList ord => snd (list_all ord m) end.
(** SR:238-284: the state after a history *)
Definition history (qs : list question) (m : manager) : manager := fold_left (fun m q => asked q m) qs m.
