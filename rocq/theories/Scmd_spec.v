(** Specification vocabulary for the suite commands. *)
From Verif Require Import Base Maps Order_spec Suite_model Suite_spec Scmd_model.
Open Scope char_scope.

(** the suite a command is about *)
Definition target (c : command) : text :=
  match c with Create p _ _ => p | AddContext a => a_suite a | RemoveContext p _ => p | AliasTool p _ _ _ => p | HideTool p _ _ => p end.
(** what a command makes of the suite it is about, if there is one *)
Inductive step : command -> option suite -> suite -> Prop :=
| step_create p x t m o : map to_lower t = mode_text m -> step (Create p x t) o (mkSuite [] x m)
| step_add a s : good_name (a_name a) -> ~ has_context (a_name a) s ->
    step (AddContext a) (Some s) (mkSuite (su_contexts s ++ [mkSctx (a_name a) (a_requests a) [] [] (a_prefix a) 0 false]) (su_desc s) (su_mode s))
| step_remove p u c v x m : (forall y, In y u -> sc_name y <> sc_name c) ->
    step (RemoveContext p (sc_name c)) (Some (mkSuite (u ++ c :: v) x m)) (mkSuite (u ++ v) x m)
| step_alias p a t u c v x m : (forall y, In y u -> sc_name y <> sc_name c) ->
    step (AliasTool p (sc_name c) a t) (Some (mkSuite (u ++ c :: v) x m))
      (mkSuite (u ++ mkSctx (sc_name c) (sc_requests c) (aput a t (sc_aliases c)) (sc_hidden c) (sc_prefix c) (sc_priority c) (sc_disabled c) :: v) x m)
| step_hide p t u c v x m h : (forall y, In y u -> sc_name y <> sc_name c) ->
    (In t (sc_hidden c) -> h = sc_hidden c) -> (~ In t (sc_hidden c) -> h = sc_hidden c ++ [t]) ->
    step (HideTool p (sc_name c) t) (Some (mkSuite (u ++ c :: v) x m))
      (mkSuite (u ++ mkSctx (sc_name c) (sc_requests c) (sc_aliases c) h (sc_prefix c) (sc_priority c) (sc_disabled c) :: v) x m).
(** several commands on one suite kept in memory, with the commands that fail *)
Inductive steps : list command -> list bool -> option suite -> option suite -> Prop :=
| steps_nil o : steps [] [] o o
| steps_ok c l bs o s' o' : step c o s' -> steps l bs (Some s') o' -> steps (c :: l) (true :: bs) o o'
| steps_fail c l bs o o' : (forall s', ~ step c o s') -> steps l bs o o' -> steps (c :: l) (false :: bs) o o'.
(** the same suite, or none in both cases *)
Definition alike (o o' : option suite) : Prop :=
  match o, o' with Some s, Some s' => same_suite s s' | None, None => True | _, _ => False end.
(** names are distinct and good, and alias maps have distinct keys *)
Definition sound (s : suite) : Prop :=
  NoDup (map sc_name (su_contexts s)) /\ (forall c, In c (su_contexts s) -> good_name (sc_name c)) /\ proper (su_contexts s).
