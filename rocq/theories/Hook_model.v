(** Model of the registry of release hooks and of the built-in hooks.
    Sources: crates/rez-next-release-hook/src/registry.rs (HR) and builtin.rs (HB).
    Simplifications: texts are ASCII; the JSON and TOML libraries are parameters; the numbers and switches of a configuration that nothing
    reads are kept as they were parsed; messages are left out.  A hook that is no built-in one is any value of a type [A]. *)
From Verif Require Import Base Maps Env_model.
Open Scope char_scope.

(** HB:11-17 [EmailHookConfig] *)
Record email_config := mkEmail { m_server : text; m_port : N; m_from : text; m_to : list text; m_tls : bool }.
(** HB:19-29 *)
Definition default_email : email_config := mkEmail (T "localhost") 25 (T "rez@localhost") [] false.
(** HB:33-38 [WebHookConfig] *)
Record web_config := mkWeb { w_url : text; w_method : text; w_headers : list (text * text); w_timeout : N }.
(** HB:40-49 *)
Definition default_web : web_config := mkWeb [] (T "POST") [] 30.
(** HB:55, 71, 129, 215: the hooks *)
Inductive hook (A : Type) := Noop | Logging | Email (c : email_config) | Web (c : web_config) | Custom (x : A).
Arguments Noop {A}. Arguments Logging {A}. Arguments Email {A} c. Arguments Web {A} c. Arguments Custom {A} x.

(** HR:10 [HookFactory]: from a path to a hook, or an error *)
Definition factory (A : Type) := text -> option (hook A).
(** HR:16-18 [ReleaseHookRegistry] *)
Definition registry (A : Type) := list (text * factory A).
(** HR:22-26 [new] *)
Definition new_registry {A} : registry A := [].
(** HR:34-40 [register] *)
Definition register {A} (n : text) (f : factory A) (r : registry A) : registry A := aput n f r.
(** HR:43-46 [get_hook_types]; [ord] is the order of the map *)
Definition hook_types {A} (ord : list text -> list text) (r : registry A) : list text := ord (akeys r).
(** HR:58-67 [create_hook]: [None] is an error *)
Definition create_hook {A} (r : registry A) (n p : text) : option (hook A) :=
  match aget n r with Some f => f p | None => None end.
(** HR:73-86 [create_hooks] *)
Fixpoint create_hooks {A} (r : registry A) (ns : list text) (p : text) : list (hook A) :=
  match ns with
  | [] => []
  | n :: ns' => match create_hook r n p with Some h => h :: create_hooks r ns' p | None => create_hooks r ns' p end
  end.

(** HB:198, 201: what is at a path: nothing, something that cannot be read as a text, such as a directory, or a text *)
Inductive at_path := Missing | Unreadable | Content (t : text).
(** HB:197-208, 291-301 [read_config] *)
Definition read_config {C} (json toml : text -> option C) (fs : text -> at_path) (p : text) : option C :=
  match fs p with
  | Missing | Unreadable => None
  | Content t => match extension p with
                 | Some e => if text_eqb e (T "json") then json t else toml t
                 | None => toml t
                 end
  end.
(** HB:138-141 [EmailHook::new] *)
Definition new_email {A} (json toml : text -> option email_config) (fs : text -> at_path) (p : text) : option (hook A) :=
  Some (Email (match read_config json toml fs p with Some c => c | None => default_email end)).
(** HB:224-232 [WebHook::new] *)
Definition new_web {A} (json toml : text -> option web_config) (fs : text -> at_path) (p : text) : option (hook A) :=
  let c := match read_config json toml fs p with Some c => c | None => default_web end in
  if is_nil (w_url c) then None else Some (Web c).
(** HB:307-325 [register_builtin_hooks] *)
Definition register_builtin {A} (ej et : text -> option email_config) (wj wt : text -> option web_config) (fs : text -> at_path) (r : registry A) : registry A :=
  register (T "webhook") (new_web wj wt fs) (register (T "email") (new_email ej et fs)
    (register (T "logging") (fun _ => Some Logging) (register (T "noop") (fun _ => Some Noop) r))).
