(** The package descriptor, as far as the models read it. *)
From Verif Require Import Base Version_model.

(** crates/rez-next-package/src/package/types.rs [struct Package]: name, version, requires, variants, timestamp
    and tools.  All other fields are carried along unread, as [p_rest]. *)
Record package := mkPackage {
  p_name : text;
  p_version : option version;
  p_requires : list text;
  p_variants : list (list text);
  p_timestamp : option Z;
  p_tools : list text;
  p_rest : N
}.
