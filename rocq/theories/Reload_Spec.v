(** * A log that can be used *)
From Verif Require Import Reload_Model.
Definition usable {V} (o : obj V) : Prop := forall f, call o f = Ok tt.
(** A log as a run has it: every attribute of its class, whatever the values, no name twice. *)
Definition whole {V} (o : obj V) : Prop := NoDup (dkeys (o_attrs o)) /\ forall k, In k (dkeys (o_attrs o)) <-> In k (names (o_cls o)).
(** The references into the file, which cannot be saved. *)
Definition into_file : list string := ["pytab_file"; "_tables"; "_groups"]%string.
