(** * What the user of a wrapped library may expect *)
From Verif Require Import Prelude Options_Model.
Open Scope string_scope.

(** The names the wrapper itself decides about. *)
Definition reserved : list string := ["vv"; "verbose"; "bounds"; "popsize"; "maxiter"].
(** Calls of minimize: slots of the pool, automatic size, width, bounds. *)
Record call := mkCall { k_workers : nat; k_auto : nat; k_sigma : num; k_bounds : list (num * num) }.
Definition perform (c : cma) (k : call) : res opts * cma := cma_minimize (k_workers k) (k_auto k) (k_sigma k) (k_bounds k) c.
Fixpoint performed (c : cma) (l : list call) : cma := match l with [] => c | k :: l => performed (snd (perform c k)) l end.
