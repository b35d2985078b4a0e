(** Specification for C132: calls of Ban. *)
From Verif Require Import Pool.

(** Steps of goroutines in Ban, nobody else doing anything. *)
Inductive ban_steps : sys -> sys -> Prop :=
| BsNone s : ban_steps s s
| BsMore s t u : ban_steps s t -> y_crash t = None -> ban_step t u -> ban_steps s u.
(** They cannot go on. *)
Definition ban_over (s : sys) : Prop := y_crash s = None -> forall t, ~ ban_step s t.
(** The address is a key of the table. *)
Definition listed (a : bytes) (p : pool) : Prop := In a (map fst (pl_table p)).
