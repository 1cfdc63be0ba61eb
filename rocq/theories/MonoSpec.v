(** Vocabulary of property C99. *)
From Coq Require Import Reals.
From Verif Require Import FloatSpec Device AnaSpec.
Open Scope R_scope.

(** The same call, with a processed sample at least as loud. *)
Inductive louder_float {T : Type} (V : float_view T) : call (det_set T) T -> call (det_set T) T -> Prop :=
| lf_same c : louder_float V c c
| lf_more x x' : Rabs (val V x) <= Rabs (val V x') -> louder_float V (CProcess x) (CProcess x').
