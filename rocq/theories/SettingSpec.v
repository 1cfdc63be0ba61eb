(** Specification for property C132: calls that may be exchanged for one another. *)
From Coq Require Import ZArith List Bool.
From Verif Require Import Base Num Device DelaySpec.
Import ListNotations.

(** Filters and detectors: after any history the calls [a] and the calls [b] leave the object in such a way that no later call can
    tell the difference. *)
Definition alike {S K T} (D : device S K T) (a b : list (call K T)) : Prop :=
  forall before rest, returns D (before ++ a) rest = returns D (before ++ b) rest.

(** The two envelope detectors. *)
Inductive detector {T} (O : num_ops T) : forall {S : Type}, device S (det_set T) T -> Prop :=
| det_peak : detector O (dev_peak O)
| det_rms : detector O (dev_rms O).

(** A time constant the detectors accept: positive and finite. *)
Definition valid_time {T} (O : num_ops T) (l : T) : bool := n_lt O (n_zero O) l && n_is_finite O l.
(** A coefficient the integrator accepts: in [0, 1). *)
Definition valid_alpha {T} (O : num_ops T) (a : T) : bool := n_le O (n_zero O) a && n_lt O a (n_one O).

Section Lines.
  Context {S C T : Type} (run : S -> list (dl_op C T) -> outcome (S * list (obs C T))).

  (** What the calls [rest] return (or whether they panic) on the line [s] after the calls [calls]. *)
  Definition seen_after (s : S) (calls rest : list (dl_op C T)) : outcome (list (obs C T)) :=
    let* (s1, _) := run s calls in
    let* (_, os) := run s1 rest in
    Ok os.

  (** On the line [s] no later calls can tell whether [a] or [b] was called. *)
  Definition line_alike (s : S) (a b : list (dl_op C T)) : Prop :=
    forall rest, seen_after s a rest = seen_after s b rest.
End Lines.
