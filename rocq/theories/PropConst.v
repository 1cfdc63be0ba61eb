(** Property C86: [FloatConst::pi] and [FloatConst::two]. *)
From Coq Require Import ZArith Reals.
From Flocq Require Import Core.Core IEEE754.BinarySingleNaN.
From Verif Require Import Base Num NumF FloatSpec ConstLemmas.
Open Scope R_scope.

(** C86: in [f32] and in [f64], [T::pi()] is the number of the type nearest to pi
    (no other constant would be closer), and [T::two()] is exactly two. *)
Theorem C86_constants :
  forall (T : Type) (O : num_ops T) (V : float_view T), ieee O V ->
    fin V (n_pi O) = true /\ val V (n_pi O) = rnd V PI
    /\ (forall y, fin V y = true -> Rabs (val V (n_pi O) - PI) <= Rabs (val V y - PI))
    /\ fin V (n_two O) = true /\ val V (n_two O) = 2.
Proof. exact C86_constants_thm. Qed.
Print Assumptions C86_constants.

(** Both types of the library are covered. *)
Example C86_hyps : forall lm lm' b b',
  ieee (f32_ops lm b) (ieee_view 24 128) /\ ieee (f64_ops lm' b') (ieee_view 53 1024).
Proof. intros. split; constructor. Qed.
