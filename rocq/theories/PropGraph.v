(** Property C141: equalisers of any number of bands, in exact arithmetic.

    Vocabulary: [band], [good_band], [equaliser], [eq_gain], [boosts], [cuts], [flip]
    ([GraphSpec]); [gain kind args w g]: the gain of one filter ([EqSpec]); [db_factor d]:
    10^(d/20) ([RbjSpec]). *)
From Coq Require Import Reals List Lra Lia Permutation.
From Coquelicot Require Import Coquelicot.
From Verif Require Import Num NumR FilterM RbjM Device Signal RbjSpec EqSpec GraphSpec GraphLemmas.
Import ListNotations.
Open Scope R_scope.

Definition demo : list band :=
  [ {| b_kind := LowShelf; b_freq := 100; b_db := 6; b_shape := 1 |};
    {| b_kind := Peak; b_freq := 1000; b_db := -12; b_shape := 2 |};
    {| b_kind := HighShelf; b_freq := 8000; b_db := 3; b_shape := 1 |} ].

Example demo_good : List.Forall (good_band 48000) demo.
Proof.
  assert (A : forall d, 0 < Rpower 10 (d / 40)) by (intros d; apply exp_pos).
  assert (V : forall d, valid_slope d 1) by (intros d; unfold valid_slope; split; [lra|]; replace (1 / 1 - 1) with 0 by field; lra).
  unfold demo, good_band, valid_band. repeat (apply List.Forall_cons || apply List.Forall_nil); cbn; unfold valid_band.
  - split; [right; split; [left; reflexivity|lra]|]. split; [lra|apply V].
  - split; [left; reflexivity|]. lra.
  - split; [right; split; [right; reflexivity|lra]|]. split; [lra|apply V].
Qed.

(** C141: the gain of an equaliser at a frequency is the product of the gains of its bands (in
    decibels, their sum), and nothing else. *)
Theorem C141_product :
  forall sr w bands gs g, 0 < w < PI -> List.Forall (good_band sr) bands ->
    List.Forall2 (fun b h => gain (b_kind b) (b_args sr b) w h) bands gs ->
    (eq_gain sr bands w g <-> g = fold_right Rmult 1 gs).
Proof. exact C141_product_thm. Qed.
Print Assumptions C141_product.

Example C141_product_hyps : exists gs, List.Forall2 (fun b h => gain (b_kind b) (b_args 48000 b) 1 h) demo gs.
Proof. exact (gains_exist 48000 1 demo ltac:(assert (X := PI2_1); lra) demo_good). Qed.

(** C141: at every frequency the gain of an equaliser is at most all its boosts together, and at
    least all its cuts together. *)
Theorem C141_range :
  forall sr w bands g, 0 < w < PI -> List.Forall (good_band sr) bands ->
    eq_gain sr bands w g -> db_factor (cuts bands) <= g <= db_factor (boosts bands).
Proof. exact C141_range_thm. Qed.
Print Assumptions C141_range.

Example C141_range_hyps : 0 < 1 < PI /\ boosts demo = 9 /\ cuts demo = -12 /\ exists g, eq_gain 48000 demo 1 g.
Proof.
  assert (X := PI2_1). assert (W : 0 < 1 < PI) by lra. split; [exact W|]. split; [|split].
  - unfold boosts, demo. cbn. unfold Rmax. repeat destruct (Rle_dec _ _); lra.
  - unfold cuts, demo. cbn. unfold Rmin. repeat destruct (Rle_dec _ _); lra.
  - destruct (gains_exist 48000 1 demo W demo_good) as [gs Hs]. exists (fold_right Rmult 1 gs).
    destruct (C141_product_thm 48000 1 demo gs (fold_right Rmult 1 gs) W demo_good Hs) as [_ P]. exact (P eq_refl).
Qed.

(** C141: the bands may stand in any order: the output is the same, sample for sample. *)
Theorem C141_order :
  forall sr bands bands', List.Forall (good_band sr) bands -> Permutation bands bands' ->
    forall (x : signal) (n : nat), equaliser sr bands x n = equaliser sr bands' x n.
Proof. exact C141_order_thm. Qed.
Print Assumptions C141_order.

Example C141_order_hyps : List.Forall (good_band 48000) demo /\ Permutation demo (rev demo) /\ rev demo <> demo.
Proof. split; [exact demo_good|]. split; [apply Permutation_rev|]. unfold demo. cbn. intros H. injection H. intros. lra. Qed.

(** C141: an equaliser is undone, sample for sample and from the first sample on, by the
    equaliser with the opposite gains, whatever the order of its bands. *)
Theorem C141_undo :
  forall sr bands bands', List.Forall (good_band sr) bands -> Permutation bands bands' ->
    forall (x : signal) (n : nat), equaliser sr (map flip bands') (equaliser sr bands x) n = x n.
Proof. exact C141_undo_thm. Qed.
Print Assumptions C141_undo.

Example C141_undo_hyps : List.Forall (good_band 48000) demo /\ Permutation demo (rev demo).
Proof. split; [exact demo_good|apply Permutation_rev]. Qed.
