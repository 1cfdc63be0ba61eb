(** Proofs of C141.  The [@PROP] blocks are copied into [PropGraph.v]. *)
(*@PROP
(** Property C141: equalisers of any number of bands, in exact arithmetic.

    Vocabulary: [band], [good_band], [equaliser], [eq_gain], [boosts], [cuts], [flip]
    ([GraphSpec]); [gain kind args w g]: the gain of one filter ([EqSpec]); [db_factor d]:
    10^(d/20) ([RbjSpec]). *)
From Coq Require Import Reals List Lra Lia Permutation.
From Coquelicot Require Import Coquelicot.
From Verif Require Import Num NumR FilterM RbjM Device Signal RbjSpec EqSpec GraphSpec GraphLemmas.
Import ListNotations.
Open Scope R_scope.

Definition demo : list band :=
  [ {| b_kind := LowShelf; b_freq := 100; b_db := 6; b_shape := 1 |};
    {| b_kind := Peak; b_freq := 1000; b_db := -12; b_shape := 2 |};
    {| b_kind := HighShelf; b_freq := 8000; b_db := 3; b_shape := 1 |} ].

Example demo_good : List.Forall (good_band 48000) demo.
Proof.
  assert (A : forall d, 0 < Rpower 10 (d / 40)) by (intros d; apply exp_pos).
  assert (V : forall d, valid_slope d 1) by (intros d; unfold valid_slope; split; [lra|]; replace (1 / 1 - 1) with 0 by field; lra).
  unfold demo, good_band, valid_band. repeat (apply List.Forall_cons || apply List.Forall_nil); cbn; unfold valid_band.
  - split; [right; split; [left; reflexivity|lra]|]. split; [lra|apply V].
  - split; [left; reflexivity|]. lra.
  - split; [right; split; [right; reflexivity|lra]|]. split; [lra|apply V].
Qed.
@*)
From Coq Require Import Reals List Lra Lia ZArith Permutation.
From Coquelicot Require Import Coquelicot.
From Verif Require Import Num NumR FilterM RbjM Device Signal SignalFacts CoreLemmas FilterFacts
  FilterLemmas RbjSpec RbjFacts RbjLemmas SysSpec SysLemmas EqSpec EqFacts EqLemmas CrossLemmas GraphSpec.
Import ListNotations.
Open Scope R_scope.

Lemma two_sines w g g' th th' (y : signal) : 0 < w < PI -> 0 <= g -> 0 <= g' ->
  approaches y (sinusoid (g * 1) w (0 + th)) -> approaches y (sinusoid (g' * 1) w (0 + th')) -> g = g'.
Proof.
  intros Hw Hg Hg' Hp Hp'. unfold approaches in *.
  assert (H := is_lim_seq_minus' _ _ _ _ Hp' Hp).
  assert (H2 : is_lim_seq (fun n => (g * cos th - g' * cos th') * cos (INR n * w)
                                   - (g * sin th - g' * sin th') * sin (INR n * w)) 0).
  { replace (Finite 0) with (Finite (0 - 0)) by (f_equal; ring).
    eapply is_lim_seq_ext; [|exact H]. intros n. cbv beta. unfold sinusoid.
    replace (INR n * w + (0 + th)) with (INR n * w + th) by ring.
    replace (INR n * w + (0 + th')) with (INR n * w + th') by ring.
    rewrite !cos_plus. ring. }
  destruct (sinus_unique w _ _ Hw H2) as [E1 E2].
  assert (S1 := sin2_cos2 th). assert (S2 := sin2_cos2 th'). unfold Rsqr in S1, S2.
  assert (E : g * g = g' * g').
  { transitivity ((g * cos th) * (g * cos th) + (g * sin th) * (g * sin th)).
    - transitivity (g * g * (sin th * sin th + cos th * cos th)); [rewrite S1|]; ring.
    - replace (g * cos th) with (g' * cos th') by lra. replace (g * sin th) with (g' * sin th') by lra.
      transitivity (g' * g' * (sin th' * sin th' + cos th' * cos th')); [|rewrite S2]; ring. }
  nra.
Qed.

(** ** The gains of a chain *)
Lemma chain_passes sr w bands gs : 0 < w < PI ->
  List.Forall2 (fun b g => valid (b_kind b) (b_args sr b) /\ gain (b_kind b) (b_args sr b) w g) bands gs ->
  0 <= fold_right Rmult 1 gs /\ exists theta, forall A phi u, approaches u (sinusoid A w phi) ->
    approaches (equaliser sr bands u) (sinusoid (fold_right Rmult 1 gs * A) w (phi + theta)).
Proof.
  intros Hw H. induction H as [|b g bands gs [V [G0 [th P]]] _ [P0 [T IH]]].
  - split; [cbn; lra|]. exists 0. intros A phi u Hu. cbn. rewrite Rmult_1_l, Rplus_0_r. exact Hu.
  - split; [cbn [fold_right]; apply Rmult_le_pos; assumption|]. exists (th + T). intros A phi u Hu.
    cbn [equaliser fold_left fold_right]. fold (equaliser sr bands (rbj_out (b_kind b) (b_args sr b) u)).
    replace (g * fold_right Rmult 1 gs * A) with (fold_right Rmult 1 gs * (g * A)) by ring.
    replace (phi + (th + T)) with (phi + th + T) by ring. apply IH.
    apply approaches_trans with (rbj_out (b_kind b) (b_args sr b) (sinusoid A w phi)); [|apply P].
    destruct (norm_stable (b_kind b) (b_args sr b) V) as [b0 [b1 [b2 [a1 [a2 [F St]]]]]].
    exact (settle _ _ _ _ _ _ _ _ _ _ _ F St Hu).
Qed.

Lemma self_app (x : signal) : approaches x x.
Proof. unfold approaches. eapply is_lim_seq_ext; [|apply is_lim_seq_const]. intros n. cbv beta. ring. Qed.

(** C141: the gain of an equaliser at a frequency is the product of the gains of its bands (in
    decibels, their sum), and nothing else. *)
Lemma C141_product_thm :
  forall sr w bands gs g, 0 < w < PI -> List.Forall (good_band sr) bands ->
    List.Forall2 (fun b h => gain (b_kind b) (b_args sr b) w h) bands gs ->
    (eq_gain sr bands w g <-> g = fold_right Rmult 1 gs).
Proof.
  intros sr w bands gs g Hw Hv Hg.
  assert (H : List.Forall2 (fun b g => valid (b_kind b) (b_args sr b) /\ gain (b_kind b) (b_args sr b) w g) bands gs).
  { revert Hv. induction Hg as [|b h bands gs Hb _ IH]; intros Hv; [constructor|]. inversion Hv as [|? ? [_ V] Hv']; subst.
    constructor; [split; assumption|apply IH, Hv']. }
  destruct (chain_passes sr w bands gs Hw H) as [P0 [T P]]. split.
  - intros [G0 [th Pg]]. exact (two_sines w _ _ _ _ _ Hw G0 P0 (Pg 1 0) (P 1 0 _ (self_app _))).
  - intros ->. split; [exact P0|]. exists T. intros A phi. apply P, self_app.
Qed.
(*@PROP
Example C141_product_hyps : exists gs, List.Forall2 (fun b h => gain (b_kind b) (b_args 48000 b) 1 h) demo gs.
Proof. exact (gains_exist 48000 1 demo ltac:(assert (X := PI2_1); lra) demo_good). Qed.
@*)

Lemma gains_exist sr w bands : 0 < w < PI -> List.Forall (good_band sr) bands ->
  exists gs, List.Forall2 (fun b h => gain (b_kind b) (b_args sr b) w h) bands gs.
Proof.
  intros Hw H. induction H as [|b bands [_ V] _ [gs IH]]; [exists []; constructor|].
  eexists (_ :: gs). constructor; [apply analog_gain; [exact V|lra]|exact IH].
Qed.

Lemma factor_add a b : db_factor (a + b) = db_factor a * db_factor b.
Proof. unfold db_factor. rewrite <- Rpower_plus. f_equal. field. Qed.
Lemma factor_0 : db_factor 0 = 1.
Proof. unfold db_factor. replace (0 / 20) with 0 by field. apply Rpower_O. lra. Qed.
Lemma factor_pos d : 0 < db_factor d.
Proof. apply exp_pos. Qed.
Lemma factor_le a b : a <= b -> db_factor a <= db_factor b.
Proof. intros H. unfold db_factor. apply Rle_Rpower; lra. Qed.

(** C141: at every frequency the gain of an equaliser is at most all its boosts together, and at
    least all its cuts together. *)
Lemma C141_range_thm :
  forall sr w bands g, 0 < w < PI -> List.Forall (good_band sr) bands ->
    eq_gain sr bands w g -> db_factor (cuts bands) <= g <= db_factor (boosts bands).
Proof.
  intros sr w bands g Hw Hv Hg. destruct (gains_exist sr w bands Hw Hv) as [gs Hs].
  apply (C141_product_thm sr w bands gs g Hw Hv Hs) in Hg. subst g.
  revert Hv. induction Hs as [|b h bands gs Hh _ IH]; intros Hv.
  - cbn. rewrite factor_0. lra.
  - inversion Hv as [|? ? [K V] Hv']; subst. specialize (IH Hv').
    cbn [cuts boosts fold_right]. fold (cuts bands). fold (boosts bands). rewrite !factor_add.
    assert (R : Rmin 1 (db_factor (b_db b)) <= h <= Rmax 1 (db_factor (b_db b))).
    { destruct K as [K|[K S]].
      - rewrite K in *. exact (C77_peak_range_thm _ _ _ _ _ _ V Hw Hh).
      - exact (C77_shelf_range_thm _ _ _ _ _ _ _ K V S Hw Hh). }
    assert (L : db_factor (Rmin 0 (b_db b)) <= h <= db_factor (Rmax 0 (b_db b))).
    { assert (F0 := factor_0). unfold Rmin, Rmax in *.
      destruct (Rle_dec 0 (b_db b)) as [D|D]; [assert (X := factor_le _ _ D)|assert (X := factor_le (b_db b) 0 ltac:(lra))];
        destruct (Rle_dec 1 (db_factor (b_db b))); lra. }
    assert (P1 := factor_pos (Rmin 0 (b_db b))). assert (P2 := factor_pos (cuts bands)).
    split; apply Rmult_le_compat; lra.
Qed.
(*@PROP
Example C141_range_hyps : 0 < 1 < PI /\ boosts demo = 9 /\ cuts demo = -12 /\ exists g, eq_gain 48000 demo 1 g.
Proof.
  assert (X := PI2_1). assert (W : 0 < 1 < PI) by lra. split; [exact W|]. split; [|split].
  - unfold boosts, demo. cbn. unfold Rmax. repeat destruct (Rle_dec _ _); lra.
  - unfold cuts, demo. cbn. unfold Rmin. repeat destruct (Rle_dec _ _); lra.
  - destruct (gains_exist 48000 1 demo W demo_good) as [gs Hs]. exists (fold_right Rmult 1 gs).
    destruct (C141_product_thm 48000 1 demo gs (fold_right Rmult 1 gs) W demo_good Hs) as [_ P]. exact (P eq_refl).
Qed.
@*)

(** ** The order of the bands *)
Lemma rbj_ext kind args (x x' : signal) : (forall n, x n = x' n) -> forall n, rbj_out kind args x n = rbj_out kind args x' n.
Proof.
  intros E n. unfold rbj_out, out. rewrite (state_at_ext _ _ x x' n (fun m _ => E m)), E. reflexivity.
Qed.

Lemma eq_ext sr bands : forall x x' : signal, (forall n, x n = x' n) -> forall n, equaliser sr bands x n = equaliser sr bands x' n.
Proof.
  induction bands as [|b bands IH]; intros x x' E n; [apply E|]. cbn [equaliser fold_left].
  apply (IH (rbj_out (b_kind b) (b_args sr b) x) (rbj_out (b_kind b) (b_args sr b) x')). apply rbj_ext, E.
Qed.

(** C141: the bands may stand in any order: the output is the same, sample for sample. *)
Lemma C141_order_thm :
  forall sr bands bands', List.Forall (good_band sr) bands -> Permutation bands bands' ->
    forall (x : signal) (n : nat), equaliser sr bands x n = equaliser sr bands' x n.
Proof.
  intros sr bands bands' Hv Hp. induction Hp as [|b l l' _ IH|a b l|l l' l'' P IH _ IH']; intros x n.
  - reflexivity.
  - inversion Hv; subst. cbn [equaliser fold_left]. apply (IH ltac:(assumption)).
  - inversion Hv as [|? ? [_ Vb] Hv']; subst. inversion Hv' as [|? ? [_ Va] _]; subst. cbn [equaliser fold_left].
    apply eq_ext. intros m.
    exact (C83_series_commutes_thm _ _ _ _ _ _ _ _ _ _ (valid_filter_eq _ _ Vb) (valid_filter_eq _ _ Va) x m).
  - rewrite IH by exact Hv. apply IH'. exact (Permutation_Forall P Hv).
Qed.
(*@PROP
Example C141_order_hyps : List.Forall (good_band 48000) demo /\ Permutation demo (rev demo) /\ rev demo <> demo.
Proof. split; [exact demo_good|]. split; [apply Permutation_rev|]. unfold demo. cbn. intros H. injection H. intros. lra. Qed.
@*)

Lemma flip_good sr b : good_band sr b -> good_band sr (flip b).
Proof.
  intros [K V]. split; [exact K|]. unfold flip, b_args in *. cbn [b_kind b_freq b_db b_shape]. apply valid_neg; [|exact V].
  destruct K as [K|[[K|K] _]]; rewrite K; tauto.
Qed.

Lemma eq_app sr l l' x : equaliser sr (l ++ l') x = equaliser sr l' (equaliser sr l x).
Proof. unfold equaliser. apply fold_left_app. Qed.

(** C141: an equaliser is undone, sample for sample and from the first sample on, by the
    equaliser with the opposite gains, whatever the order of its bands. *)
Lemma C141_undo_thm :
  forall sr bands bands', List.Forall (good_band sr) bands -> Permutation bands bands' ->
    forall (x : signal) (n : nat), equaliser sr (map flip bands') (equaliser sr bands x) n = x n.
Proof.
  intros sr bands bands' Hv Hp x n.
  assert (Hf : List.Forall (good_band sr) (map flip bands')).
  { apply List.Forall_map. refine (List.Forall_impl _ (flip_good sr) _). exact (Permutation_Forall Hp Hv). }
  rewrite (C141_order_thm sr (map flip bands') (map flip (rev bands)) Hf).
  2: { apply Permutation_map. apply Permutation_trans with bands; [apply Permutation_sym, Hp|apply Permutation_rev]. }
  clear Hp Hf bands'. revert x n. induction Hv as [|b l Hb Hl IH]; intros x n; [reflexivity|].
  cbn [rev]. rewrite map_app, eq_app. cbn [map]. change (equaliser sr (b :: l) x) with (equaliser sr l (rbj_out (b_kind b) (b_args sr b) x)).
  change (equaliser sr [flip b]) with (fun y => rbj_out (b_kind b) (b_args sr (flip b)) y). cbv beta.
  rewrite (rbj_ext _ _ _ (rbj_out (b_kind b) (b_args sr b) x) (IH (rbj_out (b_kind b) (b_args sr b) x))).
  destruct Hb as [K V]. unfold b_args, flip in *. cbn [b_kind b_freq b_db b_shape].
  apply C46_opposite_gains_cancel_thm; [|exact V]. destruct K as [K|[[K|K] _]]; rewrite K; tauto.
Qed.
(*@PROP
Example C141_undo_hyps : List.Forall (good_band 48000) demo /\ Permutation demo (rev demo).
Proof. split; [exact demo_good|apply Permutation_rev]. Qed.
@*)
