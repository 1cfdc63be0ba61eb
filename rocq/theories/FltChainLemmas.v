(** Proofs of C142.  The [@PROP] blocks are copied into [PropFltChain.v]. *)
(*@PROP
(** Property C142: RBJ filters in series in [f32] and [f64] follow the ideal filters for ever.

    Vocabulary: [flt_chain], [ideal_chain], [rated], [chain_ok], [chain_error], [peak_level],
    [opposite] ([FltChainSpec]); [trig_close], [pow10_close]: sine, cosine and power of the
    platform ([RbjFltSpec], [DbSpec]). *)
From Coq Require Import ZArith Reals List Bool Lra Lia Permutation.
From Flocq Require Import Core.Core IEEE754.BinarySingleNaN.
From Verif Require Import Base Num NumR NumF FloatSpec FloatFacts Witness CrLibm FilterM RbjM Device Signal FltFilterSpec
  RbjSpec RbjFltSpec RbjAccSpec DbSpec GainAccSpec FltChainSpec FltChainLemmas.
Import ListNotations.
Open Scope R_scope.
@*)
From Coq Require Import ZArith Reals List Bool Lra Lia Permutation.
From Coquelicot Require Import Coquelicot.
From Flocq Require Import Core.Core IEEE754.BinarySingleNaN.
From Verif Require Import Base Num NumR NumF FloatSpec FloatFacts Witness CrLibm FilterM RbjM Device Signal SignalFacts FilterFacts FilterLemmas
  FltFilterSpec FltFilterLemmas SysSpec SysLemmas RbjSpec RbjLemmas RbjFltSpec RbjFltLemmas RbjAccSpec RbjAccLemmas
  DbSpec DbLemmas GainAccSpec GainAccLemmas OverSpec OverLemmas FltChainSpec.
Import ListNotations.
Open Scope R_scope.

Lemma rbj_linear kind args c : rbj_coeffs R_ops kind args = Some c -> forall (a b : R) (u v : signal) n,
  rbj_out kind args (fun m => a * u m + b * v m) n = a * rbj_out kind args u n + b * rbj_out kind args v n.
Proof.
  intros E. destruct c as [[[[b0 b1] b2] a1] a2].
  assert (F : filter_eq (dev_rbj R_ops kind) args (b0, b1, b2, a1, a2)) by (constructor; exact E).
  exact (C31_linear_thm _ _ _ _ _ F).
Qed.

Lemma rbj_same kind args (x x' : signal) : (forall n, x n = x' n) -> forall n, rbj_out kind args x n = rbj_out kind args x' n.
Proof. intros E n. unfold rbj_out, out. rewrite (state_at_ext _ _ x x' n (fun m _ => E m)), E. reflexivity. Qed.

(** The ideal filter amplifies a difference by at most H. *)
Lemma difference kind args c H D (u v : signal) : rbj_coeffs R_ops kind args = Some c -> peak_level kind args H ->
  (forall n, Rabs (u n - v n) <= D) -> forall n, Rabs (rbj_out kind args u n - rbj_out kind args v n) <= H * D.
Proof.
  intros E HH Hd n.
  assert (D0 : 0 <= D) by (eapply Rle_trans; [apply Rabs_pos|apply (Hd 0%nat)]).
  destruct (Rle_lt_or_eq_dec 0 D D0) as [Dp|De].
  - assert (L := rbj_linear kind args c E (/ D) (- / D) u v n).
    assert (P := HH (fun m => / D * u m + - / D * v m)).
    assert (Q : forall m, Rabs (/ D * u m + - / D * v m) <= 1).
    { intros m. replace (/ D * u m + - / D * v m) with (/ D * (u m - v m)) by ring.
      assert (0 < / D) by (apply Rinv_0_lt_compat; exact Dp). rewrite Rabs_mult, (Rabs_pos_eq (/ D)) by lra.
      apply Rmult_le_reg_l with D; [exact Dp|]. rewrite <- Rmult_assoc, Rinv_r, Rmult_1_l, Rmult_1_r by lra. apply Hd. }
    specialize (P Q n). rewrite L in P.
    set (yu := rbj_out kind args u n) in *. set (yv := rbj_out kind args v n) in *. clearbody yu yv.
    replace (/ D * yu + - / D * yv) with (/ D * (yu - yv)) in P by ring.
    assert (I : 0 < / D) by (apply Rinv_0_lt_compat; exact Dp). rewrite Rabs_mult, (Rabs_pos_eq (/ D)) in P by lra.
    apply Rmult_le_reg_l with (/ D); [exact I|]. replace (/ D * (H * D)) with H by (field; lra). exact P.
  - subst D. rewrite (rbj_same kind args u v).
    + rewrite Rminus_eq_0, Rabs_R0. lra.
    + intros m. specialize (Hd m). assert (X := Rabs_pos (u m - v m)). assert (Y : Rabs (u m - v m) = 0) by lra.
      destruct (Req_dec (u m - v m) 0) as [Z|Z]; [lra|]. apply Rabs_no_R0 in Z. lra.
Qed.

Lemma level kind args c H M (u : signal) : rbj_coeffs R_ops kind args = Some c -> peak_level kind args H ->
  (forall n, Rabs (u n) <= M) -> forall n, Rabs (rbj_out kind args u n) <= H * M.
Proof.
  intros E HH Hu n. assert (X := difference kind args c H M u (fun m => 0 * u m + 0 * u m) E HH).
  specialize (X ltac:(intros m; cbv beta; replace (u m - (0 * u m + 0 * u m)) with (u m) by ring; apply Hu) n).
  rewrite (rbj_linear kind args c E) in X.
  replace (rbj_out kind args u n - (0 * rbj_out kind args u n + 0 * rbj_out kind args u n)) with (rbj_out kind args u n) in X by ring. exact X.
Qed.

Lemma coef_error_pos {T} (V : float_view T) s : in_range V s -> 0 <= coef_error V s.
Proof.
  destruct s as [kind [sr f q|sr f g q]]; unfold in_range, coef_error; cbn [fst snd]; assert (B := bpow_gt_0 radix2 (- fprec V)).
  - intros [_ [_ H]]. unfold q_error. assert (0 < / val V q) by (apply Rinv_0_lt_compat; lra). apply Rmult_le_pos; lra.
  - intros [_ [_ [_ H]]]. unfold gain_error. destruct kind; try contradiction; try lra.
    assert (0 < / val V q) by (apply Rinv_0_lt_compat; lra). apply Rmult_le_pos; lra.
Qed.

Lemma peak_gain_nonneg a1 a2 G : peak_gain a1 a2 G -> 0 <= G.
Proof. intros H. assert (X := peak_gain_ge1 _ _ _ H). lra. Qed.

(** One filter against its ideal. *)
Lemma one_tracks (T : Type) (O : num_ops T) (V : float_view T) (HO : ieee O V) (HT : trig_close O V) (HP : pow10_close O V)
  r M (x : nat -> T) : rated_ok V r -> 256 * (M + r_H r * M) <= fmax V -> 0 <= r_H r ->
  (forall n, fin V (x n) = true /\ Rabs (val V (x n)) <= M) ->
  forall n, fin V (stream (dev_rbj O (fst (r_set r))) (snd (r_set r)) x n) = true
    /\ Rabs (val V (stream (dev_rbj O (fst (r_set r))) (snd (r_set r)) x n)
          - rbj_out (fst (r_set r)) (ideal_args V (snd (r_set r))) (fun n => val V (x n)) n) <= stage_error V r M.
Proof.
  intros [Hr [[b0 [b1 [b2 [a1 [a2 [Ek HG]]]]]] [HH H5]]] Hm H0 Hx n.
  assert (M0 : 0 <= M) by (eapply Rle_trans; [apply Rabs_pos|apply (Hx 0%nat)]).
  assert (HM : 0 <= r_H r * M) by (apply Rmult_le_pos; assumption).
  assert (Y := level _ _ _ _ M (fun n => val V (x n)) Ek HH (fun n => proj2 (Hx n))).
  assert (E0 := coef_error_pos V _ Hr). assert (G0 := peak_gain_nonneg _ _ _ HG).
  destruct (fmin_small _ O V HO) as [Fm _].
  unfold stage_error. destruct r as [[kind [sr f q|sr f g q]] G H]; cbn [r_set r_G r_H fst snd in_range coef_error ideal_args] in *.
  - destruct Hr as [Ha [Fq Hq]].
    destruct (C94_rbj_tracks_ideal_thm T O V HO HT kind sr f q Ha Fq Hq b0 b1 b2 a1 a2 G M (H * M) x Ek HG H5 Hx Y ltac:(lra) n) as [F B].
    split; [exact F|]. eapply Rle_trans; [exact B|].
    assert (0 <= q_error V (val V q) * G * (M + H * M + fmin V)) by (apply Rmult_le_pos; [apply Rmult_le_pos; assumption|lra]). lra.
  - destruct Hr as [Ha Hg].
    exact (C97_tracks_ideal_thm T O V HO HT HP kind sr f g q Ha Hg b0 b1 b2 a1 a2 G M (H * M) x Ek HG H5 Hx Y Hm n).
Qed.

Lemma level_pos kind args H : peak_level kind args H -> 0 <= H.
Proof.
  intros P. eapply Rle_trans; [apply Rabs_pos|]. apply (P (fun _ => 0) ltac:(intros n; cbv beta; rewrite Rabs_R0; lra) 0%nat).
Qed.

(** One filter, whose input [x] is within [D] of the signal [z]. *)
Lemma stage_tracks (T : Type) (O : num_ops T) (V : float_view T) (HO : ieee O V) (HT : trig_close O V) (HP : pow10_close O V)
  r M D (x : nat -> T) (z : signal) : rated_ok V r -> 256 * (M + r_H r * M) <= fmax V ->
  (forall n, fin V (x n) = true /\ Rabs (val V (x n)) <= M) -> (forall n, Rabs (val V (x n) - z n) <= D) ->
  let y := stream (dev_rbj O (fst (r_set r))) (snd (r_set r)) x in
  forall n, fin V (y n) = true /\ Rabs (val V (y n)) <= r_H r * M + stage_error V r M
    /\ Rabs (val V (y n) - rbj_out (fst (r_set r)) (ideal_args V (snd (r_set r))) z n) <= stage_error V r M + r_H r * D.
Proof.
  intros Hr Hm Hx Hz y n. assert (H0 := level_pos _ _ _ (proj1 (proj2 (proj2 Hr)))).
  destruct (one_tracks T O V HO HT HP r M x Hr Hm H0 Hx n) as [F B]. fold y in F, B.
  destruct Hr as [_ [[b0 [b1 [b2 [a1 [a2 [Ek _]]]]]] [HH _]]].
  assert (YB := level _ _ _ _ M (fun n => val V (x n)) Ek HH (fun n => proj2 (Hx n)) n).
  assert (X := difference _ _ _ _ D (fun n => val V (x n)) z Ek HH Hz n).
  set (yi := rbj_out _ _ (fun n => val V (x n)) n) in *. set (zi := rbj_out _ _ z n) in *.
  split; [exact F|]. split.
  - replace (val V (y n)) with ((val V (y n) - yi) + yi) by ring. eapply Rle_trans; [apply Rabs_triang|]. lra.
  - replace (val V (y n) - zi) with ((val V (y n) - yi) + (yi - zi)) by ring. eapply Rle_trans; [apply Rabs_triang|]. lra.
Qed.

(** C142: any of the nine filters in series.  For an input of finite samples up to [M], everything
    that comes out of the chain is finite and within [chain_error] of the output of the ideal
    chain, for ever, whatever the number of filters. *)
Lemma C142_chain_thm :
  forall (T : Type) (O : num_ops T) (V : float_view T), ieee O V -> trig_close O V -> pow10_close O V ->
  forall (l : list (rated T)) (M : R) (x : nat -> T), chain_ok V l M ->
    (forall n, fin V (x n) = true /\ Rabs (val V (x n)) <= M) ->
    forall n, fin V (flt_chain O (map r_set l) x n) = true
      /\ Rabs (val V (flt_chain O (map r_set l) x n) - ideal_chain V (map r_set l) (fun n => val V (x n)) n) <= chain_error V l M 0.
Proof.
  intros T O V HO HT HP l M x Hok Hx.
  assert (G : forall (l : list (rated T)) M D (x : nat -> T) (z : signal), chain_ok V l M ->
    (forall n, fin V (x n) = true /\ Rabs (val V (x n)) <= M) -> (forall n, Rabs (val V (x n) - z n) <= D) ->
    forall n, fin V (flt_chain O (map r_set l) x n) = true
      /\ Rabs (val V (flt_chain O (map r_set l) x n) - ideal_chain V (map r_set l) z n) <= chain_error V l M D).
  { clear - HO HT HP. intros l. induction l as [|r l IH]; intros M D x z Hok Hx Hz n.
    - cbn. split; [apply Hx|apply Hz].
    - cbn [chain_ok] in Hok. destruct Hok as [Hs [Hm Hok]].
      assert (St := stage_tracks T O V HO HT HP r M D x z Hs Hm Hx Hz). cbv zeta in St.
      cbn [map flt_chain ideal_chain fold_left chain_error].
      apply (IH _ _ _ _ Hok); intros i; destruct (St i) as [S1 [S2 S3]]; [split; assumption|exact S3]. }
  apply G; [exact Hok|exact Hx|]. intros n. rewrite Rminus_eq_0, Rabs_R0. lra.
Qed.

(** ** The order of the stages *)
Lemma ideal_ext {T} (V : float_view T) (l : list (rbj_kind * rbj_args T)) : forall x x' : signal, (forall n, x n = x' n) ->
  forall n, ideal_chain V l x n = ideal_chain V l x' n.
Proof.
  induction l as [|s l IH]; intros x x' E n; [apply E|]. cbn [ideal_chain fold_left].
  apply (IH (rbj_out (fst s) (ideal_args V (snd s)) x) (rbj_out (fst s) (ideal_args V (snd s)) x')). apply rbj_same, E.
Qed.

Definition has_ideal {T} (V : float_view T) (s : rbj_kind * rbj_args T) : Prop :=
  exists c, rbj_coeffs R_ops (fst s) (ideal_args V (snd s)) = Some c.

Lemma ideal_perm {T} (V : float_view T) (l l' : list (rbj_kind * rbj_args T)) :
  List.Forall (has_ideal V) l -> Permutation l l' ->
  forall (x : signal) (n : nat), ideal_chain V l x n = ideal_chain V l' x n.
Proof.
  intros Hv Hp. induction Hp as [|b l l' _ IH|a b l|l l' l'' P IH _ IH']; intros x n.
  - reflexivity.
  - inversion Hv; subst. cbn [ideal_chain fold_left]. apply (IH ltac:(assumption)).
  - inversion Hv as [|? ? [cb Vb] Hv']; subst. inversion Hv' as [|? ? [ca Va] _]; subst. cbn [ideal_chain fold_left].
    apply ideal_ext. intros m. destruct ca as [[[[? ?] ?] ?] ?], cb as [[[[? ?] ?] ?] ?].
    exact (C83_series_commutes_thm _ _ _ _ _ _ _ _ _ _ (fe_rbj _ _ _ Vb) (fe_rbj _ _ _ Va) x m).
  - rewrite IH by exact Hv. apply IH'. exact (Permutation_Forall P Hv).
Qed.

Lemma chain_coeffs {T} (V : float_view T) (l : list (rated T)) : forall M, chain_ok V l M -> List.Forall (has_ideal V) (map r_set l).
Proof.
  induction l as [|r l IH]; intros M H; [constructor|]. cbn [chain_ok] in H. destruct H as [Hs [_ H]].
  cbn [map]. constructor; [|exact (IH _ H)]. destruct Hs as [_ [[b0 [b1 [b2 [a1 [a2 [E _]]]]]] _]]. eexists. exact E.
Qed.

(** C142: the same filters in another order give other samples in floating point, but never by
    more than the two errors together. *)
Lemma C142_order_thm :
  forall (T : Type) (O : num_ops T) (V : float_view T), ieee O V -> trig_close O V -> pow10_close O V ->
  forall (l l' : list (rated T)) (M : R) (x : nat -> T), chain_ok V l M -> chain_ok V l' M ->
    Permutation (map r_set l) (map r_set l') -> (forall n, fin V (x n) = true /\ Rabs (val V (x n)) <= M) ->
    forall n, Rabs (val V (flt_chain O (map r_set l) x n) - val V (flt_chain O (map r_set l') x n))
      <= chain_error V l M 0 + chain_error V l' M 0.
Proof.
  intros T O V HO HT HP l l' M x H H' Hp Hx n.
  destruct (C142_chain_thm T O V HO HT HP l M x H Hx n) as [_ B]. destruct (C142_chain_thm T O V HO HT HP l' M x H' Hx n) as [_ B'].
  rewrite <- (ideal_perm V (map r_set l) (map r_set l') (chain_coeffs V l M H) Hp) in B'.
  set (i := ideal_chain V (map r_set l) _ n) in *. set (a := val V (flt_chain O (map r_set l) x n)) in *.
  set (b := val V (flt_chain O (map r_set l') x n)) in *. apply Rabs_le. apply Rabs_le_inv in B, B'. lra.
Qed.

(** C142: a difference there is.  In [f32] already two plain gains ([OneZero] filters that
    multiply by 4097 and by 8191) give different samples in the two orders, whatever the math
    library. *)
Lemma C142_order_exact_refuted_thm :
  forall (lm : libm f32) (b : bool), let D := dev_one_zero (f32_ops lm b) in
  ~ (forall (k k' : f32 * f32) (x : nat -> f32) (n : nat), stream D k' (stream D k x) n = stream D k (stream D k' x) n).
Proof.
  intros lm b D H. specialize (H (fl32 4097 0, fl32 0 0) (fl32 8191 0, fl32 0 0) (fun _ => fl32 5003 0) 0%nat).
  apply (f_equal (@B2SF 24 128)) in H. vm_compute in H. discriminate H.
Qed.

(** ** Opposite gains *)
Lemma val_neg {T} (O : num_ops T) (V : float_view T) : ieee O V -> forall a, val V (n_neg O a) = - val V a.
Proof. intros HO a. destruct HO; apply B2R_Bopp. Qed.

Definition undoable {T} (V : float_view T) (s : rbj_kind * rbj_args T) : Prop :=
  In (fst s) [Peak; LowShelf; HighShelf] /\ valid (fst s) (ideal_args V (snd s)).

Lemma undo_one {T} (O : num_ops T) (V : float_view T) : ieee O V -> forall s, undoable V s ->
  forall x n, ideal_chain V [s; opposite O s] x n = x n.
Proof.
  intros HO [kind a] [Hk Hv] x n. cbn [fst snd] in *. cbn [ideal_chain fold_left fst snd].
  destruct a as [sr f q|sr f g q]; cbn [ideal_args] in Hv.
  - exfalso. destruct Hk as [<-|[<-|[<-|[]]]]; exact Hv.
  - unfold opposite. cbn [fst snd ideal_args]. rewrite (val_neg O V HO).
    apply C46_opposite_gains_cancel_thm; [|exact Hv]. destruct Hk as [<-|[<-|[<-|[]]]]; tauto.
Qed.

Lemma ideal_app {T} (V : float_view T) l l' x : ideal_chain V (l ++ l') x = ideal_chain V l' (ideal_chain V l x).
Proof. unfold ideal_chain. apply fold_left_app. Qed.

Lemma undo_all {T} (O : num_ops T) (V : float_view T) (HO : ieee O V) (l : list (rbj_kind * rbj_args T)) : forall l',
  List.Forall (undoable V) l -> List.Forall (has_ideal V) (l ++ l') -> Permutation (map (opposite O) l) l' ->
  forall x n, ideal_chain V (l ++ l') x n = x n.
Proof.
  induction l as [|s l IH]; intros l' Hu Hi Hp x n.
  - cbn [map] in Hp. apply Permutation_nil in Hp. subst l'. reflexivity.
  - assert (P : Permutation ((s :: l) ++ l') ([s; opposite O s] ++ (l ++ map (opposite O) l))).
    { cbn [app]. constructor. rewrite <- Hp. cbn [map]. symmetry. apply Permutation_middle. }
    rewrite (ideal_perm V _ _ Hi P), ideal_app. inversion Hu; subst.
    rewrite (ideal_ext V _ (ideal_chain V [s; opposite O s] x) x (undo_one O V HO s ltac:(assumption) x)).
    apply IH; [assumption| |apply Permutation_refl].
    assert (Q := Permutation_Forall P Hi). apply Forall_app in Q. apply Q.
Qed.

(** C142: an equaliser of any number of bands, followed by the equaliser with the opposite gains,
    its bands in any order, gives back the input up to [chain_error]. *)
Lemma C142_undo_thm :
  forall (T : Type) (O : num_ops T) (V : float_view T), ieee O V -> trig_close O V -> pow10_close O V ->
  forall (l l' : list (rated T)) (M : R) (x : nat -> T), chain_ok V (l ++ l') M ->
    List.Forall (fun r => In (fst (r_set r)) [Peak; LowShelf; HighShelf] /\ valid (fst (r_set r)) (ideal_args V (snd (r_set r)))) l ->
    Permutation (map (fun r => opposite O (r_set r)) l) (map r_set l') ->
    (forall n, fin V (x n) = true /\ Rabs (val V (x n)) <= M) ->
    forall n, Rabs (val V (flt_chain O (map r_set (l ++ l')) x n) - val V (x n)) <= chain_error V (l ++ l') M 0.
Proof.
  intros T O V HO HT HP l l' M x Hok Hu Hp Hx n.
  destruct (C142_chain_thm T O V HO HT HP (l ++ l') M x Hok Hx n) as [_ B].
  assert (Hi := chain_coeffs V _ M Hok). rewrite map_app in Hi.
  assert (E : ideal_chain V (map r_set (l ++ l')) (fun n => val V (x n)) n = val V (x n)).
  { rewrite map_app. apply (undo_all O V HO); [|exact Hi|rewrite map_map; exact Hp]. apply List.Forall_map. exact Hu. }
  rewrite E in B. exact B.
Qed.

(** ** The levels *)
Lemma level_by_sum kind args b0 b1 b2 a1 a2 G B : rbj_coeffs R_ops kind args = Some (b0, b1, b2, a1, a2) -> peak_gain a1 a2 G ->
  Rabs b0 + Rabs b1 + Rabs b2 <= B -> peak_level kind args (B * G).
Proof.
  intros Ek HG SB x Hx n.
  assert (F : filter_eq (dev_rbj R_ops kind) args (b0, b1, b2, a1, a2)) by (constructor; exact Ek).
  assert (Hu := filter_obeys _ _ _ F x). fold (rbj_out kind args x) in Hu.
  set (y := rbj_out kind args x) in *. clearbody y. assert (P0 := Rabs_pos b0). assert (P1 := Rabs_pos b1). assert (P2 := Rabs_pos b2).
  rewrite Rmult_comm.
  apply (prefix_bound a1 a2 G y (fun j => b0 * x j + b1 * back 1 x j + b2 * back 2 x j)); [exact HG|lra| |].
  - intros j _. rewrite (Hu j). ring.
  - intros j _.
    assert (Bk : forall i, Rabs (back i x j) <= 1).
    { intros i. unfold back. destruct (i <=? j)%nat; [apply Hx|rewrite Rabs_R0; lra]. }
    eapply Rle_trans; [apply Rabs_triang|]. eapply Rle_trans; [apply Rplus_le_compat_r, Rabs_triang|]. rewrite !Rabs_mult.
    assert (Rabs b0 * Rabs (x j) <= Rabs b0 * 1) by (apply Rmult_le_compat_l; [apply Rabs_pos|apply Hx]).
    assert (Rabs b1 * Rabs (back 1 x j) <= Rabs b1 * 1) by (apply Rmult_le_compat_l; [apply Rabs_pos|apply Bk]).
    assert (Rabs b2 * Rabs (back 2 x j) <= Rabs b2 * 1) by (apply Rmult_le_compat_l; [apply Rabs_pos|apply Bk]).
    lra.
Qed.

(** C142: what may be taken for [r_H]: always 4 times the gain of the feedback for the filters
    with a Q, 34 times for those with a gain; and 1, the best possible, for the low passes that
    do not overshoot. *)
Lemma C142_levels_thm :
  (forall (T : Type) (V : float_view T) s b0 b1 b2 a1 a2 G, in_range V s ->
     rbj_coeffs R_ops (fst s) (ideal_args V (snd s)) = Some (b0, b1, b2, a1, a2) -> peak_gain a1 a2 G ->
     peak_level (fst s) (ideal_args V (snd s)) (match snd s with RbjQ _ _ _ => 4 | RbjGain _ _ _ _ => 34 end * G))
  /\ (forall sr f q, valid_band sr f -> 0 < q <= / 2 -> f <= sr / 4 -> peak_level LowPass (RbjQ sr f q) 1)
  /\ (forall sr f q H, valid LowPass (RbjQ sr f q) -> peak_level LowPass (RbjQ sr f q) H -> 1 <= H).
Proof.
  split; [|split].
  - intros T V [kind [sr f q|sr f g q]] b0 b1 b2 a1 a2 G Hr Ek HG; cbn [fst snd in_range ideal_args] in *.
    + destruct Hr as [Ha [_ Hq]]. apply (level_by_sum _ _ _ _ _ _ _ _ _ Ek HG).
      assert (Q0 : 0 < val V q) by lra. apply (q_sums kind _ _ _ _ _ _ _ _ Q0 (audible_sin V _ _ Ha) Ek).
    + destruct Hr as [Ha Hg]. apply (level_by_sum _ _ _ _ _ _ _ _ _ Ek HG).
      apply (gain_sums V kind _ _ _ _ _ _ _ _ _ Hg (audible_sin V _ _ Ha) Ek).
  - intros sr f q Hb Hq Hf x Hx n.
    destruct (C138_lowpass_thm sr f q Hb ltac:(lra)) as [No [Ke _]]. cbv zeta in No, Ke.
    assert (No' := proj2 No ltac:(lra)). assert (Ke' := proj2 Ke ltac:(lra)).
    assert (One : forall m, rbj_out LowPass (RbjQ sr f q) (fun _ => 1) m <= 1) by (intros m; apply (No' (fun _ => 1) 1); intros; lra).
    assert (X : exists c, rbj_coeffs R_ops LowPass (RbjQ sr f q) = Some c) by (eexists; reflexivity). destruct X as [c E].
    apply Rabs_le. split.
    + assert (L := rbj_linear LowPass _ c E (-1) 0 x x n).
      assert (U := Ke' (fun m => -1 * x m + 0 * x m) (fun _ => 1)). specialize (U ltac:(intros m; specialize (Hx m); apply Rabs_le_inv in Hx; lra) n).
      change (rbj_out LowPass (RbjQ sr f q) (fun m => -1 * x m + 0 * x m) n <= rbj_out LowPass (RbjQ sr f q) (fun _ => 1) n) in U.
      rewrite L in U. specialize (One n). lra.
    + assert (U := Ke' x (fun _ => 1) ltac:(intros m; specialize (Hx m); apply Rabs_le_inv in Hx; lra) n).
      change (rbj_out LowPass (RbjQ sr f q) x n <= rbj_out LowPass (RbjQ sr f q) (fun _ => 1) n) in U. specialize (One n). lra.
  - intros sr f q H Hv HH. destruct (C38_lowpass_thm sr f q Hv) as [Dc _]. specialize (Dc 1). unfold approaches in Dc.
    destruct (Rle_lt_dec 1 H) as [L|L]; [exact L|exfalso].
    assert (Up : forall n, rbj_out LowPass (RbjQ sr f q) (fun _ => 1) n - 1 * 1 <= H - 1).
    { intros n. assert (X := HH (fun _ => 1) ltac:(intros m; cbv beta; rewrite Rabs_R1; lra) n). apply Rabs_le_inv in X. lra. }
    assert (Y := is_lim_seq_le _ _ _ _ Up Dc (is_lim_seq_const (H - 1))). cbn in Y. lra.
Qed.

Lemma cascade_error {T} (V : float_view T) (r : rated T) : r_H r = 1 -> forall n M D,
  chain_error V (repeat r n) M D
  = ((1 + 22 * coef_error V (r_set r) * r_G r) ^ n - 1) * (M + fmin V / 2) + D.
Proof.
  intros H1 n. induction n as [|n IH]; intros M D; cbn [repeat chain_error].
  - cbn [pow]. ring.
  - rewrite IH. unfold stage_error. rewrite H1. cbn [pow]. field.
Qed.

Lemma cascade_ok {T} (V : float_view T) (r : rated T) : rated_ok V r -> r_H r = 1 -> 0 <= fmin V -> forall n M, 0 <= M ->
  512 * ((1 + 22 * coef_error V (r_set r) * r_G r) ^ n * (M + fmin V / 2)) <= fmax V ->
  chain_ok V (repeat r n) M.
Proof.
  intros Hr H1 F0 n. induction n as [|n IH]; intros M M0 Hm; [exact I|]. cbn [repeat chain_ok].
  assert (C0 := coef_error_pos V _ (proj1 Hr)).
  assert (G0 : 0 <= r_G r) by (destruct Hr as [_ [[b0 [b1 [b2 [a1 [a2 [_ HG]]]]]] _]]; exact (peak_gain_nonneg _ _ _ HG)).
  assert (S := IH (r_H r * M + stage_error V r M)). unfold stage_error in *. rewrite H1 in *.
  set (e := coef_error V (r_set r)) in *. set (G := r_G r) in *. set (m := fmin V) in *.
  assert (E0 : 0 <= e * G) by (apply Rmult_le_pos; assumption). assert (P : 1 <= (1 + 22 * e * G) ^ n) by (apply pow_R1_Rle; lra).
  assert (X : 0 <= 11 * e * G * (M + 1 * M + m)) by (apply Rmult_le_pos; lra).
  cbn [pow] in Hm. set (p := (1 + 22 * e * G) ^ n) in *.
  assert (Y : 1 * (M + m / 2) <= (1 + 22 * e * G) * p * (M + m / 2)).
  { apply Rmult_le_compat_r; [lra|]. replace 1 with (1 * 1) by ring. apply Rmult_le_compat; lra. }
  split; [exact Hr|]. split; [lra|]. apply S; [lra|]. eapply Rle_trans; [|exact Hm]. right. field.
Qed.

(** C142: a cascade of [n] equal filters whose ideal never exceeds its input (such as a [LowPass]
    that does not overshoot).  The error grows with the number of filters like compound
    interest, starting from zero; it does not grow with time. *)
Lemma C142_cascade_thm :
  forall (T : Type) (O : num_ops T) (V : float_view T), ieee O V -> trig_close O V -> pow10_close O V ->
  forall (r : rated T) (n : nat) (M : R) (x : nat -> T), rated_ok V r -> r_H r = 1 -> 0 <= M ->
    let growth := (1 + 22 * coef_error V (r_set r) * r_G r) ^ n in
    512 * (growth * (M + fmin V / 2)) <= fmax V -> (forall i, fin V (x i) = true /\ Rabs (val V (x i)) <= M) ->
    forall i, fin V (flt_chain O (repeat (r_set r) n) x i) = true
      /\ Rabs (val V (flt_chain O (repeat (r_set r) n) x i) - ideal_chain V (repeat (r_set r) n) (fun i => val V (x i)) i)
         <= (growth - 1) * (M + fmin V / 2).
Proof.
  intros T O V HO HT HP r n M x Hr H1 M0 growth Hm Hx i. destruct (fmin_small _ O V HO) as [Fm _].
  assert (Ok := cascade_ok V r Hr H1 ltac:(lra) n M M0 Hm).
  assert (R := C142_chain_thm T O V HO HT HP (repeat r n) M x Ok Hx i). rewrite (cascade_error V r H1) in R.
  assert (Em : map r_set (repeat r n) = repeat (r_set r) n) by (clear; induction n as [|n IH]; [reflexivity|]; cbn; rewrite IH; reflexivity).
  rewrite Em, Rplus_0_r in R. exact R.
Qed.

(** ** Examples *)
Definition demo_q (kind : rbj_kind) : rated f32 :=
  {| r_set := (kind, RbjQ (fl32 44100 0) (fl32 1000 0) (fl32 11 (-4))); r_G := 300; r_H := 1200 |}.

Lemma C142_hyps_aux : let O := f32_ops (cr_libm 24 128) false in let V := ieee_view 24 128 in
  let low := demo_q LowPass in let high := demo_q HighPass in
  ieee O V /\ trig_close O V /\ pow10_close O V /\ chain_ok V [low; high] 1 /\ chain_ok V [high; low] 1
  /\ Permutation (map r_set [low; high]) (map r_set [high; low])
  /\ forall n : nat, fin V ((fun _ => fl32 1 0) n) = true /\ Rabs (val V ((fun _ => fl32 1 0) n)) <= 1.
Proof.
  destruct C94_hyps_aux as [HO [HT [Ha [Fq [Hq [Hc [H5 [Hx _]]]]]]]]. intros O V low high.
  split; [exact HO|]. split; [exact HT|]. split; [apply cr_pow10_32|].
  assert (Hs : forall kind, kind = LowPass \/ kind = HighPass -> rated_ok V (demo_q kind)).
  { intros kind Hk. assert (Hr : in_range V (r_set (demo_q kind))) by (split; [exact Ha|split; [exact Fq|exact Hq]]).
    destruct Hc as [b0 [b1 [b2 [a1 [a2 [Ek HG]]]]]]. destruct (q_feedback _ _ _ _ _ _ _ _ _ Ek) as [E1 E2].
    assert (X : exists c0 c1 c2 d1 d2, rbj_coeffs R_ops kind (ideal_args V (snd (r_set (demo_q kind)))) = Some (c0, c1, c2, d1, d2)).
    { destruct Hk as [-> | ->]; repeat eexists. }
    destruct X as [c0 [c1 [c2 [d1 [d2 Ed]]]]]. assert (Ed' := Ed). cbn [demo_q r_set snd ideal_args] in Ed'.
    destruct (q_feedback _ _ _ _ _ _ _ _ _ Ed') as [D1 D2].
    assert (HG' : peak_gain d1 d2 300).
    { replace d1 with a1 by (rewrite E1, D1; reflexivity). replace d2 with a2 by (rewrite E2, D2; reflexivity). exact HG. }
    split; [exact Hr|]. split; [exists c0, c1, c2, d1, d2; split; [exact Ed|exact HG']|]. split; [|exact H5].
    cbn [demo_q r_H]. replace 1200 with (4 * 300) by ring.
    exact (proj1 C142_levels_thm _ V (r_set (demo_q kind)) c0 c1 c2 d1 d2 300 Hr Ed HG'). }
  assert (Hl := Hs LowPass ltac:(tauto)). assert (Hh := Hs HighPass ltac:(tauto)).
  destruct (fmin_small _ O V HO) as [Fm [_ [Up _]]].
  assert (FM : 2 * 1024 * 1024 * 1024 <= fmax V).
  { cbn [fmax V ieee_view]. change (- (24))%Z with (-24)%Z. assert (bpow radix2 32 <= bpow radix2 128) by (apply bpow_le; lia).
    assert (bpow radix2 (-24) <= / 2) by (change (/ 2) with (bpow radix2 (-1)); apply bpow_le; lia).
    assert (bpow radix2 32 = 4 * 1024 * 1024 * 1024) by (cbn; lra). nra. }
  assert (Er : forall kind, 0 <= stage_error V (demo_q kind) 1 <= 1000).
  { intros kind. assert (E3 : val V (fl32 11 (-4)) = 11 / 16) by (unfold V; cbn [val ieee_view]; lit; lra).
    unfold stage_error, coef_error, demo_q. cbn [r_set r_G r_H fst snd]. unfold q_error. rewrite E3.
    assert (Uv : bpow radix2 (- fprec V) = / 16777216) by (cbn; lra). rewrite Uv.
    set (m := fmin V) in *. clearbody m. nra. }
  assert (E1 := Er LowPass). assert (E2 := Er HighPass).
  unfold low, high. cbn [chain_ok]. change (r_H (demo_q LowPass)) with 1200. change (r_H (demo_q HighPass)) with 1200.
  split; [|split; [|split]].
  - split; [exact Hl|]. split; [lra|]. split; [exact Hh|]. split; [|exact I]. lra.
  - split; [exact Hh|]. split; [lra|]. split; [exact Hl|]. split; [|exact I]. lra.
  - apply perm_swap.
  - exact Hx.
Qed.

Definition demo_eq (kind : rbj_kind) (g : f64) : rated f64 :=
  {| r_set := (kind, RbjGain (fl64 44100 0) (fl64 1000 0) g (fl64 1 0)); r_G := 3100; r_H := 105400 |}.

Lemma demo_eq_ok kind g : let V := ieee_view 53 1024 in
  kind = Peak \/ kind = LowShelf -> fin V g = true -> Rabs (val V g) <= 6 -> rated_ok V (demo_eq kind g).
Proof.
  intros V Hk Fg Hg. destruct C97_hyps_aux as [HO [_ [_ [Ha [[_ [Fq _]] [_ [_ [Hs _]]]]]]]].
  assert (E1 : val V (fl64 44100 0) = 44100) by (unfold V; cbn [val ieee_view]; lit; lra).
  assert (E2 : val V (fl64 1000 0) = 1000) by (unfold V; cbn [val ieee_view]; lit; lra).
  assert (E4 : val V (fl64 1 0) = 1) by (unfold V; cbn [val ieee_view]; lit; lra).
  assert (HS : 9 / 100 <= sin (2 * PI * val V (fl64 1000 0) / val V (fl64 44100 0)) <= 1).
  { rewrite E1, E2. split; [|apply SIN_bound]. eapply Rle_trans; [exact sin_tenth|]. assert (P := ConstLemmas.pi_20).
    apply sin_incr_1; lra. }
  assert (Hr : in_range V (r_set (demo_eq kind g))).
  { split; [exact Ha|]. split; [exact Fg|]. split; [exact Fq|]. cbn [demo_eq r_set fst]. rewrite E4. destruct Hk as [-> | ->]; lra. }
  assert (X : exists c0 c1 c2 d1 d2, rbj_coeffs R_ops kind (ideal_args V (snd (r_set (demo_eq kind g)))) = Some (c0, c1, c2, d1, d2)).
  { destruct Hk as [-> | ->]; repeat eexists. }
  destruct X as [c0 [c1 [c2 [d1 [d2 Ed]]]]].
  assert (HG : peak_gain d1 d2 3100).
  { destruct (C97_feedback_gain_thm kind (val V (fl64 44100 0)) (val V (fl64 1000 0)) (val V g) (val V (fl64 1 0)) c0 c1 c2 d1 d2
      ltac:(lra) ltac:(lra) Ed) as [G1 [_ G3]].
    set (s := sin (2 * PI * val V (fl64 1000 0) / val V (fl64 44100 0))) in *. clearbody s.
    assert (I : 0 < / s <= 100 / 9).
    { split; [apply Rinv_0_lt_compat; lra|]. replace (100 / 9) with (/ (9 / 100)) by field. apply Rinv_le_contravar; lra. }
    destruct Hk as [-> | ->].
    - assert (A := proj1 (amp_bounds (val V g)) ltac:(lra)). rewrite E4 in G1. specialize (G1 eq_refl ltac:(lra)).
      set (a := Rpower 10 (val V g / 40)) in *. clearbody a. refine (peak_gain_mono _ _ _ _ _ G1).
      assert (Y : 0 <= 2 * (1 * a) / s <= 4 * (100 / 9)).
      { unfold Rdiv. split; [apply Rmult_le_pos; lra|]. apply Rmult_le_compat; lra. }
      apply Rle_trans with ((1 + 4 * (100 / 9)) ^ 2); [apply pow_incr; lra|lra].
    - specialize (G3 (or_introl eq_refl) ltac:(lra) ltac:(lra)). refine (peak_gain_mono _ _ _ _ _ G3).
      replace (25 / s ^ 2) with (25 * (/ s) ^ 2) by (field; lra).
      apply Rle_trans with (25 * (100 / 9) ^ 2); [apply Rmult_le_compat_l; [lra|apply pow_incr; lra]|lra]. }
  split; [exact Hr|]. split; [exists c0, c1, c2, d1, d2; split; [exact Ed|exact HG]|]. split.
  - cbn [demo_eq r_H]. replace 105400 with (34 * 3100) by ring.
    exact (proj1 C142_levels_thm _ V (r_set (demo_eq kind g)) c0 c1 c2 d1 d2 3100 Hr Ed HG).
  - assert (Uv : bpow radix2 (- fprec V) = / 9007199254740992) by (cbn; lra).
    unfold coef_error, gain_error, demo_eq. cbn [r_set r_G fst snd]. rewrite E4, Uv. destruct Hk as [-> | ->]; lra.
Qed.

Lemma demo_eq_step kind g l M B : let V := ieee_view 53 1024 in
  kind = Peak \/ kind = LowShelf -> fin V g = true -> Rabs (val V g) <= 6 ->
  0 <= M <= B -> 1 <= B <= bpow radix2 60 ->
  (forall M', 0 <= M' <= 200000 * B -> chain_ok V l M') -> chain_ok V (demo_eq kind g :: l) M.
Proof.
  intros V Hk Fg Hg HM HB Hl. cbn [chain_ok]. split; [exact (demo_eq_ok kind g Hk Fg Hg)|].
  assert (HO : ieee (f64_ops (cr_libm 53 1024) false) V) by constructor.
  destruct (fmin_small _ _ V HO) as [Fm _].
  assert (Fs : fmin V <= 1) by (change 1 with (bpow radix2 0); cbn [fmin V ieee_view]; apply bpow_le; lia).
  assert (FM : bpow radix2 90 <= fmax V).
  { cbn [fmax V ieee_view]. change (- (53))%Z with (-53)%Z. assert (B1 : bpow radix2 91 <= bpow radix2 1024) by (apply bpow_le; lia).
    assert (B2 : bpow radix2 (-53) <= / 2) by (change (/ 2) with (bpow radix2 (-1)); apply bpow_le; lia).
    assert (B3 : bpow radix2 91 = 2 * bpow radix2 90) by (change 91%Z with (1 + 90)%Z; rewrite bpow_plus; reflexivity).
    assert (B4 := bpow_gt_0 radix2 1024). nra. }
  assert (B60 : bpow radix2 90 = 1073741824 * bpow radix2 60) by (change 90%Z with (30 + 60)%Z; rewrite bpow_plus; f_equal; cbn; lra).
  change (r_H (demo_eq kind g)) with 105400. split; [lra|]. apply Hl.
  assert (E4 : val V (fl64 1 0) = 1) by (unfold V; cbn [val ieee_view]; lit; lra).
  assert (Uv : bpow radix2 (- fprec V) = / 9007199254740992) by (cbn; lra).
  assert (C : 0 <= coef_error V (r_set (demo_eq kind g)) <= / 1000000000000).
  { unfold coef_error, gain_error, demo_eq. cbn [r_set fst snd]. rewrite E4, Uv. destruct Hk as [-> | ->]; lra. }
  unfold stage_error. change (r_H (demo_eq kind g)) with 105400. change (r_G (demo_eq kind g)) with 3100.
  set (e := coef_error V (r_set (demo_eq kind g))) in *. clearbody e. set (m := fmin V) in *. clearbody m.
  assert (0 <= e * (M + 105400 * M + m) <= / 1000000000000 * (105401 * B + 1)).
  { split; [apply Rmult_le_pos; lra|]. apply Rmult_le_compat; lra. }
  lra.
Qed.

Lemma C142_undo_hyps_aux : let O := f64_ops (cr_libm 53 1024) false in let V := ieee_view 53 1024 in
  let six := fl64 6 0 in let l := [demo_eq Peak six; demo_eq LowShelf six] in
  let l' := [demo_eq LowShelf (n_neg O six); demo_eq Peak (n_neg O six)] in
  ieee O V /\ trig_close O V /\ pow10_close O V /\ chain_ok V (l ++ l') 1
  /\ List.Forall (fun r => In (fst (r_set r)) [Peak; LowShelf; HighShelf] /\ valid (fst (r_set r)) (ideal_args V (snd (r_set r)))) l
  /\ Permutation (map (fun r => opposite O (r_set r)) l) (map r_set l')
  /\ forall n : nat, fin V ((fun _ => fl64 1 0) n) = true /\ Rabs (val V ((fun _ => fl64 1 0) n)) <= 1.
Proof.
  intros O V six l l'. destruct C97_hyps_aux as [HO [HT [HP [_ [_ [[F6 _] [_ [_ [_ [_ [_ [Hx _]]]]]]]]]]]].
  split; [exact HO|]. split; [exact HT|]. split; [exact HP|].
  assert (E6 : val V six = 6) by (unfold V, six; cbn [val ieee_view]; lit; lra).
  assert (N6 : val V (n_neg O six) = -6) by (rewrite (val_neg O V HO), E6; lra).
  assert (A6 : Rabs (val V six) <= 6) by (rewrite E6, Rabs_pos_eq; lra).
  assert (A6' : Rabs (val V (n_neg O six)) <= 6) by (rewrite N6, Rabs_left; lra).
  assert (F6' : fin V (n_neg O six) = true) by (vm_compute; reflexivity).
  assert (B60 : 1000000000000000000 <= bpow radix2 60) by (cbn; lra).
  split.
  { apply demo_eq_step with 1; try tauto; try lra. intros M1 H1.
    apply demo_eq_step with (200000 * 1); try tauto; try lra. intros M2 H2.
    apply demo_eq_step with (200000 * (200000 * 1)); try tauto; try lra. intros M3 H3.
    apply demo_eq_step with (200000 * (200000 * (200000 * 1))); try tauto; try lra. intros M4 H4. exact I. }
  assert (E1 : val V (fl64 44100 0) = 44100) by (unfold V; cbn [val ieee_view]; lit; lra).
  assert (E2 : val V (fl64 1000 0) = 1000) by (unfold V; cbn [val ieee_view]; lit; lra).
  assert (E4 : val V (fl64 1 0) = 1) by (unfold V; cbn [val ieee_view]; lit; lra).
  split.
  { assert (VB : valid_band (val V (fl64 44100 0)) (val V (fl64 1000 0))) by (unfold valid_band; rewrite E1, E2; lra).
    unfold l. constructor; [|constructor; [|constructor]]; cbn [demo_eq r_set fst snd ideal_args In valid].
    - split; [tauto|]. split; [exact VB|]. rewrite E4. lra.
    - split; [tauto|]. split; [exact VB|]. unfold valid_slope. rewrite E4. split; [lra|]. replace (1 / 1 - 1) with 0 by field. lra. }
  split; [exact (perm_swap (r_set (demo_eq LowShelf (n_neg O six))) (r_set (demo_eq Peak (n_neg O six))) [])|]. exact Hx.
Qed.

Definition demo_half : rated f64 :=
  {| r_set := (LowPass, RbjQ (fl64 44100 0) (fl64 1000 0) (fl64 1 (-1))); r_G := 300; r_H := 1 |}.

Lemma C142_cascade_hyps_aux : let O := f64_ops (cr_libm 53 1024) false in let V := ieee_view 53 1024 in
  let growth := (1 + 22 * coef_error V (r_set demo_half) * r_G demo_half) ^ 10 in
  ieee O V /\ trig_close O V /\ pow10_close O V /\ rated_ok V demo_half /\ r_H demo_half = 1
  /\ 512 * (growth * (1 + fmin V / 2)) <= fmax V /\ (growth - 1) * (1 + fmin V / 2) <= / 100000000
  /\ forall i : nat, fin V ((fun _ => fl64 1 0) i) = true /\ Rabs (val V ((fun _ => fl64 1 0) i)) <= 1.
Proof.
  intros O V growth. destruct C97_hyps_aux as [HO [HT [HP [Ha [_ [_ [_ [_ [_ [_ [_ [Hx _]]]]]]]]]]]].
  split; [exact HO|]. split; [exact HT|]. split; [exact HP|].
  assert (E1 : val V (fl64 44100 0) = 44100) by (unfold V; cbn [val ieee_view]; lit; lra).
  assert (E2 : val V (fl64 1000 0) = 1000) by (unfold V; cbn [val ieee_view]; lit; lra).
  assert (E4 : val V (fl64 1 (-1)) = / 2) by (unfold V; cbn [val ieee_view]; lit; lra).
  assert (HS : 9 / 100 <= sin (2 * PI * val V (fl64 1000 0) / val V (fl64 44100 0)) <= 1).
  { rewrite E1, E2. split; [|apply SIN_bound]. eapply Rle_trans; [exact sin_tenth|]. assert (P := ConstLemmas.pi_20).
    apply sin_incr_1; lra. }
  assert (Uv : bpow radix2 (- fprec V) = / 9007199254740992) by (cbn; lra).
  assert (Ec : coef_error V (r_set demo_half) = 285 * / 9007199254740992).
  { unfold coef_error, q_error, demo_half. cbn [r_set snd]. rewrite E4, Uv. field. }
  split.
  { split; [|split; [|split]].
    - split; [exact Ha|]. split; [vm_compute; reflexivity|]. rewrite E4. lra.
    - assert (X : exists c0 c1 c2 d1 d2, rbj_coeffs R_ops LowPass (ideal_args V (snd (r_set demo_half))) = Some (c0, c1, c2, d1, d2)) by (repeat eexists).
      destruct X as [c0 [c1 [c2 [d1 [d2 Ed]]]]]. exists c0, c1, c2, d1, d2. split; [exact Ed|].
      destruct (C94_rbj_gain_thm LowPass (val V (fl64 44100 0)) (val V (fl64 1000 0)) (val V (fl64 1 (-1))) c0 c1 c2 d1 d2
        ltac:(lra) ltac:(lra) Ed) as [_ G]. specialize (G ltac:(lra)). rewrite E4 in G.
      set (s := sin (2 * PI * val V (fl64 1000 0) / val V (fl64 44100 0))) in *. clearbody s. cbn [demo_half r_G].
      refine (peak_gain_mono _ _ _ _ _ G).
      assert (I : 0 < / s <= 100 / 9).
      { split; [apply Rinv_0_lt_compat; lra|]. replace (100 / 9) with (/ (9 / 100)) by field. apply Rinv_le_contravar; lra. }
      replace ((1 + s / (2 * / 2)) / s ^ 2) with ((1 + s) * (/ s) ^ 2) by (field; lra).
      apply Rle_trans with (2 * (100 / 9) ^ 2); [apply Rmult_le_compat; try lra; [apply pow_le; lra|apply pow_incr; lra]|lra].
    - cbn [demo_half r_set r_H fst snd ideal_args]. apply C142_levels_thm; [unfold valid_band| |]; rewrite ?E1, ?E2, ?E4; lra.
    - rewrite Ec. cbn [demo_half r_G]. lra. }
  split; [reflexivity|].
  assert (Hg : 1 <= growth <= 1 + / 200000000).
  { unfold growth. rewrite Ec. cbn [demo_half r_G]. split; [apply pow_R1_Rle; lra|].
    apply Rle_trans with ((1 + / 4000000000) ^ 10); [apply pow_incr; lra|]. lra. }
  clearbody growth. destruct (fmin_small _ O V HO) as [Fm _].
  assert (Fs : fmin V <= 1) by (change 1 with (bpow radix2 0); cbn [fmin V ieee_view]; apply bpow_le; lia).
  assert (FM : 1048576 <= fmax V).
  { cbn [fmax V ieee_view]. change (- (53))%Z with (-53)%Z. assert (B1 : bpow radix2 21 <= bpow radix2 1024) by (apply bpow_le; lia).
    assert (B2 : bpow radix2 (-53) <= / 2) by (change (/ 2) with (bpow radix2 (-1)); apply bpow_le; lia).
    assert (B3 : bpow radix2 21 = 2097152) by (cbn; lra). nra. }
  split; [nra|]. split; [nra|]. exact Hx.
Qed.

(*@PROP
(** C142 is met in [f32] by a library with correctly rounded functions: a [LowPass] and a
    [HighPass] in series, in either order, at 44100 Hz with cutoff 1 kHz and Q = 0.6875, on the
    input 1, 1, 1, ...; *)
Example C142_hyps : let O := f32_ops (cr_libm 24 128) false in let V := ieee_view 24 128 in
  let low := demo_q LowPass in let high := demo_q HighPass in
  ieee O V /\ trig_close O V /\ pow10_close O V /\ chain_ok V [low; high] 1 /\ chain_ok V [high; low] 1
  /\ Permutation (map r_set [low; high]) (map r_set [high; low])
  /\ forall n : nat, fin V ((fun _ => fl32 1 0) n) = true /\ Rabs (val V ((fun _ => fl32 1 0) n)) <= 1.
Proof. exact C142_hyps_aux. Qed.

(** and in [f64] by a [Peak] and a [LowShelf] of 6 dB at 1 kHz, undone in the other order. *)
Example C142_undo_hyps : let O := f64_ops (cr_libm 53 1024) false in let V := ieee_view 53 1024 in
  let six := fl64 6 0 in let l := [demo_eq Peak six; demo_eq LowShelf six] in
  let l' := [demo_eq LowShelf (n_neg O six); demo_eq Peak (n_neg O six)] in
  ieee O V /\ trig_close O V /\ pow10_close O V /\ chain_ok V (l ++ l') 1
  /\ List.Forall (fun r => In (fst (r_set r)) [Peak; LowShelf; HighShelf] /\ valid (fst (r_set r)) (ideal_args V (snd (r_set r)))) l
  /\ Permutation (map (fun r => opposite O (r_set r)) l) (map r_set l')
  /\ forall n : nat, fin V ((fun _ => fl64 1 0) n) = true /\ Rabs (val V ((fun _ => fl64 1 0) n)) <= 1.
Proof. exact C142_undo_hyps_aux. Qed.

(** Ten equal low passes in [f64] are within 10^-8 of the ideal cascade for ever. *)
Example C142_cascade_hyps : let O := f64_ops (cr_libm 53 1024) false in let V := ieee_view 53 1024 in
  let growth := (1 + 22 * coef_error V (r_set demo_half) * r_G demo_half) ^ 10 in
  ieee O V /\ trig_close O V /\ pow10_close O V /\ rated_ok V demo_half /\ r_H demo_half = 1
  /\ 512 * (growth * (1 + fmin V / 2)) <= fmax V /\ (growth - 1) * (1 + fmin V / 2) <= / 100000000
  /\ forall i : nat, fin V ((fun _ => fl64 1 0) i) = true /\ Rabs (val V ((fun _ => fl64 1 0) i)) <= 1.
Proof. exact C142_cascade_hyps_aux. Qed.
@*)
