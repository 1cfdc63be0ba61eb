(** Lemmas behind C118 for the delay lines.  The [@PROP] blocks are copied into [PropOrderLine.v]. *)
(*@PROP
(** Property C118, delay lines: [Delay] and [LinearDelay] preserve the order of signals in [f32]
    and [f64].

    Vocabulary: [below] ([OrderSpec]); [raised_op], [obs_below], [session_below], [ieee_line],
    [on_grid], [grid_op] ([OrderLineSpec]); [dl_session O p d m ops] is [Delay::new(d, m)] followed by
    the calls [ops] in build profile [p] ([DelayRun]), [lin_session] the same for [LinearDelay]
    ([LinRun]). *)
From Coq Require Import ZArith Reals List Bool Lra Lia.
From Flocq Require Import Core.Core IEEE754.BinarySingleNaN.
From Verif Require Import Base Num NumF Witness FloatSpec DelayM LinDelayM DelaySpec DelayRun LinRun
  FltFilterLemmas OrderSpec OrderLineSpec OrderLineLemmas.
Import ListNotations.
Open Scope R_scope.
@*)
From Coq Require Import ZArith Reals List Bool Lra Lia ZifyBool.
From Flocq Require Import Core.Core IEEE754.BinarySingleNaN.
From Verif Require Import Base BaseLemmas Num NumF Witness FloatSpec FloatFacts DelayM LinDelayM DelaySpec DelayRun DelayProofs
  LinSpec LinRun LinProofs LinInv LinFacts LinFloatSpec LinCtlF LinFloat LinLemmas2 PolLemmas ModFLemmas OrderSpec OrderLineSpec OrderLemmas.
Import ListNotations.
Open Scope R_scope.

(** ** Relations on samples that the delay lines carry over to what they return *)
Record line_laws {T} (O : num_ops T) (R : T -> T -> Prop) (okw : T -> Prop) : Prop := {
  ll_refl x : R x x;
  ll_add x x' y y' : R x x' -> R y y' -> R (n_add O x y) (n_add O x' y');
  ll_mul w x x' : okw w -> R x x' -> R (n_mul O x w) (n_mul O x' w)
}.

Section Lines.
  Context {C T : Type} (O : num_ops T) (R : T -> T -> Prop) (okw : T -> Prop) (L : line_laws O R okw) (p : profile).

  Lemma g_zero : R (n_zero O) (n_zero O).
  Proof. apply (ll_refl _ _ _ L). Qed.
  Lemma g_refl (m : list T) : Forall2 R m m.
  Proof. induction m; constructor; [apply (ll_refl _ _ _ L)|assumption]. Qed.
  Lemma g_resize sz m m' n : Forall2 R m m' ->
    orel (Forall2 R) (vec_resize sz m n (n_zero O)) (vec_resize sz m' n (n_zero O)).
  Proof.
    intros H. unfold vec_resize. rewrite <- (f2_len R m m' H). destruct (n <=? vlen m)%Z; [apply f2_firstn; exact H|].
    destruct (alloc_ok sz n); [|exact I]. apply Forall2_app; [exact H|apply g_refl].
  Qed.
  Lemma g_map m m' : Forall2 R m m' -> Forall2 R (map (fun _ => n_zero O) m) (map (fun _ => n_zero O) m').
  Proof. intros H. induction H; constructor; [apply g_zero|assumption]. Qed.
  Lemma g_same {A} (P : A -> A -> Prop) (r : outcome A) : (forall a, r = Ok a -> P a a) -> orel P r r.
  Proof. intros H. destruct r; cbn; auto. Qed.

  Ltac lens := repeat match goal with
    | H : Forall2 R ?m ?m' |- context [vlen ?m'] => rewrite <- (f2_len R m m' H) end.
  Ltac go := cbv beta iota zeta; lens; match goal with
    | |- orel _ (bind ?r _) (bind ?r _) => apply orel_same; intros ? ?
    | |- orel _ (bind (vget _ _) _) (bind (vget _ _) _) =>
        eapply orel_bind; [apply f2_get; eassumption|intros ? ? ?]
    | |- orel _ (bind (vset _ _ _) _) (bind (vset _ _ _) _) =>
        eapply orel_bind; [apply f2_set; [eassumption|try assumption; try (apply (ll_add _ _ _ L); assumption)]|intros ? ? ?]
    | |- orel _ (bind (vec_resize _ _ _ _) _) _ => eapply orel_bind; [apply g_resize; eassumption|intros ? ? ?]
    | |- orel R (vget _ _) (vget _ _) => apply f2_get; assumption
    | |- orel _ (if ?b then _ else _) (if ?b then _ else _) => destruct b
    end.
  Ltac fin := repeat match goal with
    | |- orel _ (Ok _) (Ok _) => cbn
    | |- both _ _ _ _ => split; cbn
    | |- d_rel _ _ _ => unfold d_rel; cbn
    | |- l_rel _ _ _ => unfold l_rel; cbn
    | |- _ /\ _ => split
    | |- ?x = ?x => reflexivity
    | _ => assumption
    | |- R (n_zero O) (n_zero O) => exact g_zero
    end.
  Ltac open_d := match goal with s : delay T, s' : delay T, H : d_rel _ ?s ?s' |- _ =>
    destruct s, s'; unfold d_rel in H; cbn in H; destruct H as (? & ? & ? & ? & ?); subst; cbn end.

  Lemma gd_set_delay s s' d : d_rel R s s' -> orel (d_rel R) (delay_set_delay p s d) (delay_set_delay p s' d).
  Proof. intros H. open_d. unfold delay_set_delay; cbn. repeat go. fin. Qed.
  Lemma gd_set_max s s' d : d_rel R s s' -> orel (d_rel R) (delay_set_max_delay O p s d) (delay_set_max_delay O p s' d).
  Proof. intros H. open_d. unfold delay_set_max_delay; cbn. repeat go; fin. Qed.
  Lemma gd_proc s s' x x' : d_rel R s s' -> R x x' -> orel (both (d_rel R) R) (delay_process p s x) (delay_process p s' x').
  Proof. intros H Hx. open_d. unfold delay_process; cbn. repeat go. fin. Qed.
  Lemma gd_tap_in s s' x x' t : d_rel R s s' -> R x x' -> orel (d_rel R) (delay_tap_in p s x t) (delay_tap_in p s' x' t).
  Proof. intros H Hx. open_d. unfold delay_tap_in; cbn. repeat go. fin. Qed.
  Lemma gd_tap_out s s' t : d_rel R s s' -> orel R (delay_tap_out p s t) (delay_tap_out p s' t).
  Proof. intros H. open_d. unfold delay_tap_out; cbn. repeat go. Qed.
  Lemma gd_add_to s s' x x' t : d_rel R s s' -> R x x' -> orel (both (d_rel R) R) (delay_add_to O p s x t) (delay_add_to O p s' x' t).
  Proof. intros H Hx. open_d. unfold delay_add_to; cbn. repeat go. fin. Qed.

  Lemma gd_step s s' op op' : d_rel R s s' -> op_rel R op op' ->
    orel (both (d_rel R) (o_rel R)) (dl_step O p s op) (dl_step O p s' op').
  Proof.
    intros Hs Ho. destruct op, op'; cbn [op_rel] in Ho; try discriminate Ho; try (injection Ho; intros; subst);
      try (destruct Ho; subst); cbn [dl_step].
    - eapply orel_bind; [apply gd_proc; eassumption|]. intros [a b] [a' b'] [H1 H2]. split; assumption.
    - split; [|reflexivity]. open_d. unfold delay_clear, d_rel; cbn. fin. apply g_map; assumption.
    - eapply orel_bind; [apply gd_set_delay; eassumption|]. intros a a' H. split; [exact H|reflexivity].
    - eapply orel_bind; [apply gd_set_max; eassumption|]. intros a a' H. split; [exact H|reflexivity].
    - split; [exact Hs|]. unfold delay_get_delay. cbn. f_equal. apply Hs.
    - unfold delay_get_max_delay. destruct Hs as [Hm Hs]. rewrite <- (f2_len R _ _ Hm). apply orel_same. intros n _.
      split; [split; assumption|reflexivity].
    - unfold delay_next_out. assert (Hm := Hs). destruct Hm as (Hm & _ & Hr & _). rewrite <- Hr.
      eapply orel_bind; [apply f2_get; exact Hm|]. intros a a' H. split; assumption.
    - split; [exact Hs|]. cbn. apply Hs.
    - eapply orel_bind; [apply gd_tap_out; eassumption|]. intros a a' H'. split; assumption.
    - eapply orel_bind; [apply gd_tap_in; eassumption|]. intros a a' H'. split; [exact H'|reflexivity].
    - eapply orel_bind; [apply gd_add_to; eassumption|]. intros [a b] [a' b'] [H1 H2]. split; assumption.
  Qed.

  Lemma gd_run ops : forall ops' s s', d_rel R s s' -> Forall2 (op_rel R) ops ops' ->
    orel (both (d_rel R) (Forall2 (o_rel R))) (dl_run O p s ops) (dl_run O p s' ops').
  Proof.
    induction ops as [|op ops IH]; intros ops' s s' Hs Ho; inversion Ho as [|? op' ? ops1 H1 H2]; subst; cbn [dl_run].
    - split; [exact Hs|constructor].
    - eapply orel_bind; [apply gd_step; eassumption|]. intros [s1 o] [s1' o'] [A B].
      eapply orel_bind; [apply IH; eassumption|]. intros [s2 os] [s2' os'] [A2 B2]. split; [exact A2|constructor; assumption].
  Qed.

  Context (K : ctl_ops C T).
  Notation lrel := (@l_rel C T R).
  Definition weighted (s : lin_delay C T) : Prop := okw (ld_alpha s) /\ okw (ld_om_alpha s).
  Ltac open_l := match goal with s : lin_delay C T, s' : lin_delay C T, H : l_rel _ ?s ?s' |- _ =>
    destruct s, s'; unfold l_rel in H; cbn in H; destruct H as (? & ? & ? & ? & ? & ? & ? & ? & ?); subst; cbn end.
  Lemma gl_set_delay s s' d : lrel s s' -> orel lrel (lin_set_delay K O p s d) (lin_set_delay K O p s' d).
  Proof. intros H. open_l. unfold lin_set_delay, lin_set_delay_fuel; cbn. repeat go. fin. Qed.
  Lemma gl_set_max s s' d : lrel s s' -> orel lrel (lin_set_max_delay O p s d) (lin_set_max_delay O p s' d).
  Proof. intros H. open_l. unfold lin_set_max_delay; cbn. repeat go; fin. Qed.
  Lemma gl_next s s' : weighted s -> lrel s s' -> orel (both lrel R) (lin_next_out O p s) (lin_next_out O p s').
  Proof.
    intros [W1 W2] H. open_l. cbn in W1, W2. unfold lin_next_out; cbn -[vget]. match goal with |- context [if ?b then _ else _] => destruct b end; [|fin].
    go. go. eapply (orel_bind R).
    - lens. match goal with |- orel _ (if ?b then _ else _) _ => destruct b end; repeat go; cbn;
        apply (ll_add _ _ _ L); apply (ll_mul _ _ _ L); assumption.
    - intros. fin.
  Qed.
  Lemma gl_proc s s' x x' : weighted s -> lrel s s' -> R x x' -> orel (both lrel R) (lin_process O p s x) (lin_process O p s' x').
  Proof.
    intros W H Hx. destruct W as [W1 W2]. open_l. cbn in W1, W2. unfold lin_process; cbn. go. lens. go. go. eapply orel_bind.
    - apply gl_next; [split; assumption|]. fin.
    - intros [s2 y] [s2' y'] [A B]. cbn in A, B. open_l. cbn. repeat go. fin.
  Qed.
  Lemma gl_tap_in s s' x x' t : lrel s s' -> R x x' -> orel lrel (lin_tap_in p s x t) (lin_tap_in p s' x' t).
  Proof. intros H Hx. open_l. unfold lin_tap_in; cbn. repeat go. fin. Qed.
  Lemma gl_tap_out s s' t : lrel s s' -> orel R (lin_tap_out p s t) (lin_tap_out p s' t).
  Proof. intros H. open_l. unfold lin_tap_out; cbn. repeat go. Qed.
  Lemma gl_add_to s s' x x' t : lrel s s' -> R x x' -> orel (both lrel R) (lin_add_to O p s x t) (lin_add_to O p s' x' t).
  Proof. intros H Hx. open_l. unfold lin_add_to; cbn. repeat go. fin. Qed.

  Lemma gl_step s s' op op' : weighted s -> lrel s s' -> op_rel R op op' ->
    orel (both lrel (o_rel R)) (lin_step K O p s op) (lin_step K O p s' op').
  Proof.
    intros W Hs Ho. destruct op, op'; cbn [op_rel] in Ho; try discriminate Ho; try (injection Ho; intros; subst);
      try (destruct Ho; subst); cbn [lin_step].
    - eapply orel_bind; [apply gl_proc; eassumption|]. intros [a b] [a' b'] [H1 H2]. split; assumption.
    - split; [|reflexivity]. clear W. open_l. unfold lin_clear, l_rel; cbn. fin. apply g_map; assumption.
    - eapply orel_bind; [apply gl_set_delay; eassumption|]. intros a a' H. split; [exact H|reflexivity].
    - eapply orel_bind; [apply gl_set_max; eassumption|]. intros a a' H. split; [exact H|reflexivity].
    - split; [exact Hs|]. unfold lin_get_delay. cbn. f_equal. apply Hs.
    - unfold lin_get_max_delay. destruct Hs as [Hm Hs]. rewrite <- (f2_len R _ _ Hm). apply orel_same. intros n _.
      split; [split; assumption|reflexivity].
    - eapply orel_bind; [apply gl_next; eassumption|]. intros [a b] [a' b'] [H1 H2]. split; assumption.
    - split; [exact Hs|]. cbn. apply Hs.
    - eapply orel_bind; [apply gl_tap_out; eassumption|]. intros a a' H'. split; assumption.
    - eapply orel_bind; [apply gl_tap_in; eassumption|]. intros a a' H'. split; [exact H'|reflexivity].
    - eapply orel_bind; [apply gl_add_to; eassumption|]. intros [a b] [a' b'] [H1 H2]. split; assumption.
  Qed.

  (** Runs that keep an invariant which gives the weights. *)
  Context (inv : lin_delay C T -> Prop) (okop : dl_op C T -> Prop).
  Lemma gl_run (Hw : forall s, inv s -> weighted s)
    (Hi : forall s op s' o, inv s -> okop op -> lin_step K O p s op = Ok (s', o) -> inv s') ops :
    forall ops' s s', inv s -> lrel s s' -> Forall okop ops -> Forall2 (op_rel R) ops ops' ->
    orel (both lrel (Forall2 (o_rel R))) (lin_run K O p s ops) (lin_run K O p s' ops').
  Proof.
    induction ops as [|op ops IH]; intros ops' s s' Is Hs Hk Ho; inversion Ho as [|? op' ? ops1 H1 H2]; subst; cbn [lin_run].
    - split; [exact Hs|constructor].
    - inversion Hk as [|? ? Hk1 Hk2]; subst.
      assert (G := gl_step s s' op op' (Hw s Is) Hs H1). assert (I1 := Hi s op).
      destruct (lin_step K O p s op) as [[s1 o]| |]; destruct (lin_step K O p s' op') as [[s1' o']| |]; try contradiction G; try exact I.
      destruct G as [A B]. cbn [bind fst snd] in *.
      eapply orel_bind; [apply IH; try eassumption; exact (I1 _ _ Is Hk1 eq_refl)|].
      intros [s2 os] [s2' os'] [A2 B2]. split; [exact A2|constructor; assumption].
  Qed.
End Lines.

Section F.
  Context (prec emax : Z) {Hp : Prec_gt_0 prec} {Hm : Prec_lt_emax prec emax}.
  Context (pim pie sz : Z) (lm : libm (binary_float prec emax)) (nn : bool).
  Lemma below_laws : line_laws (ieee_ops prec emax pim pie sz lm nn) (below (ieee_view prec emax)) (fun w => 0 <= B2R w).
  Proof.
    constructor.
    - apply below_refl.
    - intros x x' y y'. apply b_add; assumption.
    - intros w x x' Hw Hx F1 F2. cbn [n_mul ieee_ops fin val ieee_view] in *.
      destruct (fin_mul _ _ _ _ F1) as [A1 [B1 ->]]. destruct (fin_mul _ _ _ _ F2) as [A2 [B2 ->]].
      apply RN_le; try assumption. apply Rmult_le_compat_r; [exact Hw|]. exact (Hx A1 A2).
  Qed.
End F.

Lemma ieee_below T (O : num_ops T) V : ieee O V -> line_laws O (below V) (fun w => 0 <= val V w).
Proof. intros HO. destruct HO as [lm b|lm b]; [apply (below_laws 24 128)|apply (below_laws 53 1024)]. Qed.

Lemma raised_rel {T D} (V : float_view T) (ops ops' : list (dl_op D T)) :
  Forall2 (raised_op V) ops ops' -> Forall2 (op_rel (below V)) ops ops'.
Proof.
  intros H. induction H as [|op op' l l' H1 H2 IH]; constructor; [|exact IH].
  destruct H1 as [op|x y H|x y t H|x y t H]; [|exact H|split; [exact H|reflexivity]..].
  destruct op; cbn; auto using below_refl.
Qed.

(** C118: two integer delay lines are given the same calls, except that the samples processed,
    tapped in or added by the second are not smaller.  Then nothing the second returns is smaller,
    whatever is set, cleared, tapped and grown; and one session panics exactly when the other
    does. *)
Lemma C118_delay_thm :
  forall (T : Type) (O : num_ops T) (V : float_view T), ieee O V ->
  forall (p : profile) (d m : Z) (ops ops' : list (dl_op Z T)),
    Forall2 (raised_op V) ops ops' ->
    session_below V (dl_session O p d m ops) (dl_session O p d m ops').
Proof.
  intros T O V HO p d m ops ops' Ho. assert (L := ieee_below T O V HO).
  assert (H : orel (both (d_rel (below V)) (Forall2 (o_rel (below V)))) (dl_session O p d m ops) (dl_session O p d m ops')).
  { unfold dl_session. eapply orel_bind.
    - apply (g_same (d_rel (below V))). intros s _. split; [apply (g_refl O _ _ L)|]. split; [apply below_refl|]. repeat split.
    - intros s s' Hs. apply (gd_run O _ _ L p); [exact Hs|apply raised_rel, Ho]. }
  destruct (dl_session O p d m ops) as [[s os]| |], (dl_session O p d m ops') as [[s' os']| |]; try contradiction H; try exact I. apply H.
Qed.
(*@PROP
Example C118_delay_hyps :
  let V := ieee_view 24 128 in
  ieee O32 V
  /\ Forall2 (raised_op V) [DProcess (fl32 1 0); DTapIn (fl32 (-1) 0) 1; DSetDelay 3%Z; DProcess (fl32 1 0)]
                           [DProcess (fl32 2 0); DTapIn (fl32 (-1) (-1)) 1; DSetDelay 3%Z; DProcess (fl32 1 0)].
Proof.
  split; [constructor|].
  constructor; [apply ro_process; intros _ _; cbn [val ieee_view]; lit; lra|].
  constructor; [apply ro_tap_in; intros _ _; cbn [val ieee_view]; lit; lra|].
  constructor; [apply ro_same|]. constructor; [apply ro_same|constructor].
Qed.
@*)

Lemma ieee_line_both {T} (K : ctl_ops f32 T) O V : ieee_line K O V ->
  ieee O V /\ exists rnd, fline K O (val V) (fin V) rnd /\ (forall x y, x <= y -> rnd x <= rnd y) /\ rnd 0 = 0.
Proof.
  intros H. destruct H as [lm b|lm b].
  - split; [constructor|]. exists RN32. split; [exact (float_line_fline _ _ _ _ _ (LinFloatSpec.fl_f32 lm b))|]. split; [|apply (RN_0 24 128)].
    intros x y. apply (RN_le 24 128).
  - split; [constructor|]. exists RN64. split; [exact (float_line_fline _ _ _ _ _ (LinFloatSpec.fl_f64 lm b))|]. split; [|apply (RN_0 53 1024)].
    intros x y. apply (RN_le 53 1024).
Qed.

Section Grid.
  Context {T : Type} (K : ctl_ops f32 T) (O : num_ops T) (V : float_view T) (rnd : R -> R).
  Hypothesis HF : fline K O (val V) (fin V) rnd.
  Hypothesis Hmono : forall x y, x <= y -> rnd x <= rnd y.
  Hypothesis H0 : rnd 0 = 0.
  Context (p : profile) (j n : Z).
  Hypothesis Hj : (0 <= j)%Z.
  Hypothesis Hn : ((n + 1) * 2 ^ j <= 2 ^ 24)%Z.

  Lemma grid_len : (n + 1 <= 2 ^ 24)%Z.
  Proof. assert (0 < 2 ^ j)%Z by (apply Z.pow_pos_nonneg; lia). nia. Qed.

  Lemma grid_clip v k m : v = IZR k / IZR (2 ^ j) -> (0 <= m)%Z -> exists i, clipR v (IZR m) = IZR i / IZR (2 ^ j).
  Proof.
    intros Hk Hm. assert (HJ : 1 <= IZR (2 ^ j)) by (apply IZR_le; assert (0 < 2 ^ j)%Z by (apply Z.pow_pos_nonneg; lia); lia).
    unfold clipR, Rmax, Rmin. destruct (Rle_dec v (IZR m)); destruct (Rle_dec 0 _).
    - exists k. exact Hk.
    - exists 0%Z. unfold Rdiv. ring.
    - exists (m * 2 ^ j)%Z. rewrite mult_IZR. field. lra.
    - exists 0%Z. unfold Rdiv. ring.
  Qed.

  (** The weights [set_delay] installs. *)
  Lemma grid_weights len w d dt r a : (1 <= len <= n + 1)%Z -> (0 <= w < len)%Z -> on_grid j d ->
    ctl K len w d = Ok (dt, r, a) -> 0 <= val V (c_cast K a) /\ 0 <= val V (n_sub O (n_one O) (c_cast K a)).
  Proof.
    intros Hl Hw [Hd [k Hk]] E. assert (G := grid_len).
    assert (Hl' : (1 <= len <= 2 ^ 24)%Z) by lia.
    assert (Hnan : d <> B754_nan) by (intros ->; discriminate Hd).
    destruct (fl_ctl K O _ _ _ HF len w d Hl' Hw Hnan) as [dt' [a' [E' [Df [Dv [Af Av]]]]]]. rewrite E in E'.
    inversion E'; subst dt' r a'. clear E'.
    assert (HJ : 1 <= IZR (2 ^ j)) by (apply IZR_le; assert (0 < 2 ^ j)%Z by (apply Z.pow_pos_nonneg; lia); lia).
    assert (Hlr : 1 <= IZR len) by (apply IZR_le; lia).
    set (c := clip32 d (IZR len - 1)) in *.
    assert (Hc : 0 <= c <= IZR len - 1) by (apply clip32_range; lra).
    assert (Hg : exists i, c = IZR i / IZR (2 ^ j)).
    { unfold c. rewrite clip32_finite by exact Hd. rewrite <- (minus_IZR len 1). apply (grid_clip _ k); [exact Hk|lia]. }
    destruct Hg as [i Hi].
    assert (EL : len = (len - 1 + 1)%Z) by lia.
    destruct (grid_exact (len - 1) w j i c) as [Hq [_ GA]]; try lia.
    { nia. }
    { rewrite minus_IZR. exact Hc. }
    { exact Hi. }
    rewrite <- EL in *. rewrite GA in Av.
    assert (A01 : 0 <= IZR (Zceil c) - c <= 1).
    { assert (Z1 := Zceil_ub c). assert (Z2 := Zceil_lb c). lra. }
    destruct (fl_cast _ _ _ _ _ HF a Af) as [C1 C2]. rewrite Av in C2.
    split; [rewrite C2; lra|].
    destruct (fl_om _ _ _ _ _ HF (c_cast K a) C1) as [_ ->].
    - rewrite C2. apply Rabs_le. assert (2 <= IZR (2 ^ 24)) by (apply IZR_le; lia). lra.
    - rewrite <- H0. apply Hmono. lra.
  Qed.

  Definition ginv (s : lin_delay f32 T) : Prop :=
    winv O s /\ (vlen (ld_memory s) <= n + 1)%Z /\ weighted (fun w => 0 <= val V w) s.

  Lemma grid_sane (op : dl_op f32 T) : grid_op j n op -> lin_sane op.
  Proof.
    assert (G := grid_len). assert (Ht : (2 ^ 24 < usize_max)%Z) by reflexivity.
    intros H. destruct op; cbn [grid_op] in H; split; cbn [op_usize_lin]; try exact I; try discriminate; try exact H.
    - unfold is_usize, usize_max in *. lia.
    - intros E. inversion E. lia.
  Qed.

  Lemma ginv_step s op s' o : ginv s -> grid_op j n op -> lin_step K O p s op = Ok (s', o) -> ginv s'.
  Proof.
    intros [Hw [HL W]] Hop E. assert (Hsize := fl_size _ _ _ _ _ HF).
    destruct (step_frame K O p Hsize s op s' o Hw (grid_sane op Hop) E) as [Hw' [HL' [_ [_ HA]]]].
    split; [exact Hw'|]. split; [rewrite HL'; destruct op; cbn in Hop; try exact HL; lia|].
    destruct W as [W1 W2]. unfold weighted. destruct op; try (destruct HA as [_ [-> [-> _]]]; split; assumption).
    destruct HA as [dt [r [a [Ec [_ [_ [-> ->]]]]]]]. destruct Hw as [Hw1 Hw2].
    exact (grid_weights (vlen (ld_memory s)) (ld_write s) d dt r a ltac:(lia) Hw2 Hop Ec).
  Qed.

  Lemma ginv_new d m s : on_grid j d -> (0 <= m <= n)%Z -> lin_new K O p d m = Ok s -> ginv s.
  Proof.
    intros Hd Hm En. assert (Hsize := fl_size _ _ _ _ _ HF). assert (G := grid_len).
    assert (Hw : winv O s).
    { apply (history_winv K O p Hsize d m []). split; [unfold is_usize, two64; lia|]. split; [unfold usize_max, two64; lia|].
      split; [constructor|]. exists []. unfold lin_session. rewrite En. reflexivity. }
    split; [exact Hw|].
    pose proof (max_slots_lt O Hsize) as Hms. unfold two63 in Hms.
    unfold lin_new, lin_new_fuel in En. fold (lin_set_delay K O p) in En. unfold uadd in En.
    rewrite chk_usize_ok in En by (unfold usize_max, two64 in *; lia). cbn [bind] in En.
    unfold vec_repeat in En. rewrite alloc_ok_iff in En by exact Hsize.
    destruct (Z.leb_spec (m + 1) (max_slots O)); [|discriminate]. cbn [bind] in En.
    assert (HL : vlen (repeat (n_zero O) (Z.to_nat (m + 1))) = (m + 1)%Z) by (unfold vlen; rewrite repeat_length; lia).
    rewrite lin_set_delay_ctl in En by (cbn [ld_memory]; rewrite HL; unfold two64; lia).
    apply bind_Ok in En. destruct En as [[[dt r] a] [Ec En]]. cbn [ld_memory ld_write] in Ec. rewrite HL in Ec.
    inversion En; subst s. cbn [ld_memory ld_alpha ld_om_alpha]. unfold weighted. cbn [ld_alpha ld_om_alpha].
    rewrite HL. split; [lia|].
    refine (grid_weights (m + 1) 0 (clip_delay K d m) dt r a _ _ _ Ec); [lia|lia|].
    clear En Ec. destruct (fl_gen _ _ _ _ _ HF) as [cast EK]. rewrite EK. destruct Hd as [Hd [k Hk]].
    assert (Hnan : d <> B754_nan) by (intros ->; discriminate Hd).
    destruct (clip_f32 cast d m) as [D1 D2]; [unfold two64; lia|exact Hnan|].
    split; [exact D1|]. rewrite D2, RN32_small by lia. rewrite clip32_finite by exact Hd. apply (grid_clip _ k); [exact Hk|lia].
  Qed.
End Grid.

(** C118: the same for [LinearDelay] when every delay asked for is a multiple of 2^-j samples
    that [f32] resolves along the whole line (whole samples: j = 0, up to 2^24 slots). *)
Lemma C118_linear_delay_thm :
  forall (T : Type) (K : ctl_ops f32 T) (O : num_ops T) (V : float_view T), ieee_line K O V ->
  forall (p : profile) (j n m : Z) (d : f32) (ops ops' : list (dl_op f32 T)),
    (0 <= j)%Z -> ((n + 1) * 2 ^ j <= 2 ^ 24)%Z -> (0 <= m <= n)%Z -> on_grid j d ->
    Forall (grid_op j n) ops -> Forall2 (raised_op V) ops ops' ->
    session_below V (lin_session K O p d m ops) (lin_session K O p d m ops').
Proof.
  intros T K O V HL p j n m d ops ops' Hj Hn Hm Hd Hops Ho. destruct (ieee_line_both K O V HL) as [HO [rnd [HF [Hmono H0]]]].
  assert (L := ieee_below T O V HO).
  assert (H : orel (both (l_rel (below V)) (Forall2 (o_rel (below V)))) (lin_session K O p d m ops) (lin_session K O p d m ops')).
  { unfold lin_session. assert (N := ginv_new K O V rnd HF Hmono H0 p j n Hj Hn d m).
    destruct (lin_new K O p d m) as [s| |]; [|exact I|exact I]. cbn [bind].
    apply (gl_run O _ _ L p K (ginv O V n) (grid_op j n)).
    - intros s1 Hs1. apply Hs1.
    - apply (ginv_step K O V rnd HF Hmono H0 p j n Hj Hn).
    - exact (N s Hd Hm eq_refl).
    - repeat split; try apply below_refl. apply (g_refl O _ _ L).
    - exact Hops.
    - apply raised_rel, Ho. }
  destruct (lin_session K O p d m ops) as [[s os]| |], (lin_session K O p d m ops') as [[s' os']| |]; try contradiction H; try exact I. apply H.
Qed.
(*@PROP
(** Quarter-sample delays on a line that may grow to a million slots. *)
Example C118_linear_delay_hyps :
  let V := ieee_view 24 128 in
  ieee_line f32_ctl_f32 O32 V /\ (0 <= 2)%Z /\ ((1000000 + 1) * 2 ^ 2 <= 2 ^ 24)%Z /\ on_grid 2 (fl32 5 (-2))
  /\ Forall (grid_op 2 1000000) [DProcess (fl32 1 0); DSetMaxDelay 5000; DSetDelay (fl32 11 (-2)); DNextOut]
  /\ Forall2 (raised_op V) [DProcess (fl32 1 0); DSetMaxDelay 5000; DSetDelay (fl32 11 (-2)); DNextOut]
                           [DProcess (fl32 3 0); DSetMaxDelay 5000; DSetDelay (fl32 11 (-2)); DNextOut].
Proof.
  split; [constructor|]. split; [lia|]. split; [lia|].
  split; [split; [reflexivity|]; exists 5%Z; lit; simpl; lra|]. split.
  - repeat constructor; cbn; try lia. exists 11%Z. lit. simpl. lra.
  - constructor; [apply ro_process; intros _ _; cbn [val ieee_view]; lit; lra|]. repeat constructor.
Qed.
@*)

Section G.
  Context (prec emax : Z) {Hp : Prec_gt_0 prec} {Hm : Prec_lt_emax prec emax}.
  Lemma blend_zero (wo wn : binary_float prec emax) : is_finite wo = true -> is_finite wn = true ->
    let z := B754_zero false in let y := f_add prec emax (f_mul prec emax z wo) (f_mul prec emax z wn) in
    is_finite y = true /\ B2R y = 0.
  Proof.
    intros H1 H2. destruct wo as [s|s| |s m e H]; try discriminate H1; destruct wn as [t|t| |t m' e' H']; try discriminate H2;
      cbn; destruct s, t; cbn; split; reflexivity.
  Qed.
  Lemma blend_one (wo wn : binary_float prec emax) : is_finite wo = true -> is_finite wn = true ->
    let y := f_add prec emax (f_mul prec emax (f_of_Z prec emax 1) wo) (f_mul prec emax (B754_zero false) wn) in
    is_finite y = true /\ B2R y = B2R wo.
  Proof.
    intros H1 H2 y. destruct (mul_one prec emax wo H1) as [A1 [_ A2]].
    assert (Z : is_zero prec emax (f_mul prec emax (B754_zero false) wn)).
    { destruct wn; try discriminate H2; eexists; reflexivity. }
    destruct (add_zero prec emax _ _ A1 Z) as [B1 [_ B2]]. split; [exact B1|]. unfold y. rewrite <- A2. exact B2.
  Qed.
End G.

(** C118: with delays that [f32] cannot resolve it does not, on any line of 2 to 2^24 slots: with
    a delay of at most 2^-25 samples a first sample of 0 comes out as 0, and the larger 1 as -m. *)
Lemma C118_linear_delay_refuted_thm :
  forall (T : Type) (K : ctl_ops f32 T) (O : num_ops T) (V : float_view T), ieee_line K O V ->
  forall (p : profile) (d : f32) (m : Z),
    (1 <= m < 2 ^ 24)%Z -> is_finite d = true -> 0 < B2R d <= bpow radix2 (-25) ->
    exists (s s' : lin_delay f32 T) (y y' : T),
      lin_session K O p d m [DProcess (n_zero O)] = Ok (s, [OSample y])
      /\ lin_session K O p d m [DProcess (n_one O)] = Ok (s', [OSample y'])
      /\ fin V y = true /\ val V y = 0 /\ fin V y' = true /\ val V y' = - IZR m.
Proof.
  intros T K O V HL p d m Hm Hf Hd. destruct HL as [lm b|lm b].
  - destruct (C24_tiny_delay_blows_up_refuted_thm _ _ _ _ _ _ p d m (n_zero (f32_ops lm b)) (LinFloatSpec.fl_f32 lm b) Hm Hf Hd)
      as [s [wo [wn [E [A1 [A2 [A3 A4]]]]]]].
    destruct (C24_tiny_delay_blows_up_refuted_thm _ _ _ _ _ _ p d m (n_one (f32_ops lm b)) (LinFloatSpec.fl_f32 lm b) Hm Hf Hd)
      as [s' [wo' [wn' [E' [A1' [A2' [A3' A4']]]]]]].
    exists s, s'. eexists _, _. split; [exact E|]. split; [exact E'|].
    destruct (blend_zero 24 128 wo wn A1 A3) as [B1 B2]. destruct (blend_one 24 128 wo' wn' A1' A3') as [C1 C2].
    split; [exact B1|]. split; [exact B2|]. split; [exact C1|]. rewrite <- A2'. exact C2.
  - destruct (C24_tiny_delay_blows_up_refuted_thm _ _ _ _ _ _ p d m (n_zero (f64_ops lm b)) (LinFloatSpec.fl_f64 lm b) Hm Hf Hd)
      as [s [wo [wn [E [A1 [A2 [A3 A4]]]]]]].
    destruct (C24_tiny_delay_blows_up_refuted_thm _ _ _ _ _ _ p d m (n_one (f64_ops lm b)) (LinFloatSpec.fl_f64 lm b) Hm Hf Hd)
      as [s' [wo' [wn' [E' [A1' [A2' [A3' A4']]]]]]].
    exists s, s'. eexists _, _. split; [exact E|]. split; [exact E'|].
    destruct (blend_zero 53 1024 wo wn A1 A3) as [B1 B2]. destruct (blend_one 53 1024 wo' wn' A1' A3') as [C1 C2].
    split; [exact B1|]. split; [exact B2|]. split; [exact C1|]. rewrite <- A2'. exact C2.
Qed.
(*@PROP
Example C118_linear_delay_refuted_hyps :
  ieee_line f32_ctl_f32 O32 (ieee_view 24 128) /\ (1 <= 7 < 2 ^ 24)%Z
  /\ is_finite (fl32 1 (-34)) = true /\ 0 < B2R (fl32 1 (-34)) <= bpow radix2 (-25).
Proof. split; [constructor|]. split; [lia|]. split; [reflexivity|]. cbn. unfold F2R; cbn. lra. Qed.
@*)
