(** Lemmas behind property C103.  The [@PROP] blocks are copied into [PropPol.v]. *)
(*@PROP
(** Property C103: inverted polarity and leading silence, bit for bit, in [f32] and [f64].

    Vocabulary: [PolSpec] ([inverted], [same_sample]: equal bits, the sign of a zero left
    open), [Device], [FloatSpec], [DelayRun], [LinRun]. *)
From Coq Require Import ZArith Reals List Bool Lra Lia.
From Flocq Require Import Core.Core IEEE754.BinarySingleNaN.
From Verif Require Import Base Num NumF FloatSpec FilterM RbjM AnalysisM Device DelayM LinDelayM DelaySpec DelayRun
  LinRun LinFloatSpec Witness CrLibm PolSpec PolLemmas.
Import ListNotations.
Open Scope R_scope.
@*)
From Coq Require Import ZArith Reals List Bool Lra Lia.
From Flocq Require Import Core.Core IEEE754.BinarySingleNaN.
From Verif Require Import Base Num NumF FloatSpec FloatFacts FilterM RbjM AnalysisM Device AnaFacts DelayM LinDelayM
  DelaySpec DelayRun LinRun LinFloatSpec PoisonLemmas PolFacts PolSpec Witness.
Import ListNotations.
Open Scope R_scope.

(** ** The laws used *)
Record laws {T} (O : num_ops T) (V : float_view T) (R : T -> T -> Prop) : Prop := {
  lw_zero x y : zero_sample V x -> zero_sample V y -> R x y;
  lw_0 : zero_sample V (n_zero O);
  lw_add x x' y y' : R x x' -> R y y' -> R (n_add O x y) (n_add O x' y');
  lw_sub x x' y y' : R x x' -> R y y' -> R (n_sub O x y) (n_sub O x' y');
  lw_mul c x x' : R x x' -> R (n_mul O c x) (n_mul O c x');
  lw_mul_r c x x' : R x x' -> R (n_mul O x c) (n_mul O x' c)
}.

Record laws0 {T} (O : num_ops T) (V : float_view T) (R : T -> T -> Prop) : Prop := {
  l0_refl x : R x x;
  l0_abs x y : R x y -> R (n_abs O x) (n_abs O y);
  l0_sq x y : R x y -> R (n_mul O x x) (n_mul O y y);
  l0_sqrt x y : R x y -> R (n_sqrt O x) (n_sqrt O y);
  l0_lt x x' y y' : R x x' -> R y y' -> n_lt O x y = n_lt O x' y'
}.

(** Zeros and finite coefficients. *)
Record zlaws {T} (O : num_ops T) (V : float_view T) : Prop := {
  z_0 : zero_sample V (n_zero O);
  z_fin0 : fin V (n_zero O) = true;
  z_fin1 : fin V (n_one O) = true;
  z_add x y : zero_sample V x -> zero_sample V y -> zero_sample V (n_add O x y);
  z_sub x y : zero_sample V x -> zero_sample V y -> zero_sample V (n_sub O x y);
  z_mul c x : fin V c = true -> zero_sample V x -> zero_sample V (n_mul O c x);
  z_abs x : zero_sample V x -> zero_sample V (n_abs O x);
  z_sqrt x : zero_sample V x -> zero_sample V (n_sqrt O x);
  z_range x : n_le O (n_zero O) x && n_lt O x (n_one O) = true -> fin V x = true
}.

Section Laws.
  Context (prec emax : Z) {Hp : Prec_gt_0 prec} {Hm : Prec_lt_emax prec emax}.
  Notation F := (binary_float prec emax).
  Context (pim pie sz : Z) (lm : libm F) (nn : bool).
  Notation O := (ieee_ops prec emax pim pie sz lm nn).
  Notation V := (ieee_view prec emax).

  Lemma zs_isz (x : F) : zero_sample V x <-> is_zero prec emax x.
  Proof.
    split; [apply zero_form|]. intros [s ->]. split; reflexivity.
  Qed.
  Lemma inv_sim (x y : F) : inverted O V x y <-> sim prec emax true x y.
  Proof. unfold inverted, sim. rewrite !zs_isz. cbn. tauto. Qed.
  Lemma same_sim (x y : F) : same_sample V x y <-> sim prec emax false x y.
  Proof. unfold same_sample, sim. rewrite !zs_isz. cbn. tauto. Qed.

  Lemma sim_laws fl R : (forall x y : F, R x y <-> sim prec emax fl x y) -> laws O V R.
  Proof.
    intros E. split; cbn [n_zero n_add n_sub n_mul ieee_ops].
    - intros x y A B. apply E. right. rewrite <- !zs_isz. auto.
    - split; reflexivity.
    - intros x x' y y'. rewrite !E. apply sim_add.
    - intros x x' y y'. rewrite !E. apply sim_sub.
    - intros c x x'. rewrite !E. apply sim_mul.
    - intros c x x'. rewrite !E. apply sim_mul_r.
  Qed.

  Lemma same_laws0 : laws0 O V (same_sample V).
  Proof.
    split; cbn [n_abs n_mul n_sqrt n_lt ieee_ops].
    - intros x. left; reflexivity.
    - intros x y. rewrite !same_sim. apply sim_abs.
    - intros x y. rewrite !same_sim. apply sim_sq.
    - intros x y. rewrite !same_sim. apply sim_sqrt.
    - intros x x' y y'. rewrite !same_sim. apply sim_lt.
  Qed.

  Lemma ieee_zlaws : zlaws O V.
  Proof.
    split; cbn [n_zero n_one n_add n_sub n_mul n_abs n_sqrt n_le n_lt ieee_ops].
    - split; reflexivity.
    - reflexivity.
    - apply fone_correct.
    - intros x y. rewrite !zs_isz. apply zero_add.
    - intros x y. rewrite !zs_isz. apply zero_sub.
    - intros c x Fc. rewrite !zs_isz. intros [s ->]. destruct c; try discriminate; eexists; reflexivity.
    - intros x. rewrite !zs_isz. intros [s ->]. eexists; reflexivity.
    - intros x. rewrite !zs_isz. intros [s ->]. eexists; reflexivity.
    - intros x H. apply andb_prop in H. destruct H as [H1 H2].
      destruct (fone_correct prec emax) as [_ [F1 _]].
      destruct x as [s|s| |s m e He]; try reflexivity; cbn [fin ieee_view is_finite]; exfalso.
      + destruct s; [discriminate H1|].
        destruct (f_of_Z prec emax 1) as [t|t| |t m e He]; discriminate.
      + discriminate H1.
  Qed.
End Laws.

Lemma ieee_inv_laws T (O : num_ops T) V : ieee O V -> laws O V (inverted O V).
Proof. intros [lm b|lm b]; apply (sim_laws _ _ _ _ _ _ _ true); intros x y; apply inv_sim. Qed.
Lemma ieee_same_laws T (O : num_ops T) V : ieee O V -> laws O V (same_sample V).
Proof. intros [lm b|lm b]; apply (sim_laws _ _ _ _ _ _ _ false); intros x y; apply same_sim. Qed.
Lemma ieee_laws0 T (O : num_ops T) V : ieee O V -> laws0 O V (same_sample V).
Proof. intros [lm b|lm b]; apply same_laws0. Qed.
Lemma ieee_zl T (O : num_ops T) V : ieee O V -> zlaws O V.
Proof. intros [lm b|lm b]; apply ieee_zlaws. Qed.

(** ** Devices that respect a relation on samples *)
Definition call_rel {K T} (R : T -> T -> Prop) (c c' : call K T) : Prop :=
  match c, c' with
  | CProcess x, CProcess y => R x y
  | CClear, CClear => True
  | CSet k, CSet k' => k = k'
  | CLastOut, CLastOut => True
  | _, _ => False
  end.

(** [Rw]: related memories; [Rf]: related last outputs as well. *)
Record respects {S K T} (D : device S K T) (R : T -> T -> Prop) (Rw Rf : S -> S -> Prop) : Prop := {
  rs_new : Rf (d_new D) (d_new D);
  rs_fw s s' : Rf s s' -> Rw s s';
  rs_wset s s' k : Rw s s' -> Rw (d_set D s k) (d_set D s' k);
  rs_set s s' k : Rf s s' -> Rf (d_set D s k) (d_set D s' k);
  rs_wclear s s' : Rw s s' -> Rw (d_clear D s) (d_clear D s');
  rs_clear s s' : Rf s s' -> Rf (d_clear D s) (d_clear D s');
  rs_process s s' x x' : Rw s s' -> R x x' ->
    Rf (fst (d_process D s x)) (fst (d_process D s' x'))
    /\ R (snd (d_process D s x)) (snd (d_process D s' x'));
  rs_last s s' : Rf s s' -> R (d_last_out D s) (d_last_out D s')
}.

Section Respect.
  Context {S K T : Type} (D : device S K T) (R : T -> T -> Prop) (Rw Rf : S -> S -> Prop)
          (H : respects D R Rw Rf).

  Lemma step_full s s' c c' : Rf s s' -> call_rel R c c' ->
    Rf (fst (d_step D s c)) (fst (d_step D s' c')) /\ answers R (snd (d_step D s c)) (snd (d_step D s' c')).
  Proof.
    intros Hs Hc. destruct c as [x| |k|], c' as [x'| |k'|]; try contradiction Hc; cbn [call_rel] in Hc; cbn [d_step].
    - destruct (rs_process _ _ _ _ H s s' x x') as [A B]; [apply (rs_fw _ _ _ _ H); exact Hs|exact Hc|].
      destruct (d_process D s x), (d_process D s' x'). split; assumption.
    - split; [apply (rs_clear _ _ _ _ H); exact Hs|exact I].
    - subst k'. split; [apply (rs_set _ _ _ _ H); exact Hs|exact I].
    - split; [exact Hs|]. cbn [snd answers]. apply (rs_last _ _ _ _ H); exact Hs.
  Qed.

  Lemma run_full cs : forall cs' s s', Rf s s' -> Forall2 (call_rel R) cs cs' ->
    Rf (fst (d_run D s cs)) (fst (d_run D s' cs'))
    /\ Forall2 (answers R) (map snd (snd (d_run D s cs))) (map snd (snd (d_run D s' cs'))).
  Proof.
    induction cs as [|c cs IH]; intros cs' s s' Hs Hc; inversion Hc as [|? c' ? cs1 H1 H2]; subst.
    - split; [exact Hs|constructor].
    - cbn [d_run]. destruct (step_full s s' c c' Hs H1) as [A B].
      destruct (d_step D s c) as [s1 o], (d_step D s' c') as [s1' o'].
      destruct (IH cs1 s1 s1' A H2) as [A2 B2].
      destruct (d_run D s1 cs), (d_run D s1' cs1). split; [exact A2|]. cbn. constructor; assumption.
  Qed.

  Lemma run_weak (Rr : forall x, R x x) cs : forall s s', Rw s s' -> reads_after_process cs ->
    Forall2 (answers R) (map snd (snd (d_run D s cs))) (map snd (snd (d_run D s' cs))).
  Proof.
    induction cs as [|c cs IH]; intros s s' Hs Hr; [constructor|].
    assert (Full : forall s1 s1', Rf s1 s1' ->
      Forall2 (answers R) (map snd (snd (d_run D s1 cs))) (map snd (snd (d_run D s1' cs)))).
    { intros s1 s1' A. apply (run_full cs cs s1 s1' A).
      clear - Rr. induction cs as [|c cs IH]; constructor; [|exact IH]. destruct c; cbn; auto. }
    destruct c as [x| |k|]; cbn [reads_after_process] in Hr; [| | |contradiction].
    - cbn [d_run d_step]. destruct (rs_process _ _ _ _ H s s' x x Hs (Rr x)) as [A B].
      destruct (d_process D s x) as [s1 y], (d_process D s' x) as [s1' y']. cbn [fst snd] in A, B.
      specialize (Full s1 s1' A). destruct (d_run D s1 cs), (d_run D s1' cs). cbn. constructor; assumption.
    - cbn [d_run d_step]. specialize (IH _ _ (rs_wclear _ _ _ _ H s s' Hs) Hr).
      destruct (d_run D (d_clear D s) cs), (d_run D (d_clear D s') cs). cbn. constructor; [exact I|assumption].
    - cbn [d_run d_step]. specialize (IH _ _ (rs_wset _ _ _ _ H s s' k Hs) Hr).
      destruct (d_run D (d_set D s k) cs), (d_run D (d_set D s' k) cs). cbn. constructor; [exact I|assumption].
  Qed.
End Respect.

(** ** The relations between states *)
Section States.
  Context {T : Type} (R : T -> T -> Prop).

  Definition r_one_pole (s s' : one_pole T) : Prop :=
    R (op_y_z1 s) (op_y_z1 s') /\ op_b0 s = op_b0 s' /\ op_a1 s = op_a1 s'.
  Definition w_one_zero (s s' : one_zero T) : Prop :=
    R (oz_x_z1 s) (oz_x_z1 s') /\ oz_b0 s = oz_b0 s' /\ oz_b1 s = oz_b1 s'.
  Definition r_one_zero s s' : Prop := w_one_zero s s' /\ R (oz_output s) (oz_output s').
  Definition r_two_pole (s s' : two_pole T) : Prop :=
    R (tp_y_z1 s) (tp_y_z1 s') /\ R (tp_y_z2 s) (tp_y_z2 s')
    /\ tp_b0 s = tp_b0 s' /\ tp_a1 s = tp_a1 s' /\ tp_a2 s = tp_a2 s'.
  Definition w_two_zero (s s' : two_zero T) : Prop :=
    R (tz_x_z1 s) (tz_x_z1 s') /\ R (tz_x_z2 s) (tz_x_z2 s')
    /\ tz_b0 s = tz_b0 s' /\ tz_b1 s = tz_b1 s' /\ tz_b2 s = tz_b2 s'.
  Definition r_two_zero s s' : Prop := w_two_zero s s' /\ R (tz_output s) (tz_output s').
  Definition r_biquad1 (s s' : biquad1 T) : Prop :=
    R (b1_x_z1 s) (b1_x_z1 s') /\ R (b1_x_z2 s) (b1_x_z2 s') /\ R (b1_y_z1 s) (b1_y_z1 s') /\ R (b1_y_z2 s) (b1_y_z2 s')
    /\ b1_b0 s = b1_b0 s' /\ b1_b1 s = b1_b1 s' /\ b1_b2 s = b1_b2 s' /\ b1_a1 s = b1_a1 s' /\ b1_a2 s = b1_a2 s'.
  Definition r_biquad2 (s s' : biquad2 T) : Prop :=
    R (b2_z1 s) (b2_z1 s') /\ R (b2_z2 s) (b2_z2 s') /\ R (b2_output s) (b2_output s')
    /\ b2_b0 s = b2_b0 s' /\ b2_b1 s = b2_b1 s' /\ b2_b2 s = b2_b2 s' /\ b2_a1 s = b2_a1 s' /\ b2_a2 s = b2_a2 s'.
  Definition r_leaky (s s' : leaky T) : Prop := lk_alpha s = lk_alpha s' /\ R (lk_y_z1 s) (lk_y_z1 s').
  Definition r_peak (s s' : peak T) : Prop :=
    pk_attack_gain s = pk_attack_gain s' /\ pk_release_gain s = pk_release_gain s' /\ R (pk_envelope s) (pk_envelope s').
  Definition r_rms (s s' : rms T) : Prop :=
    rm_attack_gain s = rm_attack_gain s' /\ rm_release_gain s = rm_release_gain s' /\ R (rm_envelope s) (rm_envelope s').
End States.

Ltac dstates :=
  repeat match goal with
  | k : (_ * _)%type |- _ => destruct k
  | s : one_pole _ |- _ => destruct s | s : one_zero _ |- _ => destruct s
  | s : two_pole _ |- _ => destruct s | s : two_zero _ |- _ => destruct s
  | s : biquad1 _ |- _ => destruct s | s : biquad2 _ |- _ => destruct s
  | s : leaky _ |- _ => destruct s | s : peak _ |- _ => destruct s | s : rms _ |- _ => destruct s
  end.
Ltac dands := repeat match goal with H : _ /\ _ |- _ => destruct H end.
Ltac ucore := unfold r_one_pole, r_one_zero, w_one_zero, r_two_pole, r_two_zero, w_two_zero, r_biquad1, r_biquad2,
  r_leaky, r_peak, r_rms in *.

Section Devices.
  Context {T : Type} (O : num_ops T) (V : float_view T) (R : T -> T -> Prop) (L : laws O V R).

  Ltac law := match goal with
    | |- R (n_add O _ _) (n_add O _ _) => apply (lw_add _ _ _ L)
    | |- R (n_sub O _ _) (n_sub O _ _) => apply (lw_sub _ _ _ L)
    | |- R (n_mul O ?c _) (n_mul O ?c _) => apply (lw_mul _ _ _ L)
    | |- R (n_zero O) (n_zero O) => apply (lw_zero _ _ _ L); apply (lw_0 _ _ _ L)
    | |- R _ _ => assumption
    | |- ?x = ?x => reflexivity
    | |- _ /\ _ => split
    end.
  Ltac dev := split; intros; dstates; ucore; cbn in *; dands; subst; repeat law.

  Lemma rs_one_pole : respects (dev_one_pole O) R (r_one_pole R) (r_one_pole R).
  Proof. dev. Qed.
  Lemma rs_one_zero : respects (dev_one_zero O) R (w_one_zero R) (r_one_zero R).
  Proof. dev. Qed.
  Lemma rs_two_pole : respects (dev_two_pole O) R (r_two_pole R) (r_two_pole R).
  Proof. dev. Qed.
  Lemma rs_two_zero : respects (dev_two_zero O) R (w_two_zero R) (r_two_zero R).
  Proof. dev. Qed.
  Lemma rs_biquad1 : respects (dev_biquad1 O) R (r_biquad1 R) (r_biquad1 R).
  Proof. dev. Qed.
  Lemma rs_biquad2 : respects (dev_biquad2 O) R (r_biquad2 R) (r_biquad2 R).
  Proof. dev. Qed.
  Lemma rs_rbj k : respects (dev_rbj O k) R (r_biquad2 R) (r_biquad2 R).
  Proof.
    assert (B := rs_biquad2). destruct B as [B1 B2 B3 B4 B5 B6 B7 B8]. cbn in B1, B2, B3, B4, B5, B6, B7, B8.
    assert (N : rbj_new O k = biquad2_new O) by (destruct k; reflexivity).
    assert (C : forall s, rbj_clear O k s = biquad2_clear O s) by (destruct k; reflexivity).
    assert (P : forall s x, rbj_process O k s x = biquad2_process O s x) by (destruct k; reflexivity).
    assert (Lo : forall s : biquad2 T, rbj_last_out k s = biquad2_last_out s) by (destruct k; reflexivity).
    assert (St : forall s s' a, r_biquad2 R s s' ->
       r_biquad2 R match rbj_set_coefficients O k s a with Some t => t | None => s end
                   match rbj_set_coefficients O k s' a with Some t => t | None => s' end).
    { intros s s' a Hs. unfold rbj_set_coefficients. destruct (rbj_coeffs O k a) as [[[[[b0 b1] b2] a1] a2]|]; [|exact Hs].
      rewrite !C. apply B6. apply (B4 s s' (b0, b1, b2, a1, a2) Hs). }
    split; cbn [dev_rbj d_new d_set d_clear d_process d_last_out].
    - rewrite N. exact B1.
    - exact B2.
    - exact St.
    - exact St.
    - intros s s'. rewrite !C. apply B5.
    - intros s s'. rewrite !C. apply B6.
    - intros s s' x x'. rewrite !P. apply B7.
    - intros s s'. rewrite !Lo. apply B8.
  Qed.
  Lemma rs_leaky : respects (dev_leaky O) R (r_leaky R) (r_leaky R).
  Proof.
    split; intros; dstates; ucore; cbn in *; dands; subst; unfold leaky_set_alpha;
      try match goal with |- context [if ?b then _ else _] => destruct b end; cbn; repeat law.
  Qed.

  Context (L0 : laws0 O V R).
  Ltac law0 := match goal with
    | |- R (n_abs O _) (n_abs O _) => apply (l0_abs _ _ _ L0)
    | |- R (n_mul O ?x ?x) (n_mul O ?y ?y) => apply (l0_sq _ _ _ L0)
    | |- R (n_sqrt O _) (n_sqrt O _) => apply (l0_sqrt _ _ _ L0)
    | _ => law
    end.
  Lemma rs_peak : respects (dev_peak O) R (r_peak R) (r_peak R).
  Proof.
    split; try (intros; match goal with k : det_set T |- _ => destruct k | _ => idtac end; dstates; ucore; cbn in *; dands; subst;
      unfold peak_set_attack, peak_set_release;
      try match goal with |- context [if ?b then _ else _] => destruct b end; cbn; repeat law0; fail).
    intros s s' x x' Hs Hx. dstates; ucore; cbn in *; dands; subst.
    rewrite (l0_lt _ _ _ L0 pk_envelope0 pk_envelope (n_abs O x) (n_abs O x')) by (repeat law0).
    repeat law0.
  Qed.
  Lemma rs_rms : respects (dev_rms O) R (r_rms R) (r_rms R).
  Proof.
    split; try (intros; match goal with k : det_set T |- _ => destruct k | _ => idtac end; dstates; ucore; cbn in *; dands; subst;
      unfold rms_set_attack, rms_set_release;
      try match goal with |- context [if ?b then _ else _] => destruct b end; cbn; repeat law0; fail).
    intros s s' x x' Hs Hx. dstates; ucore; cbn in *; dands; subst.
    rewrite (l0_lt _ _ _ L0 rm_envelope0 rm_envelope (n_mul O x x) (n_mul O x' x')) by (repeat law0).
    repeat law0.
    intros s s' Hs. dstates; ucore; cbn in *; dands; subst. unfold rms_last_out. cbn. repeat law0.
  Qed.
End Devices.

(** ** Inverted polarity *)
Lemma signed_respects {T} (O : num_ops T) V (L : laws O V (inverted O V)) S K (D : device S K T) :
  signed_device O D -> exists Rw Rf, respects D (inverted O V) Rw Rf.
Proof.
  intros H. destruct H; do 2 eexists;
    [eapply rs_one_pole|eapply rs_one_zero|eapply rs_two_pole|eapply rs_two_zero|eapply rs_biquad1|eapply rs_biquad2
    |eapply rs_rbj|eapply rs_leaky]; exact L.
Qed.

Lemma invert_rel {T} (O : num_ops T) V K (cs : list (call K T)) :
  Forall2 (call_rel (inverted O V)) cs (map (invert_call O) cs).
Proof.
  induction cs as [|c cs IH]; constructor; [|exact IH]. destruct c; cbn; auto. left; reflexivity.
Qed.

(** C103: inverting the polarity of the input inverts the output, bit for bit. *)
Lemma C103_polarity_thm :
  forall (T : Type) (O : num_ops T) (V : float_view T), ieee O V ->
  forall (S K : Type) (D : device S K T), signed_device O D ->
  forall before calls,
    Forall2 (answers (inverted O V)) (returns D before calls)
            (returns D (map (invert_call O) before) (map (invert_call O) calls)).
Proof.
  intros T O V HO S K D HD before calls.
  destruct (signed_respects O V (ieee_inv_laws T O V HO) S K D HD) as [Rw [Rf H]].
  unfold returns, after.
  apply (run_full D _ Rw Rf H); [|apply invert_rel].
  apply (run_full D _ Rw Rf H); [apply (rs_new _ _ _ _ H)|apply invert_rel].
Qed.

(*@PROP
Example C103_polarity_hyps :
  ieee O32 (ieee_view 24 128) /\ signed_device O32 (dev_rbj O32 HighShelf)
  /\ invert_call O32 (CProcess (fl32 3 (-1)) : call (f32 * f32) f32) = CProcess (fl32 (-3) (-1)).
Proof.
  split; [apply ieee_f32|]. split; [apply sd_rbj|]. cbn. f_equal. apply B2SF_inj. vm_compute. reflexivity.
Qed.
@*)

(** C103: the sign of a zero really is left open: fed +0 and -0, a new [OneZero] returns +0
    both times. *)
Lemma C103_zero_sign_refuted_thm :
  forall (lm : libm f32) (b : bool),
    let O := f32_ops lm b in
    ~ (forall x y, returns (dev_one_zero O) [] [CProcess x] = [Some y] ->
                   returns (dev_one_zero O) [] [CProcess (n_neg O x)] = [Some (n_neg O y)]).
Proof.
  intros lm b O H. specialize (H (B754_zero false) (B754_zero false)).
  assert (A : forall s, returns (dev_one_zero O) [] [CProcess (B754_zero s)] = [Some (B754_zero false)]).
  { intros s. unfold returns, after. cbn -[f_of_Z f_mul f_add]. f_equal. f_equal.
    apply B2SF_inj. destruct s; vm_compute; reflexivity. }
  specialize (H (A false)). cbn [O f32_ops ieee_ops n_neg Bopp] in H. cbn [negb] in H.
  change (returns (dev_one_zero O) [] [CProcess (B754_zero true)] = [Some (B754_zero true)]) in H.
  rewrite A in H. discriminate H.
Qed.

(** ** Leading silence *)
Record settles {S K T} (O : num_ops T) (V : float_view T) (D : device S K T) (ok : K -> Prop) (Rw : S -> S -> Prop)
  (calm rest : S -> Prop) : Prop := {
  st_new : calm (d_new D);
  st_set s k : calm s -> ok k -> calm (d_set D s k);
  st_clear s : calm s -> calm (d_clear D s);
  st_process s x : calm s -> calm (fst (d_process D s x));
  st_rest s : calm s -> rest (d_clear D s);
  st_refl s : rest s -> Rw s s;
  st_quiet s s0 z : rest s -> rest s0 -> Rw s s0 -> zero_sample V z ->
    rest (fst (d_process D s z)) /\ zero_sample V (snd (d_process D s z)) /\ Rw (fst (d_process D s z)) s0
}.

Section Silence.
  Context {S K T : Type} (O : num_ops T) (V : float_view T) (D : device S K T) (ok : K -> Prop)
          (Rw Rf : S -> S -> Prop) (calm rest : S -> Prop)
          (Hr : respects D (same_sample V) Rw Rf) (Hs : settles O V D ok Rw calm rest).

  Lemma calm_run cs : forall s, calm s -> all_set ok cs -> calm (fst (d_run D s cs)).
  Proof.
    induction cs as [|c cs IH]; intros s Hc Ha; [exact Hc|]. cbn [d_run].
    assert (C : calm (fst (d_step D s c))).
    { destruct c as [x| |k|]; cbn [d_step].
      - assert (A := st_process _ _ _ _ _ _ _ Hs s x Hc). destruct (d_process D s x). exact A.
      - apply (st_clear _ _ _ _ _ _ _ Hs). exact Hc.
      - apply (st_set _ _ _ _ _ _ _ Hs); [exact Hc|]. apply Ha. left; reflexivity.
      - exact Hc. }
    destruct (d_step D s c) as [s1 o]. cbn [fst] in C.
    specialize (IH s1 C). destruct (d_run D s1 cs). apply IH. intros k Hk. apply Ha. right; exact Hk.
  Qed.

  Lemma rest_run n z : zero_sample V z -> forall s s0, rest s -> rest s0 -> Rw s s0 ->
    Rw (fst (d_run D s (repeat (CProcess z) n))) s0
    /\ Forall (fun r => match r with Some y => zero_sample V y | None => False end)
              (map snd (snd (d_run D s (repeat (CProcess z) n)))).
  Proof.
    intros Hz. induction n as [|n IH]; intros s s0 R1 R2 W; [split; [exact W|constructor]|].
    cbn [repeat d_run d_step].
    destruct (st_quiet _ _ _ _ _ _ _ Hs s s0 z R1 R2 W Hz) as (A & B & C).
    destruct (d_process D s z) as [s1 y]. cbn [fst snd] in A, B, C.
    destruct (IH s1 s0 A R2 C) as [A1 B1]. destruct (d_run D s1 (repeat (CProcess z) n)).
    split; [exact A1|]. cbn. constructor; [exact B|exact B1].
  Qed.

  Lemma silence_gen before z n calls : (forall x, same_sample V x x) ->
    all_set ok before -> zero_sample V z -> reads_after_process calls ->
    Forall (fun r => match r with Some y => zero_sample V y | None => False end)
           (returns D (before ++ [CClear]) (repeat (CProcess z) n))
    /\ Forall2 (answers (same_sample V)) (returns D (before ++ [CClear] ++ repeat (CProcess z) n) calls)
               (returns D (before ++ [CClear]) calls).
  Proof.
    intros Hrefl Ha Hz Hc.
    assert (C : calm (after D before)) by (apply calm_run; [apply (st_new _ _ _ _ _ _ _ Hs)|exact Ha]).
    assert (R1 := st_rest _ _ _ _ _ _ _ Hs _ C).
    assert (E : after D (before ++ [CClear]) = d_clear D (after D before)) by (rewrite after_snoc; reflexivity).
    destruct (rest_run n z Hz _ _ R1 R1 (st_refl _ _ _ _ _ _ _ Hs _ R1)) as [W Z].
    unfold returns. rewrite app_assoc, (after_app D (before ++ [CClear])), !E. split; [exact Z|].
    apply (run_weak D _ Rw Rf Hr Hrefl); [exact W|exact Hc].
  Qed.
End Silence.

Section Settle.
  Context {T : Type} (O : num_ops T) (V : float_view T) (L : laws O V (same_sample V)) (Z : zlaws O V)
          (L0 : laws0 O V (same_sample V)).
  Notation zs := (zero_sample V).
  Notation fi := (fun x => fin V x = true).
  Notation R := (same_sample V).

  Definition c_one_pole (s : one_pole T) := fi (op_b0 s) /\ fi (op_a1 s).
  Definition c_one_zero (s : one_zero T) := fi (oz_b0 s) /\ fi (oz_b1 s).
  Definition c_two_pole (s : two_pole T) := fi (tp_b0 s) /\ fi (tp_a1 s) /\ fi (tp_a2 s).
  Definition c_two_zero (s : two_zero T) := fi (tz_b0 s) /\ fi (tz_b1 s) /\ fi (tz_b2 s).
  Definition c_biquad1 (s : biquad1 T) := fi (b1_b0 s) /\ fi (b1_b1 s) /\ fi (b1_b2 s) /\ fi (b1_a1 s) /\ fi (b1_a2 s).
  Definition c_biquad2 (s : biquad2 T) := fi (b2_b0 s) /\ fi (b2_b1 s) /\ fi (b2_b2 s) /\ fi (b2_a1 s) /\ fi (b2_a2 s).
  Definition c_leaky (s : leaky T) := fi (lk_alpha s).
  Definition c_peak (s : peak T) := fi (pk_attack_gain s) /\ fi (pk_release_gain s).
  Definition c_rms (s : rms T) := fi (rm_attack_gain s) /\ fi (rm_release_gain s).

  Definition q_one_pole (s : one_pole T) := c_one_pole s /\ zs (op_y_z1 s).
  Definition q_one_zero (s : one_zero T) := c_one_zero s /\ zs (oz_x_z1 s).
  Definition q_two_pole (s : two_pole T) := c_two_pole s /\ zs (tp_y_z1 s) /\ zs (tp_y_z2 s).
  Definition q_two_zero (s : two_zero T) := c_two_zero s /\ zs (tz_x_z1 s) /\ zs (tz_x_z2 s).
  Definition q_biquad1 (s : biquad1 T) :=
    c_biquad1 s /\ zs (b1_x_z1 s) /\ zs (b1_x_z2 s) /\ zs (b1_y_z1 s) /\ zs (b1_y_z2 s).
  Definition q_biquad2 (s : biquad2 T) := c_biquad2 s /\ zs (b2_z1 s) /\ zs (b2_z2 s) /\ zs (b2_output s).
  Definition q_leaky (s : leaky T) := c_leaky s /\ zs (lk_y_z1 s).
  Definition q_peak (s : peak T) := c_peak s /\ zs (pk_envelope s).
  Definition q_rms (s : rms T) := c_rms s /\ zs (rm_envelope s).

  Ltac zlaw := match goal with
    | |- zs (n_add O _ _) => apply (z_add _ _ Z)
    | |- zs (n_sub O _ _) => apply (z_sub _ _ Z)
    | |- zs (n_abs O _) => apply (z_abs _ _ Z)
    | |- zs (n_sqrt O _) => apply (z_sqrt _ _ Z)
    | |- zs (n_mul O _ _) => apply (z_mul _ _ Z)
    | |- zs (n_zero O) => apply (z_0 _ _ Z)
    | |- fin V (n_zero O) = true => apply (z_fin0 _ _ Z)
    | |- fin V (n_one O) = true => apply (z_fin1 _ _ Z)
    | |- zs _ => assumption
    | |- fin V _ = true => assumption
    | |- R ?x ?x => left; reflexivity
    | |- R _ _ => apply (lw_zero _ _ _ L)
    | |- ?x = ?x => reflexivity
    | |- _ /\ _ => split
    | |- True => exact I
    end.
  Ltac ucalm := unfold q_one_pole, q_one_zero, q_two_pole, q_two_zero, q_biquad1, q_biquad2, q_leaky, q_peak, q_rms,
    c_one_pole, c_one_zero, c_two_pole, c_two_zero, c_biquad1, c_biquad2, c_leaky, c_peak, c_rms in *; ucore.
  Ltac dev := split; intros; dstates; ucalm; cbn in *; dands; subst; repeat zlaw.

  Lemma se_one_pole : settles O V (dev_one_pole O) (finite2 V) (r_one_pole R) c_one_pole q_one_pole.
  Proof. dev. Qed.
  Lemma se_one_zero : settles O V (dev_one_zero O) (finite2 V) (w_one_zero R) c_one_zero q_one_zero.
  Proof. dev. Qed.
  Lemma se_two_pole : settles O V (dev_two_pole O) (finite3 V) (r_two_pole R) c_two_pole q_two_pole.
  Proof. dev. Qed.
  Lemma se_two_zero : settles O V (dev_two_zero O) (finite3 V) (w_two_zero R) c_two_zero q_two_zero.
  Proof. dev. Qed.
  Lemma se_biquad1 : settles O V (dev_biquad1 O) (finite5 V) (r_biquad1 R) c_biquad1 q_biquad1.
  Proof. dev. Qed.
  Lemma se_biquad2 : settles O V (dev_biquad2 O) (finite5 V) (r_biquad2 R) c_biquad2 q_biquad2.
  Proof. dev. Qed.
  Lemma se_rbj k : settles O V (dev_rbj O k) (fun a => forall c, rbj_coeffs O k a = Some c -> finite5 V c)
    (r_biquad2 R) c_biquad2 q_biquad2.
  Proof.
    assert (B := se_biquad2). destruct B as [B1 B2 B3 B4 B5 B6 B7]. cbn in B1, B2, B3, B4, B5, B6, B7.
    assert (N : rbj_new O k = biquad2_new O) by (destruct k; reflexivity).
    assert (C : forall s, rbj_clear O k s = biquad2_clear O s) by (destruct k; reflexivity).
    assert (P : forall s x, rbj_process O k s x = biquad2_process O s x) by (destruct k; reflexivity).
    split; cbn [dev_rbj d_new d_set d_clear d_process d_last_out].
    - rewrite N. exact B1.
    - intros s a Hs Ha. unfold rbj_set_coefficients.
      destruct (rbj_coeffs O k a) as [[[[[b0 b1] b2] a1] a2]|] eqn:E; [|exact Hs].
      rewrite C. apply B3. apply (B2 s (b0, b1, b2, a1, a2) Hs). apply Ha. reflexivity.
    - intros s. rewrite C. apply B3.
    - intros s x. rewrite P. apply B4.
    - intros s. rewrite C. apply B5.
    - exact B6.
    - intros s s0 z. rewrite P. apply B7.
  Qed.
  Lemma se_leaky : settles O V (dev_leaky O) (fun _ => True) (r_leaky R) c_leaky q_leaky.
  Proof.
    split; try (intros; dstates; ucalm; cbn in *; dands; subst; repeat zlaw; fail).
    intros s k Hs _. dstates. ucalm. cbn in *. unfold leaky_set_alpha. destruct (_ && _) eqn:E; cbn; [|exact Hs].
    apply (z_range _ _ Z). exact E.
  Qed.
  Lemma se_peak : settles O V (dev_peak O) (fun k => match k with
      SetAttack l | SetRelease l => fin V (n_exp O (n_div O (n_neg O (n_one O)) l)) = true end) (r_peak R) c_peak q_peak.
  Proof.
    split; try (intros; dstates; ucalm; cbn in *; dands; subst; repeat zlaw; fail).
    - intros s k Hs Hk. dstates. destruct k; ucalm; cbn in *; unfold peak_set_attack, peak_set_release;
        destruct (_ && _); cbn; dands; repeat zlaw.
    - intros. dstates; ucalm; cbn in *; dands; subst. destruct (n_lt _ _ _); repeat zlaw.
  Qed.
  Lemma se_rms : settles O V (dev_rms O) (fun k => match k with
      SetAttack l | SetRelease l => fin V (n_exp O (n_div O (n_neg O (n_one O)) l)) = true end) (r_rms R) c_rms q_rms.
  Proof.
    split; try (intros; dstates; ucalm; cbn in *; dands; subst; repeat zlaw; fail).
    - intros s k Hs Hk. dstates. destruct k; ucalm; cbn in *; unfold rms_set_attack, rms_set_release;
        destruct (_ && _); cbn; dands; repeat zlaw.
    - intros. dstates; ucalm; cbn in *; dands; subst.
      assert (fin V z = true) by (match goal with Hz : zs z |- _ => apply Hz end).
      destruct (n_lt _ _ _); repeat zlaw.
  Qed.
End Settle.

(** C103: silence fed to a cleared processor comes out as silence and is inaudible later:
    the processor goes on as if it had only just been cleared. *)
Lemma C103_leading_silence_thm :
  forall (T : Type) (O : num_ops T) (V : float_view T), ieee O V ->
  forall (S K : Type) (D : device S K T) (ok : K -> Prop), tame O V D ok ->
  forall before z n calls, all_set ok before -> zero_sample V z -> reads_after_process calls ->
    Forall (fun r => match r with Some y => zero_sample V y | None => False end)
           (returns D (before ++ [CClear]) (repeat (CProcess z) n))
    /\ Forall2 (answers (same_sample V)) (returns D (before ++ [CClear] ++ repeat (CProcess z) n) calls)
               (returns D (before ++ [CClear]) calls).
Proof.
  intros T O V HO S K D ok HD before z n calls.
  assert (L := ieee_same_laws T O V HO). assert (L0 := ieee_laws0 T O V HO). assert (Z := ieee_zl T O V HO).
  assert (Rr : forall x, same_sample V x x) by (intros x; left; reflexivity).
  destruct HD.
  - apply (silence_gen O V _ _ _ _ _ _ (rs_one_pole O V _ L) (se_one_pole O V L Z)); exact Rr.
  - apply (silence_gen O V _ _ _ _ _ _ (rs_one_zero O V _ L) (se_one_zero O V L Z)); exact Rr.
  - apply (silence_gen O V _ _ _ _ _ _ (rs_two_pole O V _ L) (se_two_pole O V L Z)); exact Rr.
  - apply (silence_gen O V _ _ _ _ _ _ (rs_two_zero O V _ L) (se_two_zero O V L Z)); exact Rr.
  - apply (silence_gen O V _ _ _ _ _ _ (rs_biquad1 O V _ L) (se_biquad1 O V L Z)); exact Rr.
  - apply (silence_gen O V _ _ _ _ _ _ (rs_biquad2 O V _ L) (se_biquad2 O V L Z)); exact Rr.
  - apply (silence_gen O V _ _ _ _ _ _ (rs_rbj O V _ L k) (se_rbj O V L Z k)); exact Rr.
  - apply (silence_gen O V _ _ _ _ _ _ (rs_leaky O V _ L) (se_leaky O V L Z)); exact Rr.
  - apply (silence_gen O V _ _ _ _ _ _ (rs_peak O V _ L L0) (se_peak O V L Z)); exact Rr.
  - apply (silence_gen O V _ _ _ _ _ _ (rs_rms O V _ L L0) (se_rms O V L Z)); exact Rr.
Qed.

(*@PROP
(** A leaky integrator, a biquad, and silence made of negative zeros. *)
Example C103_leading_silence_hyps :
  let O := f32_ops (cr_libm 24 128) false in let V := ieee_view 24 128 in
  ieee O V /\ tame O V (dev_leaky O) (fun _ => True) /\ all_set (fun _ => True) [CSet (fl32 1 (-1)); CProcess (fl32 3 0)]
  /\ tame O V (dev_biquad2 O) (finite5 V) /\ finite5 V (fl32 1 0, fl32 3 (-2), fl32 1 (-3), fl32 (-3) (-1), fl32 5 (-3))
  /\ zero_sample V (B754_zero true : f32)
  /\ reads_after_process [CSet (fl32 1 (-2)); CProcess (fl32 1 0); CLastOut].
Proof.
  cbv zeta. split; [apply ieee_f32|]. split; [apply tame_leaky|]. split; [intros k _; exact I|].
  split; [apply tame_biquad2|]. split; [repeat split|]. split; [split; reflexivity|exact I].
Qed.
@*)

(** ** Delay lines *)
Definition orel {A B} (P : A -> B -> Prop) (r : outcome A) (r' : outcome B) : Prop :=
  match r, r' with Ok a, Ok b => P a b | Panic, Panic => True | Hang, Hang => True | _, _ => False end.

Lemma orel_bind {A B A' B'} (P : A -> A' -> Prop) (Q : B -> B' -> Prop) r r' f f' :
  orel P r r' -> (forall a a', P a a' -> orel Q (f a) (f' a')) -> orel Q (bind r f) (bind r' f').
Proof. intros H1 H2. destruct r, r'; try contradiction H1; cbn; auto. Qed.

Section Lines.
  Context {C T : Type} (O : num_ops T) (V : float_view T) (R : T -> T -> Prop) (L : laws O V R).

  Lemma f2_len m m' : Forall2 R m m' -> vlen m = vlen m'.
  Proof. intros H. unfold vlen. induction H; cbn [length]; lia. Qed.
  Lemma f2_get m m' i : Forall2 R m m' -> orel R (vget m i) (vget m' i).
  Proof.
    intros H. unfold vget. rewrite <- (f2_len m m' H). destruct (i <? 0)%Z; [exact I|].
    destruct (vlen m <=? i)%Z; [exact I|]. generalize (Z.to_nat i). induction H as [|x y m m' Hx Hm IH]; intros [|k]; cbn; auto.
  Qed.
  Lemma f2_lset m m' : Forall2 R m m' -> forall i x x', R x x' -> Forall2 R (list_set m i x) (list_set m' i x').
  Proof. intros H. induction H as [|a b m m' Ha Hm IH]; intros [|i] x x' Hx; cbn; constructor; auto. Qed.
  Lemma f2_set m m' i x x' : Forall2 R m m' -> R x x' -> orel (Forall2 R) (vset m i x) (vset m' i x').
  Proof.
    intros H Hx. unfold vset. rewrite <- (f2_len m m' H). destruct (i <? 0)%Z; [exact I|].
    destruct (vlen m <=? i)%Z; [exact I|]. apply f2_lset; assumption.
  Qed.
  Lemma f2_repeat n x x' : R x x' -> Forall2 R (repeat x n) (repeat x' n).
  Proof. intros H. induction n; constructor; assumption. Qed.
  Lemma f2_zero : R (n_zero O) (n_zero O).
  Proof. apply (lw_zero _ _ _ L); apply (lw_0 _ _ _ L). Qed.
  Lemma f2_alloc sz n : orel (Forall2 R) (vec_repeat sz (n_zero O) n) (vec_repeat sz (n_zero O) n).
  Proof. unfold vec_repeat. destruct (alloc_ok sz n); [|exact I]. apply f2_repeat, f2_zero. Qed.
  Lemma f2_firstn m m' : Forall2 R m m' -> forall n, Forall2 R (firstn n m) (firstn n m').
  Proof. intros H. induction H; intros [|n]; cbn; constructor; auto. Qed.
  Lemma f2_resize sz m m' n : Forall2 R m m' ->
    orel (Forall2 R) (vec_resize sz m n (n_zero O)) (vec_resize sz m' n (n_zero O)).
  Proof.
    intros H. unfold vec_resize. rewrite <- (f2_len m m' H). destruct (n <=? vlen m)%Z; [apply f2_firstn; exact H|].
    destruct (alloc_ok sz n); [|exact I]. apply Forall2_app; [exact H|apply f2_repeat, f2_zero].
  Qed.
  Lemma f2_map m m' : Forall2 R m m' -> Forall2 R (map (fun _ => n_zero O) m) (map (fun _ => n_zero O) m').
  Proof. intros H. induction H; constructor; [apply f2_zero|assumption]. Qed.

  Definition d_rel (s s' : delay T) : Prop :=
    Forall2 R (dl_memory s) (dl_memory s') /\ R (dl_output s) (dl_output s')
    /\ dl_read s = dl_read s' /\ dl_write s = dl_write s' /\ dl_delay s = dl_delay s'.
  Definition l_rel (s s' : lin_delay C T) : Prop :=
    Forall2 R (ld_memory s) (ld_memory s') /\ R (ld_output s) (ld_output s')
    /\ ld_read s = ld_read s' /\ ld_write s = ld_write s' /\ ld_delay s = ld_delay s'
    /\ ld_do_next_out s = ld_do_next_out s' /\ R (ld_next_out s) (ld_next_out s')
    /\ ld_alpha s = ld_alpha s' /\ ld_om_alpha s = ld_om_alpha s'.
  Definition o_rel {D} (o o' : obs D T) : Prop :=
    match o, o' with OSample x, OSample y => R x y | _, _ => o = o' end.
  Definition op_rel {D} (op op' : dl_op D T) : Prop :=
    match op, op' with
    | DProcess x, DProcess y => R x y
    | DTapIn x t, DTapIn y t' => R x y /\ t = t'
    | DAddTo x t, DAddTo y t' => R x y /\ t = t'
    | _, _ => op = op'
    end.
  Definition both {A B A' B'} (P : A -> A' -> Prop) (Q : B -> B' -> Prop) (x : A * B) (y : A' * B') : Prop :=
    P (fst x) (fst y) /\ Q (snd x) (snd y).

  Context (p : profile).

  (** a bind of the same computation on both sides *)
  Lemma orel_same {A B B'} (Q : B -> B' -> Prop) (r : outcome A) f f' :
    (forall a, r = Ok a -> orel Q (f a) (f' a)) -> orel Q (bind r f) (bind r f').
  Proof. intros H. destruct r; cbn; auto. Qed.

  Ltac lens := repeat match goal with
    | H : Forall2 R ?m ?m' |- context [vlen ?m'] => rewrite <- (f2_len m m' H) end.
  Ltac go := cbv beta iota zeta; lens; match goal with
    | |- orel _ (bind (vec_repeat _ _ _) _) _ => eapply orel_bind; [apply f2_alloc|intros ? ? ?]
    | |- orel _ (bind ?r _) (bind ?r _) => apply orel_same; intros ? ?
    | |- orel _ (bind (vget _ _) _) (bind (vget _ _) _) =>
        eapply orel_bind; [apply f2_get; eassumption|intros ? ? ?]
    | |- orel _ (bind (vset _ _ _) _) (bind (vset _ _ _) _) =>
        eapply orel_bind; [apply f2_set; [eassumption|try assumption; try (apply (lw_add _ _ _ L); assumption)]|intros ? ? ?]
    | |- orel _ (bind (vec_resize _ _ _ _) _) _ => eapply orel_bind; [apply f2_resize; eassumption|intros ? ? ?]
    | |- orel R (vget _ _) (vget _ _) => apply f2_get; assumption
    | |- orel _ (if ?b then _ else _) (if ?b then _ else _) => destruct b
    end.
  Ltac fin := repeat match goal with
    | |- orel _ (Ok _) (Ok _) => cbn
    | |- both _ _ _ _ => split; cbn
    | |- d_rel _ _ => unfold d_rel; cbn
    | |- l_rel _ _ => unfold l_rel; cbn
    | |- _ /\ _ => split
    | |- ?x = ?x => reflexivity
    | _ => assumption
    | |- R (n_zero O) (n_zero O) => exact f2_zero
    end.
  Ltac open_d := match goal with s : delay T, s' : delay T, H : d_rel ?s ?s' |- _ =>
    destruct s, s'; unfold d_rel in H; cbn in H; destruct H as (? & ? & ? & ? & ?); subst; cbn end.

  Lemma d_set_delay s s' d : d_rel s s' -> orel d_rel (delay_set_delay p s d) (delay_set_delay p s' d).
  Proof. intros H. open_d. unfold delay_set_delay; cbn. repeat go. fin. Qed.
  Lemma d_new_rel d m : orel d_rel (delay_new O p d m) (delay_new O p d m).
  Proof. unfold delay_new. repeat go. apply d_set_delay. fin. Qed.
  Lemma d_set_max s s' d : d_rel s s' -> orel d_rel (delay_set_max_delay O p s d) (delay_set_max_delay O p s' d).
  Proof. intros H. open_d. unfold delay_set_max_delay; cbn. repeat go; fin. Qed.
  Lemma d_proc s s' x x' : d_rel s s' -> R x x' -> orel (both d_rel R) (delay_process p s x) (delay_process p s' x').
  Proof. intros H Hx. open_d. unfold delay_process; cbn. repeat go. fin. Qed.
  Lemma d_tap_in s s' x x' t : d_rel s s' -> R x x' -> orel d_rel (delay_tap_in p s x t) (delay_tap_in p s' x' t).
  Proof. intros H Hx. open_d. unfold delay_tap_in; cbn. repeat go. fin. Qed.
  Lemma d_tap_out s s' t : d_rel s s' -> orel R (delay_tap_out p s t) (delay_tap_out p s' t).
  Proof. intros H. open_d. unfold delay_tap_out; cbn. repeat go. Qed.
  Lemma d_add_to s s' x x' t : d_rel s s' -> R x x' -> orel (both d_rel R) (delay_add_to O p s x t) (delay_add_to O p s' x' t).
  Proof. intros H Hx. open_d. unfold delay_add_to; cbn. repeat go. fin. Qed.

  Lemma d_step_rel s s' op op' : d_rel s s' -> op_rel op op' ->
    orel (both d_rel o_rel) (dl_step O p s op) (dl_step O p s' op').
  Proof.
    intros Hs Ho. destruct op, op'; cbn [op_rel] in Ho; try discriminate Ho; try (injection Ho; intros; subst);
      try (destruct Ho; subst); cbn [dl_step].
    - eapply orel_bind; [apply d_proc; eassumption|]. intros [a b] [a' b'] [H1 H2]. split; assumption.
    - split; [|reflexivity]. open_d. unfold delay_clear, d_rel; cbn. fin. apply f2_map; assumption.
    - eapply orel_bind; [apply d_set_delay; eassumption|]. intros a a' H. split; [exact H|reflexivity].
    - eapply orel_bind; [apply d_set_max; eassumption|]. intros a a' H. split; [exact H|reflexivity].
    - split; [exact Hs|]. unfold delay_get_delay. cbn. f_equal. apply Hs.
    - unfold delay_get_max_delay. destruct Hs as [Hm Hs]. rewrite <- (f2_len _ _ Hm). apply orel_same. intros n _.
      split; [split; assumption|reflexivity].
    - unfold delay_next_out. assert (Hm := Hs). destruct Hm as (Hm & _ & Hr & _). rewrite <- Hr.
      eapply orel_bind; [apply f2_get; exact Hm|]. intros a a' H. split; assumption.
    - split; [exact Hs|]. cbn. apply Hs.
    - eapply orel_bind; [apply d_tap_out; eassumption|]. intros a a' H'. split; assumption.
    - eapply orel_bind; [apply d_tap_in; eassumption|]. intros a a' H'. split; [exact H'|reflexivity].
    - eapply orel_bind; [apply d_add_to; eassumption|]. intros [a b] [a' b'] [H1 H2]. split; assumption.
  Qed.

  Lemma d_run_rel ops : forall ops' s s', d_rel s s' -> Forall2 op_rel ops ops' ->
    orel (both d_rel (Forall2 o_rel)) (dl_run O p s ops) (dl_run O p s' ops').
  Proof.
    induction ops as [|op ops IH]; intros ops' s s' Hs Ho; inversion Ho as [|? op' ? ops1 H1 H2]; subst; cbn [dl_run].
    - split; [exact Hs|constructor].
    - eapply orel_bind; [apply d_step_rel; eassumption|]. intros [s1 o] [s1' o'] [A B].
      eapply orel_bind; [apply IH; eassumption|]. intros [s2 os] [s2' os'] [A2 B2]. split; [exact A2|constructor; assumption].
  Qed.

  Context (K : ctl_ops C T).
  Ltac open_l := match goal with s : lin_delay C T, s' : lin_delay C T, H : l_rel ?s ?s' |- _ =>
    destruct s, s'; unfold l_rel in H; cbn in H; destruct H as (? & ? & ? & ? & ? & ? & ? & ? & ?); subst; cbn end.
  Lemma l_set_delay s s' d : l_rel s s' -> orel l_rel (lin_set_delay K O p s d) (lin_set_delay K O p s' d).
  Proof. intros H. open_l. unfold lin_set_delay, lin_set_delay_fuel; cbn. repeat go. fin. Qed.
  Lemma l_new_rel d m : orel l_rel (lin_new K O p d m) (lin_new K O p d m).
  Proof. unfold lin_new, lin_new_fuel. repeat go. apply l_set_delay. fin. Qed.
  Lemma l_set_max s s' d : l_rel s s' -> orel l_rel (lin_set_max_delay O p s d) (lin_set_max_delay O p s' d).
  Proof. intros H. open_l. unfold lin_set_max_delay; cbn. repeat go; fin. Qed.
  Lemma l_next s s' : l_rel s s' -> orel (both l_rel R) (lin_next_out O p s) (lin_next_out O p s').
  Proof.
    intros H. open_l. unfold lin_next_out; cbn -[vget]. match goal with |- context [if ?b then _ else _] => destruct b end; [|fin].
    go. go. eapply (orel_bind R).
    - lens. match goal with |- orel _ (if ?b then _ else _) _ => destruct b end; repeat go; cbn;
        apply (lw_add _ _ _ L); apply (lw_mul_r _ _ _ L); assumption.
    - intros. fin.
  Qed.
  Lemma l_proc s s' x x' : l_rel s s' -> R x x' -> orel (both l_rel R) (lin_process O p s x) (lin_process O p s' x').
  Proof.
    intros H Hx. open_l. unfold lin_process; cbn. go. lens. go. go. eapply orel_bind.
    - apply l_next. fin.
    - intros [s2 y] [s2' y'] [A B]. cbn in A, B. open_l. cbn. repeat go. fin.
  Qed.
  Lemma l_tap_in s s' x x' t : l_rel s s' -> R x x' -> orel l_rel (lin_tap_in p s x t) (lin_tap_in p s' x' t).
  Proof. intros H Hx. open_l. unfold lin_tap_in; cbn. repeat go. fin. Qed.
  Lemma l_tap_out s s' t : l_rel s s' -> orel R (lin_tap_out p s t) (lin_tap_out p s' t).
  Proof. intros H. open_l. unfold lin_tap_out; cbn. repeat go. Qed.
  Lemma l_add_to s s' x x' t : l_rel s s' -> R x x' -> orel (both l_rel R) (lin_add_to O p s x t) (lin_add_to O p s' x' t).
  Proof. intros H Hx. open_l. unfold lin_add_to; cbn. repeat go. fin. Qed.

  Lemma l_step_rel s s' op op' : l_rel s s' -> op_rel op op' ->
    orel (both l_rel o_rel) (lin_step K O p s op) (lin_step K O p s' op').
  Proof.
    intros Hs Ho. destruct op, op'; cbn [op_rel] in Ho; try discriminate Ho; try (injection Ho; intros; subst);
      try (destruct Ho; subst); cbn [lin_step].
    - eapply orel_bind; [apply l_proc; eassumption|]. intros [a b] [a' b'] [H1 H2]. split; assumption.
    - split; [|reflexivity]. open_l. unfold lin_clear, l_rel; cbn. fin. apply f2_map; assumption.
    - eapply orel_bind; [apply l_set_delay; eassumption|]. intros a a' H. split; [exact H|reflexivity].
    - eapply orel_bind; [apply l_set_max; eassumption|]. intros a a' H. split; [exact H|reflexivity].
    - split; [exact Hs|]. unfold lin_get_delay. cbn. f_equal. apply Hs.
    - unfold lin_get_max_delay. destruct Hs as [Hm Hs]. rewrite <- (f2_len _ _ Hm). apply orel_same. intros n _.
      split; [split; assumption|reflexivity].
    - eapply orel_bind; [apply l_next; exact Hs|]. intros [a b] [a' b'] [H1 H2]. split; assumption.
    - split; [exact Hs|]. cbn. apply Hs.
    - eapply orel_bind; [apply l_tap_out; eassumption|]. intros a a' H'. split; assumption.
    - eapply orel_bind; [apply l_tap_in; eassumption|]. intros a a' H'. split; [exact H'|reflexivity].
    - eapply orel_bind; [apply l_add_to; eassumption|]. intros [a b] [a' b'] [H1 H2]. split; assumption.
  Qed.

  Lemma l_run_rel ops : forall ops' s s', l_rel s s' -> Forall2 op_rel ops ops' ->
    orel (both l_rel (Forall2 o_rel)) (lin_run K O p s ops) (lin_run K O p s' ops').
  Proof.
    induction ops as [|op ops IH]; intros ops' s s' Hs Ho; inversion Ho as [|? op' ? ops1 H1 H2]; subst; cbn [lin_run].
    - split; [exact Hs|constructor].
    - eapply orel_bind; [apply l_step_rel; eassumption|]. intros [s1 o] [s1' o'] [A B].
      eapply orel_bind; [apply IH; eassumption|]. intros [s2 os] [s2' os'] [A2 B2]. split; [exact A2|constructor; assumption].
  Qed.
End Lines.

Lemma invert_op_rel {D T} (O : num_ops T) V (ops : list (dl_op D T)) :
  Forall2 (op_rel (inverted O V)) ops (map (invert_op O) ops).
Proof.
  induction ops as [|op ops IH]; constructor; [|exact IH]. destruct op; cbn; auto; try (split; [|reflexivity]); left; reflexivity.
Qed.

(** C103: the delay lines invert too, with all their taps, in every build profile; and a
    session panics or hangs with inverted samples exactly when it did before. *)
Lemma C103_delay_polarity_thm :
  forall (T : Type) (O : num_ops T) (V : float_view T), ieee O V ->
  forall (p : profile) (d m : Z) (ops : list (dl_op Z T)),
    inverted_session O V (dl_session O p d m ops) (dl_session O p d m (map (invert_op O) ops)).
Proof.
  intros T O V HO p d m ops. assert (L := ieee_inv_laws T O V HO).
  assert (H : orel (both (d_rel (inverted O V)) (Forall2 (o_rel (inverted O V))))
                (dl_session O p d m ops) (dl_session O p d m (map (invert_op O) ops))).
  { unfold dl_session. eapply orel_bind; [exact (d_new_rel O V (inverted O V) L p d m)|].
    intros s s' Hs. apply (d_run_rel O V (inverted O V) L p); [exact Hs|apply invert_op_rel]. }
  destruct (dl_session O p d m ops) as [[s os]| |], (dl_session O p d m (map (invert_op O) ops)) as [[s' os']| |];
    try contradiction H; try exact I. apply H.
Qed.

(** C103: the same for [LinearDelay] with any delay times, including the ones that blow up. *)
Lemma C103_linear_delay_polarity_thm :
  forall (C T : Type) (K : ctl_ops C T) (O : num_ops T) (V : float_view T), ieee O V ->
  forall (p : profile) (d : C) (m : Z) (ops : list (dl_op C T)),
    inverted_session O V (lin_session K O p d m ops) (lin_session K O p d m (map (invert_op O) ops)).
Proof.
  intros C T K O V HO p d m ops. assert (L := ieee_inv_laws T O V HO).
  assert (H : orel (both (l_rel (inverted O V)) (Forall2 (o_rel (inverted O V))))
                (lin_session K O p d m ops) (lin_session K O p d m (map (invert_op O) ops))).
  { unfold lin_session. eapply orel_bind; [exact (l_new_rel O V (inverted O V) L p K d m)|].
    intros s s' Hs. apply (l_run_rel O V (inverted O V) L p K); [exact Hs|apply invert_op_rel]. }
  destruct (lin_session K O p d m ops) as [[s os]| |], (lin_session K O p d m (map (invert_op O) ops)) as [[s' os']| |];
    try contradiction H; try exact I. apply H.
Qed.
(*@PROP
(** A session on a line of five slots that ends with samples, not with a panic. *)
Example C103_delay_polarity_hyps (a b : f64) :
  exists s os, dl_session O64 Debug 2 4 [DProcess a; DTapIn b 0; DAddTo b 1; DProcess a; DNextOut] = Ok (s, os)
  /\ map (invert_op O64) [DProcess a; DTapIn b 0; DAddTo b 1; DProcess a; @DNextOut Z f64]
     = [DProcess (Bopp a); DTapIn (Bopp b) 0; DAddTo (Bopp b) 1; DProcess (Bopp a); DNextOut].
Proof. do 2 eexists. split; reflexivity. Qed.
@*)
