(** Facts behind property C136: running the compressor, and the sign of what the detectors
    return. *)
From Coq Require Import ZArith Reals List Bool Lra Lia.
From Flocq Require Import Core.Core Plus_error IEEE754.BinarySingleNaN.
From Verif Require Import Base Num NumR NumF FloatSpec FloatFacts SmoothF Witness UtilM UtilSpec UtilLemmas AnalysisM Device AnaSpec AnaFacts AnaLemmas
  DbSpec DbFacts DbLemmas CompSpec.
Import ListNotations.
Open Scope R_scope.

Section Run.
  Context {T S : Type} (O : num_ops T) (p : profile) (D : device S (det_set T) T) (th sl : T).
  Context (I : S -> Prop) (ok : call (det_set T) T -> Prop) (Q : T * T * T -> Prop).
  Hypothesis Hstep : forall s k, I s -> ok k -> I (fst (d_step D s k)).
  Hypothesis Hout : forall s x, I s -> ok (CProcess x) ->
    exists y, squeeze O p th sl x (snd (d_process D s x)) = Ok y /\ Q (x, snd (d_process D s x), y).

  Lemma comp_inv cs : forall s, I s -> Forall ok cs -> exists r, compressor O p D th sl s cs = Ok r /\ Forall Q r.
  Proof.
    induction cs as [|k cs IH]; intros s Hs Hc; [exists []; split; [reflexivity|constructor]|].
    assert (G := Hstep s k Hs (Forall_inv Hc)).
    destruct k as [x| |k|]; cbn [compressor]; try (apply IH; [exact G|exact (Forall_inv_tail Hc)]).
    destruct (Hout s x Hs (Forall_inv Hc)) as [y [Y1 Y2]]. cbn [d_step] in G. destruct (d_process D s x) as [s1 e].
    cbn [fst snd] in *. rewrite Y1. cbn [bind].
    destruct (IH s1 G (Forall_inv_tail Hc)) as [r [R1 R2]]. rewrite R1. cbn [bind].
    exists ((x, e, y) :: r). split; [reflexivity|]. constructor; assumption.
  Qed.
End Run.

(** ** Signs *)
Section Sign.
  Context (prec emax : Z) {Hp : Prec_gt_0 prec} {Hm : Prec_lt_emax prec emax}.
  Notation F := (binary_float prec emax).

  Lemma plus_sign (x y : F) : is_finite x = true -> is_finite y = true -> Bsign x = false ->
    is_finite (Bplus mode_NE x y) = true -> 0 <= B2R (Bplus mode_NE x y) -> Bsign (Bplus mode_NE x y) = false.
  Proof.
    intros Fx Fy Sx Fz Hz. assert (C := Bplus_correct prec emax _ _ mode_NE x y Fx Fy).
    destruct Rlt_bool eqn:E.
    - destruct C as [C1 [_ C3]]. rewrite C3. destruct (Rcompare_spec (B2R x + B2R y) 0) as [L|L|L].
      + exfalso. rewrite C1 in Hz.
        assert (N := round_plus_neq_0 radix2 (SpecFloat.fexp prec emax) (round_mode mode_NE) (B2R x) (B2R y)
          (generic_format_B2R prec emax x) (generic_format_B2R prec emax y) ltac:(lra)).
        assert (M : round radix2 (SpecFloat.fexp prec emax) (round_mode mode_NE) (B2R x + B2R y) <= 0).
        { rewrite <- (round_0 radix2 (SpecFloat.fexp prec emax) (round_mode mode_NE)). apply round_le; try typeclasses eauto. lra. }
        apply N. lra.
      + rewrite Sx. reflexivity.
      + reflexivity.
    - exfalso. destruct C as [C _]. revert Fz C. destruct (Bplus mode_NE x y) as [s|s| |s m e He]; cbn; intros Fz C; discriminate || (revert C; unfold binary_overflow; cbn; discriminate).
  Qed.
End Sign.

Section Detectors.
  Context (prec emax : Z) {Hp : Prec_gt_0 prec} {Hm : Prec_lt_emax prec emax} (Hm3 : (3 <= emax)%Z).
  Context (pim pie sz : Z) (lm : libm (binary_float prec emax)) (nn : bool).
  Notation F := (binary_float prec emax).
  Notation O := (ieee_ops prec emax pim pie sz lm nn).
  Notation V := (ieee_view prec emax).
  Notation fsmooth := (fsmooth prec emax).

  Lemma smooth_sign (a v x : F) : is_finite x = true -> Bsign x = false ->
    is_finite (fsmooth a v x) = true -> 0 <= B2R (fsmooth a v x) -> Bsign (fsmooth a v x) = false.
  Proof.
    intros Fx Sx. unfold SmoothF.fsmooth, f_add. set (t := f_mul prec emax a (f_sub prec emax v x)). clearbody t.
    intros Fz Hz. apply plus_sign; try assumption.
    revert Fz. clear Hz. destruct x as [s|s| |s m e H]; try discriminate; destruct t; cbn; try discriminate; reflexivity.
  Qed.
  Lemma sign_fin (x : F) : is_finite x = true -> f_is_sign_negative prec emax nn x = Bsign x.
  Proof. destruct x; cbn; intros; congruence. Qed.

  Definition step_ok (m : R) (k : call (det_set F) F) : Prop :=
    match k with
    | CProcess x => within V (- m) m x
    | CSet k => good_length V (set_length k) -> unit_interval V (gain_of O (set_length k))
    | _ => True
    end.

  Lemma peak_det m : 0 <= m -> forall s (x : F), pinv prec emax m s -> within V (- m) m x ->
    within V 0 m (snd (d_process (dev_peak O) s x)) /\ n_is_sign_negative O (snd (d_process (dev_peak O) s x)) = false.
  Proof.
    intros H0 s x Hs Hx. destruct (peak_step_inv prec emax Hm3 pim pie sz lm nn m H0 s (CProcess x) Hs Hx) as [_ G].
    cbn [d_step dev_peak d_process] in *. rewrite (peak_smooth prec emax pim pie sz lm nn) in *. cbn [snd] in *.
    specialize (G _ eq_refl). split; [exact G|]. destruct G as [G1 G2]. cbn [fin val ieee_view] in *.
    cbn [n_is_sign_negative ieee_ops]. rewrite sign_fin by exact G1. apply smooth_sign; try lra; try assumption.
    - rewrite is_finite_Babs. apply Hx.
    - destruct Hx as [Fx _]. cbn [fin ieee_view] in Fx. destruct x; try discriminate; reflexivity.
  Qed.

  Lemma rms_det (loudest : F) : let m := Rabs (B2R loudest) in
    m * m <= fmax V -> fmin V <= m * m -> forall s (x : F),
    AnaFacts.rinv prec emax (round radix2 (SpecFloat.fexp prec emax) (round_mode mode_NE) (m * m)) s -> within V (- m) m x ->
    within V 0 m (snd (d_process (dev_rms O) s x)) /\ n_is_sign_negative O (snd (d_process (dev_rms O) s x)) = false.
  Proof.
    intros m Hhi Hlo s x Hs Hx.
    assert (Fm : generic_format radix2 (SpecFloat.fexp prec emax) m).
    { unfold m. rewrite <- B2R_Babs. apply generic_format_B2R. }
    assert (H0 : 0 <= m) by apply Rabs_pos.
    destruct (rms_step_inv prec emax Hm3 pim pie sz lm nn m Fm H0 (or_introl Hlo) Hhi s (CProcess x) Hs Hx) as [I G].
    cbn [d_step dev_rms d_process] in *. rewrite (rms_smooth prec emax pim pie sz lm nn) in *. cbn [fst snd] in *.
    specialize (G _ eq_refl). split; [exact G|]. destruct G as [G1 G2]. destruct I as [_ [_ [I1 I2]]].
    cbn [fin val ieee_view rm_envelope] in *.
    cbn [n_is_sign_negative ieee_ops]. rewrite sign_fin by exact G1.
    destruct (sq_in prec emax Hm3 m Hhi x Hx) as [Q1 Q2].
    assert (Sg : Bsign (fsmooth (rm_gain prec emax s x) (rm_envelope s) (f_mul prec emax x x)) = false).
    { apply smooth_sign; try assumption; try lra.
      assert (C := Bmult_correct prec emax _ _ mode_NE x x). unfold f_mul in *. destruct Rlt_bool.
      - destruct C as [_ [_ C]]. rewrite C; [apply xorb_nilpotent|]. revert Q1. destruct (Bmult mode_NE x x); cbn; congruence.
      - exfalso. revert Q1 C. destruct (Bmult mode_NE x x) as [z|z| |z mm e He]; cbn; intros Q1 C; try discriminate;
          revert C; unfold binary_overflow; cbn; discriminate. }
    unfold f_sqrt in *. set (z := fsmooth _ _ _) in *. clearbody z.
    destruct (Bsqrt_correct prec emax _ _ mode_NE z) as [_ [_ C]]. rewrite C; [exact Sg|].
    revert G1. destruct (Bsqrt mode_NE z); cbn; congruence.
  Qed.
End Detectors.

(** A detector fed with samples up to [m] only returns numbers from +0 to [m]. *)
Lemma detector_range {T} (O : num_ops T) (V : float_view T) {S} (D : detector S T) (loudest : T) :
  ieee O V -> lib_detector O D -> let m := Rabs (val V loudest) in 1 / 1000 <= m <= 1000000 ->
  exists I : S -> Prop, I (d_new (det_dev D))
    /\ (forall s k, I s -> match k with
           | CProcess x => within V (- m) m x
           | CSet k => good_length V (set_length k) -> unit_interval V (gain_of O (set_length k))
           | _ => True end -> I (fst (d_step (det_dev D) s k)))
    /\ (forall s x, I s -> within V (- m) m x ->
           within V 0 m (snd (d_process (det_dev D) s x)) /\ n_is_sign_negative O (snd (d_process (det_dev D) s x)) = false).
Proof.
  intros HO HD m Hm.
  assert (H0 : 0 <= m) by apply Rabs_pos.
  assert (L : fmin V <= m * m <= fmax V).
  { apply (range_ok O V HO). assert (A : 1 / 1000 * (1 / 1000) <= m * m) by (apply Rmult_le_compat; lra).
    assert (B : m * m <= 1000000 * 1000000) by (apply Rmult_le_compat; lra). lra. }
  assert (G : forall prec emax (Hp : Prec_gt_0 prec) (Hx : Prec_lt_emax prec emax) (Hm3 : (3 <= emax)%Z) pim pie sz lm nn
     (S : Type) (D : detector S (binary_float prec emax)) (loudest : binary_float prec emax),
    let O := ieee_ops prec emax pim pie sz lm nn in let V := ieee_view prec emax in
    let m := Rabs (val V loudest) in fmin V <= m * m <= fmax V -> lib_detector O D ->
    exists I : S -> Prop, I (d_new (det_dev D))
    /\ (forall s k, I s -> match k with
           | CProcess x => within V (- m) m x
           | CSet k => good_length V (set_length k) -> unit_interval V (gain_of O (set_length k))
           | _ => True end -> I (fst (d_step (det_dev D) s k)))
    /\ (forall s x, I s -> within V (- m) m x ->
           within V 0 m (snd (d_process (det_dev D) s x)) /\ n_is_sign_negative O (snd (d_process (det_dev D) s x)) = false)).
  { clear. intros prec emax Hp Hx Hm3 pim pie sz lm nn S D loudest O V m Hr HD. assert (H0 : 0 <= m) by apply Rabs_pos.
    destruct HD; cbn [det_dev peak_detector rms_detector].
    - exists (pinv prec emax m). split; [apply pinv_new, H0|]. split.
      + intros s k Hs Hk. exact (proj1 (peak_step_inv prec emax Hm3 pim pie sz lm nn m H0 s k Hs Hk)).
      + exact (peak_det prec emax Hm3 pim pie sz lm nn m H0).
    - exists (AnaFacts.rinv prec emax (round radix2 (SpecFloat.fexp prec emax) (round_mode mode_NE) (m * m))).
      split; [|split].
      + split; [apply unit_zero|split; [apply unit_zero|]]. split; [reflexivity|]. cbn [val ieee_view rm_envelope rms_new d_new dev_rms n_zero].
        cbn. split; [lra|]. rewrite <- (RN_0 prec emax). apply (RN_le prec emax). apply Rmult_le_pos; exact H0.
      + intros s k Hs Hk. apply (rms_step_inv prec emax Hm3 pim pie sz lm nn m); try assumption.
        * unfold m, V. cbn [val ieee_view]. rewrite <- B2R_Babs. apply generic_format_B2R.
        * left. apply Hr.
        * apply Hr.
      + exact (rms_det prec emax Hm3 pim pie sz lm nn loudest (proj2 Hr) (proj1 Hr)). }
  clear Hm H0. unfold m in *. clear m.
  revert D HD. destruct HO; intros D HD.
  - apply (G 24%Z 128%Z _ _ le3_32 _ _ _ lm b S D loudest); assumption.
  - apply (G 53%Z 1024%Z _ _ le3_64 _ _ _ lm b S D loudest); assumption.
Qed.
