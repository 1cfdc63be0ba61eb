(** Proofs of C65-C67, C75: level conversions. *)
From Coq Require Import ZArith Reals List Bool Lra Lia.
From Flocq Require Import Core.Core IEEE754.BinarySingleNaN.
From Verif Require Import Base Num NumR NumF FloatSpec FloatFacts SmoothF CrLibm Witness UtilM UtilSpec.
Import ListNotations.
Open Scope R_scope.

(*@PROP
(** Properties C65-C67, C75: level conversions.

    Vocabulary: [R_ops] is exact arithmetic; [ieee O V] says that [O] is the
    arithmetic of [f32] or [f64], which [V] reads as numbers ([FloatSpec]);
    [log10_sound], [pow10_sound], [level] are in [UtilSpec]. *)
From Coq Require Import ZArith Reals List Bool Lra Lia.
From Flocq Require Import Core.Core IEEE754.BinarySingleNaN.
From Verif Require Import Base Num NumR NumF FloatSpec CrLibm Witness UtilM UtilSpec UtilLemmas.
Import ListNotations.
Open Scope R_scope.

@*)

Lemma Rltb_t x y : x < y -> Rltb x y = true.
Proof. intros H. unfold Rltb. destruct (Rlt_dec x y); [reflexivity|contradiction]. Qed.
Lemma Rltb_f x y : y <= x -> Rltb x y = false.
Proof. intros H. unfold Rltb. destruct (Rlt_dec x y); [lra|reflexivity]. Qed.

Lemma ln10 : 0 < ln 10.
Proof. rewrite <- ln_1. apply ln_increasing; lra. Qed.

Lemma to_db_R p x : 1 / 1000000 < x -> to_db R_ops p x = Ok (20 * (ln x / ln 10)).
Proof.
  intros H. unfold to_db. cbn [n_is_sign_negative R_ops n_lt n_of_f64 f64_const_R n_is_finite n_mul n_log10].
  rewrite Rltb_f by lra. rewrite Rltb_t by lra. destruct p; cbn; f_equal; lra.
Qed.
Lemma to_db_R_low p x : 0 <= x <= 1 / 1000000 -> to_db R_ops p x = Ok (-120).
Proof.
  intros H. unfold to_db. cbn [n_is_sign_negative R_ops n_lt n_of_f64 f64_const_R n_is_finite n_mul n_log10].
  rewrite Rltb_f by lra. rewrite Rltb_f by lra. destruct p; cbn; f_equal; lra.
Qed.
Lemma to_sample_R d : -120 < d -> to_sample R_ops d = Rpower 10 (d / 20).
Proof.
  intros H. unfold to_sample. cbn [R_ops n_lt n_of_f64 f64_const_R n_is_finite n_div n_powf].
  rewrite Rltb_t by lra. cbn. f_equal; lra.
Qed.
Lemma to_sample_R_low d : d <= -120 -> to_sample R_ops d = 0.
Proof.
  intros H. unfold to_sample. cbn [R_ops n_lt n_of_f64 f64_const_R n_is_finite n_div n_powf].
  rewrite Rltb_f by lra. reflexivity.
Qed.

Lemma pow_m6 : Rpower 10 (-6) = 1 / 1000000.
Proof.
  replace (-6) with (- INR 6) by (cbn; lra). rewrite Rpower_Ropp, Rpower_pow by lra. cbn. lra.
Qed.
Lemma to_sample_gt d : -120 < d -> 1 / 1000000 < to_sample R_ops d.
Proof.
  intros H. rewrite to_sample_R by exact H. rewrite <- pow_m6. apply Rpower_lt; lra.
Qed.
Lemma log_m6 : ln (1 / 1000000) = -6 * ln 10.
Proof. rewrite <- pow_m6. unfold Rpower. rewrite ln_exp. reflexivity. Qed.
Lemma db_gt x : 1 / 1000000 < x -> -120 < 20 * (ln x / ln 10).
Proof.
  intros H. assert (L := ln10). assert (G : ln (1 / 1000000) < ln x) by (apply ln_increasing; lra).
  rewrite log_m6 in G. apply Rmult_lt_reg_r with (ln 10); [exact L|].
  replace (20 * (ln x / ln 10) * ln 10) with (20 * ln x) by (field; lra). lra.
Qed.

(** C65: in exact arithmetic, the conversions undo each other above the floor of
    10^-6, -120 dB. *)
Lemma C65_round_trip_thm :
  forall (p : profile) (x d : R),
    (1 / 1000000 < x -> exists y, to_db R_ops p x = Ok y /\ -120 < y /\ to_sample R_ops y = x)
    /\ (-120 < d -> 1 / 1000000 < to_sample R_ops d /\ to_db R_ops p (to_sample R_ops d) = Ok d).
Proof.
  intros p x d. assert (L := ln10). split.
  - intros H. exists (20 * (ln x / ln 10)). assert (G := db_gt x H). split; [apply to_db_R; exact H|]. split; [exact G|].
    rewrite to_sample_R by exact G. unfold Rpower.
    replace (20 * (ln x / ln 10) / 20 * ln 10) with (ln x) by (field; lra). apply exp_ln. lra.
  - intros H. assert (G := to_sample_gt d H). split; [exact G|]. rewrite to_db_R by exact G.
    rewrite to_sample_R by exact H. unfold Rpower. rewrite ln_exp. f_equal. field. lra.
Qed.

(*@PROP
Example C65_hyps : 1 / 1000000 < 0.25 /\ -120 < -6.
Proof. lra. Qed.
@*)

(** C65: the conversions strictly increase above the floor, and never decrease. *)
Lemma C65_increasing_thm :
  forall (p : profile) (x x' d d' : R),
    (0 <= x < x' -> exists y y', to_db R_ops p x = Ok y /\ to_db R_ops p x' = Ok y' /\ y <= y'
        /\ (1 / 1000000 < x' -> y < y'))
    /\ (d < d' -> to_sample R_ops d <= to_sample R_ops d' /\ (-120 < d' -> to_sample R_ops d < to_sample R_ops d')).
Proof.
  intros p x x' d d'. assert (L := ln10). split.
  - intros [H0 H]. destruct (Rlt_dec (1 / 1000000) x) as [Hx|Hx].
    + exists (20 * (ln x / ln 10)), (20 * (ln x' / ln 10)).
      assert (20 * (ln x / ln 10) < 20 * (ln x' / ln 10)).
      { apply Rmult_lt_compat_l; [lra|]. apply Rmult_lt_compat_r; [apply Rinv_0_lt_compat; exact L|]. apply ln_increasing; lra. }
      split; [apply to_db_R; lra|]. split; [apply to_db_R; lra|]. split; [lra|]. intros _. assumption.
    + destruct (Rlt_dec (1 / 1000000) x') as [Hx'|Hx'].
      * exists (-120), (20 * (ln x' / ln 10)). assert (G := db_gt x' Hx').
        split; [apply to_db_R_low; lra|]. split; [apply to_db_R; lra|]. split; [lra|]. intros _. exact G.
      * exists (-120), (-120). split; [apply to_db_R_low; lra|]. split; [apply to_db_R_low; lra|]. split; [lra|]. intros; lra.
  - intros H. destruct (Rlt_dec (-120) d) as [Hd|Hd].
    + rewrite !to_sample_R by lra. assert (Rpower 10 (d / 20) < Rpower 10 (d' / 20)) by (apply Rpower_lt; lra).
      split; [lra|]. intros _. assumption.
    + rewrite (to_sample_R_low d) by lra. destruct (Rlt_dec (-120) d') as [Hd'|Hd'].
      * assert (G := to_sample_gt d' Hd'). split; [lra|]. intros _. lra.
      * rewrite to_sample_R_low by lra. split; [lra|]. intros; lra.
Qed.

(*@PROP
Example C65_increasing_hyps : 0 <= 0.0000001 < 0.5 /\ -150 < -6.
Proof. lra. Qed.
@*)

(** C66: in exact arithmetic, levels are at least -120 dB and samples at least 0;
    10^-6 and below convert to -120 dB, -120 dB and below to 0. *)
Lemma C66_clamp_thm :
  forall (p : profile) (x d : R),
    (0 <= x -> exists y, to_db R_ops p x = Ok y /\ -120 <= y /\ (x <= 1 / 1000000 <-> y = -120))
    /\ 0 <= to_sample R_ops d /\ (d <= -120 <-> to_sample R_ops d = 0).
Proof.
  intros p x d. split.
  - intros Hx. destruct (Rlt_dec (1 / 1000000) x) as [H|H].
    + exists (20 * (ln x / ln 10)). assert (G := db_gt x H). split; [apply to_db_R; exact H|]. split; [lra|]. split; intros; lra.
    + exists (-120). split; [apply to_db_R_low; lra|]. split; [lra|]. split; intros; lra.
  - destruct (Rlt_dec (-120) d) as [H|H].
    + assert (G := to_sample_gt d H). split; [lra|]. split; intros; lra.
    + rewrite to_sample_R_low by lra. split; [lra|]. split; intros; lra.
Qed.

(** C75: in exact arithmetic, applying the gain of [d] dB to a sample raises its level by
    [d] dB, as long as both stay above the floor. *)
Lemma C75_gain_in_db_thm :
  forall (p : profile) (x d y : R),
    1 / 1000000 < x -> -120 < d -> to_db R_ops p x = Ok y -> -120 < y + d ->
    exists x', apply_gain R_ops p x (to_sample R_ops d) = Ok x' /\ to_db R_ops p x' = Ok (y + d).
Proof.
  intros p x d y Hx Hd Hy Hs. assert (L := ln10). rewrite to_db_R in Hy by exact Hx. injection Hy as <-.
  exists (x * to_sample R_ops d). assert (G := to_sample_gt d Hd). split.
  - unfold apply_gain. cbn [n_is_finite n_is_sign_negative R_ops n_mul]. rewrite Rltb_f by lra. destruct p; reflexivity.
  - assert (E : ln (x * to_sample R_ops d) = ln x + d / 20 * ln 10).
    { rewrite ln_mult by lra. rewrite to_sample_R by exact Hd. unfold Rpower. rewrite ln_exp. reflexivity. }
    rewrite to_db_R.
    + rewrite E. f_equal. field. lra.
    + assert (P : 0 < x * to_sample R_ops d) by nra. apply ln_lt_inv; [lra|exact P|]. rewrite E, log_m6.
      apply Rmult_lt_compat_r with (r := ln 10) in Hs; [|exact L].
      replace ((20 * (ln x / ln 10) + d) * ln 10) with (20 * ln x + d * ln 10) in Hs by (field; lra). lra.
Qed.

(*@PROP
Example C75_hyps : exists y, 1 / 1000000 < 1 /\ -120 < -6 /\ to_db R_ops Debug 1 = Ok y /\ -120 < y + -6.
Proof.
  exists 0. split; [lra|]. split; [lra|]. split; [|lra]. rewrite to_db_R by lra. rewrite ln_1. f_equal. lra.
Qed.
@*)

(** C67: in every arithmetic, [apply_gain] multiplies; in debug builds it panics exactly
    when the gain is not finite or has its sign bit set, in release builds never. *)
Lemma C67_apply_gain_thm :
  forall (T : Type) (O : num_ops T) (p : profile) (sample ratio : T),
    (apply_gain O p sample ratio = Panic <->
       p = Debug /\ (n_is_finite O ratio = false \/ n_is_sign_negative O ratio = true))
    /\ (apply_gain O p sample ratio <> Panic -> apply_gain O p sample ratio = Ok (n_mul O sample ratio)).
Proof.
  intros T O p x r. unfold apply_gain.
  destruct p, (n_is_finite O r), (n_is_sign_negative O r); cbn; (split; [split; [|]|]); intros H; try discriminate; auto;
    try (exfalso; apply H; reflexivity); destruct H as [H1 H2]; try discriminate; destruct H2; discriminate.
Qed.

(*@PROP
Example C67_cases :
  apply_gain O32 Debug (fl32 1 0) (fl32 1 (-1)) <> Panic
  /\ apply_gain O32 Debug (fl32 1 0) (fl32 (-1) (-1)) = Panic
  /\ apply_gain O32 Debug (fl32 1 0) (B754_infinity false) = Panic
  /\ apply_gain O32 Release (fl32 1 0) (B754_infinity false) <> Panic.
Proof. repeat split; try discriminate. Qed.
@*)

(** C66: in every arithmetic, [to_db] panics exactly on a sign bit in a debug build;
    [to_sample] never does. *)
Lemma C66_panics_thm :
  forall (T : Type) (O : num_ops T) (p : profile) (x : T),
    (to_db O p x = Panic <-> p = Debug /\ n_is_sign_negative O x = true)
    /\ to_db O p x <> Hang.
Proof.
  intros T O p x. unfold to_db.
  destruct p, (n_is_sign_negative O x), (n_lt O _ x && n_is_finite O x); cbn; (split; [split|]); intros H;
    try discriminate; auto; destruct H; discriminate.
Qed.

(*@PROP
(** Negative zero is refused too. *)
Example C66_panics_cases :
  to_db O32 Debug (B754_zero true) = Panic /\ to_db O32 Debug (B754_zero false) <> Panic
  /\ to_db O32 Release (B754_zero true) <> Panic.
Proof. repeat split; discriminate. Qed.
@*)

(** ** Floating point *)
Ltac lit := repeat match goal with |- context[B2R ?x] => rewrite <- (SF2R_B2SF _ _ x);
  let v := eval vm_compute in (B2SF x) in
  replace (B2SF x) with v by (vm_compute; reflexivity); cbn [SF2R cond_Zopp] end; unfold F2R; cbn.

Section F.
  Context (prec emax : Z) {Hp : Prec_gt_0 prec} {Hm : Prec_lt_emax prec emax}
    (Hm3 : (24 <= emax)%Z) (Hp20 : (20 <= prec)%Z).
  Notation F := (binary_float prec emax).
  Notation RN := (round radix2 (SpecFloat.fexp prec emax) (round_mode mode_NE)).

  (** The threshold, as the float type would divide it. *)
  Definition f_1e6 : F := f_div prec emax (f_of_Z prec emax 1) (f_of_Z prec emax 1000000).
  Lemma f_1e6_val : B2R f_1e6 = RN (1 / 1000000).
  Proof.
    destruct (fone_correct prec emax) as [A [B _]].
    destruct (of_Z_exact prec emax 1000000) as [C D].
    { apply Z.le_trans with (2 ^ 20)%Z; [discriminate|]. apply Z.pow_le_mono_r; lia. }
    assert (G := Bdiv_correct prec emax Hp Hm mode_NE (f_of_Z prec emax 1) (f_of_Z prec emax 1000000)).
    rewrite A, D in G. specialize (G ltac:(intros Z; lra)). rewrite Rlt_bool_true in G.
    - exact (proj1 G).
    - apply Rle_lt_trans with 1; [|change 1 with (bpow radix2 0); apply bpow_lt; lia].
      apply (RN_abs_le prec emax); [exact (format_F2R_1 prec emax)|]. apply Rabs_le. lra.
  Qed.

  Lemma ltb_val (x y : F) : is_finite x = true -> is_finite y = true -> Bltb x y = true <-> B2R x < B2R y.
  Proof.
    intros Fx Fy. rewrite Bltb_correct by assumption. destruct (Rlt_bool_spec (B2R x) (B2R y)); split; intros; try discriminate; auto; lra.
  Qed.
  Lemma above (t x : F) : t = f_1e6 -> is_finite t = true -> B2R t <= 1 / 1000000 -> is_finite x = true ->
    Bltb t x = true <-> 1 / 1000000 < B2R x.
  Proof.
    intros Et Ft Ht Fx. rewrite (ltb_val t x Ft Fx). split; [|lra]. intros H.
    destruct (Rlt_dec (1 / 1000000) (B2R x)) as [G|G]; [exact G|exfalso].
    assert (K : RN (B2R x) <= RN (1 / 1000000)) by (apply (RN_le prec emax); lra).
    rewrite (RN_B2R prec emax), <- f_1e6_val, <- Et in K. lra.
  Qed.

  Lemma fmtZ n : (Z.abs n <= 2 ^ 20)%Z -> generic_format radix2 (SpecFloat.fexp prec emax) (IZR n).
  Proof. intros H. apply (format_IZR prec emax). apply Z.le_trans with (1 := H). apply Z.pow_le_mono_r; lia. Qed.
  Lemma RN_Z n : (Z.abs n <= 2 ^ 20)%Z -> RN (IZR n) = IZR n.
  Proof. intros H. apply (RN_id prec emax). apply fmtZ, H. Qed.
  Lemma mul20 (t l : F) : is_finite t = true -> B2R t = 20 -> is_finite l = true -> -6 <= B2R l <= 310 ->
    is_finite (f_mul prec emax t l) = true /\ -120 <= B2R (f_mul prec emax t l)
    /\ (B2R l <= 0 -> B2R (f_mul prec emax t l) <= 0) /\ (0 <= B2R l -> 0 <= B2R (f_mul prec emax t l)).
  Proof.
    intros Ft Ht Fl Hl.
    destruct (mul_ok prec emax t l 8192 Ft Fl) as [A B].
    - apply (fmtZ 8192). discriminate.
    - change 8192 with (bpow radix2 13). apply bpow_lt. lia.
    - rewrite Ht. apply Rabs_le. lra.
    - split; [exact A|]. rewrite B, Ht. split; [|split; intros H].
      + rewrite <- (RN_Z (-120)) by discriminate. apply (RN_le prec emax). lra.
      + rewrite <- (RN_0 prec emax). apply (RN_le prec emax). lra.
      + rewrite <- (RN_0 prec emax) at 1. apply (RN_le prec emax). lra.
  Qed.
  Lemma div20 (d t : F) : is_finite t = true -> B2R t = 20 -> is_finite d = true -> B2R d <= 0 ->
    is_finite (f_div prec emax d t) = true /\ B2R (f_div prec emax d t) <= 0.
  Proof.
    intros Ft Ht Fd Hd. assert (G := Bdiv_correct prec emax Hp Hm mode_NE d t). rewrite Ht in G.
    specialize (G ltac:(intros Z; lra)). rewrite Rlt_bool_true in G.
    - destruct G as [G1 [G2 _]]. unfold f_div. rewrite G1, G2. split; [exact Fd|].
      rewrite <- (RN_0 prec emax). apply (RN_le prec emax). lra.
    - apply Rle_lt_trans with (Rabs (B2R d)); [|apply abs_B2R_lt_emax].
      apply (RN_abs_le prec emax); [apply generic_format_abs, generic_format_B2R|].
      unfold Rdiv. rewrite Rabs_mult, (Rabs_pos_eq (/ 20)) by lra. assert (0 <= Rabs (B2R d)) by apply Rabs_pos. lra.
  Qed.
End F.

Lemma big_128 : bpow radix2 1024 <= powerRZ 10 309.
Proof.
  replace (bpow radix2 1024) with (IZR (2 ^ 1024)) by (apply (IZR_Zpower radix2); discriminate).
  replace (powerRZ 10 309) with (IZR (10 ^ 309)).
  - apply IZR_le. vm_compute. discriminate.
  - exact (Zpower_pos_powerRZ 10 309).
Qed.

Lemma u32 : (24 <= 128)%Z. Proof. discriminate. Qed.
Lemma u64 : (24 <= 1024)%Z. Proof. discriminate. Qed.
Lemma up32 : (20 <= 24)%Z. Proof. discriminate. Qed.
Lemma up64 : (20 <= 53)%Z. Proof. discriminate. Qed.

Section Both.
  Context {T : Type} (O : num_ops T) (V : float_view T) (HO : ieee O V).

  Lemma above_both x : fin V x = true -> n_lt O (n_of_f64 O (F64lit 1 1000000)) x = true <-> 1 / 1000000 < val V x.
  Proof.
    destruct HO; intros Fx.
    - apply (above 24 128 u32 up32); [apply B2SF_inj; vm_compute; reflexivity|vm_compute; reflexivity|lit; lra|exact Fx].
    - apply (above 53 1024 u64 up64); [apply B2SF_inj; vm_compute; reflexivity|vm_compute; reflexivity|lit; lra|exact Fx].
  Qed.
  Lemma m120 : fin V (n_of_f64 O (F64lit (-120) 1)) = true /\ val V (n_of_f64 O (F64lit (-120) 1)) = -120.
  Proof. destruct HO; (split; [vm_compute; reflexivity|]); cbn [val ieee_view]; lit; lra. Qed.
  Lemma c20 : fin V (n_of_f64 O (F64lit 20 1)) = true /\ val V (n_of_f64 O (F64lit 20 1)) = 20.
  Proof. destruct HO; (split; [vm_compute; reflexivity|]); cbn [val ieee_view]; lit; lra. Qed.
  Lemma c10 : fin V (n_of_f64 O (F64lit 10 1)) = true /\ val V (n_of_f64 O (F64lit 10 1)) = 10.
  Proof. destruct HO; (split; [vm_compute; reflexivity|]); cbn [val ieee_view]; lit; lra. Qed.
  Lemma above120 d : fin V d = true -> n_lt O (n_of_f64 O (F64lit (-120) 1)) d = true <-> -120 < val V d.
  Proof.
    intros Fd. destruct m120 as [A B]. rewrite <- B. destruct HO; apply ltb_val; assumption.
  Qed.
  Lemma fin_eq x : n_is_finite O x = fin V x.
  Proof. destruct HO; reflexivity. Qed.

  Lemma to_db_cases p x : (p = Release \/ n_is_sign_negative O x = false) ->
    to_db O p x = Ok (if fin V x && n_lt O (n_of_f64 O (F64lit 1 1000000)) x
                      then n_mul O (n_of_f64 O (F64lit 20 1)) (n_log10 O x) else n_of_f64 O (F64lit (-120) 1)).
  Proof.
    intros H. unfold to_db. rewrite fin_eq, andb_comm.
    replace (debug_assert p (negb (n_is_sign_negative O x))) with (Ok tt).
    - cbn [bind]. destruct (fin V x && _); reflexivity.
    - destruct H as [-> | ->]; [reflexivity|]. destruct p; reflexivity.
  Qed.
End Both.

(** C66: in [f32] and [f64], where it does not panic, [to_db] answers exactly -120 for
    what is not a number above 10^-6, and 20 log10(x) (one rounding of the product)
    otherwise; [to_sample] answers exactly 0 for what is not a number above -120, and
    the power 10^(d/20) otherwise. *)
Lemma C66_clamp_float_thm :
  forall (T : Type) (O : num_ops T) (V : float_view T) (p : profile) (x d : T),
    ieee O V ->
    (p = Release \/ n_is_sign_negative O x = false ->
      (fin V x = false \/ val V x <= 1 / 1000000 -> level V (to_db O p x) (-120))
      /\ (fin V x = true -> 1 / 1000000 < val V x ->
          exists twenty, fin V twenty = true /\ val V twenty = 20
            /\ to_db O p x = Ok (n_mul O twenty (n_log10 O x))))
    /\ (fin V d = false \/ val V d <= -120 -> to_sample O d = n_zero O)
    /\ (fin V d = true -> -120 < val V d ->
          exists ten twenty, fin V ten = true /\ val V ten = 10 /\ fin V twenty = true /\ val V twenty = 20
            /\ to_sample O d = n_powf O ten (n_div O d twenty)).
Proof.
  intros T O V p x d HO. split; [|split].
  - intros Hs. rewrite (to_db_cases O V HO p x Hs). split.
    + intros Hx. exists (n_of_f64 O (F64lit (-120) 1)). split; [|apply (m120 O V HO)].
      destruct (fin V x) eqn:Fx; [|reflexivity]. destruct Hx as [Hx|Hx]; [discriminate|].
      destruct (n_lt O _ x) eqn:E; [|reflexivity]. apply (above_both O V HO x Fx) in E. lra.
    + intros Fx Hx. rewrite Fx. exists (n_of_f64 O (F64lit 20 1)).
      apply (above_both O V HO x Fx) in Hx. rewrite Hx. destruct (c20 O V HO). auto.
  - intros Hd. unfold to_sample. rewrite (fin_eq O V HO). destruct (fin V d) eqn:Fd; [|rewrite andb_false_r; reflexivity].
    destruct Hd as [Hd|Hd]; [discriminate|]. destruct (n_lt O _ d) eqn:E; [|reflexivity].
    apply (above120 O V HO d Fd) in E. lra.
  - intros Fd Hd. exists (n_of_f64 O (F64lit 10 1)), (n_of_f64 O (F64lit 20 1)).
    destruct (c20 O V HO), (c10 O V HO). repeat (split; [assumption|]). unfold to_sample.
    rewrite (fin_eq O V HO), Fd. apply (above120 O V HO d Fd) in Hd. rewrite Hd. reflexivity.
Qed.

(*@PROP
Example C66_float_hyps :
  n_is_sign_negative O32 (fl32 1 (-3)) = false /\ 1 / 1000000 < val (ieee_view 24 128) (fl32 1 (-3))
  /\ fin (ieee_view 24 128) (B754_infinity false : f32) = false
  /\ -120 < val (ieee_view 24 128) (fl32 (-6) 0).
Proof. repeat split; cbn; unfold F2R; cbn; lra. Qed.
@*)

(** C66: in [f32] and [f64], with a logarithm and a power that are right to within their
    rounding, the level of a sample that is not negative is a number of at least -120 dB,
    at most 0 dB if the sample is at most 1, and at least 0 dB if it is at least 1; a level of
    at most 0 dB converts to a sample in [0, 1]. *)
Lemma C66_range_float_thm :
  forall (T : Type) (O : num_ops T) (V : float_view T) (p : profile) (x d : T),
    ieee O V ->
    (log10_sound O V -> p = Release \/ n_is_sign_negative O x = false ->
      exists y, to_db O p x = Ok y /\ fin V y = true /\ -120 <= val V y
        /\ (fin V x = true -> val V x <= 1 -> val V y <= 0)
        /\ (fin V x = true -> 1 <= val V x -> 0 <= val V y))
    /\ (pow10_sound O V -> fin V d = true -> val V d <= 0 ->
      fin V (to_sample O d) = true /\ 0 <= val V (to_sample O d) <= 1).
Proof.
  intros T O V p x d HO. split.
  - intros Hl Hs. rewrite (to_db_cases O V HO p x Hs).
    destruct (fin V x) eqn:Fx; cbn [andb].
    2:{ destruct (m120 O V HO) as [A B]. exists (n_of_f64 O (F64lit (-120) 1)). split; [reflexivity|].
        split; [exact A|]. rewrite B. split; [lra|]. split; intros; discriminate. }
    destruct (n_lt O _ x) eqn:E.
    2:{ destruct (m120 O V HO) as [A B]. exists (n_of_f64 O (F64lit (-120) 1)). split; [reflexivity|].
        split; [exact A|]. rewrite B. split; [lra|]. split; [intros; lra|]. intros _ Hx.
        assert (K : 1 / 1000000 < val V x) by lra. apply (above_both O V HO x Fx) in K. congruence. }
    apply (above_both O V HO x Fx) in E. destruct (Hl x Fx) as [L1 [L2 L3]]; [lra|].
    assert (P6 : powerRZ 10 (-6) = 1 / 1000000) by (unfold powerRZ; change (Pos.to_nat 6) with 6%nat; lra).
    assert (B1 : -6 <= val V (n_log10 O x)) by (apply (L2 (-6)%Z); lra).
    assert (B2 : val V (n_log10 O x) <= 310).
    { apply Rle_trans with 309; [|lra]. apply (L3 309%Z). apply Rle_trans with (2 := big_128). apply Rlt_le.
      apply Rle_lt_trans with (Rabs (val V x)); [apply Rle_abs|]. destruct HO.
      - apply Rlt_trans with (bpow radix2 128); [apply abs_B2R_lt_emax|]. apply bpow_lt. reflexivity.
      - apply abs_B2R_lt_emax. }
    destruct (c20 O V HO) as [T1 T2].
    assert (G : fin V (n_mul O (n_of_f64 O (F64lit 20 1)) (n_log10 O x)) = true
      /\ -120 <= val V (n_mul O (n_of_f64 O (F64lit 20 1)) (n_log10 O x))
      /\ (val V (n_log10 O x) <= 0 -> val V (n_mul O (n_of_f64 O (F64lit 20 1)) (n_log10 O x)) <= 0)
      /\ (0 <= val V (n_log10 O x) -> 0 <= val V (n_mul O (n_of_f64 O (F64lit 20 1)) (n_log10 O x)))).
    { destruct HO.
      - exact (mul20 24 128 u32 up32 _ _ T1 T2 L1 (conj B1 B2)).
      - exact (mul20 53 1024 u64 up64 _ _ T1 T2 L1 (conj B1 B2)). }
    destruct G as [G1 [G2 [G3 G4]]]. exists (n_mul O (n_of_f64 O (F64lit 20 1)) (n_log10 O x)).
    split; [reflexivity|]. split; [exact G1|]. split; [exact G2|]. split; intros _ Hx.
    + apply G3. apply (L3 0%Z). cbn. exact Hx.
    + apply G4. apply (L2 0%Z). cbn. exact Hx.
  - intros Hpw Fd Hd. unfold to_sample. rewrite (fin_eq O V HO), Fd. destruct (n_lt O _ d); cbn [andb].
    + destruct (c20 O V HO) as [T1 T2]. destruct (c10 O V HO) as [S1 S2].
      assert (G : fin V (n_div O d (n_of_f64 O (F64lit 20 1))) = true /\ val V (n_div O d (n_of_f64 O (F64lit 20 1))) <= 0).
      { destruct HO.
        - exact (div20 24 128 _ _ T1 T2 Fd Hd).
        - exact (div20 53 1024 _ _ T1 T2 Fd Hd). }
      destruct G as [G1 G2]. exact (Hpw _ _ S1 S2 G1 G2).
    + destruct HO; (split; [reflexivity|cbn; lra]).
Qed.

(** ** The correctly rounded library is sound *)
Section Cr.
  Context (prec emax : Z) {Hp : Prec_gt_0 prec} {Hm : Prec_lt_emax prec emax} (Hm3 : (24 <= emax)%Z) (Hp20 : (20 <= prec)%Z)
    (Hmax : (emax <= 1024)%Z).
  Notation F := (binary_float prec emax).
  Notation RN := (round radix2 (SpecFloat.fexp prec emax) (round_mode mode_NE)).
  Notation fmt := (generic_format radix2 (SpecFloat.fexp prec emax)).

  Lemma pow10_exp k : powerRZ 10 k = exp (IZR k * ln 10).
  Proof. rewrite powerRZ_Rpower by lra. reflexivity. Qed.
  Lemma log10_ge (r : R) k : 0 < r -> powerRZ 10 k <= r -> IZR k <= ln r / ln 10.
  Proof.
    intros Hr H. assert (L := ln10). rewrite pow10_exp in H. apply Rmult_le_reg_r with (ln 10); [exact L|].
    unfold Rdiv. rewrite Rmult_assoc, Rinv_l, Rmult_1_r by lra.
    destruct (Rle_lt_dec (IZR k * ln 10) (ln r)) as [G|G]; [exact G|exfalso].
    apply exp_increasing in G. rewrite exp_ln in G by exact Hr. lra.
  Qed.
  Lemma log10_le (r : R) k : 0 < r -> r <= powerRZ 10 k -> ln r / ln 10 <= IZR k.
  Proof.
    intros Hr H. assert (L := ln10). rewrite pow10_exp in H. apply Rmult_le_reg_r with (ln 10); [exact L|].
    unfold Rdiv. rewrite Rmult_assoc, Rinv_l, Rmult_1_r by lra.
    destruct (Rle_lt_dec (ln r) (IZR k * ln 10)) as [G|G]; [exact G|exfalso].
    apply exp_increasing in G. rewrite exp_ln in G by exact Hr. lra.
  Qed.

  Lemma cr_log10_sound (x : F) : (prec <= 64)%Z -> is_finite x = true -> 0 < B2R x ->
    let y := m_log10 (cr_libm prec emax) x in
    is_finite y = true
    /\ (forall k : Z, powerRZ 10 k <= B2R x -> IZR k <= B2R y)
    /\ (forall k : Z, B2R x <= powerRZ 10 k -> B2R y <= IZR k).
  Proof.
    intros Hp64 Fx Hx. set (l := ln (B2R x) / ln 10).
    assert (E : m_log10 (cr_libm prec emax) x = R2F prec emax l).
    { destruct x as [s|s| |s m e H]; try discriminate; [cbn in Hx; lra|]. destruct s; [|reflexivity].
      exfalso. assert (P := F2R_lt_0 radix2 (Float radix2 (Z.neg m) e) eq_refl).
      change (F2R (Float radix2 (Z.neg m) e)) with (B2R (B754_finite true m e H)) in P. lra. }
    assert (Lo : IZR (-400) <= l).
    { apply log10_ge; [exact Hx|].
      apply Rle_trans with (bpow radix2 (-1100)).
      - replace (bpow radix2 (-1100)) with (/ IZR (2 ^ 1100)).
        + replace (powerRZ 10 (-400)) with (/ IZR (10 ^ 400)).
          * apply Rinv_le_contravar; [apply IZR_lt; reflexivity|]. apply IZR_le. vm_compute. discriminate.
          * change (-400)%Z with (- (400))%Z. rewrite powerRZ_neg'. try f_equal; try exact (Zpower_pos_powerRZ 10 400).
        + change (-1100)%Z with (- (1100))%Z. rewrite bpow_opp. try f_equal; try exact (IZR_Zpower radix2 1100 ltac:(discriminate)).
      - apply Rle_trans with (bpow radix2 (SpecFloat.emin prec emax)).
        + apply bpow_le. unfold SpecFloat.emin. lia.
        + rewrite <- (Rabs_pos_eq (B2R x)) by lra. apply abs_B2R_ge_emin.
          destruct x; try discriminate; [cbn in Hx; lra|reflexivity]. }
    assert (Hi : l <= IZR 400).
    { apply Rle_trans with (IZR 309); [|apply IZR_le; discriminate]. apply log10_le; [exact Hx|].
      apply Rle_trans with (2 := big_128). apply Rlt_le. apply Rle_lt_trans with (Rabs (B2R x)); [apply Rle_abs|].
      apply Rlt_le_trans with (1 := abs_B2R_lt_emax _ _ x). apply bpow_le. exact Hmax. }
    assert (Lo' : IZR (-400) <= RN l).
    { rewrite <- (RN_Z prec emax Hp20 (-400)) by discriminate. apply (RN_le prec emax). exact Lo. }
    assert (Hi' : RN l <= IZR 400).
    { rewrite <- (RN_Z prec emax Hp20 400) by discriminate. apply (RN_le prec emax). exact Hi. }
    destruct (R2F_ok prec emax l) as [A B].
    { apply Rle_lt_trans with (bpow radix2 9); [|apply bpow_lt; lia]. change (bpow radix2 9) with 512. apply Rabs_le. lra. }
    cbn zeta. rewrite E. split; [exact A|]. rewrite B. split; intros k Hk.
    - assert (K := log10_ge (B2R x) k Hx Hk). fold l in K. destruct (Z_lt_le_dec k (-400)) as [G|G].
      + apply IZR_lt in G. lra.
      + assert (k <= 400)%Z by (apply le_IZR; lra). rewrite <- (RN_Z prec emax Hp20 k) by lia. apply (RN_le prec emax). exact K.
    - assert (K := log10_le (B2R x) k Hx Hk). fold l in K. destruct (Z_lt_le_dec 400 k) as [G|G].
      + apply IZR_lt in G. lra.
      + assert (-400 <= k)%Z by (apply le_IZR; lra). rewrite <- (RN_Z prec emax Hp20 k) by lia. apply (RN_le prec emax). exact K.
  Qed.

  Lemma cr_pow10_sound (ten y : F) : is_finite ten = true -> B2R ten = 10 -> is_finite y = true -> B2R y <= 0 ->
    let z := m_powf (cr_libm prec emax) ten y in is_finite z = true /\ 0 <= B2R z <= 1.
  Proof.
    intros Ft Ht Fy Hy. set (r := Rpower 10 (B2R y)).
    assert (E : m_powf (cr_libm prec emax) ten y = R2F prec emax r).
    { unfold r. rewrite <- Ht. destruct ten as [s|s| |s m e H]; try discriminate; [cbn in Ht; lra|]. destruct s.
      - exfalso. assert (P := F2R_lt_0 radix2 (Float radix2 (Z.neg m) e) eq_refl).
        change (F2R (Float radix2 (Z.neg m) e)) with (B2R (B754_finite true m e H)) in P. lra.
      - destruct y; try discriminate; reflexivity. }
    assert (R0 : 0 < r) by apply exp_pos.
    assert (R1 : r <= 1).
    { unfold r. rewrite <- (Rpower_O 10) by lra. apply Rle_Rpower; lra. }
    assert (F1 := format_F2R_1 prec emax).
    assert (K : Rabs (RN r) <= 1) by (apply (RN_abs_le prec emax); [exact F1|apply Rabs_le; lra]).
    destruct (R2F_ok prec emax r) as [A B].
    { apply Rle_lt_trans with (1 := K). change 1 with (bpow radix2 0). apply bpow_lt. lia. }
    cbn zeta. rewrite E. split; [exact A|]. rewrite B. split.
    - rewrite <- (RN_0 prec emax). apply (RN_le prec emax). lra.
    - apply Rabs_le_inv in K. lra.
  Qed.
End Cr.
Lemma cr_log_32 b : log10_sound (f32_ops (cr_libm 24 128) b) (ieee_view 24 128).
Proof. intros x Fx Hx. apply (cr_log10_sound 24 128 u32 up32); try assumption; discriminate. Qed.
Lemma cr_log_64 b : log10_sound (f64_ops (cr_libm 53 1024) b) (ieee_view 53 1024).
Proof. intros x Fx Hx. apply (cr_log10_sound 53 1024 u64 up64); try assumption; discriminate. Qed.
Lemma cr_pow_32 b : pow10_sound (f32_ops (cr_libm 24 128) b) (ieee_view 24 128).
Proof. intros ten y A B C D. exact (cr_pow10_sound 24 128 u32 ten y A B C D). Qed.
Lemma cr_pow_64 b : pow10_sound (f64_ops (cr_libm 53 1024) b) (ieee_view 53 1024).
Proof. intros ten y A B C D. exact (cr_pow10_sound 53 1024 u64 ten y A B C D). Qed.

(*@PROP
(** A correctly rounded library meets the hypotheses. *)
Example C66_range_float_hyps :
  log10_sound (f32_ops (cr_libm 24 128) false) (ieee_view 24 128)
  /\ pow10_sound (f64_ops (cr_libm 53 1024) false) (ieee_view 53 1024)
  /\ n_is_sign_negative O32 (fl32 1 (-3)) = false /\ val (ieee_view 24 128) (fl32 1 (-3)) <= 1.
Proof.
  split; [exact (cr_log_32 false)|]. split; [exact (cr_pow_64 false)|]. split; [reflexivity|].
  cbn. unfold F2R. cbn. lra.
Qed.
@*)
