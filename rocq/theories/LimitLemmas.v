(** Lemmas behind property C115.  The [@PROP] blocks are copied into [PropLimit.v]. *)
(*@PROP
(** Property C115: a peak limiter built on [PeakEnvDetector].

    Vocabulary: [limiter], [instant_attack], [processed] ([LimitSpec]); [calls_ok O V P cs]: the
    samples satisfy [P] and every accepted length gives a gain in [0, 1) ([AnaSpec]);
    [within V lo hi x]: a finite float between [lo] and [hi]. *)
From Coq Require Import ZArith Reals List Bool Lra Lia.
From Flocq Require Import Core.Core IEEE754.BinarySingleNaN.
From Verif Require Import Base Num NumR NumF Witness FloatSpec AnalysisM Device AnaSpec AnaLemmas TrackSpec LimitSpec LimitLemmas.
Import ListNotations.
Open Scope R_scope.
@*)
From Coq Require Import ZArith Reals List Bool Lra Lia.
From Flocq Require Import Core.Core Relative IEEE754.BinarySingleNaN.
From Verif Require Import Base Num NumR NumF FloatSpec FloatFacts SmoothF Witness AnalysisM Device AnaSpec AnaFacts AnaLemmas
  WinLemmasF FltFilterLemmas TrackSpec LimitSpec.
Import ListNotations.
Open Scope R_scope.

(** ** Running the limiter *)
Section Run.
  Context {T : Type} (O : num_ops T) (c : T).
  Context (I : peak T -> Prop) (ok : call (det_set T) T -> Prop) (Q : T * T -> Prop).
  Hypothesis Hstep : forall s k, I s -> ok k -> I (fst (d_step (dev_peak O) s k)).
  Hypothesis Hout : forall s x, I s -> ok (CProcess x) -> Q (x, limit O c x (snd (d_process (dev_peak O) s x))).

  Lemma limiter_inv cs : forall s, I s -> Forall ok cs -> Forall Q (limiter O c s cs).
  Proof.
    induction cs as [|k cs IH]; intros s Hs Hc; [constructor|].
    assert (G := Hstep s k Hs (Forall_inv Hc)).
    destruct k as [x| |k|]; cbn [limiter]; try (apply IH; [exact G|exact (Forall_inv_tail Hc)]).
    assert (G2 := Hout s x Hs (Forall_inv Hc)). cbn [d_step] in G. destruct (d_process (dev_peak O) s x) as [s1 e].
    cbn [fst snd] in *. constructor; [exact G2|]. apply IH; [exact G|exact (Forall_inv_tail Hc)].
  Qed.
End Run.

(** ** Exact arithmetic *)
(** No attack, a release gain in [0, 1) and an envelope in [0, m]. *)
Definition rinv (m : R) (s : peak R) : Prop :=
  pk_attack_gain s = 0 /\ 0 <= pk_release_gain s < 1 /\ 0 <= pk_envelope s <= m.

Lemma exp_neg_inv l : 0 < l -> 0 <= exp (- 1 / l) < 1.
Proof.
  intros H. split; [apply Rlt_le, exp_pos|]. rewrite <- exp_0. apply exp_increasing.
  assert (0 < / l) by (apply Rinv_0_lt_compat; exact H). unfold Rdiv. lra.
Qed.

Lemma r_env s x : pk_attack_gain s = 0 ->
  snd (d_process (dev_peak R_ops) s x)
  = if Rlt_dec (pk_envelope s) (Rabs x) then Rabs x else Rabs x + pk_release_gain s * (pk_envelope s - Rabs x).
Proof.
  intros E. cbn [dev_peak d_process]. unfold peak_process. cbn [snd n_lt n_abs n_add n_mul n_sub R_ops]. unfold Rltb.
  destruct Rlt_dec; [rewrite E; ring|reflexivity].
Qed.

(** The envelope is never below the sample. *)
Lemma r_above m s x : rinv m s ->
  Rabs x <= snd (d_process (dev_peak R_ops) s x) /\ snd (d_process (dev_peak R_ops) s x) <= Rmax (pk_envelope s) (Rabs x).
Proof.
  intros [A [B C]]. rewrite r_env by exact A. assert (M1 := Rmax_l (pk_envelope s) (Rabs x)).
  assert (M2 := Rmax_r (pk_envelope s) (Rabs x)).
  destruct Rlt_dec as [H|H]; [lra|]. apply Rnot_lt_le in H.
  assert (0 <= pk_release_gain s * (pk_envelope s - Rabs x)) by (apply Rmult_le_pos; lra).
  assert (pk_release_gain s * (pk_envelope s - Rabs x) <= 1 * (pk_envelope s - Rabs x)) by (apply Rmult_le_compat_r; lra).
  lra.
Qed.

Lemma r_step m s k : rinv m s ->
  (match k with CProcess x => Rabs x <= m | CSet (SetAttack _) => False | _ => True end) ->
  rinv m (fst (d_step (dev_peak R_ops) s k)).
Proof.
  intros Hs Hk. assert (Hs' := Hs). destruct Hs' as [A [B C]]. destruct k as [x| |[l|l]|]; cbn [d_step].
  - assert (G := r_above m s x Hs). assert (P := Rabs_pos x).
    assert (M : Rmax (pk_envelope s) (Rabs x) <= m) by (apply Rmax_lub; lra).
    cbn [dev_peak d_process] in *. unfold peak_process in *. cbn [fst snd] in *.
    split; [exact A|split; [exact B|]]. cbn [pk_envelope]. lra.
  - split; [exact A|split; [exact B|]]. cbn. lra.
  - destruct Hk.
  - cbn [fst dev_peak d_set]. unfold peak_set_release. cbn [n_lt n_is_finite n_exp n_div n_neg n_one n_zero R_ops]. unfold Rltb.
    destruct (Rlt_dec 0 l) as [H|H]; cbn [andb]; [|exact Hs].
    split; [exact A|split; [|exact C]]. cbn [pk_release_gain]. apply exp_neg_inv, H.
  - exact Hs.
Qed.

Lemma rinv_new m : 0 <= m -> rinv m (peak_new R_ops).
Proof. intros H. split; [reflexivity|]. cbn. lra. Qed.

Lemma both {A} (P Q : A -> Prop) l : Forall P l -> Forall Q l -> Forall (fun x => P x /\ Q x) l.
Proof. intros H1 H2. rewrite Forall_forall in *. auto. Qed.

(** One bound for all the processed samples. *)
Lemma some_bound (cs : list (call (det_set R) R)) m0 : exists m, m0 <= m /\ 0 <= m /\ processed (fun x => Rabs x <= m) cs.
Proof.
  induction cs as [|k cs [m [H0 [H1 H2]]]].
  - exists (Rmax m0 0). split; [apply Rmax_l|split; [apply Rmax_r|constructor]].
  - destruct k as [x| |k|]; try (exists m; repeat split; try assumption; constructor; [exact I|exact H2]).
    exists (Rmax m (Rabs x)). assert (G := Rmax_l m (Rabs x)). split; [lra|split; [lra|]].
    constructor; [apply Rmax_r|]. eapply Forall_impl; [|exact H2]. intros [y| |?|]; cbn; auto. intros. lra.
Qed.

Lemma limit_ratio c x e : 0 < c -> c < e -> Rabs (x * (c / e)) = Rabs x * c / e.
Proof.
  intros H1 H2. rewrite Rabs_mult, (Rabs_pos_eq (c / e)); [unfold Rdiv; ring|].
  apply Rlt_le, Rdiv_lt_0_compat; lra.
Qed.

(** C115: with an instantaneous attack the limited signal never exceeds the ceiling, is never
    louder than the input, never changes its sign, and is never turned down further than the
    loudest sample so far requires: if every sample is within [X], the gain is at least
    ceiling / X.  This holds whatever release lengths are set, and across [clear]. *)
Lemma C115_ceiling_thm :
  forall (c X : R) (cs : list (call (det_set R) R)),
    0 < c -> c <= X -> instant_attack cs -> processed (fun x => Rabs x <= X) cs ->
    Forall (fun xy : R * R => let (x, y) := xy in
              Rabs y <= c /\ Rabs y <= Rabs x /\ 0 <= x * y /\ Rabs x * (c / X) <= Rabs y)
           (limiter R_ops c (peak_new R_ops) cs).
Proof.
  intros c X cs Hc HX Ha Hp.
  apply (limiter_inv R_ops c (rinv X)
           (fun k => match k with CSet (SetAttack _) => False | _ => True end /\ match k with CProcess x => Rabs x <= X | _ => True end)).
  - intros s k Hs [H1 H2]. apply r_step; [exact Hs|]. destruct k as [x| |[l|l]|]; assumption.
  - intros s x Hs [_ Hx]. cbn beta iota in Hx. destruct (r_above X s x Hs) as [G1 G2]. unfold limit. cbn [n_lt n_mul n_div R_ops].
    set (e := snd _) in *. clearbody e. assert (P := Rabs_pos x).
    assert (M : Rmax (pk_envelope s) (Rabs x) <= X) by (apply Rmax_lub; [apply Hs|exact Hx]).
    unfold Rltb. destruct (Rlt_dec c e) as [H|H].
    + rewrite limit_ratio by lra.
      assert (I1 : 0 < / e) by (apply Rinv_0_lt_compat; lra).
      assert (I2 : / X <= / e) by (apply Rinv_le_contravar; lra).
      assert (K1 : Rabs x * / e <= 1) by (apply (Rmult_le_reg_r e); [lra|]; rewrite Rmult_assoc, Rinv_l by lra; lra).
      assert (K2 : c * / e <= 1) by (apply (Rmult_le_reg_r e); [lra|]; rewrite Rmult_assoc, Rinv_l by lra; lra).
      unfold Rdiv. repeat split.
      * replace (Rabs x * c * / e) with (c * (Rabs x * / e)) by ring. rewrite <- (Rmult_1_r c) at 2. apply Rmult_le_compat_l; lra.
      * rewrite Rmult_assoc. rewrite <- (Rmult_1_r (Rabs x)) at 2. apply Rmult_le_compat_l; lra.
      * replace (x * (x * (c * / e))) with ((x * x) * (c * / e)) by ring. apply Rmult_le_pos; [apply Rle_0_sqr|].
        apply Rlt_le, Rmult_lt_0_compat; lra.
      * rewrite Rmult_assoc. apply Rmult_le_compat_l; [exact P|]. apply Rmult_le_compat_l; lra.
    + apply Rnot_lt_le in H. repeat split; try lra; try apply Rle_0_sqr.
      rewrite <- (Rmult_1_r (Rabs x)) at 2. apply Rmult_le_compat_l; [exact P|].
      apply (Rmult_le_reg_r X); [lra|]. unfold Rdiv. rewrite Rmult_assoc, Rinv_l by lra. lra.
  - apply rinv_new. lra.
  - apply both; [exact Ha|exact Hp].
Qed.

(*@PROP
(* a burst of 4, then silence, under a ceiling of 1, with a release of 100 samples *)
Example C115_ceiling_hyps :
  instant_attack [CSet (SetRelease 100); CProcess 4; CProcess (-2); CClear; CProcess (/ 2); CLastOut]
  /\ processed (fun x => Rabs x <= 4) [CSet (SetRelease 100); CProcess 4; CProcess (-2); CClear; CProcess (/ 2); CLastOut].
Proof.
  split; repeat (apply Forall_cons || apply Forall_nil); try exact I; apply Rabs_le; lra.
Qed.
@*)

(** ** Recovery *)
Lemma out_quiet m s x : rinv m s -> forall b, Rabs x <= b ->
  snd (d_process (dev_peak R_ops) s x) - b <= pk_release_gain s * Rmax 0 (pk_envelope s - b).
Proof.
  intros [A [B C]] b Hx. rewrite r_env by exact A. assert (M1 := Rmax_l 0 (pk_envelope s - b)). assert (M2 := Rmax_r 0 (pk_envelope s - b)).
  assert (P : 0 <= pk_release_gain s * Rmax 0 (pk_envelope s - b)) by (apply Rmult_le_pos; lra).
  destruct Rlt_dec as [H|H]; [lra|].
  assert (pk_release_gain s * (pk_envelope s - b) <= pk_release_gain s * Rmax 0 (pk_envelope s - b)) by (apply Rmult_le_compat_l; lra).
  assert (pk_release_gain s * (b - Rabs x) <= 1 * (b - Rabs x)) by (apply Rmult_le_compat_r; lra). lra.
Qed.

Lemma env_is s x : pk_envelope (fst (d_process (dev_peak R_ops) s x)) = snd (d_process (dev_peak R_ops) s x)
  /\ pk_attack_gain (fst (d_process (dev_peak R_ops) s x)) = pk_attack_gain s
  /\ pk_release_gain (fst (d_process (dev_peak R_ops) s x)) = pk_release_gain s.
Proof. repeat split. Qed.

Lemma recovers_gen M c b xs : b < c -> forall s, rinv M s -> b <= M -> Forall (fun x => Rabs x <= b) xs ->
  forall n x, nth_error xs n = Some x ->
    pk_release_gain s ^ (n + 1) * (pk_envelope s - b) <= c - b ->
    nth_error (limiter R_ops c s (map CProcess xs)) n = Some (x, x).
Proof.
  intros Hb. induction xs as [|x0 xs IH]; intros s Hs HM Hx n x Hn Hd; [destruct n; discriminate|].
  assert (Q0 := Forall_inv Hx). cbv beta in Q0. assert (U := out_quiet M s x0 Hs b Q0).
  assert (Hr : rinv M (fst (d_step (dev_peak R_ops) s (CProcess x0)))) by (apply r_step; [exact Hs|lra]).
  cbn [d_step] in Hr. cbn [map limiter]. destruct (env_is s x0) as [E1 [E2 E3]]. destruct Hs as [A [B C]].
  destruct (d_process (dev_peak R_ops) s x0) as [s1 e]. cbn [fst snd] in *.
  destruct n as [|n]; cbn [nth_error] in *.
  - injection Hn as ->. f_equal. f_equal. unfold limit. cbn [n_lt n_mul n_div R_ops]. unfold Rltb.
    rewrite pow_1 in Hd. destruct Rlt_dec as [L|L]; [exfalso|reflexivity].
    revert U. unfold Rmax. destruct Rle_dec as [Q|Q]; intros U; lra.
  - apply IH; auto; [exact (Forall_inv_tail Hx)|]. rewrite E3, E1. cbn [Nat.add pow] in Hd.
    assert (P : 0 <= pk_release_gain s ^ (n + 1)) by (apply pow_le; lra).
    apply Rle_trans with (pk_release_gain s ^ (n + 1) * (pk_release_gain s * Rmax 0 (pk_envelope s - b)));
      [apply Rmult_le_compat_l; assumption|].
    unfold Rmax. destruct Rle_dec as [Q|Q]; [|rewrite Rmult_0_r, Rmult_0_r; lra].
    replace (pk_release_gain s ^ (n + 1) * (pk_release_gain s * (pk_envelope s - b)))
      with (pk_release_gain s * pk_release_gain s ^ (n + 1) * (pk_envelope s - b)) by ring. exact Hd.
Qed.

Lemma r_after m cs : 0 <= m -> instant_attack cs -> processed (fun x => Rabs x <= m) cs -> rinv m (after (dev_peak R_ops) cs).
Proof.
  intros Hm Ha Hp.
  apply (after_inv (dev_peak R_ops) (rinv m)
           (fun k => match k with CSet (SetAttack _) => False | _ => True end /\ match k with CProcess x => Rabs x <= m | _ => True end)
           (fun _ => True)).
  - intros s k Hs [H1 H2]. split; [|auto]. apply r_step; [exact Hs|]. destruct k as [x| |[l|l]|]; assumption.
  - apply rinv_new, Hm.
  - apply both; assumption.
Qed.

Lemma exp_pow_n L n : 0 < L -> exp (- 1 / L) ^ n = exp (- (INR n / L)).
Proof.
  intros H. induction n as [|n IH].
  - cbn [pow INR]. unfold Rdiv. rewrite Rmult_0_l, Ropp_0, exp_0. reflexivity.
  - cbn [pow]. rewrite IH, S_INR, <- exp_plus. f_equal. field. lra.
Qed.

(** C115: recovery.  After any history, with a release of [L] samples and an envelope [e0], a
    passage that stays within [b], below the ceiling, is passed unchanged from the [n]-th sample
    on, once exp(-(n + 1)/L) (e0 - b) has fallen to the headroom c - b. *)
Lemma C115_recovers_thm :
  forall (c b L : R) (history : list (call (det_set R) R)) (xs : list R) (n : nat) (x : R),
    b < c -> 0 < L -> instant_attack history -> Forall (fun x => Rabs x <= b) xs ->
    let s := after (dev_peak R_ops) (history ++ [CSet (SetRelease L)]) in
    let e0 := d_last_out (dev_peak R_ops) s in
    nth_error xs n = Some x ->
    exp (- (INR (n + 1) / L)) * (e0 - b) <= c - b ->
    nth_error (limiter R_ops c s (map CProcess xs)) n = Some (x, x).
Proof.
  intros c b L history xs n x Hb HL Ha Hx s e0 Hn Hd.
  destruct (some_bound history b) as [M [M1 [M2 M3]]]. assert (R0 := r_after M history M2 Ha M3).
  set (s0 := after (dev_peak R_ops) history) in *.
  assert (Es : s = peak_set_release R_ops s0 L) by (unfold s; rewrite after_snoc; reflexivity).
  assert (E : s = PeakDet (pk_attack_gain s0) (exp (- 1 / L)) (pk_envelope s0)).
  { rewrite Es. unfold peak_set_release. cbn [n_lt n_is_finite n_exp n_div n_neg n_one n_zero R_ops]. unfold Rltb.
    destruct (Rlt_dec 0 L); [reflexivity|contradiction]. }
  assert (Rs : rinv M s) by (rewrite E; destruct R0 as [A [B C]]; split; [exact A|split; [apply exp_neg_inv, HL|exact C]]).
  apply (recovers_gen M c b xs Hb s Rs M1 Hx n x Hn).
  rewrite E at 1. cbn [pk_release_gain]. rewrite exp_pow_n by exact HL. exact Hd.
Qed.

(*@PROP
(* release of one sample after a burst of 4: from the third quiet sample the limiter is open *)
Example C115_recovers_hyps :
  let s := after (dev_peak R_ops) ([CProcess 4] ++ [CSet (SetRelease 1)]) in
  exp (- (INR (2 + 1) / 1)) * (d_last_out (dev_peak R_ops) s - / 2) <= 1 - / 2.
Proof. exact burst_case. Qed.
@*)
Lemma burst_case :
  let s := after (dev_peak R_ops) ([CProcess 4] ++ [CSet (SetRelease 1)]) in
  exp (- (INR (2 + 1) / 1)) * (d_last_out (dev_peak R_ops) s - / 2) <= 1 - / 2.
Proof.
  intros s. assert (E : d_last_out (dev_peak R_ops) s = 4).
  { unfold s. rewrite after_snoc. cbn [d_step dev_peak d_set fst]. unfold peak_set_release.
    destruct (_ && _); cbn [d_last_out peak_last_out pk_envelope]; unfold peak_last_out; cbn [pk_envelope];
    unfold after; cbn; unfold Rltb; destruct Rlt_dec; rewrite ?Rabs_pos_eq by lra; ring. }
  rewrite E. replace (- (INR (2 + 1) / 1)) with (- (1 + 1 + 1)) by (cbn; lra). rewrite exp_Ropp, !exp_plus.
  assert (H := exp_ineq1 1 ltac:(lra)). set (t := exp 1) in *. clearbody t.
  assert (I : / (t * t * t) <= / 8). { apply Rinv_le_contravar; [lra|]. assert (4 <= t * t) by nra. nra. }
  lra.
Qed.

(** ** Floats *)
Section F.
  Context (prec emax : Z) {Hp : Prec_gt_0 prec} {Hm : Prec_lt_emax prec emax} (Hm3 : (3 <= emax)%Z).
  Context (pim pie sz : Z) (lm : libm (binary_float prec emax)) (nn : bool).
  Notation F := (binary_float prec emax).
  Notation O := (ieee_ops prec emax pim pie sz lm nn).
  Notation V := (ieee_view prec emax).
  Notation RN := (round radix2 (SpecFloat.fexp prec emax) (round_mode mode_NE)).
  Notation fexp := (SpecFloat.fexp prec emax).
  Notation u := (bpow radix2 (- prec)).
  Local Instance vexp : Valid_exp fexp := fexp_correct prec emax Hp.

  Definition finv (m : R) (s : peak F) : Prop :=
    is_zero prec emax (pk_attack_gain s) /\ pinv prec emax m s.

  Lemma f_env m s (x : F) : finv m s -> is_finite x = true -> Rabs (B2R x) <= m ->
    let e := snd (d_process (dev_peak O) s x) in
    is_finite e = true /\ Rabs (B2R x) <= B2R e <= m.
  Proof.
    intros [Z Hi] Fx Hx e. destruct (peak_step_between prec emax Hm3 m s x Hi Fx) as [G1 G2].
    assert (Hi' := Hi). destruct Hi' as [_ [_ [E1 E2]]]. cbn [fin val ieee_view] in *.
    unfold e. cbn [dev_peak d_process]. rewrite (peak_smooth' prec emax pim pie sz lm nn O eq_refl). cbn [snd].
    split; [exact G1|]. split; [|eapply Rle_trans; [apply G2|]; apply Rmax_lub; lra].
    unfold pk_gain in *. rewrite lt_fin in * by (assumption || (rewrite is_finite_Babs; assumption)). rewrite B2R_Babs in *.
    destruct (Rlt_bool_spec (B2R (pk_envelope s)) (Rabs (B2R x))) as [H|H].
    - assert (Fa : is_finite (Babs x) = true) by (rewrite is_finite_Babs; exact Fx).
      assert (S : same_value prec emax (fsmooth prec emax (pk_attack_gain s) (pk_envelope s) (Babs x)) (Babs x)).
      { apply smooth_zero; try assumption.
        assert (M1 := abs_le_MAX prec emax (pk_envelope s)). assert (M2 := abs_le_MAX prec emax x).
        rewrite Rabs_pos_eq in M1 by lra.
        apply (sub_in prec emax Hm3 _ _ 0 ((1 - bpow radix2 (- prec)) * bpow radix2 emax)); try assumption; try lra.
        rewrite B2R_Babs. split; [apply Rabs_pos|exact M2]. }
      destruct S as [_ [_ S]]. rewrite S, B2R_Babs. lra.
    - rewrite Rmin_right in G2 by lra. apply G2.
  Qed.

  Lemma f_step m s (k : call (det_set F) F) : 0 <= m -> finv m s ->
    match k with
    | CProcess x => within V (- m) m x
    | CSet (SetAttack _) => False
    | CSet j => good_length V (set_length j) -> unit_interval V (gain_of O (set_length j))
    | _ => True
    end -> finv m (fst (d_step (dev_peak O) s k)).
  Proof.
    intros Hm0 [Z Hi] Hk. split.
    - destruct k as [x| |[l|l]|]; try exact Z; [destruct Hk|]. cbn [d_step dev_peak d_set fst]. unfold peak_set_release.
      destruct (_ && _); exact Z.
    - apply (peak_step_inv prec emax Hm3 pim pie sz lm nn m Hm0 s k Hi). destruct k as [x| |[l|l]|]; try exact Hk. destruct Hk.
  Qed.

  Lemma finv_new m : 0 <= m -> finv m (peak_new O).
  Proof. intros H. split; [exists false; reflexivity|]. apply (pinv_new prec emax), H. Qed.

  Lemma RN_rel z : bpow radix2 (2 - emax) <= Rabs z -> Rabs (RN z - z) <= u * Rabs z.
  Proof.
    intros H. assert (G := relative_error_N_FLT radix2 (SpecFloat.emin prec emax) prec Hp (fun x => negb (Z.even x)) z).
    replace (SpecFloat.emin prec emax + prec - 1)%Z with (2 - emax)%Z in G by (unfold SpecFloat.emin; lia).
    specialize (G H). replace (/ 2 * bpow radix2 (- prec + 1) * Rabs z) with (u * Rabs z) in G; [exact G|].
    rewrite bpow_plus. change (bpow radix2 1) with 2. field.
  Qed.

  (** Rounding something at most half an ulp above [c], relatively, gives at most the float after [c]. *)
  Lemma RN_ceiling (c : F) z : bpow radix2 (2 - emax) <= B2R c -> Rabs z <= B2R c * (1 + u) ->
    Rabs (RN z) <= B2R c * (1 + 2 * u).
  Proof.
    intros H Hz. assert (C0 : 0 < B2R c) by (assert (G := bpow_gt_0 radix2 (2 - emax)); lra).
    assert (Fc : generic_format radix2 fexp (B2R c)) by apply generic_format_B2R.
    assert (Hs : succ radix2 fexp (B2R c) = B2R c + ulp radix2 fexp (B2R c)) by (apply succ_eq_pos; lra).
    assert (U1 : B2R c * u <= ulp radix2 fexp (B2R c)).
    { assert (G := ulp_FLT_gt radix2 (SpecFloat.emin prec emax) prec (B2R c)). rewrite Rabs_pos_eq in G by lra. apply Rlt_le, G. }
    assert (U2 : ulp radix2 fexp (B2R c) <= B2R c * (2 * u)).
    { assert (G := ulp_FLT_le radix2 (SpecFloat.emin prec emax) prec (B2R c)).
      replace (SpecFloat.emin prec emax + prec - 1)%Z with (2 - emax)%Z in G by (unfold SpecFloat.emin; lia).
      rewrite Rabs_pos_eq in G by lra. specialize (G H). unfold Zminus in G. rewrite bpow_plus in G.
      change (bpow radix2 1) with 2 in G. exact G. }
    eapply Rle_trans; [apply (RN_abs_le prec emax z (succ radix2 fexp (B2R c)))|]; try lra.
    apply generic_format_succ; [apply fexp_correct; exact Hp|exact Fc].
  Qed.

  Lemma f_limit (c x e : F) :
    is_finite c = true -> is_finite x = true -> is_finite e = true -> 0 < B2R c -> Rabs (B2R x) <= B2R e ->
    let y := limit O c x e in
    is_finite y = true /\ Rabs (B2R y) <= Rabs (B2R x) /\ 0 <= B2R x * B2R y
    /\ (bpow radix2 (2 - emax) <= B2R c -> bpow radix2 (2 - emax) * B2R e <= B2R c -> Rabs (B2R y) <= B2R c * (1 + 2 * u)).
  Proof.
    intros Fc Fx Fe Hc He y. unfold y, limit. cbn [n_lt n_mul n_div ieee_ops].
    rewrite Bltb_correct by assumption. assert (U := bpow_gt_0 radix2 (- prec)).
    destruct (Rlt_bool_spec (B2R c) (B2R e)) as [H|H].
    - set (q := B2R c / B2R e). assert (Q0 : 0 < q) by (apply Rdiv_lt_0_compat; lra).
      assert (Q1 : q <= 1) by (unfold q; apply (Rmult_le_reg_r (B2R e)); [lra|]; unfold Rdiv; rewrite Rmult_assoc, Rinv_l by lra; lra).
      assert (F1 : generic_format radix2 fexp 1) by apply (format_F2R_1 prec emax).
      assert (B1 : 1 < bpow radix2 emax) by apply (one_lt_emax prec emax).
      destruct (div_ok prec emax c e 1 Fc ltac:(lra) F1 B1) as [D1 D2].
      { fold q. rewrite Rabs_pos_eq; lra. }
      fold q in D2. set (g := f_div prec emax c e) in *. clearbody g.
      assert (G0 : 0 <= B2R g) by (rewrite D2, <- (RN_0 prec emax); apply (RN_le prec emax); lra).
      assert (G1 : B2R g <= 1) by (rewrite D2, <- (RN_id prec emax 1 F1); apply (RN_le prec emax); lra).
      assert (FX : generic_format radix2 fexp (Rabs (B2R x))) by (apply generic_format_abs, generic_format_B2R).
      assert (P : Rabs (B2R x * B2R g) <= Rabs (B2R x)).
      { rewrite Rabs_mult, (Rabs_pos_eq (B2R g)) by exact G0. rewrite <- (Rmult_1_r (Rabs (B2R x))) at 2.
        apply Rmult_le_compat_l; [apply Rabs_pos|exact G1]. }
      destruct (mul_ok prec emax x g (Rabs (B2R x)) Fx D1 FX (abs_B2R_lt_emax _ _ x) P) as [M1 M2].
      split; [exact M1|]. rewrite M2. split; [apply (RN_abs_le prec emax); assumption|]. split.
      + destruct (Rle_or_lt 0 (B2R x)) as [S|S].
        * apply Rmult_le_pos; [exact S|]. rewrite <- (RN_0 prec emax). apply (RN_le prec emax), Rmult_le_pos; assumption.
        * assert (K : RN (B2R x * B2R g) <= 0).
          { rewrite <- (RN_0 prec emax). apply (RN_le prec emax).
            assert (0 <= (- B2R x) * B2R g) by (apply Rmult_le_pos; lra). lra. }
          assert (0 <= (- B2R x) * (- RN (B2R x * B2R g))) by (apply Rmult_le_pos; lra). lra.
      + intros C1 C2. apply RN_ceiling; [exact C1|].
        assert (Rq : Rabs (RN q - q) <= u * Rabs q).
        { apply RN_rel. rewrite Rabs_pos_eq by lra. unfold q. apply (Rmult_le_reg_r (B2R e)); [lra|].
          unfold Rdiv. rewrite Rmult_assoc, Rinv_l by lra. lra. }
        rewrite <- D2, (Rabs_pos_eq q) in Rq by lra. apply Rabs_le_inv in Rq.
        rewrite Rabs_mult, (Rabs_pos_eq (B2R g)) by exact G0.
        apply Rle_trans with (B2R e * (q * (1 + u))).
        * apply Rmult_le_compat; try apply Rabs_pos; try lra.
        * right. unfold q. field. lra.
    - split; [exact Fx|]. split; [lra|]. split; [apply Rle_0_sqr|]. intros _ _.
      assert (0 <= B2R c * (2 * u)) by (apply Rmult_le_pos; lra). lra.
  Qed.

  Lemma f_transparent (c x e : F) : is_finite c = true -> is_finite e = true -> B2R e <= B2R c -> limit O c x e = x.
  Proof.
    intros Fc Fe H. unfold limit. cbn [n_lt ieee_ops]. rewrite Bltb_correct by assumption. rewrite Rlt_bool_false by exact H. reflexivity.
  Qed.

  Lemma f_limiter (Q : F * F -> Prop) (c : F) m cs : 0 <= m ->
    instant_attack cs -> calls_ok O V (within V (- m) m) cs ->
    (forall x e, is_finite x = true -> is_finite e = true -> Rabs (B2R x) <= B2R e <= m -> Q (x, limit O c x e)) ->
    Forall Q (limiter O c (peak_new O) cs).
  Proof.
    intros H0 Ha Hc HQ.
    apply (limiter_inv O c (finv m)
             (fun k => match k with CSet (SetAttack _) => False | _ => True end
                       /\ match k with
                          | CProcess x => within V (- m) m x
                          | CSet k => good_length V (set_length k) -> unit_interval V (gain_of O (set_length k))
                          | _ => True end)).
    - intros s k Hs [H1 H2]. apply f_step; [exact H0|exact Hs|]. destruct k as [x| |[l|l]|]; assumption.
    - intros s x Hs [_ [Fx Hx]]. cbn [fin val ieee_view] in *. assert (Ax : Rabs (B2R x) <= m) by (apply Rabs_le; exact Hx).
      destruct (f_env m s x Hs Fx Ax) as [E1 E2]. apply HQ; assumption.
    - apply finv_new, H0.
    - apply both; assumption.
  Qed.
End F.

(** C115: in [f32] and [f64], a signal that stays within the ceiling is passed bit for bit,
    whatever the release. *)
Lemma C115_transparent_thm :
  forall (T : Type) (O : num_ops T) (V : float_view T) (c : T) (cs : list (call (det_set T) T)),
    ieee O V -> fin V c = true -> 0 <= val V c ->
    calls_ok O V (within V (- val V c) (val V c)) cs ->
    Forall (fun xy : T * T => snd xy = fst xy) (limiter O c (peak_new O) cs).
Proof.
  assert (Gen : forall prec emax (Hp : Prec_gt_0 prec) (Hm : Prec_lt_emax prec emax) (Hm3 : (3 <= emax)%Z) pim pie sz lm nn,
    let O := ieee_ops prec emax pim pie sz lm nn in let V := ieee_view prec emax in
    forall c cs, fin V c = true -> 0 <= val V c -> calls_ok O V (within V (- val V c) (val V c)) cs ->
    Forall (fun xy => snd xy = fst xy) (limiter O c (peak_new O) cs)).
  { intros prec emax Hp Hm Hm3 pim pie sz lm nn O V c cs Fc Hc Hk.
    apply (limiter_inv O c (pinv prec emax (val V c))
             (fun k => match k with
                       | CProcess x => within V (- val V c) (val V c) x
                       | CSet k => good_length V (set_length k) -> unit_interval V (gain_of O (set_length k))
                       | _ => True end)).
    - intros s k Hs H. apply (peak_step_inv prec emax Hm3 pim pie sz lm nn _ Hc s k Hs H).
    - intros s x Hs H. cbn [fst snd].
      destruct (proj2 (peak_step_inv prec emax Hm3 pim pie sz lm nn _ Hc s (CProcess x) Hs H) (snd (d_process (dev_peak O) s x))
                  eq_refl) as [E1 E2].
      apply (f_transparent prec emax pim pie sz lm nn); [exact Fc|exact E1|apply E2].
    - apply (pinv_new prec emax), Hc.
    - exact Hk. }
  intros T O V c cs HO. destruct HO as [lm b|lm b].
  - exact (Gen 24%Z 128%Z _ _ le3_32 _ _ _ lm b c cs).
  - exact (Gen 53%Z 1024%Z _ _ le3_64 _ _ _ lm b c cs).
Qed.

(*@PROP
Example C115_transparent_hyps :
  calls_ok (f32_ops lm_half false) (ieee_view 24 128) (within (ieee_view 24 128) (- val (ieee_view 24 128) (fl32 3 (-2))) (val (ieee_view 24 128) (fl32 3 (-2))))
    [CSet (SetAttack (fl32 1 1)); CProcess (fl32 (-3) (-2)); CSet (SetRelease (fl32 1 1)); CProcess (fl32 1 (-1)); CLastOut; CClear].
Proof.
  repeat (apply Forall_cons || apply Forall_nil); try exact I; try (intros _); try reflexivity;
    (split; [reflexivity|]); cbn; unfold F2R; cbn; lra.
Qed.
@*)

(** C115: in [f32] and [f64] with an instantaneous attack, every limited sample is finite, never
    louder than the input sample and never of the opposite sign.  If the samples are within [X],
    and the ceiling is at least the smallest normal number and at least [X] times that, every
    limited sample is at most one unit in the last place above the ceiling. *)
Lemma C115_float_ceiling_thm :
  forall (T : Type) (O : num_ops T) (V : float_view T) (c : T) (X : R) (cs : list (call (det_set T) T)),
    ieee O V -> fin V c = true -> 0 < val V c -> 0 <= X ->
    instant_attack cs -> calls_ok O V (within V (- X) X) cs ->
    Forall (fun xy : T * T => let (x, y) := xy in
              fin V y = true /\ Rabs (val V y) <= Rabs (val V x) /\ 0 <= val V x * val V y
              /\ (fmin V <= val V c -> fmin V * X <= val V c -> Rabs (val V y) <= val V c * (1 + 2 * half_ulp V)))
           (limiter O c (peak_new O) cs).
Proof.
  assert (Gen : forall prec emax (Hp : Prec_gt_0 prec) (Hm : Prec_lt_emax prec emax) (Hm3 : (3 <= emax)%Z) pim pie sz lm nn,
    let O := ieee_ops prec emax pim pie sz lm nn in let V := ieee_view prec emax in
    forall c X cs, fin V c = true -> 0 < val V c -> 0 <= X -> instant_attack cs -> calls_ok O V (within V (- X) X) cs ->
    Forall (fun xy : binary_float prec emax * binary_float prec emax => let (x, y) := xy in
              fin V y = true /\ Rabs (val V y) <= Rabs (val V x) /\ 0 <= val V x * val V y
              /\ (fmin V <= val V c -> fmin V * X <= val V c -> Rabs (val V y) <= val V c * (1 + 2 * half_ulp V)))
           (limiter O c (peak_new O) cs)).
  { intros prec emax Hp Hm Hm3 pim pie sz lm nn O V c X cs Fc Hc HX Ha Hk.
    apply (f_limiter prec emax Hm3 pim pie sz lm nn _ c X cs HX Ha Hk).
    intros x e Fx Fe [He1 He2]. destruct (f_limit prec emax pim pie sz lm nn c x e Fc Fx Fe Hc He1) as [G1 [G2 [G3 G4]]].
    split; [exact G1|]. split; [exact G2|]. split; [exact G3|]. intros C1 C2. apply G4; [exact C1|].
    eapply Rle_trans; [|exact C2]. apply Rmult_le_compat_l; [apply bpow_ge_0|exact He2]. }
  intros T O V c X cs HO. destruct HO as [lm b|lm b].
  - exact (Gen 24%Z 128%Z _ _ le3_32 _ _ _ lm b c X cs).
  - exact (Gen 53%Z 1024%Z _ _ le3_64 _ _ _ lm b c X cs).
Qed.

(*@PROP
(* a ceiling of 3/4 and samples up to 2 *)
Example C115_float_ceiling_hyps :
  instant_attack [CSet (SetRelease (fl32 1 1)); CProcess (fl32 (-3) (-2)); CProcess (fl32 1 1); CClear; CProcess (fl32 1 0)]
  /\ calls_ok (f32_ops lm_half false) (ieee_view 24 128) (within (ieee_view 24 128) (-2) 2)
       [CSet (SetRelease (fl32 1 1)); CProcess (fl32 (-3) (-2)); CProcess (fl32 1 1); CClear; CProcess (fl32 1 0)].
Proof.
  split; repeat (apply Forall_cons || apply Forall_nil); try exact I; try (intros _); try reflexivity;
    (split; [reflexivity|]); cbn; unfold F2R; cbn; lra.
Qed.
@*)

(** C115: one unit is needed.  A limiter with ceiling 0.9f32 fed the single sample 5.875 returns the float
    after 0.9f32. *)
Lemma C115_float_exact_ceiling_refuted_thm :
  exists y : f32, limiter O32 (fl32 15099494 (-24)) (peak_new O32) [CProcess (fl32 47 (-3))] = [(fl32 47 (-3), y)]
    /\ val (ieee_view 24 128) (fl32 15099494 (-24)) < val (ieee_view 24 128) y.
Proof.
  eexists. split; [reflexivity|].
  replace (limit O32 _ _ _) with (fl32 15099495 (-24)) by (apply B2SF_inj; vm_compute; reflexivity).
  cbn [val ieee_view]. replace (B2R (fl32 15099494 (-24))) with (15099494 / 16777216) by (lit; lra).
  replace (B2R (fl32 15099495 (-24))) with (15099495 / 16777216) by (lit; lra). lra.
Qed.
