(** Lemmas behind property C124.  The [@PROP] blocks are copied into [PropDc.v]. *)
(*@PROP
(** Property C124: steps settle exactly in [f32] and [f64], and which of the two orders of a DC blocker
    (a difference [OneZero (1, -1)] and a leaky [OnePole (1, -r)]) removes a constant exactly.

    Vocabulary: [below], [orderly] ([OrderSpec]); [stream D k x n]: what a new object configured with [k]
    returns for sample [n] of [x] ([FltFilterSpec]); so [stream D' k' (stream D k x)] is the output of the
    chain of the two. *)
From Coq Require Import ZArith Reals List Bool Lra Lia.
From Flocq Require Import Core.Core IEEE754.BinarySingleNaN.
From Verif Require Import Base Num NumF Witness FloatSpec FilterM RbjM AnalysisM Device FltFilterSpec FltFilterLemmas OrderSpec DcLemmas.
Import ListNotations.
Open Scope R_scope.
@*)
From Coq Require Import ZArith Reals List Bool Lra Lia Classical.
From Flocq Require Import Core.Core IEEE754.BinarySingleNaN.
From Verif Require Import Base Num NumF Witness FloatSpec FloatFacts SmoothF FilterM RbjM AnalysisM Device FltFilterSpec FltFilterFacts FltFilterLemmas
  OrderSpec OrderLemmas TailFacts.
Import ListNotations.
Open Scope R_scope.

(** A rising sequence of integers with an upper bound is constant from some point on. *)
Lemma Z_settles (m : nat -> Z) (B : Z) : (forall n, (m n <= m (S n))%Z) -> (forall n, (m n <= B)%Z) ->
  exists N, forall n, (N <= n)%nat -> m n = m N.
Proof.
  intros Hm HB.
  assert (Mono : forall i j, (i <= j)%nat -> (m i <= m j)%Z).
  { intros i j H. induction H as [|j H IH]; [lia|]. specialize (Hm j). lia. }
  assert (G : forall d N, (B - m N <= Z.of_nat d)%Z -> exists N, forall n, (N <= n)%nat -> m n = m N).
  { induction d as [|d IH]; intros N HN.
    - exists N. intros n Hn. assert (A := Mono N n Hn). assert (C := HB n). lia.
    - destruct (classic (exists n, (N <= n)%nat /\ m n <> m N)) as [[n [Hn Hne]]|Hno].
      + apply (IH n). assert (A := Mono N n Hn). lia.
      + exists N. intros n Hn. destruct (Z.eq_dec (m n) (m N)) as [E|E]; [exact E|]. exfalso. apply Hno. exists n. tauto. }
  apply (G (Z.to_nat (B - m 0%nat)) 0%nat). lia.
Qed.

Section Settle.
  Context (prec emax : Z) {Hp : Prec_gt_0 prec} {Hm : Prec_lt_emax prec emax} (Hm3 : (3 <= emax)%Z).
  Notation F := (binary_float prec emax).
  Notation V := (ieee_view prec emax).
  Notation RN := (round radix2 (SpecFloat.fexp prec emax) (round_mode mode_NE)).

  Let em := (3 - emax - prec)%Z.

  Lemma fl_grid (f : F) : exists k : Z, B2R f = IZR k * bpow radix2 em.
  Proof using Hp Hm.
    destruct f as [s|s| |s m e Hb]; try (exists 0%Z; cbn; ring).
    cbn [B2R]. unfold F2R. cbn [Fnum Fexp].
    assert (He : (em <= e)%Z).
    { unfold SpecFloat.bounded in Hb. apply andb_prop in Hb. destruct Hb as [Hc _]. unfold SpecFloat.canonical_mantissa in Hc.
      apply Zeq_bool_eq in Hc. unfold SpecFloat.fexp, SpecFloat.emin in Hc. unfold em. lia. }
    exists (SpecFloat.cond_Zopp s (Z.pos m) * 2 ^ (e - em))%Z.
    rewrite mult_IZR, (IZR_Zpower radix2) by lia. rewrite Rmult_assoc, <- bpow_plus. do 2 f_equal. lia.
  Qed.

  Lemma fl_lt_bpow (f : F) : B2R f < bpow radix2 emax.
  Proof using Hp Hm. apply Rle_lt_trans with (Rabs (B2R f)); [apply Rle_abs|apply abs_B2R_lt_emax]. Qed.

  Lemma rising_settles (y : nat -> F) : (forall n, B2R (y n) <= B2R (y (S n))) -> exists N, forall n, (N <= n)%nat -> B2R (y n) = B2R (y N).
  Proof using Hp Hm Hm3.
    intros Hy.
    assert (E : exists m : nat -> Z, forall n, B2R (y n) = IZR (m n) * bpow radix2 em).
    { exists (fun n => Ztrunc (B2R (y n) * bpow radix2 (- em))). intros n. destruct (fl_grid (y n)) as [k Hk].
      rewrite Hk at 2. rewrite Rmult_assoc, <- bpow_plus, Z.add_opp_diag_r. cbn [bpow]. rewrite Rmult_1_r, Ztrunc_IZR. exact Hk. }
    destruct E as [m E]. assert (P := bpow_gt_0 radix2 em).
    destruct (Z_settles m (2 ^ (emax - em))) as [N HN].
    - intros n. apply le_IZR. apply Rmult_le_reg_r with (bpow radix2 em); [exact P|]. rewrite <- !E. apply Hy.
    - intros n. apply le_IZR. apply Rmult_le_reg_r with (bpow radix2 em); [exact P|].
      rewrite (IZR_Zpower radix2) by (unfold em, Prec_gt_0, Prec_lt_emax in *; lia). rewrite <- bpow_plus.
      replace (emax - em + em)%Z with emax by lia. rewrite <- E. apply Rlt_le, fl_lt_bpow.
    - exists N. intros n Hn. rewrite !E, (HN n Hn). reflexivity.
  Qed.

  Context (pim pie sz : Z) (lm : libm F) (nn : bool).
  Notation O := (ieee_ops prec emax pim pie sz lm nn).
  Notation fadd := (f_add prec emax).
  Notation fmul := (f_mul prec emax).

  Lemma one_val : is_finite (n_one O) = true /\ B2R (n_one O) = 1.
  Proof using Hp Hm Hm3. split; [apply is_finite_Bone|apply Bone_correct]. Qed.

  Lemma mul_one_fin (x : F) : is_finite x = true -> is_finite (fmul (n_one O) x) = true /\ B2R (fmul (n_one O) x) = B2R x.
  Proof using Hp Hm Hm3.
    intros Hx. destruct one_val as [F1 V1].
    destruct (mul_ok prec emax (n_one O) x (Rabs (B2R x)) F1 Hx) as [A B].
    - apply generic_format_abs, generic_format_B2R.
    - apply abs_B2R_lt_emax.
    - rewrite V1, Rmult_1_l. apply Rle_refl.
    - split; [exact A|]. rewrite B, V1, Rmult_1_l. apply (RN_B2R prec emax).
  Qed.

  Lemma mul_mone_fin (m x : F) : is_finite m = true -> B2R m = -1 -> is_finite x = true ->
    is_finite (fmul m x) = true /\ B2R (fmul m x) = - B2R x.
  Proof using Hp Hm Hm3.
    intros Fm Vm Hx.
    destruct (mul_ok prec emax m x (Rabs (B2R x)) Fm Hx) as [A B].
    - apply generic_format_abs, generic_format_B2R.
    - apply abs_B2R_lt_emax.
    - rewrite Vm. replace (-1 * B2R x) with (- B2R x) by ring. rewrite Rabs_Ropp. apply Rle_refl.
    - split; [exact A|]. rewrite B, Vm. replace (-1 * B2R x) with (- B2R x) by ring. apply RN_id; try assumption. apply generic_format_opp, generic_format_B2R.
  Qed.

  Notation fsub := (f_sub prec emax).
  Notation fb := (fb prec emax).
  Context (m1 : F) (Fm1 : is_finite m1 = true) (Vm1 : B2R m1 = -1).

  (** The difference filter. *)
  Lemma diff_step (x : nat -> F) n (B : R) : generic_format radix2 (SpecFloat.fexp prec emax) B -> B < bpow radix2 emax ->
    is_finite (x n) = true -> is_finite (fb 1 x n) = true -> Rabs (B2R (x n) - B2R (fb 1 x n)) <= B ->
    is_finite (stream (dev_one_zero O) (n_one O, m1) x n) = true
    /\ B2R (stream (dev_one_zero O) (n_one O, m1) x n) = RN (B2R (x n) - B2R (fb 1 x n)).
  Proof using Hp Hm Hm3 Fm1 Vm1.
    intros FB LB Hx Hb Hd.
    rewrite (unroll_one_zero prec emax O eq_refl eq_refl eq_refl x (n_one O) m1 n).
    destruct (mul_one_fin (x n) Hx) as [A1 A2]. destruct (mul_mone_fin m1 (fb 1 x n) Fm1 Vm1 Hb) as [C1 C2].
    destruct (add_ok prec emax _ _ B A1 C1 FB LB) as [G1 G2]; rewrite ?A2, ?C2.
    - replace (B2R (x n) + - B2R (fb 1 x n)) with (B2R (x n) - B2R (fb 1 x n)) by ring. exact Hd.
    - split; [exact G1|]. rewrite G2, A2, C2. f_equal.
  Qed.

  Lemma diff_same (x : nat -> F) n : is_finite (x n) = true -> is_finite (fb 1 x n) = true -> B2R (x n) = B2R (fb 1 x n) ->
    is_finite (stream (dev_one_zero O) (n_one O, m1) x n) = true
    /\ B2R (stream (dev_one_zero O) (n_one O, m1) x n) = 0.
  Proof using Hp Hm Hm3 Fm1 Vm1.
    intros Hx Hb E. destruct (diff_step x n 0) as [A B].
    - apply generic_format_0.
    - apply bpow_gt_0.
    - exact Hx.
    - exact Hb.
    - rewrite E, Rminus_diag_eq, Rabs_R0 by reflexivity. apply Rle_refl.
    - split; [exact A|]. rewrite B, E, Rminus_diag_eq by reflexivity. apply (RN_0 prec emax).
  Qed.

  Context (a1 : F) (Fa1 : is_finite a1 = true).

  Lemma pole_step (x : nat -> F) n (B : R) : generic_format radix2 (SpecFloat.fexp prec emax) B -> B < bpow radix2 emax ->
    Rabs (B2R a1) <= 1 ->
    is_finite (x n) = true -> is_finite (fb 1 (stream (dev_one_pole O) (n_one O, a1) x) n) = true ->
    Rabs (B2R (x n) - RN (B2R a1 * B2R (fb 1 (stream (dev_one_pole O) (n_one O, a1) x) n))) <= B ->
    is_finite (stream (dev_one_pole O) (n_one O, a1) x n) = true
    /\ B2R (stream (dev_one_pole O) (n_one O, a1) x n)
       = RN (B2R (x n) - RN (B2R a1 * B2R (fb 1 (stream (dev_one_pole O) (n_one O, a1) x) n))).
  Proof using Hp Hm Hm3 Fa1.
    intros FB LB Ha Hx Hb Hd.
    rewrite (unroll_one_pole prec emax O eq_refl eq_refl eq_refl x (n_one O) a1 n).
    set (yb := fb 1 (stream (dev_one_pole O) (n_one O, a1) x) n) in *.
    destruct (mul_one_fin (x n) Hx) as [A1 A2].
    destruct (mul_ok prec emax a1 yb (Rabs (B2R yb)) Fa1 Hb) as [C1 C2].
    - apply generic_format_abs, generic_format_B2R.
    - apply abs_B2R_lt_emax.
    - rewrite Rabs_mult. rewrite <- (Rmult_1_l (Rabs (B2R yb))) at 2. apply Rmult_le_compat_r; [apply Rabs_pos|exact Ha].
    - destruct (sub_ok prec emax _ _ B A1 C1 FB LB) as [G1 G2]; rewrite ?A2, ?C2; [exact Hd|].
      split; [exact G1|]. rewrite G2, A2, C2. reflexivity.
  Qed.

  (** The leaky integrator stays below 2^k. *)
  Context (k : Z) (Hk : (0 <= k)%Z) (Hk2 : (k < emax)%Z) (Ha : -1 <= B2R a1 <= 0).

  Lemma fmt_pow : generic_format radix2 (SpecFloat.fexp prec emax) (bpow radix2 k).
  Proof using Hp Hm Hm3 Hk. clear - Hp Hm Hm3 Hk. apply generic_format_bpow. unfold SpecFloat.fexp, SpecFloat.emin. unfold Prec_gt_0, Prec_lt_emax in *. lia. Qed.

  Lemma fmt_apow : generic_format radix2 (SpecFloat.fexp prec emax) (B2R a1 * bpow radix2 k).
  Proof using Hp Hm Hm3 Hk.
    clear - Hp Hm Hk. destruct (Req_dec (B2R a1) 0) as [E|E]; [rewrite E, Rmult_0_l; apply generic_format_0|].
    assert (G : generic_format radix2 (SpecFloat.fexp prec emax) (B2R a1)) by apply generic_format_B2R.
    destruct (FLT_format_generic radix2 (SpecFloat.emin prec emax) prec _ G) as [[mm ee] H1 H2 H3].
    apply (generic_format_FLT radix2 (SpecFloat.emin prec emax) prec). exists (Float radix2 mm (ee + k)).
    - rewrite H1. unfold F2R. cbn [Fnum Fexp]. rewrite bpow_plus. ring.
    - exact H2.
    - cbn [Fexp] in *. lia.
  Qed.

  Lemma pole_bounded (x : nat -> F) : (forall n, is_finite (x n) = true /\ 0 <= B2R (x n) <= (1 + B2R a1) * bpow radix2 k) ->
    forall n, is_finite (stream (dev_one_pole O) (n_one O, a1) x n) = true
              /\ 0 <= B2R (stream (dev_one_pole O) (n_one O, a1) x n) <= bpow radix2 k.
  Proof using Hp Hm Hm3 Fa1 Hk Hk2 Ha.
    clear Vm1 Fm1. intros Hx. set (y := stream (dev_one_pole O) (n_one O, a1) x).
    assert (P := bpow_gt_0 radix2 k).
    assert (G : forall n, is_finite (fb 1 y n) = true /\ 0 <= B2R (fb 1 y n) <= bpow radix2 k ->
                is_finite (y n) = true /\ 0 <= B2R (y n) <= bpow radix2 k).
    { intros n [Fb [Lb Ub]]. destruct (Hx n) as [Fx [Lx Ux]].
      assert (M1 : B2R a1 * bpow radix2 k <= RN (B2R a1 * B2R (fb 1 y n))).
      { rewrite <- (RN_id prec emax _ fmt_apow). apply (RN_le prec emax). nra. }
      assert (M2 : RN (B2R a1 * B2R (fb 1 y n)) <= 0).
      { rewrite <- (RN_0 prec emax). apply (RN_le prec emax). nra. }
      assert (Q : Rabs (B2R (x n) - RN (B2R a1 * B2R (fb 1 y n))) <= bpow radix2 k) by (apply Rabs_le; lra).
      destruct (pole_step x n (bpow radix2 k) fmt_pow) as [A B]; try assumption.
      - apply bpow_lt. exact Hk2.
      - apply Rabs_le. lra.
      - split; [exact A|]. change (stream (dev_one_pole O) (n_one O, a1) x n) with (y n) in B.
        change (stream (dev_one_pole O) (n_one O, a1) x) with y in B. rewrite B. split.
        + rewrite <- (RN_0 prec emax). apply (RN_le prec emax). lra.
        + rewrite <- (RN_id prec emax _ fmt_pow). apply (RN_le prec emax). apply Rabs_le_inv in Q. lra. }
    induction n as [|n IH]; apply G.
    - split; [reflexivity|]. cbn. lra.
    - rewrite fb_SS, fb_0. exact IH.
  Qed.
End Settle.


(** C124: fed with a signal that starts at or above zero and never falls (a step, say), a newly
    configured filter with pushing coefficients either overflows or, from some sample on, returns
    exactly the same number for ever. *)
Lemma C124_settles_thm :
  forall (T : Type) (O : num_ops T) (V : float_view T), ieee O V ->
  forall (S K : Type) (D : device S K T) (ok : K -> Prop), orderly O V D ok ->
  forall (k : K) (x : nat -> T), ok k ->
    below V (n_zero O) (x 0%nat) -> (forall n, below V (x n) (x (Datatypes.S n))) ->
    (exists n, fin V (stream D k x n) = false)
    \/ exists N : nat, forall n, (N <= n)%nat -> fin V (stream D k x n) = true /\ val V (stream D k x n) = val V (stream D k x N).
Proof.
  intros T O V HO S K D ok Hd k x Hk H0 Hx.
  assert (R := C118_rising_thm T O V HO S K D ok Hd k x Hk H0 Hx).
  destruct (classic (exists n, fin V (stream D k x n) = false)) as [E|E]; [left; exact E|right].
  assert (A : forall n, fin V (stream D k x n) = true).
  { intros n. destruct (fin V (stream D k x n)) eqn:Q; [reflexivity|]. exfalso. apply E. exists n. exact Q. }
  assert (R' : forall n, val V (stream D k x n) <= val V (stream D k x (Datatypes.S n))) by (intros n; apply R; apply A).
  assert (G : exists N : nat, forall n, (N <= n)%nat -> val V (stream D k x n) = val V (stream D k x N)).
  { destruct HO; [apply (rising_settles 24 128)|apply (rising_settles 53 1024)]; try exact R'; lia. }
  destruct G as [N G]. exists N. intros n Hn. split; [apply A|apply G, Hn].
Qed.

(*@PROP
Example C124_settles_hyps :
  let O := O32 in let V := ieee_view 24 128 in
  ieee O V /\ pushing V (fl32 1 0, fl32 1 1, fl32 1 0, fl32 (-1) (-1), fl32 (-1) (-2))
  /\ below V (n_zero O) (fl32 3 0) /\ forall n : nat, below V ((fun _ => fl32 3 0) n) ((fun _ => fl32 3 0) (S n)).
Proof.
  split; [constructor|]. split; [repeat split; cbn [val ieee_view]; lit; lra|].
  split; [intros _ _; cbn [val ieee_view]; lit; lra|]. intros n _ _. apply Rle_refl.
Qed.
@*)

Lemma dc_pole (T : Type) (O : num_ops T) (V : float_view T) : ieee O V ->
  forall (a1 : T) (k : Z) (x : nat -> T),
    fin V a1 = true -> -1 <= val V a1 <= 0 -> (0 <= k)%Z -> bpow radix2 k <= fmax V ->
    (forall n, fin V (x n) = true /\ 0 <= val V (x n) <= (1 + val V a1) * bpow radix2 k) ->
    forall n, fin V (stream (dev_one_pole O) (n_one O, a1) x n) = true
              /\ 0 <= val V (stream (dev_one_pole O) (n_one O, a1) x n) <= bpow radix2 k.
Proof.
  intros HO a1 k x Fa Ha Hk Hk2 Hx.
  assert (L : forall prec emax, fmax (ieee_view prec emax) < bpow radix2 emax).
  { intros prec emax. cbn. assert (A := bpow_gt_0 radix2 (- prec)). assert (B := bpow_gt_0 radix2 emax). nra. }
  destruct HO; cbn [val fin ieee_view] in *.
  - apply (pole_bounded 24 128); try assumption; [lia|]. apply (lt_bpow radix2). apply Rle_lt_trans with (1 := Hk2). apply L.
  - apply (pole_bounded 53 1024); try assumption; [lia|]. apply (lt_bpow radix2). apply Rle_lt_trans with (1 := Hk2). apply L.
Qed.

(** C124: a DC blocker with the leaky integrator first, y = [OnePole (1, -r)] and then
    [OneZero (1, -1)] with 0 <= r < 1, answers a constant (or any rising signal) with exactly zero from some
    sample on, rounding included. *)
Lemma C124_integrator_first_thm :
  forall (T : Type) (O : num_ops T) (V : float_view T), ieee O V ->
  forall (r1 m1 : T) (k : Z) (x : nat -> T),
    fin V r1 = true -> -1 < val V r1 <= 0 -> fin V m1 = true -> val V m1 = -1 ->
    (0 <= k)%Z -> bpow radix2 k <= fmax V ->
    (forall n, fin V (x n) = true /\ 0 <= val V (x n) <= (1 + val V r1) * bpow radix2 k) ->
    (forall n, val V (x n) <= val V (x (S n))) ->
    exists N : nat, forall n, (N <= n)%nat ->
      let y := stream (dev_one_zero O) (n_one O, m1) (stream (dev_one_pole O) (n_one O, r1) x) n in
      fin V y = true /\ val V y = 0.
Proof.
  intros T O V HO r1 m1 k x Fr Hr Fm Vm Hk Hk2 Hx Hmono.
  assert (Hb := dc_pole T O V HO r1 k x Fr ltac:(lra) Hk Hk2 Hx).
  assert (V1 : 0 <= val V (n_one O)).
  { destruct HO; cbn [val ieee_view].
    - assert (Q : B2R (n_one (f32_ops lm b)) = 1) by apply (Bone_correct 24 128). rewrite Q. lra.
    - assert (Q : B2R (n_one (f64_ops lm b)) = 1) by apply (Bone_correct 53 1024). rewrite Q. lra. }
  destruct (C124_settles_thm T O V HO _ _ (dev_one_pole O) _ (or_one_pole O V) (n_one O, r1) x (conj V1 (proj2 Hr))) as [[n E]|[N HN]].
  - intros _ _. replace (val V (n_zero O)) with 0 by (destruct HO; reflexivity). apply Hx.
  - intros n _ _. apply Hmono.
  - rewrite (proj1 (Hb n)) in E. discriminate E.
  - exists (S N). intros n Hn y. subst y. set (y := stream (dev_one_pole O) (n_one O, r1) x) in *.
    destruct n as [|n]; [lia|].
    assert (E : val V (y (S n)) = val V (y n)).
    { transitivity (val V (y N)); [apply HN; lia|symmetry; apply HN; lia]. }
    destruct HO; cbn [val fin ieee_view] in *.
    + apply (diff_same 24 128 ltac:(lia) _ _ _ lm b m1 Fm Vm); rewrite ?fb_SS, ?fb_0; [apply Hb|apply Hb|exact E].
    + apply (diff_same 53 1024 ltac:(lia) _ _ _ lm b m1 Fm Vm); rewrite ?fb_SS, ?fb_0; [apply Hb|apply Hb|exact E].
Qed.

(*@PROP
(* r = 15/16, k = 4 and a step of 1 *)
Example C124_integrator_first_hyps :
  let V := ieee_view 24 128 in let r1 := fl32 (-15) (-4) in let m1 := fl32 (-1) 0 in let x := fun _ : nat => fl32 1 0 in
  fin V r1 = true /\ -1 < val V r1 <= 0 /\ fin V m1 = true /\ val V m1 = -1
  /\ bpow radix2 4 <= fmax V
  /\ (forall n, fin V (x n) = true /\ 0 <= val V (x n) <= (1 + val V r1) * bpow radix2 4)
  /\ (forall n, val V (x n) <= val V (x (S n))).
Proof.
  cbv zeta. cbn [val fin ieee_view fmax].
  assert (E1 : B2R (fl32 (-15) (-4)) = -15/16) by (lit; lra). assert (E2 : B2R (fl32 (-1) 0) = -1) by (lit; lra).
  assert (E3 : B2R (fl32 1 0) = 1) by (lit; lra). rewrite E1, E2, E3.
  split; [reflexivity|]. split; [lra|]. split; [reflexivity|]. split; [reflexivity|]. split.
  - assert (A : bpow radix2 (-24) <= bpow radix2 (-1)) by (apply bpow_le; lia).
    assert (B : bpow radix2 5 <= bpow radix2 128) by (apply bpow_le; lia).
    change (bpow radix2 (-1)) with (/ 2) in A. change (bpow radix2 5) with 32 in B. change (bpow radix2 4) with 16.
    assert (C : 1/2 * 32 <= (1 - bpow radix2 (-24)) * bpow radix2 128) by (apply Rmult_le_compat; lra). change (- (24))%Z with (-24)%Z. lra.
  - split; intros n; [|lra]. split; [reflexivity|]. change (bpow radix2 4) with 16. lra.
Qed.
@*)

Section First.
  Context (prec emax : Z) {Hp : Prec_gt_0 prec} {Hm : Prec_lt_emax prec emax} (Hm3 : (3 <= emax)%Z).
  Notation F := (binary_float prec emax).
  Context (pim pie sz : Z) (lm : libm F) (nn : bool).
  Notation O := (ieee_ops prec emax pim pie sz lm nn).
  Notation RN := (round radix2 (SpecFloat.fexp prec emax) (round_mode mode_NE)).

  Lemma diff_const (m1 c : F) : is_finite m1 = true -> B2R m1 = -1 -> is_finite c = true ->
    forall n, is_finite (stream (dev_one_zero O) (n_one O, m1) (fun _ => c) n) = true
      /\ B2R (stream (dev_one_zero O) (n_one O, m1) (fun _ => c) n) = match n with 0%nat => B2R c | _ => 0 end.
  Proof using Hm3.
    intros Fm Vm Fc [|n].
    - destruct (diff_step prec emax Hm3 pim pie sz lm nn m1 Fm Vm (fun _ => c) 0 (Rabs (B2R c))) as [A B].
      + apply generic_format_abs, generic_format_B2R.
      + apply abs_B2R_lt_emax.
      + exact Fc.
      + reflexivity.
      + cbn [fb B2R]. unfold FltFilterFacts.fb. cbn [Nat.leb B2R]. rewrite Rminus_0_r. apply Rle_refl.
      + split; [exact A|]. rewrite B. unfold FltFilterFacts.fb. cbn [Nat.leb B2R]. rewrite Rminus_0_r. apply (RN_B2R prec emax).
    - apply (diff_same prec emax Hm3 pim pie sz lm nn m1 Fm Vm (fun _ => c)); [exact Fc| |]; rewrite fb_SS, fb_0; [exact Fc|reflexivity].
  Qed.

  Lemma blocked_never (m1 r1 c : F) : is_finite m1 = true -> B2R m1 = -1 -> is_finite r1 = true -> / 2 < Rabs (B2R r1) <= 1 ->
    is_finite c = true -> B2R c <> 0 ->
    forall n, let y := stream (dev_one_pole O) (n_one O, r1) (stream (dev_one_zero O) (n_one O, m1) (fun _ => c)) n in
      is_finite y = true /\ 0 < Rabs (B2R y) <= Rabs (B2R c).
  Proof using Hm3.
    intros Fm Vm Fr Hr Fc Hc. assert (D := diff_const m1 c Fm Vm Fc).
    set (x := stream (dev_one_zero O) (n_one O, m1) (fun _ => c)) in *. set (y := stream (dev_one_pole O) (n_one O, r1) x).
    assert (S0 : is_finite (y 0%nat) = true /\ B2R (y 0%nat) = B2R c).
    { destruct (pole_step prec emax Hm3 pim pie sz lm nn r1 Fr x 0 (Rabs (B2R c))) as [A B].
      - apply generic_format_abs, generic_format_B2R.
      - apply abs_B2R_lt_emax.
      - apply Hr.
      - apply D.
      - reflexivity.
      - unfold FltFilterFacts.fb. cbn [Nat.leb B2R]. rewrite Rmult_0_r, (RN_0 prec emax), Rminus_0_r, (proj2 (D 0%nat)). apply Rle_refl.
      - split; [exact A|]. fold y in B. rewrite B. unfold FltFilterFacts.fb. cbn [Nat.leb B2R].
        rewrite Rmult_0_r, (RN_0 prec emax), Rminus_0_r, (proj2 (D 0%nat)). apply (RN_B2R prec emax). }
    assert (Le : forall v : F, Rabs (RN (B2R r1 * B2R v)) <= Rabs (B2R v)).
    { intros v. apply (RN_abs_le prec emax); [apply generic_format_abs, generic_format_B2R|].
      rewrite Rabs_mult. rewrite <- (Rmult_1_l (Rabs (B2R v))) at 2. apply Rmult_le_compat_r; [apply Rabs_pos|apply Hr]. }
    assert (SS : forall n, is_finite (y n) = true -> is_finite (y (S n)) = true /\ Rabs (B2R (y (S n))) = Rabs (RN (B2R r1 * B2R (y n)))).
    { intros n Fy. destruct (pole_step prec emax Hm3 pim pie sz lm nn r1 Fr x (S n) (Rabs (B2R (y n)))) as [A B].
      - apply generic_format_abs, generic_format_B2R.
      - apply abs_B2R_lt_emax.
      - apply Hr.
      - apply D.
      - fold y. rewrite fb_SS, fb_0. exact Fy.
      - fold y. rewrite fb_SS, fb_0, (proj2 (D (S n))), Rminus_0_l, Rabs_Ropp. apply Le.
      - fold y in A, B. split; [exact A|]. rewrite B, fb_SS, fb_0, (proj2 (D (S n))), Rminus_0_l.
        rewrite (RN_id prec emax) by apply generic_format_opp, (RN_format prec emax). apply Rabs_Ropp. }
    assert (Fy : forall n, is_finite (y n) = true) by (induction n as [|n IH]; [apply S0|apply SS, IH]).
    intros n y'. subst y'. fold y. split; [apply Fy|]. split.
    - apply Rabs_pos_lt. apply (m_never_zero prec emax (fun n => B2R (y n)) (B2R r1)).
      + intros j. apply generic_format_B2R.
      + intros j. apply SS, Fy.
      + lra.
      + cbn beta. rewrite (proj2 S0). exact Hc.
    - induction n as [|n IH]; [rewrite (proj2 S0); apply Rle_refl|].
      eapply Rle_trans; [|exact IH]. rewrite (proj2 (SS n (Fy n))). apply Le.
  Qed.
End First.

(** C124: with the same two filters in the other order (the difference first) and any r above 1/2, a
    constant other than zero is never removed: every output is a number other than zero. *)
Lemma C124_difference_first_refuted_thm :
  forall (T : Type) (O : num_ops T) (V : float_view T), ieee O V ->
  forall (r1 m1 c : T),
    fin V r1 = true -> / 2 < Rabs (val V r1) <= 1 -> fin V m1 = true -> val V m1 = -1 ->
    fin V c = true -> val V c <> 0 ->
    forall n,
      let y := stream (dev_one_pole O) (n_one O, r1) (stream (dev_one_zero O) (n_one O, m1) (fun _ => c)) n in
      fin V y = true /\ 0 < Rabs (val V y) <= Rabs (val V c).
Proof.
  intros T O V HO r1 m1 c Fr Hr Fm Vm Fc Hc n. destruct HO; cbn [val fin ieee_view] in *.
  - apply (blocked_never 24 128); try assumption. lia.
  - apply (blocked_never 53 1024); try assumption. lia.
Qed.

(*@PROP
(* the same r, the same step *)
Example C124_difference_first_hyps :
  let V := ieee_view 24 128 in
  fin V (fl32 (-15) (-4)) = true /\ / 2 < Rabs (val V (fl32 (-15) (-4))) <= 1 /\ fin V (fl32 (-1) 0) = true /\ val V (fl32 (-1) 0) = -1
  /\ fin V (fl32 1 0) = true /\ val V (fl32 1 0) <> 0.
Proof.
  cbv zeta. cbn [val fin ieee_view fmax].
  assert (E1 : B2R (fl32 (-15) (-4)) = -15/16) by (lit; lra). assert (E2 : B2R (fl32 (-1) 0) = -1) by (lit; lra).
  assert (E3 : B2R (fl32 1 0) = 1) by (lit; lra). rewrite E1, E2, E3. rewrite Rabs_left by lra. repeat split; lra.
Qed.
@*)

(** C124: what the difference does remove exactly is any offset: two signals that differ by a constant
    leave [OneZero (1, -1)] as the same numbers from the second sample on, rounding included. *)
Lemma C124_offset_removed_thm :
  forall (T : Type) (O : num_ops T) (V : float_view T), ieee O V ->
  forall (m1 : T) (x x' : nat -> T) (offset : R),
    fin V m1 = true -> val V m1 = -1 ->
    (forall n, fin V (x n) = true /\ Rabs (val V (x n)) <= fmax V / 2) ->
    (forall n, fin V (x' n) = true /\ Rabs (val V (x' n)) <= fmax V / 2) ->
    (forall n, val V (x' n) = val V (x n) + offset) ->
    forall n, let y := stream (dev_one_zero O) (n_one O, m1) in
      fin V (y x' (S n)) = true /\ val V (y x' (S n)) = val V (y x (S n)).
Proof.
  intros T O V HO m1 x x' c Fm Vm Hx Hx' E n y. subst y.
  assert (Q : forall z z' : R, Rabs z <= fmax V / 2 -> Rabs z' <= fmax V / 2 -> Rabs (z - z') <= fmax V).
  { intros z z' A B. apply Rabs_le_inv in A. apply Rabs_le_inv in B. apply Rabs_le. lra. }
  destruct HO; cbn [val fin ieee_view] in *.
  - destruct (diff_step 24 128 ltac:(lia) 13176795 (-22) 4 lm b m1 Fm Vm x (S n) (fmax (ieee_view 24 128))) as [A B];
      [apply (MAX_fmt 24 128); lia|apply (MAX_lt 24 128)|apply Hx|rewrite fb_SS, fb_0; apply Hx|rewrite fb_SS, fb_0; apply Q; apply Hx|].
    destruct (diff_step 24 128 ltac:(lia) 13176795 (-22) 4 lm b m1 Fm Vm x' (S n) (fmax (ieee_view 24 128))) as [A' B'];
      [apply (MAX_fmt 24 128); lia|apply (MAX_lt 24 128)|apply Hx'|rewrite fb_SS, fb_0; apply Hx'|rewrite fb_SS, fb_0; apply Q; apply Hx'|].
    split; [exact A'|]. unfold f32_ops in *. rewrite B, B', !fb_SS, !fb_0, !E. f_equal. ring.
  - destruct (diff_step 53 1024 ltac:(lia) 7074237752028440 (-51) 8 lm b m1 Fm Vm x (S n) (fmax (ieee_view 53 1024))) as [A B];
      [apply (MAX_fmt 53 1024); lia|apply (MAX_lt 53 1024)|apply Hx|rewrite fb_SS, fb_0; apply Hx|rewrite fb_SS, fb_0; apply Q; apply Hx|].
    destruct (diff_step 53 1024 ltac:(lia) 7074237752028440 (-51) 8 lm b m1 Fm Vm x' (S n) (fmax (ieee_view 53 1024))) as [A' B'];
      [apply (MAX_fmt 53 1024); lia|apply (MAX_lt 53 1024)|apply Hx'|rewrite fb_SS, fb_0; apply Hx'|rewrite fb_SS, fb_0; apply Q; apply Hx'|].
    split; [exact A'|]. unfold f64_ops in *. rewrite B, B', !fb_SS, !fb_0, !E. f_equal. ring.
Qed.

(*@PROP
(* 1, 1, 1, ... and the same with 1/2 more *)
Example C124_offset_removed_hyps :
  let V := ieee_view 24 128 in let x := fun _ : nat => fl32 1 0 in let x' := fun _ : nat => fl32 3 (-1) in
  (forall n, fin V (x n) = true /\ Rabs (val V (x n)) <= fmax V / 2)
  /\ (forall n, fin V (x' n) = true /\ Rabs (val V (x' n)) <= fmax V / 2)
  /\ (forall n, val V (x' n) = val V (x n) + / 2).
Proof.
  cbv zeta. cbn [val fin ieee_view fmax].
  assert (E1 : B2R (fl32 1 0) = 1) by (lit; lra). assert (E2 : B2R (fl32 3 (-1)) = 3/2) by (lit; lra). rewrite E1, E2.
  assert (A : bpow radix2 (-24) <= bpow radix2 (-1)) by (apply bpow_le; lia).
  assert (B : bpow radix2 5 <= bpow radix2 128) by (apply bpow_le; lia).
  change (bpow radix2 (-1)) with (/ 2) in A. change (bpow radix2 5) with 32 in B.
  assert (C : 1/2 * 32 <= (1 - bpow radix2 (-24)) * bpow radix2 128) by (apply Rmult_le_compat; lra). change (- (24))%Z with (-24)%Z.
  rewrite !Rabs_pos_eq by lra. split; [|split]; intros n; [split; [reflexivity|lra]|split; [reflexivity|lra]|lra].
Qed.
@*)
