(** Proofs of C29-C32 and C34-C36. *)
From Coq Require Import ZArith Reals Lra Lia List Arith.
From Coquelicot Require Import Coquelicot.
From Flocq Require Import Core.Core IEEE754.BinarySingleNaN.
From Verif Require Import Base Num NumR NumF FilterM RbjM Device Signal SignalFacts CoreLemmas
  FilterFacts FloatFacts FilterSpec.
Import ListNotations.
Open Scope R_scope.

(*@PROP
(** Properties C29-C36 of the basic filters.

    Vocabulary: [Signal] (signals, the difference equation, stability), [Device]
    (objects seen through their API) and [FilterSpec] (finite signals and
    untouched coefficients in floating point). *)
From Coq Require Import ZArith Reals List Lra.
From Coquelicot Require Import Coquelicot.
From Flocq Require Import IEEE754.BinarySingleNaN.
From Verif Require Import Base Num NumR NumF Witness FilterM RbjM Device Signal FloatFacts FilterSpec FilterLemmas.
Import ListNotations.
Open Scope R_scope.
@*)

(** C29: in exact arithmetic every filter of the library (the transposed
    [Biquad2] and the RBJ filters built on it included) obeys the documented
    difference equation, for every input. *)
Lemma C29_filters_obey_equation_thm :
  forall (S K : Type) (D : device S K R) (k : K) (c : R * R * R * R * R) (x : signal),
    filter_eq D k c -> obeys c x (out D (configured D k) x).
Proof. intros S K D k c x H. apply filter_obeys. exact H. Qed.

(** C29: [Biquad1] and [Biquad2] with equal coefficients return the same samples
    for every sequence of process, clear and last_out calls. *)
Lemma C29_biquads_agree_thm :
  forall (k : R * R * R * R * R) (cs : list (call (R * R * R * R * R) R)),
    no_set cs ->
    returns (dev_biquad1 R_ops) [CSet k] cs = returns (dev_biquad2 R_ops) [CSet k] cs.
Proof.
  intros [[[[b0 b1] b2] a1] a2] cs Hcs. unfold returns, after. cbn [d_run d_step fst dev_biquad1 dev_biquad2 d_set d_new].
  assert (H : forall (s : biquad1 R) (t : biquad2 R),
    b2_b0 t = b1_b0 s /\ b2_b1 t = b1_b1 s /\ b2_b2 t = b1_b2 s /\ b2_a1 t = b1_a1 s /\ b2_a2 t = b1_a2 s
    /\ b2_output t = b1_y_z1 s
    /\ b2_z1 t = b1_b1 s * b1_x_z1 s + b1_b2 s * b1_x_z2 s - b1_a1 s * b1_y_z1 s - b1_a2 s * b1_y_z2 s
    /\ b2_z2 t = b1_b2 s * b1_x_z1 s - b1_a2 s * b1_y_z1 s ->
    map snd (snd (d_run (dev_biquad1 R_ops) s cs)) = map snd (snd (d_run (dev_biquad2 R_ops) t cs))).
  { induction Hcs as [|c cs Hc Hcs IH]; intros s t [E0 [E1 [E2 [E3 [E4 [E5 [E6 E7]]]]]]]; [reflexivity|].
    destruct c; try discriminate; cbn [d_run d_step].
    - destruct (d_process (dev_biquad1 R_ops) s x) as [s' y] eqn:Es.
      destruct (d_process (dev_biquad2 R_ops) t x) as [t' z] eqn:Et.
      cbn in Es, Et. unfold biquad1_process in Es. unfold biquad2_process in Et.
      inversion Es; inversion Et; subst. clear Es Et.
      assert (Eo : b2_b0 t * x + b2_z1 t =
        b1_b0 s * x + b1_b1 s * b1_x_z1 s + b1_b2 s * b1_x_z2 s - b1_a1 s * b1_y_z1 s - b1_a2 s * b1_y_z2 s).
      { rewrite E0, E6. ring. }
      cbn [n_add n_sub n_mul R_ops]. rewrite Eo.
      match goal with |- context [d_run (dev_biquad1 R_ops) ?s1 cs] =>
        match goal with |- context [d_run (dev_biquad2 R_ops) ?t1 cs] =>
          specialize (IH s1 t1) end end.
      destruct (d_run (dev_biquad1 R_ops) _ cs) as [s2 l2].
      destruct (d_run (dev_biquad2 R_ops) _ cs) as [t2 m2]. cbn [map snd fst] in *.
      f_equal. apply IH. cbn. rewrite E0, E1, E2, E3, E4, E7. repeat split; ring.
    - specialize (IH (biquad1_clear R_ops s) (biquad2_clear R_ops t)).
      cbn [d_clear dev_biquad1 dev_biquad2].
      destruct (d_run (dev_biquad1 R_ops) _ cs) as [s2 l2].
      destruct (d_run (dev_biquad2 R_ops) _ cs) as [t2 m2]. cbn [map snd fst] in *.
      f_equal. apply IH. cbn. rewrite E0, E1, E2, E3, E4. repeat split; ring.
    - specialize (IH s t). cbn [d_last_out dev_biquad1 dev_biquad2].
      destruct (d_run (dev_biquad1 R_ops) _ cs) as [s2 l2].
      destruct (d_run (dev_biquad2 R_ops) _ cs) as [t2 m2]. cbn [map snd fst] in *.
      f_equal; [unfold biquad1_last_out, biquad2_last_out; congruence|]. apply IH. repeat split; auto. }
  apply H. cbn. repeat split; ring.
Qed.
(*@PROP
Example C29_hyps :
  filter_eq (dev_biquad2 R_ops) (1, 2, 3, 4, 5) (1, 2, 3, 4, 5)
  /\ (exists c, filter_eq (dev_rbj R_ops LowPass) (RbjQ 48000 1000 1) c)
  /\ no_set (K := R * R * R * R * R) [CProcess 1; CLastOut; CClear; CProcess 2].
Proof.
  split; [constructor|]. split; [eexists; apply fe_rbj; reflexivity|]. repeat constructor.
Qed.
@*)

(** C30: after a coefficient change on a filter in use the two biquads differ in
    general: with coefficients [k1] a first sample [x0], then [k2] and a sample
    [x1], [Biquad1] weighs the past with the new coefficients and [Biquad2] with
    the old ones. *)
Lemma C30_mid_stream_change_thm :
  forall b0 b1 b2 a1 a2 b0' b1' b2' a1' a2' x0 x1 : R,
    let k1 := (b0, b1, b2, a1, a2) in let k2 := (b0', b1', b2', a1', a2') in
    let cs := [CSet k1; CProcess x0; CSet k2] in
    returns (dev_biquad1 R_ops) cs [CProcess x1] = [Some (b0' * x1 + (b1' * x0 - a1' * (b0 * x0)))]
    /\ returns (dev_biquad2 R_ops) cs [CProcess x1] = [Some (b0' * x1 + (b1 * x0 - a1 * (b0 * x0)))].
Proof.
  intros. unfold returns, cs. cbn. split; do 2 f_equal; ring.
Qed.

(** C30: so there are histories on which they disagree. *)
Lemma C30_biquads_disagree_thm :
  exists (cs : list (call (R * R * R * R * R) R)) (x : R),
    returns (dev_biquad1 R_ops) cs [CProcess x] <> returns (dev_biquad2 R_ops) cs [CProcess x].
Proof.
  exists [CSet (1, 0, 0, 0, 0); CProcess 1; CSet (1, 1, 0, 0, 0)], 0.
  destruct (C30_mid_stream_change_thm 1 0 0 0 0 1 1 0 0 0 1 0) as [E1 E2].
  rewrite E1, E2. intros H. inversion H. lra.
Qed.

(** C31: superposition. *)
Lemma C31_linear_thm :
  forall (S K : Type) (D : device S K R) (k : K) (c : R * R * R * R * R),
    filter_eq D k c -> forall (a b : R) (u v : signal) (n : nat),
    out D (configured D k) (fun m => a * u m + b * v m) n
    = a * out D (configured D k) u n + b * out D (configured D k) v n.
Proof.
  intros S K D k c H a b u v n.
  apply (obeys_unique c (fun m => a * u m + b * v m) (fun m => a * u m + b * v m)
    (out D (configured D k) (fun m => a * u m + b * v m))
    (fun m => a * out D (configured D k) u m + b * out D (configured D k) v m)); auto.
  - apply filter_obeys; exact H.
  - apply obeys_lin; apply filter_obeys; exact H.
Qed.

(** C31: time invariance. *)
Lemma C31_time_invariant_thm :
  forall (S K : Type) (D : device S K R) (k : K) (c : R * R * R * R * R),
    filter_eq D k c -> forall (j : nat) (x : signal) (n : nat),
    out D (configured D k) (back j x) n = back j (out D (configured D k) x) n.
Proof.
  intros S K D k c H j x n.
  apply (obeys_unique c (back j x) (back j x)
    (out D (configured D k) (back j x)) (back j (out D (configured D k) x))); auto.
  - apply filter_obeys; exact H.
  - apply obeys_back; apply filter_obeys; exact H.
Qed.

(** C36: filters with the same equation are the same filter; in particular each
    basic filter is the biquad with the missing coefficients zero. *)
Lemma C36_equation_determines_output_thm :
  forall (S K S' K' : Type) (D : device S K R) (k : K) (D' : device S' K' R) (k' : K')
         (c : R * R * R * R * R),
    filter_eq D k c -> filter_eq D' k' c -> forall (x : signal) (n : nat),
    out D (configured D k) x n = out D' (configured D' k') x n.
Proof.
  intros S K S' K' D k D' k' c H H' x n.
  apply (obeys_unique c x x); auto; apply filter_obeys; assumption.
Qed.

Lemma C36_embed_in_biquad_thm :
  forall (b0 b1 b2 a1 a2 : R) (x : signal) (n : nat),
    let biquad k := out (dev_biquad1 R_ops) (configured (dev_biquad1 R_ops) k) x n in
    out (dev_one_pole R_ops) (configured (dev_one_pole R_ops) (b0, a1)) x n
      = biquad (b0, 0, 0, a1, 0)
    /\ out (dev_one_zero R_ops) (configured (dev_one_zero R_ops) (b0, b1)) x n
      = biquad (b0, b1, 0, 0, 0)
    /\ out (dev_two_pole R_ops) (configured (dev_two_pole R_ops) (b0, a1, a2)) x n
      = biquad (b0, 0, 0, a1, a2)
    /\ out (dev_two_zero R_ops) (configured (dev_two_zero R_ops) (b0, b1, b2)) x n
      = biquad (b0, b1, b2, 0, 0).
Proof.
  intros. unfold biquad.
  split; [|split; [|split]]; eapply C36_equation_determines_output_thm; constructor.
Qed.

(** C34: stable coefficients, bounded input, bounded output: the factor depends
    on the coefficients only. *)
Lemma C34_bounded_thm :
  forall (S K : Type) (D : device S K R) (k : K) (b0 b1 b2 a1 a2 : R),
    filter_eq D k (b0, b1, b2, a1, a2) -> stable a1 a2 ->
    exists G : R, forall (x : signal) (M : R), (forall n, Rabs (x n) <= M) ->
      forall n, Rabs (out D (configured D k) x n) <= G * M.
Proof.
  intros S K D k b0 b1 b2 a1 a2 H Hst.
  destruct (obeys_bound a1 a2 Hst) as [G [HG HB]].
  exists ((Rabs b0 + Rabs b1 + Rabs b2) * G). intros x M Hx n.
  apply (HB b0 b1 b2 x); auto. apply filter_obeys. exact H.
Qed.

(** C34: explicit factors for the simplest filters. *)
Lemma C34_one_pole_gain_thm :
  forall (b0 a1 : R) (x : signal) (M : R),
    Rabs a1 < 1 -> (forall n, Rabs (x n) <= M) ->
    forall n, Rabs (out (dev_one_pole R_ops) (configured (dev_one_pole R_ops) (b0, a1)) x n)
              <= Rabs b0 / (1 - Rabs a1) * M.
Proof.
  intros b0 a1 x M Ha Hx n.
  assert (HM : 0 <= M) by (eapply Rle_trans; [apply Rabs_pos|apply (Hx 0%nat)]).
  assert (Ho := filter_obeys _ _ _ (fe_one_pole b0 a1) x).
  set (y := out (dev_one_pole R_ops) (configured (dev_one_pole R_ops) (b0, a1)) x) in *.
  cbv beta delta [obeys] in Ho.
  assert (Hpa := Rabs_pos a1). assert (Hpb := Rabs_pos b0).
  assert (Hi : 0 < / (1 - Rabs a1)) by (apply Rinv_0_lt_compat; lra).
  replace (Rabs b0 / (1 - Rabs a1) * M) with (Rabs b0 * M / (1 - Rabs a1)) by (field; lra).
  revert n. apply (first_order_bound (Rabs a1) (Rabs b0 * M) (fun n => Rabs (y n))).
  - lra.
  - apply Rmult_le_pos; lra.
  - rewrite Ho, !back_S0.
    replace (b0 * x 0%nat + 0 * 0 + 0 * 0 - a1 * 0 - 0 * 0) with (b0 * x 0%nat) by ring.
    rewrite Rabs_mult. apply Rle_trans with (Rabs b0 * M).
    + apply Rmult_le_compat_l; auto.
    + assert (0 <= Rabs b0 * M) by (apply Rmult_le_pos; lra).
      assert (1 <= / (1 - Rabs a1)). { rewrite <- Rinv_1 at 1. apply Rinv_le_contravar; lra. }
      unfold Rdiv. nra.
  - intros n. rewrite Ho, !back_SS, !back_0.
    match goal with |- Rabs ?e <= _ =>
      replace e with (- a1 * y n + b0 * x (S n)) by ring end.
    eapply Rle_trans; [apply Rabs_triang|]. rewrite !Rabs_mult, Rabs_Ropp.
    specialize (Hx (S n)). nra.
Qed.

Lemma C34_fir_gain_thm :
  forall (b0 b1 b2 : R) (x : signal) (M : R),
    (forall n, Rabs (x n) <= M) -> forall n,
    Rabs (out (dev_one_zero R_ops) (configured (dev_one_zero R_ops) (b0, b1)) x n)
      <= (Rabs b0 + Rabs b1) * M
    /\ Rabs (out (dev_two_zero R_ops) (configured (dev_two_zero R_ops) (b0, b1, b2)) x n)
      <= (Rabs b0 + Rabs b1 + Rabs b2) * M.
Proof.
  intros b0 b1 b2 x M Hx n.
  assert (HM : 0 <= M) by (eapply Rle_trans; [apply Rabs_pos|apply (Hx 0%nat)]).
  assert (Hb : forall j n, Rabs (back j x n) <= M).
  { intros j m. unfold back. destruct (j <=? m)%nat; [apply Hx|]. rewrite Rabs_R0. exact HM. }
  assert (A0 := Rabs_pos b0). assert (A1 := Rabs_pos b1). assert (A2 := Rabs_pos b2).
  assert (B0 := Hx n). assert (B1 := Hb 1%nat n). assert (B2 := Hb 2%nat n).
  assert (C0 := Rabs_pos (x n)). assert (C1 := Rabs_pos (back 1 x n)). assert (C2 := Rabs_pos (back 2 x n)).
  split.
  - rewrite (filter_obeys _ _ _ (fe_one_zero b0 b1) x n).
    match goal with |- Rabs ?e <= _ =>
      replace e with (b0 * x n + b1 * back 1 x n) by ring end.
    eapply Rle_trans; [apply Rabs_triang|]. rewrite !Rabs_mult. nra.
  - rewrite (filter_obeys _ _ _ (fe_two_zero b0 b1 b2) x n).
    match goal with |- Rabs ?e <= _ =>
      replace e with (b0 * x n + b1 * back 1 x n + b2 * back 2 x n) by ring end.
    eapply Rle_trans; [apply Rabs_triang|]. eapply Rle_trans.
    { apply Rplus_le_compat_r. apply Rabs_triang. }
    rewrite !Rabs_mult. nra.
Qed.

(** C34 is sharp: outside the stability region boundedness fails.  [OnePole] with
    |a1| >= 1 has a bounded input whose response exceeds every bound. *)
Lemma C34_one_pole_unstable_thm :
  forall a1 : R, 1 <= Rabs a1 ->
  exists x : signal, (forall n, Rabs (x n) <= 1) /\
    forall B, exists n,
      B < Rabs (out (dev_one_pole R_ops) (configured (dev_one_pole R_ops) (1, a1)) x n).
Proof.
  intros a1 Ha.
  (* x n = sign of (-a1)^n: the response is the sum of |a1|^(n-j) *)
  set (s := if Rle_dec 0 a1 then -1 else 1).
  assert (Hs : s * s = 1) by (unfold s; destruct (Rle_dec 0 a1); lra).
  assert (Hsa : - a1 = s * Rabs a1).
  { unfold s. destruct (Rle_dec 0 a1); [rewrite Rabs_pos_eq by lra; lra|].
    rewrite Rabs_left by lra; lra. }
  assert (Hsp : forall n, Rabs (s ^ n) = 1).
  { intros n. rewrite <- RPow_abs. replace (Rabs s) with 1; [apply pow1|].
    unfold s. destruct (Rle_dec 0 a1); [rewrite Rabs_left by lra; lra|rewrite Rabs_R1; reflexivity]. }
  exists (fun n => s ^ n). split; [intros n; rewrite Hsp; lra|].
  assert (Ho := filter_obeys _ _ _ (fe_one_pole 1 a1) (fun n => s ^ n)).
  set (y := out (dev_one_pole R_ops) (configured (dev_one_pole R_ops) (1, a1)) _) in *.
  cbv beta delta [obeys] in Ho.
  assert (Hy : forall n, exists t, y n = s ^ n * t /\ INR (S n) <= t).
  { induction n as [|n [t [Et Ht]]].
    - exists 1. rewrite Ho, !back_S0. cbn. split; lra.
    - exists (1 + Rabs a1 * t). rewrite Ho, !back_SS, !back_0. rewrite Et. split.
      + cbn [pow]. replace (1 * (s * s ^ n) + 0 * s ^ n + 0 * back 1 (fun n0 => s ^ n0) n
          - a1 * (s ^ n * t) - 0 * back 1 y n)
          with (s * s ^ n + (- a1) * (s ^ n * t)) by ring. rewrite Hsa. ring.
      + rewrite S_INR. assert (0 <= INR (S n)) by apply pos_INR. nra. }
  intros B. destruct (archimed B) as [HB _].
  exists (Z.to_nat (up B)). destruct (Hy (Z.to_nat (up B))) as [t [Et Ht]].
  rewrite Et, Rabs_mult, Hsp, Rmult_1_l.
  assert (B < INR (S (Z.to_nat (up B)))).
  { rewrite S_INR, INR_IZR_INZ. destruct (Z_le_gt_dec 0 (up B)) as [Hz|Hz].
    - rewrite Z2Nat.id by exact Hz. lra.
    - assert (IZR (up B) <= 0) by (apply IZR_le; lia).
      replace (Z.to_nat (up B)) with 0%nat by lia. cbn. lra. }
  rewrite Rabs_pos_eq; [lra|]. assert (0 <= INR (S (Z.to_nat (up B)))) by apply pos_INR. lra.
Qed.
(*@PROP
Example C34_hyps :
  stable (-1.8) 0.9 /\ stable 0.5 0 /\ ~ stable 2 0
  /\ filter_eq (dev_two_pole R_ops) (1, -1.8, 0.9) (1, 0, 0, -1.8, 0.9).
Proof.
  unfold stable. split; [split; unfold Rabs; destruct Rcase_abs; lra|].
  split; [split; unfold Rabs; destruct Rcase_abs; lra|]. split; [|constructor].
  intros [_ H]. revert H. unfold Rabs. destruct Rcase_abs; lra.
Qed.
@*)

(** C35: with stable coefficients, whatever the filter has been through, an input
    that dies away (silence included) gives an output that dies away. *)
Lemma C35_ring_down_thm :
  forall (S K : Type) (D : device S K R) (k : K) (b0 b1 b2 a1 a2 : R)
         (before since : list (call K R)) (x : signal),
    filter_eq D k (b0, b1, b2, a1, a2) -> stable a1 a2 -> no_set since ->
    is_lim_seq x 0 ->
    is_lim_seq (out D (after D (before ++ [CSet k] ++ since)) x) 0.
Proof.
  intros S K D k b0 b1 b2 a1 a2 h cs x H Hst Hcs Hx.
  apply (recur_vanish b0 b1 b2 a1 a2 x); auto. apply filter_recur; assumption.
Qed.

(** C35: the past is forgotten: two filters with the same stable coefficients
    and different pasts, fed the same input, end up agreeing. *)
Lemma C35_past_fades_thm :
  forall (S K : Type) (D : device S K R) (k : K) (b0 b1 b2 a1 a2 : R)
         (before since before' since' : list (call K R)) (x : signal),
    filter_eq D k (b0, b1, b2, a1, a2) -> stable a1 a2 -> no_set since -> no_set since' ->
    approaches (out D (after D (before ++ [CSet k] ++ since)) x)
               (out D (after D (before' ++ [CSet k] ++ since')) x).
Proof.
  intros S K D k b0 b1 b2 a1 a2 h cs h' cs' x H Hst Hcs Hcs'.
  apply (recur_approach b0 b1 b2 a1 a2 x); auto; apply filter_recur; assumption.
Qed.
(*@PROP
Example C35_hyps :
  filter_eq (dev_biquad1 R_ops) (1, 2, 1, -1.8, 0.9) (1, 2, 1, -1.8, 0.9) /\ stable (-1.8) 0.9
  /\ no_set (K := R * R * R * R * R) [CProcess 1; CProcess (-3)] /\ is_lim_seq (fun _ => 0) 0.
Proof.
  split; [constructor|]. split.
  { unfold stable. split; unfold Rabs; destruct Rcase_abs; lra. }
  split; [repeat constructor|apply is_lim_seq_const].
Qed.
@*)

(** ** C32, floating point *)
Section Fresh.
  Context (prec emax : Z) {Hp : Prec_gt_0 prec} {Hm : Prec_lt_emax prec emax}.
  Context (pm pe sz : Z) (lm : libm (binary_float prec emax)) (nn : bool).
  Notation F := (binary_float prec emax).
  Notation O := (ieee_ops prec emax pm pe sz lm nn).
  Notation sv := (same_value prec emax).
  Notation iz := (is_zero prec emax).

  (** A device on which [process] keeps [P] and reproduces the input. *)
  Definition keeps {S K} (D : device S K F) (P : S -> Prop) : Prop :=
    P (d_new D) /\ (forall s, P s -> P (d_clear D s))
    /\ (forall s x, P s -> is_finite x = true ->
          P (fst (d_process D s x)) /\ sv (snd (d_process D s x)) x).

  Lemma keeps_after {S K} (D : device S K F) P : keeps D P ->
    forall h, finite_calls h -> P (after D h).
  Proof.
    intros [H0 [Hc Hpr]] h Hh. induction h as [|c h IH] using rev_ind; [exact H0|].
    apply List.Forall_app in Hh. destruct Hh as [Hh Hc0]. specialize (IH Hh).
    apply List.Forall_inv in Hc0.
    rewrite after_snoc. destruct c; cbn in Hc0; cbn [d_step fst].
    - destruct (Hpr (after D h) x IH Hc0) as [H1 _].
      destruct (d_process D (after D h) x). exact H1.
    - apply Hc, IH.
    - contradiction.
    - exact IH.
  Qed.

  Lemma keeps_output {S K} (D : device S K F) P : keeps D P ->
    forall h x, finite_calls h -> is_finite x = true ->
    exists y, returns D h [CProcess x] = [Some y] /\ sv y x.
  Proof.
    intros Hk h x Hh Hx. assert (H := keeps_after D P Hk h Hh).
    destruct Hk as [_ [_ Hpr]]. destruct (Hpr _ x H Hx) as [_ Hy].
    unfold returns. cbn [d_run d_step].
    destruct (d_process D (after D h) x) as [s' y]. exists y. split; [reflexivity|exact Hy].
  Qed.

  Lemma sv_fin (x y : F) : sv x y -> is_finite x = true.
  Proof. intros [H _]. exact H. Qed.

  Ltac fin := first [assumption | eapply sv_fin; eassumption | apply is_zero_finite; assumption].

  Lemma zero_iz : iz (n_zero O).
  Proof. exists false. reflexivity. Qed.

  Lemma one_pole_keeps : keeps (dev_one_pole O)
    (fun s => op_b0 s = n_one O /\ iz (op_a1 s) /\ is_finite (op_y_z1 s) = true).
  Proof.
    split; [|split].
    - split; [reflexivity|]. split; [apply zero_iz|reflexivity].
    - intros s [E0 [E1 _]]. auto.
    - intros s x [E0 [E1 E2]] Hx. unfold dev_one_pole, d_process, one_pole_process. cbn -[f_mul f_sub].
      cbn [n_sub n_mul ieee_ops]. rewrite E0. cbn [n_one ieee_ops].
      assert (H1 := mul_one prec emax x Hx).
      assert (H2 := mul_zero prec emax _ _ E1 E2).
      assert (H3 := sub_zero prec emax _ _ (sv_fin _ _ H1) H2).
      assert (H4 := sv_trans prec emax _ _ _ H3 H1).
      repeat split; auto; apply H4.
  Qed.

  Lemma one_zero_keeps : keeps (dev_one_zero O)
    (fun s => oz_b0 s = n_one O /\ iz (oz_b1 s) /\ is_finite (oz_x_z1 s) = true).
  Proof.
    split; [|split].
    - split; [reflexivity|]. split; [apply zero_iz|reflexivity].
    - intros s [E0 [E1 _]]. auto.
    - intros s x [E0 [E1 E2]] Hx. unfold dev_one_zero, d_process, one_zero_process.
      cbn [fst snd n_add n_mul ieee_ops oz_b0 oz_b1 oz_x_z1]. rewrite E0. cbn [n_one ieee_ops].
      assert (H1 := mul_one prec emax x Hx).
      assert (H2 := mul_zero prec emax _ _ E1 E2).
      assert (H3 := add_zero prec emax _ _ (sv_fin _ _ H1) H2).
      assert (H4 := sv_trans prec emax _ _ _ H3 H1).
      repeat split; auto; apply H4.
  Qed.

  Lemma two_pole_keeps : keeps (dev_two_pole O)
    (fun s => tp_b0 s = n_one O /\ iz (tp_a1 s) /\ iz (tp_a2 s)
              /\ is_finite (tp_y_z1 s) = true /\ is_finite (tp_y_z2 s) = true).
  Proof.
    split; [|split].
    - split; [reflexivity|]. split; [apply zero_iz|]. split; [apply zero_iz|]. split; reflexivity.
    - intros s [E0 [E1 [E1' _]]]. cbn. auto.
    - intros s x [E0 [E1 [E1' [E2 E2']]]] Hx. unfold dev_two_pole, d_process, two_pole_process.
      cbn [fst snd n_sub n_mul ieee_ops tp_b0 tp_a1 tp_a2 tp_y_z1 tp_y_z2]. rewrite E0. cbn [n_one ieee_ops].
      assert (H1 := mul_one prec emax x Hx).
      assert (H2 := mul_zero prec emax _ _ E1 E2).
      assert (H2' := mul_zero prec emax _ _ E1' E2').
      assert (H3 := sub_zero prec emax _ _ (sv_fin _ _ H1) H2).
      assert (H4 := sv_trans prec emax _ _ _ H3 H1).
      assert (H5 := sub_zero prec emax _ _ (sv_fin _ _ H4) H2').
      assert (H6 := sv_trans prec emax _ _ _ H5 H4).
      repeat split; auto; apply H6.
  Qed.

  Lemma two_zero_keeps : keeps (dev_two_zero O)
    (fun s => tz_b0 s = n_one O /\ iz (tz_b1 s) /\ iz (tz_b2 s)
              /\ is_finite (tz_x_z1 s) = true /\ is_finite (tz_x_z2 s) = true).
  Proof.
    split; [|split].
    - split; [reflexivity|]. split; [apply zero_iz|]. split; [apply zero_iz|]. split; reflexivity.
    - intros s [E0 [E1 [E1' _]]]. cbn. auto.
    - intros s x [E0 [E1 [E1' [E2 E2']]]] Hx. unfold dev_two_zero, d_process, two_zero_process.
      cbn [fst snd n_add n_mul ieee_ops tz_b0 tz_b1 tz_b2 tz_x_z1 tz_x_z2]. rewrite E0. cbn [n_one ieee_ops].
      assert (H1 := mul_one prec emax x Hx).
      assert (H2 := mul_zero prec emax _ _ E1 E2).
      assert (H2' := mul_zero prec emax _ _ E1' E2').
      assert (H3 := add_zero prec emax _ _ (sv_fin _ _ H1) H2).
      assert (H4 := sv_trans prec emax _ _ _ H3 H1).
      assert (H5 := add_zero prec emax _ _ (sv_fin _ _ H4) H2').
      assert (H6 := sv_trans prec emax _ _ _ H5 H4).
      repeat split; auto; apply H6.
  Qed.

  Lemma biquad1_keeps : keeps (dev_biquad1 O)
    (fun s => b1_b0 s = n_one O /\ iz (b1_b1 s) /\ iz (b1_b2 s) /\ iz (b1_a1 s) /\ iz (b1_a2 s)
              /\ is_finite (b1_x_z1 s) = true /\ is_finite (b1_x_z2 s) = true
              /\ is_finite (b1_y_z1 s) = true /\ is_finite (b1_y_z2 s) = true).
  Proof.
    split; [|split].
    - split; [reflexivity|]. split; [apply zero_iz|]. split; [apply zero_iz|].
      split; [apply zero_iz|]. split; [apply zero_iz|]. repeat split; reflexivity.
    - intros s [E0 [E1 [E2 [E3 [E4 _]]]]]. cbn. auto 10.
    - intros s x [E0 [E1 [E2 [E3 [E4 [F1 [F2 [F3 F4]]]]]]]] Hx.
      unfold dev_biquad1, d_process, biquad1_process.
      cbn [fst snd n_add n_sub n_mul ieee_ops b1_b0 b1_b1 b1_b2 b1_a1 b1_a2 b1_x_z1 b1_x_z2 b1_y_z1 b1_y_z2].
      rewrite E0. cbn [n_one ieee_ops].
      assert (H0 := mul_one prec emax x Hx).
      assert (G1 := add_zero prec emax _ _ (sv_fin _ _ H0) (mul_zero prec emax _ _ E1 F1)).
      assert (H1 := sv_trans prec emax _ _ _ G1 H0). clear G1 H0.
      assert (G2 := add_zero prec emax _ _ (sv_fin _ _ H1) (mul_zero prec emax _ _ E2 F2)).
      assert (H2 := sv_trans prec emax _ _ _ G2 H1). clear G2 H1.
      assert (G3 := sub_zero prec emax _ _ (sv_fin _ _ H2) (mul_zero prec emax _ _ E3 F3)).
      assert (H3 := sv_trans prec emax _ _ _ G3 H2). clear G3 H2.
      assert (G4 := sub_zero prec emax _ _ (sv_fin _ _ H3) (mul_zero prec emax _ _ E4 F4)).
      assert (H4 := sv_trans prec emax _ _ _ G4 H3). clear G4 H3.
      split; [|exact H4]. do 5 (split; [assumption || reflexivity|]).
      repeat split; try assumption. apply H4.
  Qed.

  Lemma biquad2_keeps : keeps (dev_biquad2 O)
    (fun s => b2_b0 s = n_one O /\ iz (b2_b1 s) /\ iz (b2_b2 s) /\ iz (b2_a1 s) /\ iz (b2_a2 s)
              /\ iz (b2_z1 s) /\ iz (b2_z2 s)).
  Proof.
    split; [|split].
    - split; [reflexivity|]. repeat split; apply zero_iz.
    - intros s [E0 [E1 [E2 [E3 [E4 _]]]]]. cbn.
      do 5 (split; [assumption|]). split; apply zero_iz.
    - intros s x [E0 [E1 [E2 [E3 [E4 [F1 F2]]]]]] Hx.
      unfold dev_biquad2, d_process, biquad2_process.
      cbn [fst snd n_add n_sub n_mul ieee_ops b2_b0 b2_b1 b2_b2 b2_a1 b2_a2 b2_z1 b2_z2].
      rewrite E0. cbn [n_one ieee_ops].
      assert (H0 := mul_one prec emax x Hx).
      assert (G1 := add_zero prec emax _ _ (sv_fin _ _ H0) F1).
      assert (H1 := sv_trans prec emax _ _ _ G1 H0). clear G1 H0.
      split; [|exact H1]. do 5 (split; [assumption || reflexivity|]).
      split.
      + apply zero_sub; [apply zero_add; [apply mul_zero; assumption|assumption]|].
        apply mul_zero; [assumption|]. apply H1.
      + apply zero_sub; [apply mul_zero; assumption|]. apply mul_zero; [assumption|]. apply H1.
  Qed.

  Lemma rbj_keeps kind : exists P, keeps (dev_rbj O kind) P.
  Proof.
    destruct biquad2_keeps as [H0 [Hc Hpr]].
    exists (fun s => b2_b0 s = n_one O /\ iz (b2_b1 s) /\ iz (b2_b2 s) /\ iz (b2_a1 s)
                     /\ iz (b2_a2 s) /\ iz (b2_z1 s) /\ iz (b2_z2 s)).
    split; [|split].
    - destruct kind; exact H0.
    - destruct kind; exact Hc.
    - destruct kind; exact Hpr.
  Qed.

  Lemma fresh_keeps {S K} (D : device S K F) : filter_device O D -> exists P, keeps D P.
  Proof.
    intros H. destruct H.
    - eexists; apply one_pole_keeps.
    - eexists; apply one_zero_keeps.
    - eexists; apply two_pole_keeps.
    - eexists; apply two_zero_keeps.
    - eexists; apply biquad1_keeps.
    - eexists; apply biquad2_keeps.
    - apply rbj_keeps.
  Qed.

  Lemma fresh_transparent {S K} (D : device S K F) : filter_device O D ->
    forall h x, finite_calls h -> is_finite x = true ->
    exists y, returns D h [CProcess x] = [Some y] /\ sv y x.
  Proof. intros H h x Hh Hx. destruct (fresh_keeps D H) as [P HP]. eapply keeps_output; eassumption. Qed.

  (** A device whose state, once bad, only outputs NaN. *)
  Lemma stuck {S K} (D : device S K F) (P : S -> Prop) :
    (forall s x, P s -> P (fst (d_process D s x)) /\ snd (d_process D s x) = B754_nan) ->
    forall xs s, P s -> map snd (snd (d_run D s (map CProcess xs))) = map (fun _ => Some B754_nan) xs.
  Proof.
    intros Hpr. induction xs as [|x xs IH]; intros s Hs; [reflexivity|].
    cbn [map d_run d_step]. destruct (Hpr s x Hs) as [H1 H2].
    destruct (d_process D s x) as [s' y]. cbn [fst snd] in *. subst y.
    specialize (IH s' H1). destruct (d_run D s' (map CProcess xs)). cbn in *. congruence.
  Qed.

  Ltac nan := repeat first [rewrite mul_nan | rewrite nan_mul | rewrite sub_nan | rewrite nan_sub
                           | rewrite add_nan | rewrite nan_add]; try reflexivity.

  Lemma inf_poisons {S K} (D : device S K F) : iir_filter_device O D ->
    forall h b xs, finite_calls h ->
    returns D (h ++ [CProcess (B754_infinity b)]) (map CProcess xs) = map (fun _ => Some B754_nan) xs.
  Proof.
    intros H h b xs Hh. unfold returns. rewrite after_snoc. cbn [d_step].
    destruct H.
    - assert (Hk := keeps_after _ _ one_pole_keeps h Hh). cbn beta in Hk.
      destruct Hk as [E0 [E1 E2]].
      apply (stuck _ (fun s => iz (op_a1 s) /\ (op_y_z1 s = B754_nan \/ exists t, op_y_z1 s = B754_infinity t))).
      + intros s x [E [Ey|[t Ey]]]; cbn -[f_mul f_sub]; cbn [n_sub n_mul ieee_ops]; rewrite Ey;
        rewrite ?(zero_mul_inf prec emax _ _ E); nan; auto.
      + cbn -[f_mul f_sub after]. cbn [n_sub n_mul n_one ieee_ops fst op_a1 op_y_z1] in *.
        split; [exact E1|]. right. exists b. rewrite E0, one_mul_inf.
        apply inf_sub_fin. apply is_zero_finite. apply mul_zero; assumption.
    - assert (Hk := keeps_after _ _ two_pole_keeps h Hh). cbn beta in Hk.
      destruct Hk as [E0 [E1 [E1' [E2 E2']]]].
      apply (stuck _ (fun s => iz (tp_a1 s) /\ iz (tp_a2 s)
               /\ (tp_y_z1 s = B754_nan \/ exists t, tp_y_z1 s = B754_infinity t))).
      + intros s x [E [E' [Ey|[t Ey]]]]; cbn -[f_mul f_sub]; cbn [n_sub n_mul ieee_ops]; rewrite Ey;
        rewrite ?(zero_mul_inf prec emax _ _ E); nan; auto.
      + cbn -[f_mul f_sub after]. cbn [n_sub n_mul n_one ieee_ops fst tp_a1 tp_a2 tp_y_z1] in *.
        split; [exact E1|]. split; [exact E1'|]. right. exists b. rewrite E0, one_mul_inf.
        rewrite inf_sub_fin; [apply inf_sub_fin|]; apply is_zero_finite; apply mul_zero; assumption.
    - assert (Hk := keeps_after _ _ biquad1_keeps h Hh). cbn beta in Hk.
      destruct Hk as [E0 [E1 [E2 [E3 [E4 [F1 [F2 [F3 F4]]]]]]]].
      apply (stuck _ (fun s => iz (b1_a1 s)
               /\ (b1_y_z1 s = B754_nan \/ exists t, b1_y_z1 s = B754_infinity t))).
      + intros s x [E [Ey|[t Ey]]]; cbn -[f_mul f_sub f_add]; cbn [n_sub n_mul n_add ieee_ops]; rewrite Ey;
        rewrite ?(zero_mul_inf prec emax _ _ E); nan; auto.
      + cbn -[f_mul f_sub f_add after]. cbn [n_sub n_add n_mul n_one ieee_ops fst b1_a1 b1_y_z1] in *.
        split; [exact E3|]. right. exists b. rewrite E0, one_mul_inf.
        rewrite inf_add_fin by (apply is_zero_finite; apply mul_zero; assumption).
        rewrite inf_add_fin by (apply is_zero_finite; apply mul_zero; assumption).
        rewrite inf_sub_fin by (apply is_zero_finite; apply mul_zero; assumption).
        apply inf_sub_fin. apply is_zero_finite. apply mul_zero; assumption.
    - assert (Hk := keeps_after _ _ biquad2_keeps h Hh). cbn beta in Hk.
      destruct Hk as [E0 [E1 [E2 [E3 [E4 [F1 F2]]]]]].
      apply (stuck _ (fun s => b2_z1 s = B754_nan)).
      + intros s x Ey; cbn -[f_mul f_sub f_add]; cbn [n_sub n_mul n_add ieee_ops]; rewrite Ey; nan; auto.
      + cbn -[f_mul f_sub f_add after]. cbn [n_sub n_add n_mul n_one ieee_ops fst b2_z1] in *.
        rewrite (zero_mul_inf prec emax _ _ E1). nan.
    - destruct biquad2_keeps as [H0 [Hc Hpr]].
      assert (Hk : keeps (dev_rbj O kind) (fun s => b2_b0 s = n_one O /\ iz (b2_b1 s) /\ iz (b2_b2 s)
        /\ iz (b2_a1 s) /\ iz (b2_a2 s) /\ iz (b2_z1 s) /\ iz (b2_z2 s))).
      { split; [|split]; destruct kind; assumption. }
      assert (Ha := keeps_after _ _ Hk h Hh). cbn beta in Ha.
      destruct Ha as [E0 [E1 [E2 [E3 [E4 [F1 F2]]]]]].
      apply (stuck _ (fun s => b2_z1 s = B754_nan)).
      + intros s x Ey. replace (d_process (dev_rbj O kind) s x) with (biquad2_process O s x)
          by (destruct kind; reflexivity).
        cbn -[f_mul f_sub f_add]; cbn [n_sub n_mul n_add ieee_ops]; rewrite Ey; nan; auto.
      + match goal with |- context [d_process ?D ?s ?x] =>
          replace (d_process D s x) with (biquad2_process O s x) by (destruct kind; reflexivity) end.
        cbn -[f_mul f_sub f_add after]. cbn [n_sub n_add n_mul n_one ieee_ops fst b2_z1] in *.
        rewrite (zero_mul_inf prec emax _ _ E1). nan.
  Qed.
End Fresh.

(** C32: a filter straight from [new()] returns a value equal to each finite
    input, after any history of finite samples, clears and reads (no coefficient
    set); [f32] and [f64]. *)
Lemma C32_new_is_transparent_f32_thm :
  forall (lm : libm f32) (nn : bool) (S K : Type) (D : device S K f32)
         (history : list (call K f32)) (x : f32),
    filter_device (f32_ops lm nn) D -> finite_calls history -> is_finite x = true ->
    exists y, returns D history [CProcess x] = [Some y]
              /\ is_finite y = true /\ B2R y = B2R x.
Proof.
  intros lm nn S K D h x HD Hh Hx.
  destruct (fresh_transparent 24 128 _ _ _ lm nn D HD h x Hh Hx) as [y [E [H1 [H2 H3]]]]. eauto.
Qed.

Lemma C32_new_is_transparent_f64_thm :
  forall (lm : libm f64) (nn : bool) (S K : Type) (D : device S K f64)
         (history : list (call K f64)) (x : f64),
    filter_device (f64_ops lm nn) D -> finite_calls history -> is_finite x = true ->
    exists y, returns D history [CProcess x] = [Some y]
              /\ is_finite y = true /\ B2R y = B2R x.
Proof.
  intros lm nn S K D h x HD Hh Hx.
  destruct (fresh_transparent 53 1024 _ _ _ lm nn D HD h x Hh Hx) as [y [E [H1 [H2 H3]]]]. eauto.
Qed.

(** C32: the exception.  One infinite sample makes a new recursive filter return
    NaN for every later sample, whatever it is. *)
Lemma C32_infinity_poisons_refuted_thm :
  forall (lm : libm f64) (nn : bool) (S K : Type) (D : device S K f64)
         (history : list (call K f64)) (sign : bool) (xs : list f64),
    iir_filter_device (f64_ops lm nn) D -> finite_calls history ->
    returns D (history ++ [CProcess (B754_infinity sign)]) (map CProcess xs)
    = map (fun _ => Some B754_nan) xs.
Proof.
  intros lm nn S K D h b xs HD Hh. apply (inf_poisons 53 1024 _ _ _ lm nn D HD h b xs Hh).
Qed.

Lemma C32_infinity_poisons_f32_refuted_thm :
  forall (lm : libm f32) (nn : bool) (S K : Type) (D : device S K f32)
         (history : list (call K f32)) (sign : bool) (xs : list f32),
    iir_filter_device (f32_ops lm nn) D -> finite_calls history ->
    returns D (history ++ [CProcess (B754_infinity sign)]) (map CProcess xs)
    = map (fun _ => Some B754_nan) xs.
Proof.
  intros lm nn S K D h b xs HD Hh. apply (inf_poisons 24 128 _ _ _ lm nn D HD h b xs Hh).
Qed.
(*@PROP
Example C32_hyps (a b : f64) : is_finite a = true -> is_finite b = true ->
  filter_device O64 (dev_two_zero O64) /\ filter_device O64 (dev_rbj O64 Peak)
  /\ iir_filter_device O64 (dev_biquad2 O64)
  /\ finite_calls (K := f64 * f64 * f64) [CProcess a; CClear; CProcess b; CLastOut].
Proof.
  intros Ha Hb. split; [constructor|]. split; [constructor|]. split; [constructor|].
  repeat constructor; assumption.
Qed.
@*)
