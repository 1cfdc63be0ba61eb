(** Proofs of C98. *)
From Coq Require Import ZArith Reals List Bool Lra Lia.
From Coquelicot Require Import Coquelicot.
From Verif Require Import Base Num NumR AnalysisM Device Signal AnaSpec AnaFacts AnaLemmas2 MeterSpec MeterFacts.
Import ListNotations.
Open Scope R_scope.

(*@PROP
(** Property C98: the detectors as level meters for periodic signals, in exact
    arithmetic.

    Vocabulary: [meters D level] says what detector [D] meters, magnitude
    ([PeakEnvDetector]) or power ([RmsEnvDetector]); [periodic], [mean], [levels],
    [with_times] are in [MeterSpec]; [after], [out], [approaches] in [Device] and
    [Signal]. *)
From Coq Require Import ZArith Reals List Bool Lra Lia.
From Coquelicot Require Import Coquelicot.
From Verif Require Import Base Num NumR AnalysisM Device Signal AnaSpec MeterSpec MeterLemmas.
Import ListNotations.
Open Scope R_scope.

@*)

Lemma meters_lib {S} (D : detector S R) f : meters D f -> lib_detector R_ops D.
Proof. intros []; constructor. Qed.

(** What the histories guarantee: a non-negative envelope and gains in [0, 1). *)
Lemma peak_env_pos (history : list (call (det_set R) R)) : 0 <= pk_envelope (after (dev_peak R_ops) history).
Proof.
  apply (after_inv (dev_peak R_ops) (fun s => 0 <= pk_attack_gain s < 1 /\ 0 <= pk_release_gain s < 1 /\ 0 <= pk_envelope s) (fun _ => True) (fun _ => True)).
  - intros s c [H1 [H2 H3]] _. split; [|auto].
    assert (Hk : forall len, n_lt R_ops (n_zero R_ops) len && n_is_finite R_ops len = true -> 0 <= gain_of R_ops len < 1).
    { intros len H. apply guardR in H. assert (K := expR len H). unfold gain_of. cbn.
      replace (- (1)) with (-1) by lra. lra. }
    destruct c as [x| |[l|l]|]; cbn [d_step dev_peak d_process d_clear d_set d_last_out fst]; auto.
    + unfold peak_process. cbn. split; [exact H1|]. split; [exact H2|].
      assert (0 <= Rabs x) by apply Rabs_pos. destruct (Rltb _ _); nra.
    + cbn. split; [exact H1|]. split; [exact H2|]. lra.
    + unfold peak_set_attack. destruct (_ && _) eqn:E; [|auto]. cbn [pk_attack_gain pk_release_gain pk_envelope].
      split; [exact (Hk l E)|auto].
    + unfold peak_set_release. destruct (_ && _) eqn:E; [|auto]. cbn [pk_attack_gain pk_release_gain pk_envelope].
      split; [exact H1|]. split; [exact (Hk l E)|auto].
  - cbn. lra.
  - apply List.Forall_forall. auto.
Qed.

(** The levels of the readings follow the levels of the signal. *)
Lemma meter_follows {S} (D : detector S R) f history x :
  meters D f ->
  let s := after (det_dev D) history in
  exists e, follows (det_gain D Attack s) (det_gain D Release s) (levels f x) e
    /\ e 0%nat = f (d_last_out (det_dev D) s)
    /\ 0 <= e 0%nat
    /\ forall n, f (out (det_dev D) s x n) = e (Datatypes.S n).
Proof.
  intros HD s. assert (G := gains_unit D history (meters_lib D f HD)). fold s in G.
  assert (Ga := G Attack). assert (Gr := G Release). clear G.
  destruct HD.
  - assert (P0 : 0 <= pk_envelope s) by apply peak_env_pos. clearbody s.
    cbn [peak_detector det_gain det_dev] in *. unfold peak_get_attack_gain, peak_get_release_gain in *.
    set (e := fun n => pk_envelope (state_at (dev_peak R_ops) s x n)).
    assert (I : forall n, state_at (dev_peak R_ops) s x n = PeakDet (pk_attack_gain s) (pk_release_gain s) (e n)).
    { induction n as [|n IH]; [destruct s; reflexivity|]. unfold e. cbn [state_at]. rewrite IH. reflexivity. }
    assert (F : follows (pk_attack_gain s) (pk_release_gain s) (levels Rabs x) e).
    { intros n. unfold e at 1. cbn [state_at]. rewrite I. cbn. unfold levels, Rltb.
      destruct (Rlt_dec (e n) (Rabs (x n))); reflexivity. }
    assert (Pn : forall n, 0 <= e n).
    { induction n as [|n IH]; [exact P0|]. rewrite F. unfold levels. assert (0 <= Rabs (x n)) by apply Rabs_pos.
      destruct (Rlt_dec _ _); nra. }
    exists e. split; [exact F|]. split.
    + unfold e. cbn. unfold peak_last_out. rewrite Rabs_pos_eq by exact P0. reflexivity.
    + split; [apply Pn|]. intros n. rewrite peak_out. fold (e (S n)). apply Rabs_pos_eq, Pn.
  - assert (P0 : 0 <= rm_envelope s) by apply rms_env_pos. clearbody s.
    cbn [rms_detector det_gain det_dev] in *. unfold rms_get_attack_gain, rms_get_release_gain in *.
    set (e := fun n => rm_envelope (state_at (dev_rms R_ops) s x n)).
    assert (I : forall n, state_at (dev_rms R_ops) s x n = RmsDet (rm_attack_gain s) (rm_release_gain s) (e n)).
    { induction n as [|n IH]; [destruct s; reflexivity|]. unfold e. cbn [state_at]. rewrite IH. reflexivity. }
    assert (F : follows (rm_attack_gain s) (rm_release_gain s) (levels Rsqr x) e).
    { intros n. unfold e at 1. cbn [state_at]. rewrite I. cbn. unfold levels, Rltb, Rsqr.
      destruct (Rlt_dec (e n) (x n * x n)); reflexivity. }
    assert (Pn : forall n, 0 <= e n).
    { induction n as [|n IH]; [exact P0|]. rewrite F. unfold levels. assert (0 <= Rsqr (x n)) by apply Rle_0_sqr.
      destruct (Rlt_dec _ _); nra. }
    exists e. split; [exact F|]. split.
    + unfold e. cbn. unfold rms_last_out. cbn. rewrite Rsqr_sqrt by exact P0. reflexivity.
    + split; [apply Pn|]. intros n. rewrite rms_out. apply Rsqr_sqrt, Pn.
Qed.

Lemma gains_with_times {S} (D : detector S R) history la lr : lib_detector R_ops D -> 0 < la -> 0 < lr ->
  let s := after (det_dev D) (with_times history la lr) in
  det_gain D Attack s = exp (- (1 / la)) /\ det_gain D Release s = exp (- (1 / lr)).
Proof.
  intros HD Ha Hr s. unfold s, with_times.
  replace (history ++ [CSet (SetAttack la); CSet (SetRelease lr)])
    with ((history ++ [CSet (set_phase Attack la)]) ++ [CSet (set_phase Release lr)]) by (rewrite <- app_assoc; reflexivity).
  destruct (C51_exact_gains_thm S D history Attack la HD) as [_ [A _]]. destruct (A Ha) as [A1 _].
  destruct (C51_exact_gains_thm S D (history ++ [CSet (set_phase Attack la)]) Release lr HD) as [_ [B _]].
  destruct (B Hr) as [B1 _]. split; [|exact B1]. rewrite <- A1. rewrite after_snoc.
  destruct HD; cbn [d_step det_dev det_gain peak_detector rms_detector dev_peak dev_rms d_set fst set_phase];
    unfold peak_set_release, rms_set_release; destruct (_ && _); reflexivity.
Qed.

Lemma gain_range L : 0 < L -> 0 < exp (- (1 / L)) < 1.
Proof. intros H. assert (K := expR L H). replace (- (1 / L)) with (-1 / L) by (unfold Rdiv; ring). exact K. Qed.

Lemma gain_le L L' : 0 < L <= L' -> exp (- (1 / L)) <= exp (- (1 / L')).
Proof.
  intros [H1 H2]. destruct H2 as [H2|H2]; [|subst; lra]. left. apply exp_increasing.
  apply Ropp_lt_contravar. unfold Rdiv. rewrite !Rmult_1_l. apply Rinv_lt_contravar; nra.
Qed.

Lemma gain_step L : 0 < L -> 1 - exp (- (1 / L)) <= 1 / L.
Proof. intros H. assert (K := exp_ineq1_le (- (1 / L))). lra. Qed.

Lemma periodic_levels P f x : periodic P x -> periodic P (levels f x).
Proof. intros [H1 H2]. split; [exact H1|]. intros n. unfold levels. rewrite H2. reflexivity. Qed.
Lemma periodic_shift P x : periodic P x -> periodic P (fun n => x (S n)).
Proof. intros [H1 H2]. split; [exact H1|]. intros n. apply (H2 (S n)). Qed.

Lemma follows_shift a r v e : follows a r v e -> follows a r (fun n => v (S n)) (fun n => e (S n)).
Proof. intros H n. apply (H (S n)). Qed.

Lemma mean_sub P x n c d : (0 < P)%nat -> total P x n - c * INR P = d * INR P -> mean P x n - c = d.
Proof.
  intros HP H. assert (0 < INR P) by (apply lt_0_INR; lia). unfold mean.
  apply (Rmult_eq_reg_r (INR P)); [|lra]. rewrite <- H. field. lra.
Qed.

(** C98: with attack and release times equal to [L], after any earlier calls, the
    mean level of the readings over a period converges to the mean level of the
    signal: the difference shrinks by exactly exp(-1/L) per sample. *)
Lemma C98_mean_reading_thm :
  forall (S : Type) (D : detector S R) (level : R -> R) (history : list (call (det_set R) R))
         (L : R) (P : nat) (x : signal) (n : nat),
    meters D level -> 0 < L -> periodic P x ->
    let y := out (det_dev D) (after (det_dev D) (with_times history L L)) x in
    mean P (levels level y) n - mean P (levels level x) 0
    = exp (- (INR n / L)) * (mean P (levels level y) 0 - mean P (levels level x) 0).
Proof.
  intros S D f history L P x n HD HL HP y.
  destruct (meter_follows D f (with_times history L L) x HD) as [e [F [E0 [P0 Ey]]]].
  destruct (gains_with_times D history L L (meters_lib D f HD) HL HL) as [G1 G2]. rewrite G1, G2 in F.
  assert (G := gain_range L HL).
  assert (T : forall k m, total k (levels f y) m = total k (fun i => e (Datatypes.S i)) m).
  { intros k m. apply total_ext. intros i. apply Ey. }
  assert (HP' := periodic_shift P _ (periodic_levels P f x HP)).
  assert (K := follow_total_eq _ _ _ _ (conj (Rlt_le _ _ (proj1 G)) (proj2 G)) (conj (Rlt_le _ _ (proj1 G)) (proj2 G)) (follows_shift _ _ _ _ F) P HP' eq_refl n).
  rewrite pow_exp in K by exact HL.
  assert (Ev : total P (fun i => levels f x (Datatypes.S i)) 0 = total P (levels f x) 0).
  { rewrite <- total_next. apply total_periodic, periodic_levels, HP. }
  rewrite Ev in K.
  assert (Pp : 0 < INR P) by (apply lt_0_INR; apply HP).
  set (q := exp (- (INR n / L))) in *. unfold mean. rewrite !T. unfold Rdiv. rewrite <- !Rmult_minus_distr_r, K. ring.
Qed.

(** C98: hence every single reading comes within the ripple (P-1)/(2L) of the mean
    level, relative to the loudest level. *)
Lemma C98_reading_error_thm :
  forall (S : Type) (D : detector S R) (level : R -> R) (history : list (call (det_set R) R))
         (L M : R) (P : nat) (x : signal) (n : nat),
    meters D level -> 0 < L -> periodic P x ->
    let s := after (det_dev D) (with_times history L L) in
    (forall i, Rabs (x i) <= M) -> d_last_out (det_dev D) s <= M ->
    Rabs (level (out (det_dev D) s x n) - mean P (levels level x) 0)
    <= ((INR P - 1) / (2 * L) + exp (- (INR n / L))) * level M.
Proof.
  intros S D f history L M P x n HD HL HP s Hx Hs.
  assert (C := C98_mean_reading_thm S D f history L P x n HD HL HP). cbv zeta in C. fold s in C.
  destruct (meter_follows D f (with_times history L L) x HD) as [e [F [E0 [P0 Ey]]]].
  destruct (gains_with_times D history L L (meters_lib D f HD) HL HL) as [G1 G2]. rewrite G1, G2 in F.
  fold s in E0, Ey. clear G1 G2.
  assert (G := gain_range L HL). assert (GS := gain_step L HL).
  assert (M0 : 0 <= M) by (eapply Rle_trans; [apply Rabs_pos|apply (Hx 0%nat)]).
  assert (Hv : forall i, 0 <= levels f x i <= f M).
  { intros i. unfold levels. specialize (Hx i). assert (A := Rabs_pos (x i)). destruct HD.
    - rewrite (Rabs_pos_eq M) by exact M0. lra.
    - split; [apply Rle_0_sqr|]. apply Rsqr_le_abs_1. rewrite (Rabs_pos_eq M) by exact M0. exact Hx. }
  assert (He : 0 <= e 0%nat <= f M).
  { split; [exact P0|]. rewrite E0.
    assert (Q : 0 <= d_last_out (det_dev D) s).
    { destruct HD; [apply peak_env_pos|apply sqrt_pos]. }
    destruct HD.
    - rewrite !Rabs_pos_eq by assumption. exact Hs.
    - apply Rsqr_incr_1; assumption. }
  assert (R1 := follow_range _ _ _ _ (conj (Rlt_le _ _ (proj1 G)) (proj2 G)) (conj (Rlt_le _ _ (proj1 G)) (proj2 G)) F 0 (f M) Hv He).
  assert (St := follow_step _ _ _ _ (conj (Rlt_le _ _ (proj1 G)) (proj2 G)) (conj (Rlt_le _ _ (proj1 G)) (proj2 G)) F
                  (f M) (1 / L) ltac:(lra) GS GS Hv He).
  assert (W := walk_total (fun i => e (Datatypes.S i)) _ (fun i => St (Datatypes.S i)) n P). cbv beta in W.
  assert (T : forall k m, total k (levels f (out (det_dev D) s x)) m = total k (fun i => e (Datatypes.S i)) m).
  { intros k m. apply total_ext. intros i. apply Ey. }
  assert (Pp : 0 < INR P) by (apply lt_0_INR; apply HP).
  rewrite Ey. rewrite <- (T P n) in W.
  set (A := mean P (levels f (out (det_dev D) s x)) n) in *.
  assert (W' : Rabs (A - e (Datatypes.S n)) <= (INR P - 1) / (2 * L) * f M).
  { unfold A, mean. replace (total P (levels f (out (det_dev D) s x)) n / INR P - e (Datatypes.S n))
      with ((total P (levels f (out (det_dev D) s x)) n - INR P * e (Datatypes.S n)) * / INR P) by (field; lra).
    rewrite Rabs_mult, (Rabs_pos_eq (/ INR P)) by (left; apply Rinv_0_lt_compat; lra).
    apply (Rmult_le_reg_r (INR P)); [exact Pp|]. rewrite Rmult_assoc, Rinv_l, Rmult_1_r by lra.
    eapply Rle_trans; [exact W|]. right. field. lra. }
  assert (Rg : forall (z : signal) m, (forall i, 0 <= z i <= f M) -> 0 <= mean P z m <= f M).
  { intros z m Hz. assert (U := total_le P z (fun _ => f M) m (fun i => proj2 (Hz i))).
    assert (U' := total_le P (fun _ => 0) z m (fun i => proj1 (Hz i))). rewrite total_const in U, U'.
    unfold mean. split.
    - apply Rmult_le_pos; [lra|left; apply Rinv_0_lt_compat; lra].
    - apply (Rmult_le_reg_r (INR P)); [exact Pp|]. unfold Rdiv. rewrite Rmult_assoc, Rinv_l by lra. lra. }
  assert (V1 := Rg (levels f x) 0%nat Hv).
  assert (V2 : 0 <= mean P (levels f (out (det_dev D) s x)) 0 <= f M).
  { apply Rg. intros i. unfold levels. rewrite Ey. apply R1. }
  set (B := mean P (levels f x) 0) in *. set (q := exp (- (INR n / L))) in *.
  assert (Pq : 0 < q) by apply exp_pos.
  assert (D1 : Rabs (mean P (levels f (out (det_dev D) s x)) 0 - B) <= f M) by (apply Rabs_le; lra).
  assert (D2 : Rabs (A - B) <= q * f M).
  { rewrite C, Rabs_mult, (Rabs_pos_eq q) by lra. nra. }
  replace (e (Datatypes.S n) - B) with ((A - B) - (A - e (Datatypes.S n))) by ring.
  eapply Rle_trans; [apply Rabs_triang|]. rewrite Rabs_Ropp. lra.
Qed.

(** C98: with an attack at most as long as the release, the mean reading ends up at
    or above the mean level; with an attack at least as long, at or below it. *)
Lemma C98_attack_bias_thm :
  forall (S : Type) (D : detector S R) (level : R -> R) (history : list (call (det_set R) R))
         (La Lr : R) (P : nat) (x : signal) (n : nat),
    meters D level -> 0 < La -> 0 < Lr -> periodic P x ->
    let y := out (det_dev D) (after (det_dev D) (with_times history La Lr)) x in
    let excess k := mean P (levels level y) k - mean P (levels level x) 0 in
    (La <= Lr -> exp (- (INR n / Lr)) * excess 0%nat <= excess n)
    /\ (Lr <= La -> excess n <= exp (- (INR n / Lr)) * excess 0%nat).
Proof.
  intros S D f history La Lr P x n HD Ha Hr HP y excess.
  destruct (meter_follows D f (with_times history La Lr) x HD) as [e [F [E0 [P0 Ey]]]].
  destruct (gains_with_times D history La Lr (meters_lib D f HD) Ha Hr) as [G1 G2]. rewrite G1, G2 in F.
  assert (Ga := gain_range La Ha). assert (Gr := gain_range Lr Hr).
  assert (T : forall k m, total k (levels f y) m = total k (fun i => e (Datatypes.S i)) m).
  { intros k m. apply total_ext. intros i. apply Ey. }
  assert (HP' := periodic_shift P _ (periodic_levels P f x HP)).
  assert (Ev : total P (fun i => levels f x (Datatypes.S i)) 0 = total P (levels f x) 0).
  { rewrite <- total_next. apply total_periodic, periodic_levels, HP. }
  assert (Pp : 0 < INR P) by (apply lt_0_INR; apply HP).
  assert (Ip : 0 < / INR P) by (apply Rinv_0_lt_compat, Pp).
  set (q := exp (- (INR n / Lr))). unfold excess, mean. rewrite !T. unfold Rdiv. rewrite <- !Rmult_minus_distr_r, <- Rmult_assoc.
  split; intros HL.
  - assert (K := follow_total_ge _ _ _ _ (conj (Rlt_le _ _ (proj1 Gr)) (proj2 Gr)) (follows_shift _ _ _ _ F) P HP' (gain_le La Lr (conj Ha HL)) n).
    rewrite pow_exp, Ev in K by exact Hr. fold q in K. apply Rmult_le_compat_r; [lra|]. apply Rge_le, K.
  - assert (K := follow_total_le _ _ _ _ (conj (Rlt_le _ _ (proj1 Gr)) (proj2 Gr)) (follows_shift _ _ _ _ F) P HP' (gain_le Lr La (conj Hr HL)) n).
    rewrite pow_exp, Ev in K by exact Hr. fold q in K. apply Rmult_le_compat_r; [lra|]. exact K.
Qed.

(** C98: whatever was fed before, the difference to the readings after another past
    shrinks at least by exp(-1/max(La, Lr)) per sample. *)
Lemma C98_forgets_thm :
  forall (S : Type) (D : detector S R) (level : R -> R) (history history' : list (call (det_set R) R))
         (La Lr : R) (x : signal) (n : nat),
    meters D level -> 0 < La -> 0 < Lr ->
    let s := after (det_dev D) (with_times history La Lr) in
    let s' := after (det_dev D) (with_times history' La Lr) in
    Rabs (level (out (det_dev D) s x n) - level (out (det_dev D) s' x n))
    <= exp (- (INR (n + 1) / Rmax La Lr))
       * Rabs (level (d_last_out (det_dev D) s) - level (d_last_out (det_dev D) s')).
Proof.
  intros S D f h h' La Lr x n HD Ha Hr s s'.
  destruct (meter_follows D f (with_times h La Lr) x HD) as [e [F [E0 [P0 Ey]]]].
  destruct (meter_follows D f (with_times h' La Lr) x HD) as [e' [F' [E0' [P0' Ey']]]].
  destruct (gains_with_times D h La Lr (meters_lib D f HD) Ha Hr) as [G1 G2]. rewrite G1, G2 in F.
  destruct (gains_with_times D h' La Lr (meters_lib D f HD) Ha Hr) as [G1' G2']. rewrite G1', G2' in F'.
  fold s in E0, Ey. fold s' in E0', Ey'.
  assert (Ga := gain_range La Ha). assert (Gr := gain_range Lr Hr).
  assert (C := contracts _ _ _ _ _ (conj (Rlt_le _ _ (proj1 Ga)) (proj2 Ga)) (conj (Rlt_le _ _ (proj1 Gr)) (proj2 Gr)) F F' (Datatypes.S n)).
  rewrite Ey, Ey', <- E0, <- E0'. replace (n + 1)%nat with (Datatypes.S n) by lia.
  assert (X : Rmax (exp (- (1 / La))) (exp (- (1 / Lr))) = exp (- (1 / Rmax La Lr))).
  { unfold Rmax. destruct (Rle_dec La Lr) as [Q|Q].
    - destruct (Rle_dec _ _) as [Q2|Q2]; [reflexivity|]. exfalso. apply Q2, gain_le. lra.
    - destruct (Rle_dec _ _) as [Q2|Q2]; [|reflexivity].
      assert (Q3 := gain_le Lr La ltac:(lra)). lra. }
  rewrite X, pow_exp in C by (apply Rlt_le_trans with La; [exact Ha|apply Rmax_l]). exact C.
Qed.

(** C98: the readings of a periodic signal settle into one periodic pattern, the same
    after every past. *)
Lemma C98_settles_thm :
  forall (S : Type) (D : detector S R) (level : R -> R) (La Lr : R) (P : nat) (x : signal),
    meters D level -> 0 < La -> 0 < Lr -> periodic P x ->
    exists z, periodic P z /\
      forall history : list (call (det_set R) R),
        approaches (levels level (out (det_dev D) (after (det_dev D) (with_times history La Lr)) x)) z.
Proof.
  intros S D f La Lr P x HD Ha Hr HP.
  assert (Ga := gain_range La Ha). assert (Gr := gain_range Lr Hr).
  assert (Ga' := conj (Rlt_le _ _ (proj1 Ga)) (proj2 Ga)). assert (Gr' := conj (Rlt_le _ _ (proj1 Gr)) (proj2 Gr)).
  set (a := exp (- (1 / La))) in *. set (r := exp (- (1 / Lr))) in *.
  assert (HP' := periodic_levels P f x HP).
  destruct (steady_close a r (levels f x) P Ga' Gr' HP') as [B HB].
  exists (fun n => steady a r (levels f x) P (Datatypes.S n)).
  split; [apply periodic_shift, steady_periodic; assumption|].
  intros history. set (s := after (det_dev D) (with_times history La Lr)).
  destruct (meter_follows D f (with_times history La Lr) x HD) as [e [F [E0 [P0 Ey]]]].
  destruct (gains_with_times D history La Lr (meters_lib D f HD) Ha Hr) as [G1 G2]. rewrite G1, G2 in F.
  fold a r in F. fold s in Ey.
  set (m := Rmax a r). assert (Hm : 0 <= m < 1).
  { unfold m. split; [apply Rle_trans with a; [lra|apply Rmax_l]|apply Rmax_lub_lt; lra]. }
  assert (C := contracts a r _ _ _ Ga' Gr' F (z0_follows a r (levels f x))). fold m in C.
  unfold approaches.
  set (B' := Rabs (e 0%nat - z0 a r (levels f x) 0%nat) + B).
  assert (K : forall n, Rabs (levels f (out (det_dev D) s x) n - steady a r (levels f x) P (Datatypes.S n)) <= m ^ n * (m * B')).
  { intros n. unfold levels at 1. rewrite Ey.
    assert (C1 := C (Datatypes.S n)). assert (C2 := HB (Datatypes.S n)). fold m in C2.
    replace (e (Datatypes.S n) - steady a r (levels f x) P (Datatypes.S n))
      with ((e (Datatypes.S n) - z0 a r (levels f x) (Datatypes.S n)) + (z0 a r (levels f x) (Datatypes.S n) - steady a r (levels f x) P (Datatypes.S n))) by ring.
    eapply Rle_trans; [apply Rabs_triang|]. cbn [pow] in C1, C2. unfold B'. nra. }
  assert (L : is_lim_seq (fun n => m ^ n * (m * B')) 0).
  { replace (Finite 0) with (Finite (0 * (m * B'))) by (f_equal; ring).
    apply is_lim_seq_mult'; [apply is_lim_seq_geom, Rabs_def1; lra|apply is_lim_seq_const]. }
  apply (is_lim_seq_le_le (fun n => - (m ^ n * (m * B'))) _ (fun n => m ^ n * (m * B'))).
  - intros n. specialize (K n). apply Rabs_le_between in K. exact K.
  - replace (Finite 0) with (Finite (- 0)) by (f_equal; ring). apply (is_lim_seq_opp _ (Finite 0)), L.
  - exact L.
Qed.

(** C98: a detector whose attack was never set holds peaks: a reading is never below
    the level of any earlier sample decayed by exp(-1/L) per sample since. *)
Lemma C98_peak_hold_thm :
  forall (S : Type) (D : detector S R) (level : R -> R) (history : list (call (det_set R) R))
         (L : R) (x : signal) (k j : nat),
    meters D level -> 0 < L -> (forall l, ~ In (CSet (SetAttack l)) history) ->
    let s := after (det_dev D) (history ++ [CSet (SetRelease L)]) in
    exp (- (INR j / L)) * level (x k) <= level (out (det_dev D) s x (k + j)%nat).
Proof.
  intros S D f history L x k j HD HL HN s.
  destruct (meter_follows D f (history ++ [CSet (SetRelease L)]) x HD) as [e [F [E0 [P0 Ey]]]].
  assert (Gr : det_gain D Release s = exp (- (1 / L))).
  { destruct (C51_exact_gains_thm S D history Release L (meters_lib D f HD)) as [_ [A _]]. apply A, HL. }
  assert (Ga : det_gain D Attack s = 0).
  { assert (HI : forall l, ~ In (CSet (SetAttack l)) (history ++ [CSet (SetRelease L)])).
    { intros l H. apply in_app_or in H. destruct H as [H|[H|[]]]; [exact (HN l H)|discriminate]. }
    unfold s. apply (after_inv (det_dev D) (fun s => det_gain D Attack s = 0) (fun c => forall l, c <> CSet (SetAttack l)) (fun _ => True)).
    - intros s0 c Hs Hc. split; [|auto]. destruct HD; destruct c as [z| |[l|l]|];
        cbn [d_step det_dev det_gain peak_detector rms_detector dev_peak dev_rms d_process d_clear d_set fst] in *;
        try exact Hs; try (exfalso; exact (Hc l eq_refl));
        unfold peak_set_release, rms_set_release; destruct (_ && _); exact Hs.
    - destruct HD; reflexivity.
    - apply List.Forall_forall. intros c Hc l E. subst. exact (HI l Hc). }
  fold s in F, Ey. rewrite Ga, Gr in F. rewrite Ey.
  assert (G := gain_range L HL). set (r := exp (- (1 / L))) in *.
  assert (Hv : forall i, 0 <= levels f x i).
  { intros i. unfold levels. destruct HD; [apply Rabs_pos|apply Rle_0_sqr]. }
  assert (Pn : forall n, 0 <= e n).
  { induction n as [|n IH]; [exact P0|]. rewrite F. specialize (Hv n). destruct (Rlt_dec _ _); nra. }
  rewrite <- pow_exp by exact HL. fold r. change (f (x k)) with (levels f x k).
  induction j as [|j IH].
  - replace (k + 0)%nat with k by lia. rewrite F. cbn [pow]. specialize (Hv k). destruct (Rlt_dec _ _); [lra|]. nra.
  - replace (Datatypes.S (k + Datatypes.S j)) with (Datatypes.S (Datatypes.S (k + j))) by lia.
    rewrite F. cbn [pow]. specialize (Hv (Datatypes.S (k + j))). assert (Q := Pn (Datatypes.S (k + j))).
    destruct (Rlt_dec _ _); nra.
Qed.

(** *** Sinusoids *)
Lemma cos_total th psi k : 2 * sin (th / 2) * total k (fun i => cos (INR i * th + psi)) 0
  = sin (INR k * th - th / 2 + psi) - sin (psi - th / 2).
Proof.
  induction k as [|k IH].
  - cbn [total INR]. replace (0 * th - th / 2 + psi) with (psi - th / 2) by ring. lra.
  - cbn [total]. rewrite Rmult_plus_distr_l, IH. replace (0 + k)%nat with k by lia. rewrite S_INR.
    replace ((INR k + 1) * th - th / 2 + psi) with ((INR k * th + psi) + th / 2) by field.
    replace (INR k * th - th / 2 + psi) with ((INR k * th + psi) - th / 2) by ring.
    rewrite (sin_plus (INR k * th + psi)), (sin_minus (INR k * th + psi)). ring.
Qed.

Lemma sin_period_nat x k : sin (x + 2 * INR k * PI) = sin x.
Proof. apply sin_period. Qed.

(** C98: so [RmsEnvDetector] reads A/sqrt 2 for a sinusoid of amplitude A making m
    whole cycles in P samples, up to the ripple. *)
Lemma C98_rms_of_sinusoid_thm :
  forall (history : list (call (det_set R) R)) (L A phi : R) (m P n : nat),
    0 < L -> 0 <= A -> (0 < 2 * m < P)%nat ->
    let s := after (dev_rms R_ops) (with_times history L L) in
    let x := sinusoid A (2 * PI * INR m / INR P) phi in
    d_last_out (dev_rms R_ops) s <= A ->
    Rabs ((out (dev_rms R_ops) s x n)² - A² / 2)
    <= ((INR P - 1) / (2 * L) + exp (- (INR n / L))) * A².
Proof.
  intros history L A phi m P n HL HA Hm s x Hs.
  assert (Pp : 0 < INR P) by (apply lt_0_INR; lia).
  set (w := 2 * PI * INR m / INR P) in *.
  assert (Pw : INR P * w = 2 * INR m * PI) by (unfold w; field; lra).
  assert (HP : periodic P x).
  { split; [lia|]. intros i. unfold x, sinusoid. rewrite plus_INR.
    replace ((INR i + INR P) * w + phi) with ((INR i * w + phi) + 2 * INR m * PI) by (rewrite <- Pw; ring).
    rewrite cos_period. reflexivity. }
  assert (Hx : forall i, Rabs (x i) <= A).
  { intros i. unfold x, sinusoid. rewrite Rabs_mult, (Rabs_pos_eq A) by exact HA.
    assert (B := COS_bound (INR i * w + phi)). assert (Rabs (cos (INR i * w + phi)) <= 1) by (apply Rabs_le; lra). nra. }
  assert (K := C98_reading_error_thm _ (rms_detector R_ops) Rsqr history L A P x n mt_rms HL HP Hx Hs).
  cbn [rms_detector det_dev] in K. fold s in K.
  replace (mean P (levels Rsqr x) 0) with (A² / 2) in K; [exact K|].
  unfold mean.
  rewrite (total_ext _ _ (fun i => A² / 2 * 1 + A² / 2 * cos (INR i * (2 * w) + 2 * phi))).
  2: { intros i. unfold levels, x, sinusoid. replace (INR i * (2 * w) + 2 * phi) with (2 * (INR i * w + phi)) by ring.
       rewrite cos_2a_cos. unfold Rsqr. field. }
  rewrite (total_plus _ (fun _ => A² / 2 * 1) (fun i => A² / 2 * cos (INR i * (2 * w) + 2 * phi))).
  rewrite total_const, (total_scal _ (A² / 2) (fun i => cos (INR i * (2 * w) + 2 * phi))).
  assert (T := cos_total (2 * w) (2 * phi) P).
  replace (INR P * (2 * w) - 2 * w / 2 + 2 * phi) with ((2 * phi - 2 * w / 2) + 2 * INR (2 * m) * PI) in T
    by (rewrite mult_INR; cbn [INR]; replace (INR P * (2 * w)) with (2 * (INR P * w)) by ring; rewrite Pw; field).
  rewrite sin_period in T. replace (2 * w / 2) with w in T by field.
  assert (Sw : 0 < sin w).
  { assert (0 < PI) by apply PI_RGT_0.
    assert (0 < INR m) by (apply lt_0_INR; lia).
    assert (2 * INR m < INR P) by (replace (2 * INR m) with (INR (2 * m)) by (rewrite mult_INR; cbn; ring); apply lt_INR; lia).
    apply sin_gt_0.
    - unfold w. apply Rmult_lt_0_compat; [nra|apply Rinv_0_lt_compat, Pp].
    - apply (Rmult_lt_reg_l (INR P)); [exact Pp|]. rewrite Pw. nra. }
  assert (Z : total P (fun i => cos (INR i * (2 * w) + 2 * phi)) 0 = 0).
  { apply (Rmult_eq_reg_l (2 * sin w)); [|lra]. rewrite T. ring. }
  rewrite Z. field. lra.
Qed.

(*@PROP
(** C98: a case that meets the hypotheses: 441 Hz at 44.1 kHz (one cycle in 100
    samples), a meter of 4410 samples (100 ms), set on a new detector. *)
Example C98_hyps :
  meters (peak_detector R_ops) Rabs /\ meters (rms_detector R_ops) Rsqr
  /\ periodic 2 (sinusoid 1 PI 0)
  /\ (0 < 2 * 1 < 100)%nat
  /\ d_last_out (dev_rms R_ops) (after (dev_rms R_ops) (with_times [] 4410 4410)) <= 1
  /\ (forall l : R, ~ In (CSet (SetAttack l)) ([CProcess 1; CClear] : list (call (det_set R) R))).
Proof. exact C98_wit. Qed.
@*)
Lemma C98_wit :
  meters (peak_detector R_ops) Rabs /\ meters (rms_detector R_ops) Rsqr
  /\ periodic 2 (sinusoid 1 PI 0)
  /\ (0 < 2 * 1 < 100)%nat
  /\ d_last_out (dev_rms R_ops) (after (dev_rms R_ops) (with_times [] 4410 4410)) <= 1
  /\ (forall l : R, ~ In (CSet (SetAttack l)) ([CProcess 1; CClear] : list (call (det_set R) R))).
Proof.
  split; [constructor|]. split; [constructor|]. split; [|split; [lia|split]].
  - split; [lia|]. intros n. unfold sinusoid. rewrite plus_INR. cbn [INR].
    replace ((INR n + (1 + 1)) * PI + 0) with ((INR n * PI + 0) + 2 * INR 1 * PI) by (cbn; ring).
    rewrite cos_period. reflexivity.
  - unfold after, with_times. cbn. unfold rms_set_release, rms_set_attack. cbn. unfold Rltb.
    destruct (Rlt_dec 0 4410); [|lra]. cbn. destruct (Rlt_dec 0 4410); [|lra]. cbn. unfold rms_last_out. cbn. rewrite sqrt_0. lra.
  - intros l [H|[H|[]]]; discriminate.
Qed.
