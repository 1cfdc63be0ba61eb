(** Proofs of C49, C51, C55, C71: the integrator and the detectors in exact
    arithmetic. *)
From Coq Require Import ZArith Reals List Bool Lra Lia.
From Coquelicot Require Import Coquelicot.
From Verif Require Import Base Num NumR FilterM AnalysisM Device Signal AnaSpec AnaFacts.
Import ListNotations.
Open Scope R_scope.

(*@PROP
(** Properties C49, C51, C55, C71: [LeakyIntegrator], [PeakEnvDetector] and
    [RmsEnvDetector] in exact arithmetic.

    Vocabulary: [after D cs] is a new object after the calls [cs] ([Device]);
    [out D s x] is the signal [process] returns when an object in state [s] is fed
    the signal [x], [configured D k] a new object after one setter call
    ([Signal]); [det_dev], [det_gain], [gain_of], [lib_detector], [louder] are in
    [AnaSpec]. *)
From Coq Require Import ZArith Reals List Bool Lra Lia.
From Coquelicot Require Import Coquelicot.
From Verif Require Import Base Num NumR FilterM AnalysisM Device Signal AnaSpec AnaLemmas2.
Import ListNotations.
Open Scope R_scope.

@*)

Notation ROps := R_ops.

Lemma guardR (l : R) : n_lt ROps (n_zero ROps) l && n_is_finite ROps l = true <-> 0 < l.
Proof.
  cbn. rewrite andb_true_r. unfold Rltb. destruct (Rlt_dec 0 l); split; intros; auto; try discriminate; contradiction.
Qed.

Lemma expR (l : R) : 0 < l -> 0 < exp (-1 / l) < 1.
Proof.
  intros H. split; [apply exp_pos|]. rewrite <- exp_0. apply exp_increasing.
  assert (0 < / l) by (apply Rinv_0_lt_compat; exact H). unfold Rdiv. lra.
Qed.

(** Gains of the two detectors. *)
Lemma gains_unit {S} (D : detector S R) (history : list (call (det_set R) R)) :
  lib_detector ROps D -> forall ph, 0 <= det_gain D ph (after (det_dev D) history) < 1.
Proof.
  intros HD.
  apply (after_inv (det_dev D) (fun s => forall ph, 0 <= det_gain D ph s < 1) (fun _ => True) (fun _ => True)).
  - intros s c Hs _. split; [|auto]. intros ph. assert (Hs' := Hs ph).
    assert (Hk : forall len, n_lt ROps (n_zero ROps) len && n_is_finite ROps len = true -> 0 <= gain_of ROps len < 1).
    { intros len H. apply guardR in H. assert (K := expR len H). unfold gain_of. cbn.
      replace (- (1)) with (-1) by lra. lra. }
    destruct HD; destruct c as [x| |[l|l]|]; destruct ph;
      cbn [d_step det_dev det_gain peak_detector rms_detector dev_peak dev_rms d_process d_clear d_set d_last_out fst] in *;
      try exact Hs';
      unfold peak_set_attack, peak_set_release, rms_set_attack, rms_set_release;
      destruct (n_lt ROps (n_zero ROps) l && n_is_finite ROps l) eqn:E; try exact Hs'; exact (Hk l E).
  - intros ph. destruct HD; destruct ph; cbn; lra.
  - apply List.Forall_forall. auto.
Qed.

Lemma leaky_unit (history : list (call R R)) : 0 <= leaky_get_alpha (after (dev_leaky ROps) history) < 1.
Proof.
  apply (after_inv (dev_leaky ROps) (fun s => 0 <= leaky_get_alpha s < 1) (fun _ => True) (fun _ => True)).
  - intros s c Hs _. split; [|auto].
    destruct c as [x| |g|]; cbn [d_step dev_leaky d_process d_clear d_set d_last_out fst] in *; try exact Hs.
    unfold leaky_set_alpha. destruct (n_le ROps (n_zero ROps) g && n_lt ROps g (n_one ROps)) eqn:E; [|exact Hs].
    cbn in *. apply andb_prop in E. destruct E as [E1 E2]. unfold Rleb, Rltb in *.
    destruct (Rle_dec 0 g), (Rlt_dec g 1); try discriminate. lra.
  - cbn. lra.
  - apply List.Forall_forall. auto.
Qed.

(** C49: after any calls, with alpha [a] and last output [y0], a constant input [c]
    gives c + a^n (y0 - c) at the n-th sample (n = 1, 2, ...). *)
Lemma C49_geometric_thm :
  forall (history : list (call R R)) (c : R) (n : nat),
    let s := after (dev_leaky R_ops) history in
    out (dev_leaky R_ops) s (fun _ => c) n
    = c + leaky_get_alpha s ^ (n + 1) * (leaky_last_out s - c).
Proof.
  intros history c n s. clearbody s.
  assert (H : forall n, state_at (dev_leaky ROps) s (fun _ => c) n
                        = Leaky (lk_alpha s) (c + lk_alpha s ^ n * (lk_y_z1 s - c))).
  { induction n0 as [|m IH].
    - destruct s as [a y]. cbn. f_equal. ring.
    - cbn [state_at]. rewrite IH. cbn. f_equal. ring. }
  unfold out. rewrite H. cbn. unfold leaky_get_alpha, leaky_last_out.
  replace (n + 1)%nat with (S n) by lia. cbn [pow]. ring.
Qed.

(*@PROP
Example C49_geometric_hyps :
  let s := after (dev_leaky R_ops) [CSet (/ 2); CProcess 3; CClear; CProcess 4] in
  leaky_get_alpha s = / 2 /\ leaky_last_out s = 2.
Proof.
  cbn. unfold leaky_set_alpha. cbn. unfold Rleb, Rltb.
  destruct (Rle_dec 0 (/ 2)) as [_|H]; [|lra]. destruct (Rlt_dec (/ 2) 1) as [_|H]; [|lra].
  cbn. split; lra.
Qed.
@*)

(** C49: so it converges to [c]. *)
Lemma C49_converges_thm :
  forall (history : list (call R R)) (c : R),
    is_lim_seq (out (dev_leaky R_ops) (after (dev_leaky R_ops) history) (fun _ => c)) c.
Proof.
  intros history c. set (s := after (dev_leaky ROps) history).
  apply is_lim_seq_ext with (fun n => c + leaky_get_alpha s ^ n * (leaky_get_alpha s * (leaky_last_out s - c))).
  - intros n. unfold s. rewrite C49_geometric_thm. replace (n + 1)%nat with (S n) by lia. cbn [pow]. ring.
  - replace (Finite c) with (Finite (c + 0)) by (f_equal; ring).
    apply is_lim_seq_plus'; [apply is_lim_seq_const|].
    replace (Finite 0) with (Finite (0 * (leaky_get_alpha s * (leaky_last_out s - c)))) by (f_equal; ring).
    apply is_lim_seq_mult'; [|apply is_lim_seq_const]. apply is_lim_seq_geom.
    assert (H := leaky_unit history). fold s in H. apply Rabs_def1; lra.
Qed.

(** C49: set to alpha, a new [LeakyIntegrator] is a [OnePole] with
    b0 = 1 - alpha, a1 = -alpha: the same output for every input signal. *)
Lemma C49_one_pole_thm :
  forall (alpha : R) (x : signal) (n : nat),
    0 <= alpha < 1 ->
    out (dev_leaky R_ops) (configured (dev_leaky R_ops) alpha) x n
    = out (dev_one_pole R_ops) (configured (dev_one_pole R_ops) (1 - alpha, - alpha)) x n.
Proof.
  intros alpha x n H.
  assert (E1 : configured (dev_leaky ROps) alpha = Leaky alpha 0).
  { unfold configured, after. cbn. unfold leaky_set_alpha. cbn. unfold Rleb, Rltb.
    destruct (Rle_dec 0 alpha); [|lra]. destruct (Rlt_dec alpha 1); [|lra]. reflexivity. }
  assert (E2 : configured (dev_one_pole ROps) (1 - alpha, - alpha) = OnePole 0 (1 - alpha) (- alpha)).
  { reflexivity. }
  rewrite E1, E2.
  assert (K : forall n, exists y, state_at (dev_leaky ROps) (Leaky alpha 0) x n = Leaky alpha y
     /\ state_at (dev_one_pole ROps) (OnePole 0 (1 - alpha) (- alpha)) x n = OnePole y (1 - alpha) (- alpha)).
  { induction n0 as [|m [y [I1 I2]]]; [exists 0; split; reflexivity|].
    cbn [state_at]. rewrite I1, I2. cbn. exists (x m + alpha * (y - x m)). split; [reflexivity|].
    f_equal. ring. }
  destruct (K n) as [y [I1 I2]]. unfold out. rewrite I1, I2. cbn. ring.
Qed.

(*@PROP
Example C49_one_pole_hyps : 0 <= / 2 < 1.
Proof. lra. Qed.
@*)

(** C51: in exact arithmetic a positive length gives a gain of exp(-1/len), strictly
    between 0 and 1, and the gains are in [0, 1) after any calls. *)
Lemma C51_exact_gains_thm :
  forall (S : Type) (D : detector S R) (history : list (call (det_set R) R)) (ph : phase) (len : R),
    lib_detector R_ops D ->
    let gain cs := det_gain D ph (after (det_dev D) cs) in
    0 <= gain history < 1
    /\ (0 < len -> gain (history ++ [CSet (set_phase ph len)]) = exp (- (1 / len))
                   /\ 0 < exp (- (1 / len)) < 1)
    /\ (len <= 0 -> gain (history ++ [CSet (set_phase ph len)]) = gain history).
Proof.
  intros S D history ph len HD gain. split; [apply gains_unit, HD|].
  assert (G := guardR len). unfold gain. rewrite after_snoc.
  assert (Ex : gain_of ROps len = exp (- (1 / len))).
  { unfold gain_of. cbn. f_equal. unfold Rdiv. ring. }
  split.
  - intros Hl. split.
    + rewrite <- Ex. apply G in Hl. destruct HD; destruct ph;
      cbn [d_step det_dev det_gain peak_detector rms_detector dev_peak dev_rms d_set d_last_out fst set_phase];
      unfold peak_set_attack, peak_set_release, rms_set_attack, rms_set_release; rewrite Hl; reflexivity.
    + assert (K := expR len Hl). replace (- (1 / len)) with (-1 / len) by (unfold Rdiv; ring). exact K.
  - intros Hl. destruct (n_lt ROps (n_zero ROps) len && n_is_finite ROps len) eqn:E.
    + apply G in E; [lra|reflexivity] || (exfalso; assert (0 < len) by (apply G; reflexivity); lra).
    + destruct HD; destruct ph;
      cbn [d_step det_dev det_gain peak_detector rms_detector dev_peak dev_rms d_set d_last_out fst set_phase];
      unfold peak_set_attack, peak_set_release, rms_set_attack, rms_set_release; rewrite E; reflexivity.
Qed.

(** *** Step responses *)
Lemma pow_exp (L : R) (n : nat) : 0 < L -> exp (- (1 / L)) ^ n = exp (- (INR n / L)).
Proof.
  intros H. induction n as [|n IH].
  - cbn. rewrite <- exp_0. f_equal. unfold Rdiv. ring.
  - cbn [pow]. rewrite IH, <- exp_plus, S_INR. f_equal. unfold Rdiv. ring.
Qed.

Lemma peak_steps (s : peak R) (c : R) (g : R) :
  0 <= g < 1 ->
  (pk_envelope s < Rabs c /\ g = pk_attack_gain s /\ 0 < g \/ Rabs c < pk_envelope s /\ g = pk_release_gain s) ->
  forall n, state_at (dev_peak ROps) s (fun _ => c) n
            = PeakDet (pk_attack_gain s) (pk_release_gain s) (Rabs c + g ^ n * (pk_envelope s - Rabs c)).
Proof.
  intros Hg Hs. induction n as [|n IH].
  - destruct s. cbn. f_equal. ring.
  - cbn [state_at]. rewrite IH. cbn [dev_peak d_process]. unfold peak_process.
    cbn [fst pk_envelope pk_attack_gain pk_release_gain n_lt n_abs n_add n_mul n_sub R_ops].
    f_equal.
    assert (P : 0 <= g ^ n) by (apply pow_le; lra).
    destruct Hs as [[H1 [H2 H3]]|[H1 H2]].
    + assert (0 < g ^ n) by (apply pow_lt; lra).
      unfold Rltb. destruct (Rlt_dec _ _) as [Hd|Hd]; [rewrite <- H2; cbn [pow]; ring|].
      exfalso. apply Hd. nra.
    + unfold Rltb. destruct (Rlt_dec _ _) as [Hd|Hd]; [exfalso; nra|]. rewrite <- H2. cbn [pow]. ring.
Qed.

Lemma rms_steps (s : rms R) (c : R) (g : R) :
  0 <= g < 1 ->
  (rm_envelope s < c * c /\ g = rm_attack_gain s /\ 0 < g \/ c * c < rm_envelope s /\ g = rm_release_gain s) ->
  forall n, state_at (dev_rms ROps) s (fun _ => c) n
            = RmsDet (rm_attack_gain s) (rm_release_gain s) (c * c + g ^ n * (rm_envelope s - c * c)).
Proof.
  intros Hg Hs. induction n as [|n IH].
  - destruct s. cbn. f_equal. ring.
  - cbn [state_at]. rewrite IH. cbn [dev_rms d_process]. unfold rms_process.
    cbn [fst rm_envelope rm_attack_gain rm_release_gain n_lt n_abs n_add n_mul n_sub R_ops].
    f_equal.
    assert (P : 0 <= g ^ n) by (apply pow_le; lra).
    destruct Hs as [[H1 [H2 H3]]|[H1 H2]].
    + assert (0 < g ^ n) by (apply pow_lt; lra).
      unfold Rltb. destruct (Rlt_dec _ _) as [Hd|Hd]; [rewrite <- H2; cbn [pow]; ring|].
      exfalso. apply Hd. nra.
    + unfold Rltb. destruct (Rlt_dec _ _) as [Hd|Hd]; [exfalso; nra|]. rewrite <- H2. cbn [pow]. ring.
Qed.

(** The output is the state after the sample. *)
Lemma peak_out (s : peak R) x n : out (dev_peak ROps) s x n = pk_envelope (state_at (dev_peak ROps) s x (S n)).
Proof. reflexivity. Qed.
Lemma rms_out (s : rms R) x n : out (dev_rms ROps) s x n = sqrt (rm_envelope (state_at (dev_rms ROps) s x (S n))).
Proof. reflexivity. Qed.

(** The RMS envelope is not negative. *)
Lemma rms_env_pos (history : list (call (det_set R) R)) : 0 <= rm_envelope (after (dev_rms ROps) history).
Proof.
  apply (after_inv (dev_rms ROps) (fun s => 0 <= rm_attack_gain s < 1 /\ 0 <= rm_release_gain s < 1 /\ 0 <= rm_envelope s) (fun _ => True) (fun _ => True)).
  - intros s c [H1 [H2 H3]] _. split; [|auto].
    assert (Hk : forall len, n_lt ROps (n_zero ROps) len && n_is_finite ROps len = true -> 0 <= gain_of ROps len < 1).
    { intros len H. apply guardR in H. assert (K := expR len H). unfold gain_of. cbn.
      replace (- (1)) with (-1) by lra. lra. }
    destruct c as [x| |[l|l]|]; cbn [d_step dev_rms d_process d_clear d_set d_last_out fst]; auto.
    + unfold rms_process. cbn. split; [exact H1|]. split; [exact H2|].
      destruct (Rltb _ _); assert (0 <= x * x) by nra; nra.
    + cbn. split; [exact H1|]. split; [exact H2|]. lra.
    + unfold rms_set_attack. destruct (_ && _) eqn:E; [|auto]. cbn [rm_attack_gain rm_release_gain rm_envelope].
      split; [exact (Hk l E)|auto].
    + unfold rms_set_release. destruct (_ && _) eqn:E; [|auto]. cbn [rm_attack_gain rm_release_gain rm_envelope].
      split; [exact H1|]. split; [exact (Hk l E)|auto].
  - cbn. lra.
  - apply List.Forall_forall. auto.
Qed.

(** C55: after any calls and then [set_attack(L)] (or [set_release(L)]), with peak
    envelope [e0], a constant input [c] above (below) the envelope in magnitude
    gives, at sample n = 1, 2, ..., the envelope |c| + exp(-n/L) (e0 - |c|), which
    is never |c|. *)
Lemma C55_peak_time_constant_thm :
  forall (history : list (call (det_set R) R)) (ph : phase) (L c : R) (n : nat),
    0 < L ->
    let s := after (dev_peak R_ops) (history ++ [CSet (set_phase ph L)]) in
    let e0 := d_last_out (dev_peak R_ops) s in
    match ph with Attack => e0 < Rabs c | Release => Rabs c < e0 end ->
    out (dev_peak R_ops) s (fun _ => c) n = Rabs c + exp (- (INR (n + 1) / L)) * (e0 - Rabs c)
    /\ out (dev_peak R_ops) s (fun _ => c) n <> Rabs c.
Proof.
  intros history ph L c n HL s e0 H.
  assert (Gl := C51_exact_gains_thm _ (peak_detector ROps) history ph L (ld_peak _)).
  destruct Gl as [_ [Gl _]]. destruct (Gl HL) as [E K]. clear Gl. fold s in E.
  change (after (det_dev (peak_detector ROps)) (history ++ [CSet (set_phase ph L)])) with s in E.
  assert (Hs : forall m, state_at (dev_peak ROps) s (fun _ => c) m
            = PeakDet (pk_attack_gain s) (pk_release_gain s) (Rabs c + exp (- (1 / L)) ^ m * (pk_envelope s - Rabs c))).
  { apply peak_steps; [lra|]. destruct ph; [left|right]; (split; [exact H|]); [split; [|lra]|]; symmetry; exact E. }
  rewrite peak_out, Hs, pow_exp by exact HL. cbn [pk_envelope]. replace (n + 1)%nat with (S n) by lia.
  change (pk_envelope s) with e0. split; [reflexivity|].
  assert (0 < exp (- (INR (S n) / L))) by apply exp_pos. destruct ph; nra.
Qed.

(** C55: the same for the square of the RMS envelope. *)
Lemma C55_rms_time_constant_thm :
  forall (history : list (call (det_set R) R)) (ph : phase) (L c : R) (n : nat),
    0 < L ->
    let s := after (dev_rms R_ops) (history ++ [CSet (set_phase ph L)]) in
    let e0 := d_last_out (dev_rms R_ops) s in
    match ph with Attack => e0 < Rabs c | Release => Rabs c < e0 end ->
    0 <= out (dev_rms R_ops) s (fun _ => c) n
    /\ (out (dev_rms R_ops) s (fun _ => c) n)² = c² + exp (- (INR (n + 1) / L)) * (e0² - c²)
    /\ out (dev_rms R_ops) s (fun _ => c) n <> Rabs c.
Proof.
  intros history ph L c n HL s e0 H.
  assert (Gl := C51_exact_gains_thm _ (rms_detector ROps) history ph L (ld_rms _)).
  destruct Gl as [_ [Gl _]]. destruct (Gl HL) as [E K]. clear Gl.
  change (after (det_dev (rms_detector ROps)) (history ++ [CSet (set_phase ph L)])) with s in E.
  assert (Pe : 0 <= rm_envelope s) by apply rms_env_pos.
  assert (Ee : e0 = sqrt (rm_envelope s)) by reflexivity.
  assert (E2 : e0² = rm_envelope s) by (rewrite Ee; apply Rsqr_sqrt, Pe).
  assert (P0 : 0 <= e0) by (rewrite Ee; apply sqrt_pos).
  assert (Cc : Rabs c * Rabs c = c * c) by (rewrite <- Rabs_mult; apply Rabs_pos_eq; nra).
  assert (Pc := Rabs_pos c).
  assert (H' : match ph with Attack => rm_envelope s < c * c | Release => c * c < rm_envelope s end).
  { rewrite <- E2. unfold Rsqr. destruct ph; nra. }
  assert (Hs : forall m, state_at (dev_rms ROps) s (fun _ => c) m
            = RmsDet (rm_attack_gain s) (rm_release_gain s) (c * c + exp (- (1 / L)) ^ m * (rm_envelope s - c * c))).
  { apply rms_steps; [lra|]. destruct ph; [left|right]; (split; [exact H'|]); [split; [|lra]|]; symmetry; exact E. }
  rewrite rms_out, Hs, pow_exp by exact HL. cbn [rm_envelope]. replace (n + 1)%nat with (S n) by lia.
  set (q := exp (- (INR (S n) / L))). assert (Pq : 0 < q) by apply exp_pos.
  assert (Pq1 : q < 1).
  { unfold q. rewrite <- exp_0. apply exp_increasing. assert (0 < INR (S n)) by (apply lt_0_INR; lia).
    assert (0 < / L) by (apply Rinv_0_lt_compat, HL). unfold Rdiv. nra. }
  assert (Pv : 0 <= c * c + q * (rm_envelope s - c * c)) by nra.
  split; [apply sqrt_pos|]. rewrite Rsqr_sqrt by exact Pv. rewrite E2. split; [reflexivity|].
  intros A. assert (B : c * c + q * (rm_envelope s - c * c) = c * c).
  { rewrite <- (Rsqr_sqrt _ Pv), A. unfold Rsqr. exact Cc. }
  destruct ph; nra.
Qed.

(** C55: with a whole number N of samples as the length, a fraction 1 - 1/e of the
    step has been covered after N samples. *)
Lemma C55_fraction_thm :
  forall (history : list (call (det_set R) R)) (ph : phase) (N : nat) (c : R),
    (0 < N)%nat ->
    let s := after (dev_peak R_ops) (history ++ [CSet (set_phase ph (INR N))]) in
    let e0 := d_last_out (dev_peak R_ops) s in
    match ph with Attack => e0 < Rabs c | Release => Rabs c < e0 end ->
    out (dev_peak R_ops) s (fun _ => c) (N - 1)%nat - e0 = (1 - / exp 1) * (Rabs c - e0).
Proof.
  intros history ph N c HN s e0 H.
  assert (HL : 0 < INR N) by (apply lt_0_INR; lia).
  destruct (C55_peak_time_constant_thm history ph (INR N) c (N - 1)%nat HL H) as [E _].
  unfold s. rewrite E. replace (N - 1 + 1)%nat with N by lia.
  replace (INR N / INR N) with 1 by (field; lra). rewrite exp_Ropp. fold s. fold e0. ring.
Qed.

(*@PROP
(* a new detector and a loud input; the same detector, charged, and silence *)
Example C55_hyps :
  (let s := after (dev_peak R_ops) ([] ++ [CSet (set_phase Attack 100)]) in
   d_last_out (dev_peak R_ops) s < Rabs 1)
  /\ (let s := after (dev_peak R_ops) ([CProcess 2] ++ [CSet (set_phase Release 100)]) in
      Rabs 0 < d_last_out (dev_peak R_ops) s)
  /\ (let s := after (dev_rms R_ops) ([] ++ [CSet (set_phase Attack 100)]) in
      d_last_out (dev_rms R_ops) s < Rabs 1)
  /\ (let s := after (dev_rms R_ops) ([CProcess 2] ++ [CSet (set_phase Release 100)]) in
      Rabs 0 < d_last_out (dev_rms R_ops) s).
Proof. exact C55_wit. Qed.
@*)

Lemma C55_wit :
  (let s := after (dev_peak R_ops) ([] ++ [CSet (set_phase Attack 100)]) in
   d_last_out (dev_peak R_ops) s < Rabs 1)
  /\ (let s := after (dev_peak R_ops) ([CProcess 2] ++ [CSet (set_phase Release 100)]) in
      Rabs 0 < d_last_out (dev_peak R_ops) s)
  /\ (let s := after (dev_rms R_ops) ([] ++ [CSet (set_phase Attack 100)]) in
      d_last_out (dev_rms R_ops) s < Rabs 1)
  /\ (let s := after (dev_rms R_ops) ([CProcess 2] ++ [CSet (set_phase Release 100)]) in
      Rabs 0 < d_last_out (dev_rms R_ops) s).
Proof.
  assert (R1 : Rabs 1 = 1) by (apply Rabs_pos_eq; lra). assert (R2 : Rabs 2 = 2) by (apply Rabs_pos_eq; lra).
  assert (L0 : Rltb 0 2 = true) by (unfold Rltb; destruct (Rlt_dec 0 2); [reflexivity|lra]).
  assert (L1 : Rltb 0 100 = true) by (unfold Rltb; destruct (Rlt_dec 0 100); [reflexivity|lra]).
  unfold after, peak_last_out. cbn -[Rltb Rabs sqrt].
  unfold peak_set_attack, peak_set_release, rms_set_attack, rms_set_release, peak_last_out, rms_last_out.
  cbn -[Rltb Rabs sqrt]. rewrite ?L1. cbn -[Rltb Rabs sqrt]. rewrite Rabs_R0, R1, ?R2, sqrt_0.
  split; [lra|]. split; [destruct (Rltb _ _); lra|]. split; [lra|].
  apply sqrt_lt_R0. destruct (Rltb 0 (2 * 2)); lra.
Qed.

(** C71: making any samples louder never lowers anything a detector returns. *)
Lemma C71_monotone_thm :
  forall (S : Type) (D : detector S R) (cs cs' : list (call (det_set R) R)),
    lib_detector R_ops D ->
    Forall2 louder cs cs' ->
    Forall2 (fun r r' => match r, r' with Some y, Some y' => y <= y' | None, None => True | _, _ => False end)
      (returns (det_dev D) [] cs) (returns (det_dev D) [] cs').
Proof.
  intros S D cs cs' HD Hcs.
  assert (Mono : forall A Rl e e' x x', 0 <= A < 1 -> 0 <= Rl < 1 -> e <= e' -> x <= x' ->
     x + (if Rltb e x then A else Rl) * (e - x) <= x' + (if Rltb e' x' then A else Rl) * (e' - x')).
  { intros A Rl e e' x x' HA HR He Hx. unfold Rltb.
    destruct (Rlt_dec e x), (Rlt_dec e' x'); nra. }
  assert (Hk : forall len, n_lt ROps (n_zero ROps) len && n_is_finite ROps len = true -> 0 <= gain_of ROps len < 1).
  { intros len H. apply guardR in H. assert (K := expR len H). unfold gain_of. cbn.
    replace (- (1)) with (-1) by lra. lra. }
  assert (Sq : forall x x', Rabs x <= Rabs x' -> x * x <= x' * x').
  { intros x x' H. assert (Rabs x * Rabs x = x * x) by (rewrite <- Rabs_mult; apply Rabs_pos_eq; nra).
    assert (Rabs x' * Rabs x' = x' * x') by (rewrite <- Rabs_mult; apply Rabs_pos_eq; nra).
    assert (P := Rabs_pos x). nra. }
  unfold returns. destruct HD.
  - assert (K := lockstep (dev_peak ROps) (dev_peak ROps)
       (fun s1 s2 => pk_attack_gain s1 = pk_attack_gain s2 /\ pk_release_gain s1 = pk_release_gain s2
          /\ 0 <= pk_attack_gain s1 < 1 /\ 0 <= pk_release_gain s1 < 1 /\ pk_envelope s1 <= pk_envelope s2) louder Rle).
    refine (proj2 (K _ cs cs' (after (dev_peak ROps) []) (after (dev_peak ROps) []) _ Hcs)).
    + intros s1 s2 c1 c2 [I1 [I2 [I3 [I4 I5]]]] Hc.
      assert (X : c1 = c2 \/ exists x x', c1 = CProcess x /\ c2 = CProcess x' /\ Rabs x <= Rabs x').
      { destruct Hc; [auto|]. right. eauto. }
      assert (Proc : forall x x', Rabs x <= Rabs x' ->
         (fun s1 s2 => pk_attack_gain s1 = pk_attack_gain s2 /\ pk_release_gain s1 = pk_release_gain s2
          /\ 0 <= pk_attack_gain s1 < 1 /\ 0 <= pk_release_gain s1 < 1 /\ pk_envelope s1 <= pk_envelope s2)
           (fst (d_step (dev_peak ROps) s1 (CProcess x))) (fst (d_step (dev_peak ROps) s2 (CProcess x')))
         /\ opt_rel Rle (snd (d_step (dev_peak ROps) s1 (CProcess x))) (snd (d_step (dev_peak ROps) s2 (CProcess x')))).
      { intros x x' Hx. cbn [d_step dev_peak d_process]. unfold peak_process.
        cbn [fst snd pk_attack_gain pk_release_gain pk_envelope opt_rel n_lt n_abs n_add n_mul n_sub R_ops].
        assert (M := Mono (pk_attack_gain s1) (pk_release_gain s1) _ _ _ _ I3 I4 I5 Hx).
        rewrite I1, I2 in M at 2. rewrite <- I1, <- I2 in M |- *. auto 10. }
      destruct X as [->|[x [x' [-> [-> Hx]]]]]; [|exact (Proc x x' Hx)].
      destruct c2 as [x| |[l|l]|]; [apply Proc; lra| | | |];
        cbn [d_step dev_peak d_process d_clear d_set d_last_out fst snd opt_rel]; auto 10.
      * cbn. split; [|trivial]. repeat split; try tauto; lra.
      * unfold peak_set_attack. destruct (_ && _) eqn:E; [|auto 10]. cbn [pk_attack_gain pk_release_gain pk_envelope].
        assert (G := Hk l E). change (gain_of ROps l) with (n_exp ROps (n_div ROps (n_neg ROps (n_one ROps)) l)) in G. auto 10.
      * unfold peak_set_release. destruct (_ && _) eqn:E; [|auto 10]. cbn [pk_attack_gain pk_release_gain pk_envelope].
        assert (G := Hk l E). change (gain_of ROps l) with (n_exp ROps (n_div ROps (n_neg ROps (n_one ROps)) l)) in G. auto 10.
    + cbn. repeat split; lra.
  - assert (K := lockstep (dev_rms ROps) (dev_rms ROps)
       (fun s1 s2 => rm_attack_gain s1 = rm_attack_gain s2 /\ rm_release_gain s1 = rm_release_gain s2
          /\ 0 <= rm_attack_gain s1 < 1 /\ 0 <= rm_release_gain s1 < 1 /\ rm_envelope s1 <= rm_envelope s2) louder Rle).
    refine (proj2 (K _ cs cs' (after (dev_rms ROps) []) (after (dev_rms ROps) []) _ Hcs)).
    + intros s1 s2 c1 c2 [I1 [I2 [I3 [I4 I5]]]] Hc.
      assert (X : c1 = c2 \/ exists x x', c1 = CProcess x /\ c2 = CProcess x' /\ Rabs x <= Rabs x').
      { destruct Hc; [auto|]. right. eauto. }
      assert (Proc : forall x x', Rabs x <= Rabs x' ->
         (fun s1 s2 => rm_attack_gain s1 = rm_attack_gain s2 /\ rm_release_gain s1 = rm_release_gain s2
          /\ 0 <= rm_attack_gain s1 < 1 /\ 0 <= rm_release_gain s1 < 1 /\ rm_envelope s1 <= rm_envelope s2)
           (fst (d_step (dev_rms ROps) s1 (CProcess x))) (fst (d_step (dev_rms ROps) s2 (CProcess x')))
         /\ opt_rel Rle (snd (d_step (dev_rms ROps) s1 (CProcess x))) (snd (d_step (dev_rms ROps) s2 (CProcess x')))).
      { intros x x' Hx. cbn [d_step dev_rms d_process]. unfold rms_process.
        cbn [fst snd rm_attack_gain rm_release_gain rm_envelope opt_rel n_lt n_sqrt n_add n_mul n_sub R_ops].
        assert (M := Mono (rm_attack_gain s1) (rm_release_gain s1) _ _ _ _ I3 I4 I5 (Sq x x' Hx)).
        rewrite <- I1, <- I2. split; [auto 10|]. apply sqrt_le_1_alt. exact M. }
      destruct X as [->|[x [x' [-> [-> Hx]]]]]; [|exact (Proc x x' Hx)].
      destruct c2 as [x| |[l|l]|]; [apply Proc; lra| | | |];
        cbn [d_step dev_rms d_process d_clear d_set d_last_out fst snd opt_rel]; auto 10.
      * cbn. split; [|trivial]. repeat split; try tauto; lra.
      * unfold rms_set_attack. destruct (_ && _) eqn:E; [|auto 10]. cbn [rm_attack_gain rm_release_gain rm_envelope].
        assert (G := Hk l E). change (gain_of ROps l) with (n_exp ROps (n_div ROps (n_neg ROps (n_one ROps)) l)) in G. auto 10.
      * unfold rms_set_release. destruct (_ && _) eqn:E; [|auto 10]. cbn [rm_attack_gain rm_release_gain rm_envelope].
        assert (G := Hk l E). change (gain_of ROps l) with (n_exp ROps (n_div ROps (n_neg ROps (n_one ROps)) l)) in G. auto 10.
      * split; [auto 10|]. apply sqrt_le_1_alt. exact I5.
    + cbn. repeat split; lra.
Qed.

(*@PROP
Example C71_monotone_hyps :
  Forall2 louder [CSet (SetAttack 10); CProcess 1; CClear; CProcess (-2)]
                 [CSet (SetAttack 10); CProcess (-3); CClear; CProcess (-2)].
Proof.
  repeat constructor. rewrite Rabs_R1, Rabs_left by lra. lra.
Qed.
@*)
