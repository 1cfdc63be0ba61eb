(** Lemmas behind property C111.  The [@PROP] blocks are copied into [PropCrest.v]. *)
(*@PROP
(** Property C111: the reading of [RmsEnvDetector] against that of [PeakEnvDetector].

    Vocabulary: [after D cs] is a new object after the calls [cs] ([Device]); [R_ops]
    is exact arithmetic; [ieee O V]: [f32] or [f64] ([FloatSpec]); [exp_rounded],
    [detector_calls], [half_ulp], [half_tiny]: as in C90 ([TrackSpec]). *)
From Coq Require Import ZArith Reals List Bool Lra Lia.
From Flocq Require Import Core.Core IEEE754.BinarySingleNaN.
From Verif Require Import Base Num NumR NumF Witness FloatSpec AnalysisM Device AnaSpec CrLibm TrackSpec CrestLemmas.
Import ListNotations.
Open Scope R_scope.
@*)
From Coq Require Import ZArith Reals List Bool Lra Lia Psatz.
From Flocq Require Import Core.Core IEEE754.BinarySingleNaN.
From Verif Require Import Base Num NumR NumF Witness FloatSpec AnalysisM Device AnaSpec CrLibm TrackSpec TrackLemmas AnaFacts AnaLemmas2
  MeterFLemmas.
Import ListNotations.
Open Scope R_scope.

(** One sample through both detectors with the same gains. *)
Section Step.
  Variables ga gr e r m : R.
  Hypothesis Hga : 0 <= ga <= 1.
  Hypothesis Hgr : 0 <= gr <= 1.
  Hypothesis Hm : 0 <= m.
  Hypothesis He : 0 <= e.
  Hypothesis Her : e * e <= r.

  Let e' := m + (if Rltb e m then ga else gr) * (e - m).
  Let r' := m * m + (if Rltb r (m * m) then ga else gr) * (r - m * m).

  Lemma mix_pos g : 0 <= g <= 1 -> 0 <= m + g * (e - m).
  Proof.
    intros Hg. replace (m + g * (e - m)) with ((1 - g) * m + g * e) by ring.
    apply Rplus_le_le_0_compat; apply Rmult_le_pos; lra.
  Qed.

  Lemma mix_square g : 0 <= g <= 1 -> (m + g * (e - m)) * (m + g * (e - m)) <= m * m + g * (r - m * m).
  Proof.
    intros Hg. assert (0 <= g * (r - e * e)) by (apply Rmult_le_pos; lra).
    assert (0 <= g * (1 - g) * ((m - e) * (m - e))).
    { apply Rmult_le_pos; [apply Rmult_le_pos; lra|]. apply Rle_0_sqr. }
    lra.
  Qed.

  (** The two comparisons: they agree unless e < m and m^2 <= r. *)
  Lemma branches :
    (exists g, 0 <= g <= 1 /\ e' = m + g * (e - m) /\ r' = m * m + g * (r - m * m))
    \/ (e < m /\ m * m <= r /\ e' = m + ga * (e - m) /\ r' = m * m + gr * (r - m * m)).
  Proof.
    unfold e', r', Rltb. destruct (Rlt_dec e m) as [H1|H1], (Rlt_dec r (m * m)) as [H2|H2].
    - left. exists ga. auto.
    - right. repeat split; lra.
    - exfalso. assert (m * m <= e * e) by (apply Rmult_le_compat; lra). lra.
    - left. exists gr. auto.
  Qed.

  Lemma step_lower : 0 <= e' /\ e' * e' <= r'.
  Proof.
    assert (Hb := branches). clearbody e' r'. destruct Hb as [[g [Hg [-> ->]]]|[H1 [H2 [E1 E2]]]].
    - split; [apply mix_pos, Hg|apply mix_square, Hg].
    - assert (0 <= e') by (rewrite E1; apply mix_pos, Hga). split; [assumption|].
      assert (e' <= m). { assert (0 <= ga * (m - e)) by (apply Rmult_le_pos; lra). lra. }
      assert (0 <= gr * (r - m * m)) by (apply Rmult_le_pos; lra).
      assert (e' * e' <= m * m) by (apply Rmult_le_compat; lra). lra.
  Qed.

  Lemma step_upper M : m <= M -> r <= M * e -> r' <= M * e'.
  Proof.
    intros HM HrM. assert (Hb := branches). clearbody e' r'. destruct Hb as [[g [Hg [-> ->]]]|[H1 [H2 [E1 E2]]]].
    - assert (0 <= g * (M * e - r)) by (apply Rmult_le_pos; lra).
      assert (0 <= (1 - g) * (m * (M - m))) by (apply Rmult_le_pos; [lra|apply Rmult_le_pos; lra]). lra.
    - assert (e <= e'). { assert (0 <= (1 - ga) * (m - e)) by (apply Rmult_le_pos; lra). lra. }
      assert (0 <= (1 - gr) * (r - m * m)) by (apply Rmult_le_pos; lra).
      assert (M * e <= M * e') by (apply Rmult_le_compat_l; lra). lra.
  Qed.
End Step.

Lemma gain_range l : 0 < l -> 0 <= n_exp R_ops (n_div R_ops (n_neg R_ops (n_one R_ops)) l) <= 1.
Proof.
  intros Hl. change (0 <= gain_of R_ops l <= 1). rewrite gain1.
  split; [left; apply exp_pos|]. rewrite <- exp_0. left. apply exp_increasing.
  unfold Rdiv. assert (0 < / l) by (apply Rinv_0_lt_compat, Hl). lra.
Qed.

(** The two detectors side by side. *)
Lemma both (history : list (call (det_set R) R)) :
  let p := after (dev_peak R_ops) history in
  let r := after (dev_rms R_ops) history in
  rm_attack_gain r = pk_attack_gain p /\ rm_release_gain r = pk_release_gain p
  /\ 0 <= pk_attack_gain p <= 1 /\ 0 <= pk_release_gain p <= 1
  /\ 0 <= pk_envelope p /\ pk_envelope p * pk_envelope p <= rm_envelope r
  /\ forall M, (forall x, In (CProcess x) history -> Rabs x <= M) -> rm_envelope r <= M * pk_envelope p.
Proof.
  cbv zeta. induction history as [|c h IH] using rev_ind.
  { cbn. repeat split; try lra. intros M _. lra. }
  rewrite !after_snoc.
  destruct (after (dev_peak R_ops) h) as [ga gr e]. destruct (after (dev_rms R_ops) h) as [ga' gr' r].
  cbn [pk_attack_gain pk_release_gain pk_envelope rm_attack_gain rm_release_gain rm_envelope] in IH.
  destruct IH as [-> [-> [Hga [Hgr [He [Her HM]]]]]].
  assert (HM' : forall M, (forall x, In (CProcess x) (h ++ [c]) -> Rabs x <= M) -> r <= M * e).
  { intros M H. apply HM. intros x Hx. apply H, in_or_app. now left. }
  destruct c as [x| |[l|l]|]; cbn [d_step dev_peak dev_rms d_process d_clear d_set d_last_out fst].
  - unfold peak_process, rms_process.
    cbn [fst pk_attack_gain pk_release_gain pk_envelope rm_attack_gain rm_release_gain rm_envelope R_ops n_abs n_lt n_add n_mul n_sub].
    replace (x * x) with (Rabs x * Rabs x) by (rewrite <- Rabs_mult; apply Rabs_pos_eq, Rle_0_sqr).
    pose proof (Rabs_pos x) as Hx. destruct (step_lower ga gr e r (Rabs x) Hga Hgr Hx He Her) as [G1 G2].
    repeat split; try tauto; try lra. intros M H.
    apply step_upper; try assumption; [|apply HM', H]. apply H, in_or_app. right. now left.
  - cbn. repeat split; try lra. intros M _. lra.
  - unfold peak_set_attack, rms_set_attack. cbn [pk_attack_gain pk_release_gain pk_envelope rm_attack_gain rm_release_gain rm_envelope].
    destruct (n_lt R_ops (n_zero R_ops) l && n_is_finite R_ops l) eqn:G; cbn [pk_attack_gain pk_release_gain pk_envelope rm_attack_gain rm_release_gain rm_envelope].
    + assert (0 < l) by (apply andb_prop in G; destruct G as [G _]; unfold Rltb in G; cbn in G; unfold Rltb in G; destruct (Rlt_dec 0 l); [assumption|discriminate]).
      pose proof (gain_range l ltac:(assumption)). repeat split; try tauto; try lra; apply H0.
    + repeat split; tauto || lra.
  - unfold peak_set_release, rms_set_release. cbn [pk_attack_gain pk_release_gain pk_envelope rm_attack_gain rm_release_gain rm_envelope].
    destruct (n_lt R_ops (n_zero R_ops) l && n_is_finite R_ops l) eqn:G; cbn [pk_attack_gain pk_release_gain pk_envelope rm_attack_gain rm_release_gain rm_envelope].
    + assert (0 < l) by (apply andb_prop in G; destruct G as [G _]; unfold Rltb in G; cbn in G; unfold Rltb in G; destruct (Rlt_dec 0 l); [assumption|discriminate]).
      pose proof (gain_range l ltac:(assumption)). repeat split; try tauto; try lra; apply H0.
    + repeat split; tauto || lra.
  - cbn [pk_attack_gain pk_release_gain pk_envelope rm_attack_gain rm_release_gain rm_envelope]. repeat split; try tauto; lra.
Qed.

Lemma C111_wit :
  let history := [CSet (SetAttack 10); CSet (SetRelease 100); CProcess 1; CProcess 0] in
  0 < peak_last_out (after (dev_peak R_ops) history).
Proof.
  assert (G : forall l, 1 <= l -> n_lt R_ops (n_zero R_ops) l && n_is_finite R_ops l = true) by apply guard1.
  cbv zeta. unfold after. cbn [d_run d_step dev_peak d_process d_clear d_set d_last_out d_new fst snd].
  unfold peak_set_attack, peak_set_release. rewrite (G 10), (G 100) by lra.
  fold (gain_of R_ops 10). fold (gain_of R_ops 100). rewrite !gain1.
  unfold peak_process, peak_last_out, peak_new.
  cbn [fst pk_attack_gain pk_release_gain pk_envelope R_ops n_abs n_lt n_add n_mul n_sub n_zero].
  rewrite Rabs_R1, Rabs_R0. replace (Rltb 0 1) with true by (unfold Rltb; destruct (Rlt_dec 0 1); [reflexivity|lra]).
  assert (H1 : 0 < exp (-1 / 10) < 1).
  { split; [apply exp_pos|]. rewrite <- exp_0. apply exp_increasing. lra. }
  pose proof (exp_pos (-1 / 100)) as H2.
  unfold Rltb. destruct (Rlt_dec _ 0) as [N|_]; [lra|].
  assert (0 < exp (-1 / 100) * (1 - exp (-1 / 10))) by (apply Rmult_lt_0_compat; lra). lra.
Qed.

(** C111: a [PeakEnvDetector] and an [RmsEnvDetector] that get the same calls: the
    RMS reading is never below the peak reading, whatever the signal, the times and
    the calls in between. *)
Lemma C111_rms_at_least_peak_thm :
  forall history : list (call (det_set R) R),
    0 <= peak_last_out (after (dev_peak R_ops) history) <= rms_last_out R_ops (after (dev_rms R_ops) history).
Proof.
  intros h. destruct (both h) as [_ [_ [_ [_ [He [Her _]]]]]]. unfold peak_last_out, rms_last_out. cbn [n_sqrt R_ops].
  split; [exact He|]. rewrite <- (sqrt_square (pk_envelope _)) at 1 by exact He. apply sqrt_le_1_alt, Her.
Qed.
(*@PROP
(* samples 1 and 0 through detectors with unequal times: both readings are positive *)
Example C111_rms_at_least_peak_hyps :
  let history := [CSet (SetAttack 10); CSet (SetRelease 100); CProcess 1; CProcess 0] in
  0 < peak_last_out (after (dev_peak R_ops) history).
Proof. exact C111_wit. Qed.
@*)

(** C111: and its square is at most the peak reading times the largest sample fed. *)
Lemma C111_rms_at_most_thm :
  forall (M : R) (history : list (call (det_set R) R)),
    (forall x, In (CProcess x) history -> Rabs x <= M) ->
    (rms_last_out R_ops (after (dev_rms R_ops) history))²
    <= M * peak_last_out (after (dev_peak R_ops) history).
Proof.
  intros M h H. destruct (both h) as [_ [_ [_ [_ [He [Her HM]]]]]]. unfold peak_last_out, rms_last_out. cbn [n_sqrt R_ops].
  rewrite Rsqr_sqrt; [apply HM, H|]. apply Rle_trans with (2 := Her), Rle_0_sqr.
Qed.
(*@PROP
Example C111_rms_at_most_hyps :
  let history := [CSet (SetAttack 10); CSet (SetRelease 100); CProcess 1; CProcess 0; CProcess (-1 / 2)] in
  forall x : R, In (CProcess x) history -> Rabs x <= 1.
Proof.
  intros history x H. cbn in H. repeat (destruct H as [H|H]; [try discriminate H; injection H as <-; apply Rabs_le; lra|]). destruct H.
Qed.
@*)


Lemma C111_float_wit :
  ieee O90 V90 /\ exp_rounded O90 V90 /\ 0 <= 1 <= fmax V90 /\ 1 * 1 <= fmax V90
  /\ 1 <= 48000 <= bpow radix2 (fprec V90 - 2) /\ detector_calls V90 1 48000 history90.
Proof. destruct track_met as [A [B [C [D [E _]]]]]. rewrite Rmult_1_l. tauto. Qed.

(** C111 in [f32] and [f64]: the same up to the rounding errors of C90. *)
Lemma C111_float_thm :
  forall (T : Type) (O : num_ops T) (V : float_view T), ieee O V -> exp_rounded O V ->
  forall (M L : R) (history : list (call (det_set T) T)),
    0 <= M <= fmax V -> M * M <= fmax V -> 1 <= L <= bpow radix2 (fprec V - 2) ->
    detector_calls V M L history ->
    let peak := val V (peak_last_out (after (dev_peak O) history)) in
    let rms := val V (rms_last_out O (after (dev_rms O) history)) in
    let slack := 8 * (L + 1) * (half_ulp V * M + half_tiny V) in
    let slack2 := 16 * (L + 1) * (half_ulp V * (M * M) + half_tiny V) in
    peak <= sqrt (rms * rms + slack2) + slack
    /\ rms * rms <= M * (peak + slack) + slack2.
Proof.
  intros T O V HO He M L h HM HM2 HL Hh peak rms slack slack2.
  destruct (C90_peak_tracks_thm T O V HO He M L h HM HL Hh) as [_ Hp].
  destruct (C90_rms_tracks_thm T O V HO He M L h HM2 HL Hh) as [_ Hr].
  fold peak slack in Hp. fold rms slack2 in Hr. apply Rabs_le_inv in Hp. apply Rabs_le_inv in Hr.
  assert (Bp := bridge_peak V M L h Hh). assert (Br := bridge_rms V M L h Hh). cbv zeta in Bp, Br.
  destruct (both (map (exact V) h)) as [_ [_ [_ [_ [G1 [G2 G3]]]]]].
  rewrite Bp, Br in *. cbn [pk_envelope rm_envelope] in *.
  fold (ideal_envelope V Rabs h) in *. fold (ideal_envelope V Rsqr h) in *.
  assert (G3' : ideal_envelope V Rsqr h <= M * ideal_envelope V Rabs h).
  { apply G3. intros x Hx. apply in_map_iff in Hx. destruct Hx as [c [Ec Hc]].
    assert (Hc2 := proj1 (Forall_forall _ _) Hh c Hc).
    destruct c as [y| |[l|l]|]; cbn in Ec; try discriminate. injection Ec as <-. apply Hc2. }
  split.
  - assert (ideal_envelope V Rabs h <= sqrt (rms * rms + slack2)); [|lra].
    rewrite <- (sqrt_square (ideal_envelope V Rabs h)) by exact G1. apply sqrt_le_1_alt. lra.
  - assert (M * ideal_envelope V Rabs h <= M * (peak + slack)) by (apply Rmult_le_compat_l; lra). lra.
Qed.
(*@PROP
(* [f32], a correctly rounded exponential, one second at 48 kHz *)
Example C111_float_hyps :
  ieee O90 V90 /\ exp_rounded O90 V90 /\ 0 <= 1 <= fmax V90 /\ 1 * 1 <= fmax V90
  /\ 1 <= 48000 <= bpow radix2 (fprec V90 - 2) /\ detector_calls V90 1 48000 history90.
Proof. exact C111_float_wit. Qed.
@*)

(** C111: without that slack the claim fails in [f32] and [f64]: the square of a very
    small sample underflows, so a new RMS detector reads zero where a new peak
    detector reads the sample. *)
Lemma C111_float_refuted_thm :
  (forall (lm : libm f32) (b : bool), let O := f32_ops lm b in
     exists history : list (call (det_set f32) f32),
       n_lt O (rms_last_out O (after (dev_rms O) history)) (peak_last_out (after (dev_peak O) history)) = true)
  /\ (forall (lm : libm f64) (b : bool), let O := f64_ops lm b in
     exists history : list (call (det_set f64) f64),
       n_lt O (rms_last_out O (after (dev_rms O) history)) (peak_last_out (after (dev_peak O) history)) = true).
Proof.
  split; intros lm b O.
  - exists [CProcess (fl32 1 (-100))]. vm_compute. reflexivity.
  - exists [CProcess (fl64 1 (-700))]. vm_compute. reflexivity.
Qed.
