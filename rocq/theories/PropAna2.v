(** Properties C49, C51, C55, C71: [LeakyIntegrator], [PeakEnvDetector] and
    [RmsEnvDetector] in exact arithmetic.

    Vocabulary: [after D cs] is a new object after the calls [cs] ([Device]);
    [out D s x] is the signal [process] returns when an object in state [s] is fed
    the signal [x], [configured D k] a new object after one setter call
    ([Signal]); [det_dev], [det_gain], [gain_of], [lib_detector], [louder] are in
    [AnaSpec]. *)
From Coq Require Import ZArith Reals List Bool Lra Lia.
From Coquelicot Require Import Coquelicot.
From Verif Require Import Base Num NumR FilterM AnalysisM Device Signal AnaSpec AnaLemmas2.
Import ListNotations.
Open Scope R_scope.

(** C49: after any calls, with alpha [a] and last output [y0], a constant input [c]
    gives c + a^n (y0 - c) at the n-th sample (n = 1, 2, ...). *)
Theorem C49_geometric :
  forall (history : list (call R R)) (c : R) (n : nat),
    let s := after (dev_leaky R_ops) history in
    out (dev_leaky R_ops) s (fun _ => c) n
    = c + leaky_get_alpha s ^ (n + 1) * (leaky_last_out s - c).
Proof. exact C49_geometric_thm. Qed.
Print Assumptions C49_geometric.

Example C49_geometric_hyps :
  let s := after (dev_leaky R_ops) [CSet (/ 2); CProcess 3; CClear; CProcess 4] in
  leaky_get_alpha s = / 2 /\ leaky_last_out s = 2.
Proof.
  cbn. unfold leaky_set_alpha. cbn. unfold Rleb, Rltb.
  destruct (Rle_dec 0 (/ 2)) as [_|H]; [|lra]. destruct (Rlt_dec (/ 2) 1) as [_|H]; [|lra].
  cbn. split; lra.
Qed.

(** C49: so it converges to [c]. *)
Theorem C49_converges :
  forall (history : list (call R R)) (c : R),
    is_lim_seq (out (dev_leaky R_ops) (after (dev_leaky R_ops) history) (fun _ => c)) c.
Proof. exact C49_converges_thm. Qed.
Print Assumptions C49_converges.

(** C49: set to alpha, a new [LeakyIntegrator] is a [OnePole] with
    b0 = 1 - alpha, a1 = -alpha: the same output for every input signal. *)
Theorem C49_one_pole :
  forall (alpha : R) (x : signal) (n : nat),
    0 <= alpha < 1 ->
    out (dev_leaky R_ops) (configured (dev_leaky R_ops) alpha) x n
    = out (dev_one_pole R_ops) (configured (dev_one_pole R_ops) (1 - alpha, - alpha)) x n.
Proof. exact C49_one_pole_thm. Qed.
Print Assumptions C49_one_pole.

Example C49_one_pole_hyps : 0 <= / 2 < 1.
Proof. lra. Qed.

(** C51: in exact arithmetic a positive length gives a gain of exp(-1/len), strictly
    between 0 and 1, and the gains are in [0, 1) after any calls. *)
Theorem C51_exact_gains :
  forall (S : Type) (D : detector S R) (history : list (call (det_set R) R)) (ph : phase) (len : R),
    lib_detector R_ops D ->
    let gain cs := det_gain D ph (after (det_dev D) cs) in
    0 <= gain history < 1
    /\ (0 < len -> gain (history ++ [CSet (set_phase ph len)]) = exp (- (1 / len))
                   /\ 0 < exp (- (1 / len)) < 1)
    /\ (len <= 0 -> gain (history ++ [CSet (set_phase ph len)]) = gain history).
Proof. exact C51_exact_gains_thm. Qed.
Print Assumptions C51_exact_gains.

(** C55: after any calls and then [set_attack(L)] (or [set_release(L)]), with peak
    envelope [e0], a constant input [c] above (below) the envelope in magnitude
    gives, at sample n = 1, 2, ..., the envelope |c| + exp(-n/L) (e0 - |c|), which
    is never |c|. *)
Theorem C55_peak_time_constant :
  forall (history : list (call (det_set R) R)) (ph : phase) (L c : R) (n : nat),
    0 < L ->
    let s := after (dev_peak R_ops) (history ++ [CSet (set_phase ph L)]) in
    let e0 := d_last_out (dev_peak R_ops) s in
    match ph with Attack => e0 < Rabs c | Release => Rabs c < e0 end ->
    out (dev_peak R_ops) s (fun _ => c) n = Rabs c + exp (- (INR (n + 1) / L)) * (e0 - Rabs c)
    /\ out (dev_peak R_ops) s (fun _ => c) n <> Rabs c.
Proof. exact C55_peak_time_constant_thm. Qed.
Print Assumptions C55_peak_time_constant.

(** C55: the same for the square of the RMS envelope. *)
Theorem C55_rms_time_constant :
  forall (history : list (call (det_set R) R)) (ph : phase) (L c : R) (n : nat),
    0 < L ->
    let s := after (dev_rms R_ops) (history ++ [CSet (set_phase ph L)]) in
    let e0 := d_last_out (dev_rms R_ops) s in
    match ph with Attack => e0 < Rabs c | Release => Rabs c < e0 end ->
    0 <= out (dev_rms R_ops) s (fun _ => c) n
    /\ (out (dev_rms R_ops) s (fun _ => c) n)² = c² + exp (- (INR (n + 1) / L)) * (e0² - c²)
    /\ out (dev_rms R_ops) s (fun _ => c) n <> Rabs c.
Proof. exact C55_rms_time_constant_thm. Qed.
Print Assumptions C55_rms_time_constant.

(** C55: with a whole number N of samples as the length, a fraction 1 - 1/e of the
    step has been covered after N samples. *)
Theorem C55_fraction :
  forall (history : list (call (det_set R) R)) (ph : phase) (N : nat) (c : R),
    (0 < N)%nat ->
    let s := after (dev_peak R_ops) (history ++ [CSet (set_phase ph (INR N))]) in
    let e0 := d_last_out (dev_peak R_ops) s in
    match ph with Attack => e0 < Rabs c | Release => Rabs c < e0 end ->
    out (dev_peak R_ops) s (fun _ => c) (N - 1)%nat - e0 = (1 - / exp 1) * (Rabs c - e0).
Proof. exact C55_fraction_thm. Qed.
Print Assumptions C55_fraction.

(* a new detector and a loud input; the same detector, charged, and silence *)
Example C55_hyps :
  (let s := after (dev_peak R_ops) ([] ++ [CSet (set_phase Attack 100)]) in
   d_last_out (dev_peak R_ops) s < Rabs 1)
  /\ (let s := after (dev_peak R_ops) ([CProcess 2] ++ [CSet (set_phase Release 100)]) in
      Rabs 0 < d_last_out (dev_peak R_ops) s)
  /\ (let s := after (dev_rms R_ops) ([] ++ [CSet (set_phase Attack 100)]) in
      d_last_out (dev_rms R_ops) s < Rabs 1)
  /\ (let s := after (dev_rms R_ops) ([CProcess 2] ++ [CSet (set_phase Release 100)]) in
      Rabs 0 < d_last_out (dev_rms R_ops) s).
Proof. exact C55_wit. Qed.

(** C71: making any samples louder never lowers anything a detector returns. *)
Theorem C71_monotone :
  forall (S : Type) (D : detector S R) (cs cs' : list (call (det_set R) R)),
    lib_detector R_ops D ->
    Forall2 louder cs cs' ->
    Forall2 (fun r r' => match r, r' with Some y, Some y' => y <= y' | None, None => True | _, _ => False end)
      (returns (det_dev D) [] cs) (returns (det_dev D) [] cs').
Proof. exact C71_monotone_thm. Qed.
Print Assumptions C71_monotone.

Example C71_monotone_hyps :
  Forall2 louder [CSet (SetAttack 10); CProcess 1; CClear; CProcess (-2)]
                 [CSet (SetAttack 10); CProcess (-3); CClear; CProcess (-2)].
Proof.
  repeat constructor. rewrite Rabs_R1, Rabs_left by lra. lra.
Qed.
