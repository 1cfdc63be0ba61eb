(** Proofs of C140, continued.  The [@PROP] blocks are copied into [PropButterX.v]. *)
(*@PROP
(** Property C140, continued: Linkwitz-Riley crossovers of any order, in exact arithmetic.

    Vocabulary: [butterworth] ([ButterSpec]); [allpass_chain] ([PhaseSpec]); [valid_band] ([RbjSpec]); [sinusoid], [approaches]
    ([Signal]). *)
From Coq Require Import Reals List Lra Lia.
From Coquelicot Require Import Coquelicot.
From Verif Require Import Num NumR FilterM RbjM Device Signal RbjSpec EqSpec PhaseSpec ButterSpec ButterXLemmas.
Import ListNotations.
Open Scope R_scope.
@*)
From Coq Require Import Reals List Lra Lia ZArith.
From Coquelicot Require Import Coquelicot.
From Verif Require Import Num NumR FilterM RbjM Device Signal SignalFacts CoreLemmas FilterFacts
  FilterLemmas RbjSpec RbjFacts RbjLemmas SysSpec SysLemmas EqSpec EqFacts EqLemmas CrossLemmas PhaseSpec PhaseLemmas
  ButterSpec ButterLemmas.
Import ListNotations.
Open Scope R_scope.

Definition leans (sr f w : R) (qs : list R) : R := fold_right (fun q s => lean sr f q w + s) 0 qs.

(** The phase of a cascade of LowPass ([c] = -PI/2) or HighPass ([c] = PI/2) filters. *)
Lemma cascade_phase kind c sr f w qs : q_kind kind -> valid_band sr f -> 0 < w < PI -> (forall q, In q qs -> 0 < q) ->
  (forall q, 0 < q -> exists g, 0 <= g /\ rbj_passes kind (RbjQ sr f q) w g (lean sr f q w + c)) ->
  exists g, 0 <= g /\ forall A phi u, approaches u (sinusoid A w phi) ->
    approaches (cascade kind sr f qs u) (sinusoid (g * A) w (phi + (leans sr f w qs + INR (length qs) * c))).
Proof.
  intros Hk Hb Hw Hq Hp. induction qs as [|q qs IH].
  - exists 1. split; [lra|]. intros A phi u Hu. cbn. rewrite Rmult_1_l, Rmult_0_l, !Rplus_0_r. exact Hu.
  - destruct IH as [g [G0 P]]; [intros; apply Hq; right; assumption|].
    assert (Q0 : 0 < q) by (apply Hq; left; reflexivity).
    assert (Va := valid_q kind sr f q Hk Hb Q0). destruct (Hp q Q0) as [h [H0 Ph]].
    exists (g * h). split; [apply Rmult_le_pos; assumption|].
    intros A phi u Hu. cbn [cascade fold_left]. fold (cascade kind sr f qs (rbj_out kind (RbjQ sr f q) u)).
    cbn [leans fold_right]. fold (leans sr f w qs). change (length (q :: qs)) with (S (length qs)). rewrite S_INR.
    replace (g * h * A) with (g * (h * A)) by ring.
    replace (phi + (lean sr f q w + leans sr f w qs + (INR (length qs) + 1) * c))
      with (phi + (lean sr f q w + c) + (leans sr f w qs + INR (length qs) * c)) by ring.
    apply P. apply approaches_trans with (rbj_out kind (RbjQ sr f q) (sinusoid A w phi)); [|apply Ph].
    destruct (norm_stable kind (RbjQ sr f q) Va) as [b0 [b1 [b2 [a1 [a2 [F St]]]]]].
    exact (settle _ _ _ _ _ _ _ _ _ _ _ F St Hu).
Qed.

Lemma app_refl (x : signal) : approaches x x.
Proof. unfold approaches. eapply is_lim_seq_ext; [|apply is_lim_seq_const]. intros n. cbv beta. ring. Qed.

(** C140: Linkwitz-Riley crossovers of order 4 N.  Two Butterworth low passes of order 2 N in
    series and two high passes in series, all with one corner, add up to a signal with the
    amplitude of the input at every frequency, for every N; the two bands are in phase with each
    other, and their sum is in step with the AllPass filters of the same corner and the same q in
    series. *)
Lemma C140_linkwitz_riley_thm :
  forall N sr f w, (0 < N)%nat -> valid_band sr f -> 0 < w < PI ->
    let low := butterworth LowPass N sr f in
    let high := butterworth HighPass N sr f in
    exists theta gl gh, 0 < gl /\ 0 < gh /\ gl + gh = 1 /\ forall A phi,
      let x := sinusoid A w phi in
      approaches (low (low x)) (sinusoid (gl * A) w (phi + theta))
      /\ approaches (high (high x)) (sinusoid (gh * A) w (phi + theta))
      /\ approaches (fun n => low (low x) n + high (high x) n) (sinusoid A w (phi + theta))
      /\ approaches (allpass_chain sr (map (fun k => (f, butter_q N k)) (seq 0 N)) x) (sinusoid A w (phi + theta)).
Proof.
  intros N sr f w HN Hb Hw low high.
  set (qs := map (butter_q N) (seq 0 N)).
  assert (Qs : forall q, In q qs -> 0 < q).
  { intros q Hq. apply in_map_iff in Hq. destruct Hq as [k [<- Hk]]. apply in_seq in Hk. apply butter_q_facts. lia. }
  assert (Ln : length qs = N) by (unfold qs; rewrite map_length, seq_length; reflexivity).
  assert (O0 := warped_pos _ _ (omega_range _ _ Hb) Hw).
  destruct (cascade_phase LowPass (- (PI / 2)) sr f w qs I Hb Hw Qs) as [gl [L0 PL]].
  { intros q Hq. destruct (C137_one_angle_thm sr f q w Hb Hq Hw) as [P _]. cbv zeta in P. eexists. split; [|exact P].
    left. apply Rdiv_lt_0_compat; [|exact O0]. apply Rmult_lt_0_compat; [exact Hq|]. apply cos_gt_0; assert (B := lean_bound sr f q w); lra. }
  destruct (cascade_phase HighPass (PI / 2) sr f w qs I Hb Hw Qs) as [gh [H0 PH]].
  { intros q Hq. destruct (C137_one_angle_thm sr f q w Hb Hq Hw) as [_ [P _]]. cbv zeta in P. eexists. split; [|exact P].
    left. apply Rmult_lt_0_compat; [|exact O0]. apply Rmult_lt_0_compat; [exact Hq|]. apply cos_gt_0; assert (B := lean_bound sr f q w); lra. }
  rewrite Ln in PL, PH.
  assert (BL : butter_gain LowPass N sr f w gl) by (split; [exact L0|]; eexists; intros A phi; apply PL, app_refl).
  assert (BH : butter_gain HighPass N sr f w gh) by (split; [exact H0|]; eexists; intros A phi; apply PH, app_refl).
  destruct (C140_shape_thm N sr f w gl gh HN Hb Hw BL BH) as [Sum _].
  destruct (C140_gain_thm N sr f w gl HN Hb Hw) as [X _]. apply X in BL. clear X.
  destruct (C140_gain_thm N sr f w gh HN Hb Hw) as [_ X]. apply X in BH. clear X. cbv zeta in BL, BH.
  set (O := warped (omega sr f) w) in *.
  assert (P4 : 0 < O ^ (4 * N)) by (apply pow_lt, O0). assert (P2 : 0 < O ^ (2 * N)) by (apply pow_lt, O0).
  assert (Sr : 0 < sqrt (1 + O ^ (4 * N))) by (apply sqrt_lt_R0; lra).
  assert (L1 : 0 < gl) by (rewrite BL; apply Rdiv_lt_0_compat; lra).
  assert (H1 : 0 < gh) by (rewrite BH; apply Rdiv_lt_0_compat; lra).
  set (T := leans sr f w qs) in *. set (th := 2 * T - INR N * PI).
  exists th, (gl * gl), (gh * gh). split; [nra|]. split; [nra|]. split; [lra|]. intros A phi x.
  assert (AL : approaches (low (low x)) (sinusoid (gl * gl * A) w (phi + th))).
  { assert (Y := PL _ _ _ (PL _ _ _ (app_refl x))). unfold low, butterworth. fold qs.
    replace (gl * gl * A) with (gl * (gl * A)) by ring.
    replace (phi + th) with (phi + (T + INR N * - (PI / 2)) + (T + INR N * - (PI / 2))) by (unfold th; field). exact Y. }
  assert (AH : approaches (high (high x)) (sinusoid (gh * gh * A) w (phi + th))).
  { assert (Y := PH _ _ _ (PH _ _ _ (app_refl x))). unfold high, butterworth. fold qs.
    unfold approaches in *. eapply is_lim_seq_ext; [|exact Y]. intros n. cbv beta. f_equal. unfold sinusoid.
    replace (INR n * w + (phi + (T + INR N * (PI / 2)) + (T + INR N * (PI / 2)))) with (INR n * w + (phi + th) + 2 * INR N * PI) by (unfold th; field).
    rewrite cos_period. ring. }
  split; [exact AL|]. split; [exact AH|]. split.
  2: { destruct (C137_chain_thm sr (map (fun k => (f, butter_q N k)) (seq 0 N)) w) with (A := A) (phi := phi) as [P _]; [|exact Hw|].
    - apply List.Forall_forall. intros fq Hin. apply in_map_iff in Hin. destruct Hin as [k [<- Hk]]. cbn [fst snd].
      split; [exact Hb|]. apply Qs. unfold qs. apply in_map, Hk.
    - cbv zeta in P. replace th with (2 * half_turn sr (map (fun k => (f, butter_q N k)) (seq 0 N)) w); [exact P|].
      unfold th, T. assert (Z : forall l, half_turn sr (map (fun q => (f, q)) l) w = leans sr f w l - INR (length l) * (PI / 2)).
      { induction l as [|q l IH]; [cbn; ring|]. cbn [map half_turn leans fold_right fst snd].
        fold (half_turn sr (map (fun q => (f, q)) l) w). fold (leans sr f w l). rewrite IH.
        change (length (q :: l)) with (S (length l)). rewrite S_INR. ring. }
      specialize (Z qs). unfold qs in Z at 1. rewrite map_map in Z. rewrite Z, Ln. field. }
  unfold approaches in *. replace (Finite 0) with (Finite (0 + 0)) by (f_equal; ring).
  eapply is_lim_seq_ext; [|exact (is_lim_seq_plus' _ _ _ _ AL AH)]. intros n. cbv beta. unfold sinusoid.
  replace A with ((gl ^ 2 + gh ^ 2) * A) at 3 by (rewrite Sum; ring). ring.
Qed.
(*@PROP
Example C140_linkwitz_riley_hyps : (0 < 2)%nat /\ valid_band 48000 1000 /\ 0 < 1 < PI.
Proof. assert (X := PI2_1). split; [lia|]. split; [unfold valid_band; lra|lra]. Qed.
@*)
