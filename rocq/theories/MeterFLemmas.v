(** Lemmas behind property C98 in floating point.  The [@PROP] blocks are copied into [PropMeterF.v]. *)
(*@PROP
(** Property C98 in [f32] and [f64]: the detectors as level meters for periodic signals.

    Vocabulary: [ieee O V] ([FloatSpec]); [exp_rounded]: the exponential is correctly
    rounded; [detector_calls], [half_ulp], [half_tiny] ([TrackSpec]); [periodic], [mean]
    ([MeterSpec]); [after] ([Device]). *)
From Coq Require Import ZArith Reals List Bool Lra Lia.
From Flocq Require Import Core.Core IEEE754.BinarySingleNaN.
From Verif Require Import Base Num NumF Witness FloatSpec AnalysisM Device Signal AnaSpec CrLibm TrackSpec MeterSpec MeterFLemmas.
Import ListNotations.
Open Scope R_scope.
@*)
From Coq Require Import ZArith Reals List Bool Lra Lia.
From Coquelicot Require Import Coquelicot.
From Flocq Require Import Core.Core IEEE754.BinarySingleNaN.
From Verif Require Import Base Num NumR NumF Witness FloatSpec AnalysisM Device Signal AnaSpec CrLibm TrackSpec TrackLemmas AnaFacts AnaLemmas2
  MeterSpec MeterFacts MeterLemmas.
Import ListNotations.
Open Scope R_scope.

Section Bridge.
  Context {T : Type} (V : float_view T).

  (** The calls, with the numbers their arguments stand for. *)
  Definition exact (c : call (det_set T) T) : call (det_set R) R :=
    match c with
    | CProcess x => CProcess (val V x)
    | CClear => CClear
    | CSet (SetAttack l) => CSet (SetAttack (val V l))
    | CSet (SetRelease l) => CSet (SetRelease (val V l))
    | CLastOut => CLastOut
    end.

  Lemma guard1 l : 1 <= l -> n_lt R_ops (n_zero R_ops) l && n_is_finite R_ops l = true.
  Proof. intros H. apply guardR. lra. Qed.

  Lemma gain1 l : gain_of R_ops l = exp (-1 / l).
  Proof. unfold gain_of. cbn. replace (- (1)) with (-1) by lra. reflexivity. Qed.

  Lemma bridge_peak M L cs : detector_calls V M L cs ->
    let f := fold_left (follow V Rabs) cs (Follower 0 0 0) in
    after (dev_peak R_ops) (map exact cs) = PeakDet (f_attack f) (f_release f) (f_env f).
  Proof.
    intros H f. unfold f. clear f. induction cs as [|c cs IH] using rev_ind; [reflexivity|].
    apply Forall_app in H. destruct H as [H Hc]. specialize (IH H). inversion Hc as [|? ? H1 _]; subst.
    rewrite map_app, fold_left_app. cbn [map fold_left]. rewrite after_snoc, IH.
    set (f := fold_left _ cs _). destruct c as [x| |[l|l]|]; cbn [exact d_step dev_peak d_process d_clear d_set d_last_out fst follow].
    - unfold peak_process. cbn. unfold Rltb. destruct (Rlt_dec (f_env f) (Rabs (val V x))); reflexivity.
    - reflexivity.
    - unfold peak_set_attack. rewrite guard1 by lra. cbn [pk_attack_gain pk_release_gain pk_envelope f_attack f_release f_env]. rewrite <- gain1. reflexivity.
    - unfold peak_set_release. rewrite guard1 by lra. cbn [pk_attack_gain pk_release_gain pk_envelope f_attack f_release f_env]. rewrite <- gain1. reflexivity.
    - reflexivity.
  Qed.

  Lemma bridge_rms M L cs : detector_calls V M L cs ->
    let f := fold_left (follow V Rsqr) cs (Follower 0 0 0) in
    after (dev_rms R_ops) (map exact cs) = RmsDet (f_attack f) (f_release f) (f_env f).
  Proof.
    intros H f. unfold f. clear f. induction cs as [|c cs IH] using rev_ind; [reflexivity|].
    apply Forall_app in H. destruct H as [H Hc]. specialize (IH H). inversion Hc as [|? ? H1 _]; subst.
    rewrite map_app, fold_left_app. cbn [map fold_left]. rewrite after_snoc, IH.
    set (f := fold_left _ cs _). destruct c as [x| |[l|l]|]; cbn [exact d_step dev_rms d_process d_clear d_set d_last_out fst follow].
    - unfold rms_process. cbn. unfold Rltb, Rsqr. destruct (Rlt_dec (f_env f) (val V x * val V x)); reflexivity.
    - reflexivity.
    - unfold rms_set_attack. rewrite guard1 by lra. cbn [rm_attack_gain rm_release_gain rm_envelope f_attack f_release f_env]. rewrite <- gain1. reflexivity.
    - unfold rms_set_release. rewrite guard1 by lra. cbn [rm_attack_gain rm_release_gain rm_envelope f_attack f_release f_env]. rewrite <- gain1. reflexivity.
    - reflexivity.
  Qed.

  Lemma env_range mag M B L cs : detector_calls V M L cs -> (forall z, Rabs z <= M -> 0 <= mag z <= B) -> 0 <= B ->
    let f := fold_left (follow V mag) cs (Follower 0 0 0) in
    0 <= f_attack f <= 1 /\ 0 <= f_release f <= 1 /\ 0 <= f_env f <= B.
  Proof.
    intros H Hm HB. cbv zeta. induction cs as [|c cs IH] using rev_ind; [cbn; lra|].
    apply Forall_app in H. destruct H as [H Hc]. specialize (IH H). inversion Hc as [|? ? H1 _]; subst.
    rewrite fold_left_app. cbn [fold_left]. set (f := fold_left _ cs _) in *.
    assert (E : forall l, 1 <= l -> 0 <= exp (-1 / l) <= 1).
    { intros l Hl. assert (K := expR l ltac:(lra)). lra. }
    destruct c as [x| |[l|l]|]; cbn [follow f_attack f_release f_env]; try tauto.
    - destruct H1 as [_ H1]. specialize (Hm _ H1). destruct IH as [A [R0 E0]].
      split; [exact A|]. split; [exact R0|]. destruct (Rlt_dec _ _); split; nra.
    - split; [tauto|]. split; [tauto|]. lra.
    - split; [apply E; lra|]. tauto.
    - split; [tauto|]. split; [apply E; lra|]. tauto.
  Qed.
End Bridge.

Lemma state_after {S K} (D : device S K R) h (x : nat -> R) n :
  state_at D (after D h) x n = after D (h ++ map (fun i => CProcess (x i)) (seq 0 n)).
Proof.
  induction n as [|n IH]; [rewrite app_nil_r; reflexivity|].
  rewrite seq_S, map_app, app_assoc. cbn [map]. rewrite after_snoc, <- IH. cbn [state_at Nat.add d_step].
  destruct (d_process D _ _) eqn:E; reflexivity.
Qed.

Lemma calls_with {T} (V : float_view T) M L (history : list (call (det_set T) T)) len (x : nat -> T) n :
  detector_calls V M L history -> fin V len = true -> 1 <= val V len <= L -> (forall i, fin V (x i) = true /\ Rabs (val V (x i)) <= M) ->
  detector_calls V M L (history ++ [CSet (SetAttack len); CSet (SetRelease len)] ++ map (fun i => CProcess (x i)) (seq 0 n)).
Proof.
  intros H Hf Hl Hx. apply Forall_app. split; [exact H|]. constructor; [auto|]. constructor; [auto|].
  apply List.Forall_forall. intros c Hc. apply in_map_iff in Hc. destruct Hc as [i [<- _]]. apply Hx.
Qed.

Lemma exact_fed {T} (V : float_view T) (history : list (call (det_set T) T)) len (x : nat -> T) n :
  map (exact V) (history ++ [CSet (SetAttack len); CSet (SetRelease len)] ++ map (fun i => CProcess (x i)) (seq 0 n))
  = with_times (map (exact V) history) (val V len) (val V len) ++ map (fun i => CProcess (val V (x i))) (seq 0 n).
Proof. unfold with_times. rewrite !map_app, map_map, <- app_assoc. reflexivity. Qed.

Lemma ideal_meter {T} (V : float_view T) M L (history : list (call (det_set T) T)) len (x : nat -> T) P n mag :
  mag = Rabs \/ mag = Rsqr ->
  detector_calls V M L history -> fin V len = true -> 1 <= val V len <= L ->
  periodic P (fun i => val V (x i)) -> (forall i, fin V (x i) = true /\ Rabs (val V (x i)) <= M) ->
  Rabs (ideal_envelope V mag (history ++ [CSet (SetAttack len); CSet (SetRelease len)] ++ map (fun i => CProcess (x i)) (seq 0 (n + 1)))
        - mean P (levels mag (fun i => val V (x i))) 0)
  <= ((INR P - 1) / (2 * val V len) + exp (- (INR n / val V len))) * mag M.
Proof.
  intros Hm HH Hf Hl HP Hx.
  assert (M0 : 0 <= M) by (eapply Rle_trans; [apply Rabs_pos|apply (proj2 (Hx 0%nat))]).
  assert (Hc := fun n => calls_with V M L history len x n HH Hf Hl Hx).
  assert (Hc0 := Hc 0%nat). cbn [seq map] in Hc0. rewrite app_nil_r in Hc0.
  destruct Hm as [-> | ->].
  - assert (K := C98_reading_error_thm _ (peak_detector R_ops) Rabs (map (exact V) history) (val V len) M P
       (fun i => val V (x i)) n mt_peak ltac:(lra) HP). cbv zeta in K. cbn [det_dev peak_detector] in K.
    rewrite peak_out, state_after, <- exact_fed, (bridge_peak V M L _ (Hc _)) in K. cbn [pk_envelope] in K.
    unfold ideal_envelope. replace (n + 1)%nat with (Datatypes.S n) by lia.
    match type of K with context [Rabs (f_env ?f)] => rewrite (Rabs_pos_eq (f_env f)) in K end.
    2:{ apply (env_range V Rabs M M L _ (Hc (Datatypes.S n))); [|exact M0]. intros z Hz. split; [apply Rabs_pos|exact Hz]. }
    rewrite (Rabs_pos_eq M M0) in K |- *.
    apply K; [intros i; apply Hx|].
    replace (with_times (map (exact V) history) (val V len) (val V len))
      with (map (exact V) (history ++ [CSet (SetAttack len); CSet (SetRelease len)])) by (unfold with_times; rewrite map_app; reflexivity).
    rewrite (bridge_peak V M L _ Hc0). cbn [d_last_out dev_peak]. unfold peak_last_out. cbn [pk_envelope].
    apply (env_range V Rabs M M L _ Hc0); [|exact M0]. intros z Hz. split; [apply Rabs_pos|exact Hz].
  - assert (SQ : forall z, Rabs z <= M -> 0 <= Rsqr z <= M²).
    { intros z Hz. split; [apply Rle_0_sqr|]. apply Rsqr_le_abs_1. rewrite (Rabs_pos_eq M) by exact M0. exact Hz. }
    assert (S0 : 0 <= M²) by apply Rle_0_sqr.
    assert (K := C98_reading_error_thm _ (rms_detector R_ops) Rsqr (map (exact V) history) (val V len) M P
       (fun i => val V (x i)) n mt_rms ltac:(lra) HP). cbv zeta in K. cbn [det_dev rms_detector] in K.
    rewrite rms_out, state_after, <- exact_fed, (bridge_rms V M L _ (Hc _)) in K. cbn [rm_envelope] in K.
    unfold ideal_envelope. replace (n + 1)%nat with (Datatypes.S n) by lia.
    rewrite Rsqr_sqrt in K by (apply (env_range V Rsqr M M² L _ (Hc (Datatypes.S n)) SQ S0)).
    apply K; [intros i; apply Hx|].
    replace (with_times (map (exact V) history) (val V len) (val V len))
      with (map (exact V) (history ++ [CSet (SetAttack len); CSet (SetRelease len)])) by (unfold with_times; rewrite map_app; reflexivity).
    rewrite (bridge_rms V M L _ Hc0). cbn [d_last_out dev_rms]. unfold rms_last_out. cbn [rm_envelope n_sqrt R_ops].
    rewrite <- (sqrt_Rsqr M M0). apply sqrt_le_1_alt.
    apply (env_range V Rsqr M M² L _ Hc0 SQ S0).
Qed.

(*@PROP
(** C98: after any earlier calls, set to attack and release times of [len] samples and fed a
    signal that repeats every [P] samples, the detectors read, at sample [n], the mean
    magnitude resp. the mean power of the signal up to the ripple, the run-in and the
    rounding error. *)
@*)
Lemma C98_float_meter_thm :
  forall (T : Type) (O : num_ops T) (V : float_view T), ieee O V -> exp_rounded O V ->
  forall (M L : R) (history : list (call (det_set T) T)) (len : T) (P : nat) (x : nat -> T) (n : nat),
    1 <= L <= bpow radix2 (fprec V - 2) ->
    detector_calls V M L history -> fin V len = true -> 1 <= val V len <= L ->
    periodic P (fun i => val V (x i)) -> (forall i, fin V (x i) = true /\ Rabs (val V (x i)) <= M) ->
    let calls := history ++ [CSet (SetAttack len); CSet (SetRelease len)] ++ map (fun i => CProcess (x i)) (seq 0 (n + 1)) in
    let off := (INR P - 1) / (2 * val V len) + exp (- (INR n / val V len)) in
    (M <= fmax V ->
     let y := peak_last_out (after (dev_peak O) calls) in
     fin V y = true
     /\ Rabs (val V y - mean P (fun i => Rabs (val V (x i))) 0)
        <= off * M + 8 * (L + 1) * (half_ulp V * M + half_tiny V))
    /\ (M * M <= fmax V ->
     let y := rms_last_out O (after (dev_rms O) calls) in
     fin V y = true
     /\ Rabs (val V y * val V y - mean P (fun i => val V (x i) * val V (x i)) 0)
        <= off * (M * M) + 16 * (L + 1) * (half_ulp V * (M * M) + half_tiny V)).
Proof.
  intros T O V HO HE M L history len P x n HL HH Hf Hl HP Hx calls off.
  assert (M0 : 0 <= M) by (eapply Rle_trans; [apply Rabs_pos|apply (proj2 (Hx 0%nat))]).
  assert (Hc : detector_calls V M L calls) by (apply calls_with; assumption).
  split; intros HM; cbv zeta.
  - destruct (C90_peak_tracks_thm T O V HO HE M L calls (conj M0 HM) HL Hc) as [F A]. split; [exact F|].
    assert (K := ideal_meter V M L history len x P n Rabs (or_introl eq_refl) HH Hf Hl HP Hx). fold calls in K. fold off in K.
    rewrite (Rabs_pos_eq M M0) in K. unfold levels in K.
    match goal with |- Rabs (?y - ?m) <= _ => replace (y - m) with ((y - ideal_envelope V Rabs calls) + (ideal_envelope V Rabs calls - m)) by ring end.
    eapply Rle_trans; [apply Rabs_triang|]. cbv zeta in A. lra.
  - destruct (C90_rms_tracks_thm T O V HO HE M L calls HM HL Hc) as [F A]. split; [exact F|].
    assert (K := ideal_meter V M L history len x P n Rsqr (or_intror eq_refl) HH Hf Hl HP Hx). fold calls in K. fold off in K.
    unfold levels in K. change (M²) with (M * M) in K.
    change (mean P (fun i => (val V (x i))²) 0) with (mean P (fun i => val V (x i) * val V (x i)) 0) in K.
    match goal with |- Rabs (?y - ?m) <= _ => replace (y - m) with ((y - ideal_envelope V Rsqr calls) + (ideal_envelope V Rsqr calls - m)) by ring end.
    eapply Rle_trans; [apply Rabs_triang|]. cbv zeta in A. lra.
Qed.

(*@PROP
(** [f32], a correctly rounded exponential, one second at 48 kHz, a square wave. *)
Example C98_float_meter_hyps :
  let x := fun i : nat => if Nat.even i then fl32 1 0 else fl32 (-1) 0 in
  ieee O90 V90 /\ exp_rounded O90 V90 /\ 1 <= 48000 <= bpow radix2 (fprec V90 - 2)
  /\ detector_calls V90 1 48000 history90
  /\ fin V90 one_second = true /\ 1 <= val V90 one_second <= 48000
  /\ periodic 2 (fun i => val V90 (x i)) /\ (forall i, fin V90 (x i) = true /\ Rabs (val V90 (x i)) <= 1)
  /\ 1 <= fmax V90 /\ 1 * 1 <= fmax V90.
Proof. exact C98_float_wit. Qed.
@*)
Lemma C98_float_wit :
  let x := fun i : nat => if Nat.even i then fl32 1 0 else fl32 (-1) 0 in
  ieee O90 V90 /\ exp_rounded O90 V90 /\ 1 <= 48000 <= bpow radix2 (fprec V90 - 2)
  /\ detector_calls V90 1 48000 history90
  /\ fin V90 one_second = true /\ 1 <= val V90 one_second <= 48000
  /\ periodic 2 (fun i => val V90 (x i)) /\ (forall i, fin V90 (x i) = true /\ Rabs (val V90 (x i)) <= 1)
  /\ 1 <= fmax V90 /\ 1 * 1 <= fmax V90.
Proof.
  intros x. destruct track_met as (A & B & C & D & E & _).
  split; [exact A|]. split; [exact B|]. split; [exact D|]. split; [exact E|]. split; [reflexivity|].
  split. { change (val V90 one_second) with (B2R one_second). rewrite one_second_val. lra. }
  split. { split; [lia|]. intros n. unfold x. replace (n + 2)%nat with (Datatypes.S (Datatypes.S n)) by lia. reflexivity. }
  split. { intros i. unfold x. destruct (Nat.even i); (split; [reflexivity|]); cbn; unfold F2R; cbn; unfold Rabs; destruct Rcase_abs; lra. }
  lra.
Qed.
