(** Proofs of C85: the tail of a recursive processor in floating point. *)
From Coq Require Import ZArith Reals List Bool Lra Lia.
From Flocq Require Import Core.Core IEEE754.BinarySingleNaN.
From Verif Require Import Base Num NumF FloatSpec FloatFacts SmoothF FltFilterFacts CrLibm Witness FilterM AnalysisM Device AnaSpec
  AnaFacts AnaLemmas TailSpec TailFacts.
Import ListNotations.
Open Scope R_scope.

(*@PROP
(** Property C85: what [OnePole], [LeakyIntegrator] and the detectors do in [f32]
    and [f64] when the input falls silent.

    Vocabulary: [TailSpec], [AnaSpec], [FloatSpec]. *)
From Coq Require Import ZArith Reals List Bool Lra Lia.
From Flocq Require Import Core.Core IEEE754.BinarySingleNaN.
From Verif Require Import Base Num NumF FloatSpec Witness CrLibm FilterM AnalysisM Device AnaSpec AnaLemmas TailSpec TailLemmas.
Import ListNotations.
Open Scope R_scope.

@*)

Section Silence.
  Context {S K T : Type} (D : device S K T) (zero : T).
  Definition sstep (s : S) : S := fst (d_process D s zero).
  Definition sout (s : S) : T := snd (d_process D s zero).
  Definition siter (n : nat) (s : S) : S := Nat.iter n sstep s.

  Lemma siter_S n s : siter (Datatypes.S n) s = sstep (siter n s).
  Proof. reflexivity. Qed.
  Lemma siter_swap n s : siter n (sstep s) = siter (Datatypes.S n) s.
  Proof. induction n as [|n IH]; [reflexivity|]. rewrite siter_S, IH. reflexivity. Qed.

  Lemma run_silence n : forall s,
    d_run D s (repeat (CProcess zero) n)
    = (siter n s, map (fun i => (CProcess zero, Some (sout (siter i s)))) (seq 0 n)).
  Proof.
    induction n as [|n IH]; intros s; [reflexivity|]. cbn [repeat d_run d_step].
    assert (E : d_process D s zero = (sstep s, sout s)) by (unfold sstep, sout; destruct (d_process D s zero); reflexivity).
    rewrite E, IH. cbn [seq map]. rewrite <- seq_shift, map_map. rewrite siter_swap. f_equal. f_equal.
    apply map_ext. intros i. rewrite siter_swap. reflexivity.
  Qed.
End Silence.

Section Never.
  Context (prec emax : Z) {Hp : Prec_gt_0 prec} {Hm : Prec_lt_emax prec emax} (Hm3 : (3 <= emax)%Z)
    (pim pie sz : Z) (lm : libm (binary_float prec emax)) (nn : bool).
  Notation F := (binary_float prec emax).
  Notation fexp := (SpecFloat.fexp prec emax).
  Notation RN := (round radix2 fexp (round_mode mode_NE)).
  Notation V := (ieee_view prec emax).
  Notation O := (ieee_ops prec emax pim pie sz lm nn).

  Section OneDevice.
    Context {S K : Type} (D : device S K F) (P : S -> Prop) (mem : S -> F) (g : F).
    Hypothesis Hd : forall s, P s -> is_finite (mem s) = true ->
      let s' := sstep D (n_zero O) s in
      P s' /\ is_finite (mem s') = true /\ Rabs (B2R (mem s')) = Rabs (RN (B2R g * B2R (mem s)))
      /\ sout D (n_zero O) s = d_last_out D s'.
    Hypothesis Hview : forall s, P s -> is_finite (mem s) = true ->
      is_finite (d_last_out D s) = true /\ (B2R (d_last_out D s) = 0 <-> B2R (mem s) = 0).
    Hypothesis Hmono : forall s s', P s -> is_finite (mem s) = true -> P s' -> is_finite (mem s') = true ->
      Rabs (B2R (mem s')) <= Rabs (B2R (mem s)) -> Rabs (B2R (d_last_out D s')) <= Rabs (B2R (d_last_out D s)).
    Context (s0 : S).
    Hypothesis H0 : P s0.
    Hypothesis F0 : is_finite (mem s0) = true.

    Lemma siter_ok n : let s := siter D (n_zero O) n s0 in P s /\ is_finite (mem s) = true.
    Proof.
      induction n as [|n IH]; [split; assumption|]. destruct IH as [A B]. rewrite siter_S.
      destruct (Hd _ A B) as [C [E _]]. split; assumption.
    Qed.

    Notation m := (fun n => B2R (mem (siter D (n_zero O) n s0))).
    Lemma m_fmt n : generic_format radix2 fexp (m n).
    Proof. apply generic_format_B2R. Qed.
    Lemma m_step n : Rabs (m (Datatypes.S n)) = Rabs (RN (B2R g * m n)).
    Proof. destruct (siter_ok n) as [A B]. rewrite siter_S. apply (Hd _ A B). Qed.

    Lemma tail_never n : / 2 < Rabs (B2R g) <= 1 -> B2R (d_last_out D s0) <> 0 ->
      Forall (fun r => exists y, r = Some y /\ is_finite y = true /\ 0 < Rabs (B2R y) <= Rabs (B2R (d_last_out D s0)))
        (map snd (snd (d_run D s0 (silence O n)))).
    Proof.
      intros Hg Hy. unfold silence. rewrite run_silence. cbn [snd]. rewrite map_map. cbn [snd].
      apply Forall_map, Forall_forall. intros i _. exists (sout D (n_zero O) (siter D (n_zero O) i s0)).
      split; [reflexivity|]. destruct (siter_ok i) as [A B].
      destruct (Hd _ A B) as [_ [_ [_ E]]]. rewrite E, <- siter_S.
      destruct (siter_ok (Datatypes.S i)) as [A' B']. destruct (Hview _ A' B') as [V1 V2]. split; [exact V1|].
      split.
      - apply Rabs_pos_lt. rewrite V2. apply (m_never_zero prec emax m (B2R g) m_fmt m_step); [lra|].
        cbn. intros Z. apply Hy. apply (Hview _ H0 F0). exact Z.
      - apply (Hmono s0 _ H0 F0 A' B'). 
        assert (G : forall j, Rabs (m j) <= Rabs (m 0%nat)).
        { induction j as [|j IH]; [lra|]. eapply Rle_trans; [|exact IH].
          apply (m_decreases prec emax m (B2R g) m_fmt m_step). lra. }
        exact (G (Datatypes.S i)).
    Qed.

    Lemma tail_ends N n : (3 / 4) ^ N * bpow radix2 emax < bpow radix2 (SpecFloat.emin prec emax) ->
      Rabs (B2R g) <= / 2 ->
      Forall (fun r => exists y, r = Some y /\ is_finite y = true /\ B2R y = 0)
        (map snd (snd (d_run D (siter D (n_zero O) (N + 2) s0) (silence O n)))).
    Proof.
      intros HN Hg. unfold silence. rewrite run_silence. cbn [snd]. rewrite map_map. cbn [snd].
      apply Forall_map, Forall_forall. intros i _. 
      exists (sout D (n_zero O) (siter D (n_zero O) i (siter D (n_zero O) (N + 2) s0))).
      split; [reflexivity|].
      assert (Ei : siter D (n_zero O) i (siter D (n_zero O) (N + 2) s0) = siter D (n_zero O) (i + (N + 2)) s0).
      { clear. induction i as [|i IH]; [reflexivity|]. cbn [Nat.add]. rewrite !siter_S, IH. reflexivity. }
      rewrite Ei. destruct (siter_ok (i + (N + 2))) as [A B].
      destruct (Hd _ A B) as [_ [_ [_ E]]]. rewrite E, <- siter_S.
      destruct (siter_ok (Datatypes.S (i + (N + 2)))) as [A' B']. destruct (Hview _ A' B') as [V1 V2]. split; [exact V1|].
      apply V2. apply (m_vanishes prec emax m (B2R g) m_fmt m_step N Hg HN); [|lia].
      apply Rlt_le, abs_B2R_lt_emax.
    Qed.
  End OneDevice.

  (** The number of samples after which nothing is left. *)
  Lemma enough : exists N, (3 / 4) ^ N * bpow radix2 emax < bpow radix2 (SpecFloat.emin prec emax).
  Proof.
    assert (P1 := bpow_gt_0 radix2 emax). assert (P2 := bpow_gt_0 radix2 (SpecFloat.emin prec emax)).
    destruct (pow_lt_1_zero (3 / 4) ltac:(rewrite Rabs_pos_eq; lra)
      (bpow radix2 (SpecFloat.emin prec emax) / bpow radix2 emax) ltac:(apply Rdiv_lt_0_compat; assumption)) as [N HN].
    exists N. specialize (HN N (le_n N)). rewrite Rabs_pos_eq in HN by (apply pow_le; lra).
    apply Rmult_lt_compat_r with (r := bpow radix2 emax) in HN; [|exact P1].
    replace (bpow radix2 (SpecFloat.emin prec emax) / bpow radix2 emax * bpow radix2 emax) with (bpow radix2 (SpecFloat.emin prec emax)) in HN
      by (field; lra). exact HN.
  Qed.

  (** What [decays] provides: an invariant, a memory, and the facts above. *)
  Lemma decays_facts {S K} (D : device S K F) (k : K) (g : F) (history : list (call K F)) (samples : list F) :
    let s0 := after D (configured_and_fed history k samples) in
    decays O V D k g (d_last_out D s0) -> is_finite g = true -> Rabs (B2R g) <= 1 ->
    is_finite (d_last_out D s0) = true ->
    exists (P : S -> Prop) (mem : S -> F),
      (forall s, P s -> is_finite (mem s) = true ->
        let s' := sstep D (n_zero O) s in
        P s' /\ is_finite (mem s') = true /\ Rabs (B2R (mem s')) = Rabs (RN (B2R g * B2R (mem s)))
        /\ sout D (n_zero O) s = d_last_out D s')
      /\ (forall s, P s -> is_finite (mem s) = true ->
        is_finite (d_last_out D s) = true /\ (B2R (d_last_out D s) = 0 <-> B2R (mem s) = 0))
      /\ (forall s s', P s -> is_finite (mem s) = true -> P s' -> is_finite (mem s') = true ->
        Rabs (B2R (mem s')) <= Rabs (B2R (mem s)) -> Rabs (B2R (d_last_out D s')) <= Rabs (B2R (d_last_out D s)))
      /\ P s0 /\ is_finite (mem s0) = true.
  Proof.
    assert (Inv : forall {S' K'} (D' : device S' K' F) (I : S' -> Prop) (k' : K'),
      (forall s, I (d_set D' s k')) -> (forall s x, I s -> I (fst (d_process D' s x))) ->
      forall history samples, I (after D' (configured_and_fed history k' samples))).
    { intros S' K' D' I k' Hk Hs history' samples'. unfold configured_and_fed. rewrite app_assoc, after_app.
      apply (run_inv D' I (fun c => exists x, c = CProcess x) (fun _ => True)).
      - intros s c Hi [x ->]. split; [|trivial]. cbn [d_step]. specialize (Hs s x Hi). destruct (d_process D' s x). exact Hs.
      - rewrite after_snoc. apply Hk.
      - apply Forall_map, Forall_forall. intros x _. eauto. }
    assert (Z0 : is_zero prec emax (B754_zero false)) by (eexists; reflexivity).
    assert (Sgn : forall y, 0 <= B2R g -> 0 <= y -> 0 <= RN (B2R g * y)).
    { intros y G Y. rewrite <- (RN_0 prec emax). apply (RN_le prec emax). apply Rmult_le_pos; assumption. }
    intros s0 HD Fg Hg Fs. remember (d_last_out D s0) as y0 eqn:Ey0. destruct HD as [b0 a1 y Fb|alpha y Ua|len y Hl Pg Py|len y Hl Pg].
    - exists (fun s => op_b0 s = b0 /\ op_a1 s = a1), (@op_y_z1 F).
      split; [|split; [|split; [|split]]].
      + intros s [Eb Ea] Fy. unfold sstep, sout. cbn [d_process dev_one_pole d_last_out one_pole_process fst snd op_b0 op_a1 op_y_z1 one_pole_last_out].
        rewrite Eb, Ea. destruct (pole_silent prec emax Hm3 b0 a1 (op_y_z1 s) Fb Fg Hg Fy) as [Q1 Q2].
        split; [split; reflexivity|]. split; [exact Q1|]. split; [|reflexivity].
        etransitivity; [|apply Rabs_Ropp]. f_equal. exact Q2.
      + intros s _ Fy. split; [exact Fy|reflexivity].
      + intros s s' _ _ _ _ H. exact H.
      + apply (Inv _ _ (dev_one_pole O) (fun s => op_b0 s = b0 /\ op_a1 s = a1)).
        * intros s'. split; reflexivity.
        * intros s' x [? ?]. split; assumption.
      + rewrite Ey0 in Fs. exact Fs.
    - exists (fun s => lk_alpha s = alpha), (@lk_y_z1 F).
      split; [|split; [|split; [|split]]].
      + intros s Ea Fy. unfold sstep, sout. cbn [d_process dev_leaky d_last_out].
        rewrite (leaky_smooth' prec emax pim pie sz lm nn _ eq_refl). cbn [fst snd lk_alpha lk_y_z1]. rewrite Ea.
        destruct (smooth_silent prec emax Hm3 alpha (lk_y_z1 s) (n_zero O) Z0 Fg Hg Fy) as [Q1 Q2].
        split; [reflexivity|]. split; [exact Q1|]. split; [|reflexivity]. f_equal. exact Q2.
      + intros s _ Fy. split; [exact Fy|reflexivity].
      + intros s s' _ _ _ _ H. exact H.
      + apply (Inv _ _ (dev_leaky O) (fun s => lk_alpha s = alpha)).
        * intros s'. cbn [d_set dev_leaky]. unfold leaky_set_alpha.
          rewrite (proj2 (alpha_guard prec emax pim pie sz lm nn alpha) Ua). reflexivity.
        * intros s' x H. exact H.
      + rewrite Ey0 in Fs. exact Fs.
    - exists (fun s => pk_release_gain s = gain_of O len /\ 0 <= B2R (pk_envelope s)), (@pk_envelope F).
      split; [|split; [|split; [|split]]].
      + intros s [Ea Pe] Fy. unfold sstep, sout. cbn [d_process dev_peak d_last_out].
        rewrite (peak_smooth' prec emax pim pie sz lm nn _ eq_refl). cbn [fst snd pk_release_gain pk_envelope].
        assert (Eg : pk_gain prec emax s (n_zero O) = gain_of O len).
        { unfold pk_gain. rewrite Bltb_correct; [|exact Fy|reflexivity].
          change (B2R (Babs (n_zero O))) with 0. rewrite Rlt_bool_false by exact Pe. exact Ea. }
        rewrite Eg.
        destruct (smooth_silent prec emax Hm3 (gain_of O len) (pk_envelope s) (Babs (n_zero O)) Z0 Fg Hg Fy) as [Q1 Q2].
        split; [split; [exact Ea|]|]. { rewrite Q2. apply Sgn; assumption. }
        split; [exact Q1|]. split; [|reflexivity]. f_equal. exact Q2.
      + intros s _ Fy. split; [exact Fy|reflexivity].
      + intros s s' _ _ _ _ H. exact H.
      + split.
        * apply (Inv _ _ (dev_peak O) (fun s => pk_release_gain s = gain_of O len)).
          -- intros s'. cbn [d_set dev_peak]. unfold peak_set_release.
             rewrite (proj2 (length_guard prec emax pim pie sz lm nn len) Hl). reflexivity.
          -- intros s' x H. exact H.
        * rewrite Ey0 in Py. exact Py.
      + rewrite Ey0 in Fs. exact Fs.
    - assert (Sq : forall e : F, is_finite e = true -> 0 <= B2R e ->
         is_finite (f_sqrt prec emax e) = true /\ (B2R (f_sqrt prec emax e) = 0 <-> B2R e = 0)).
      { intros e Fe Pe. destruct (sqrt_ok prec emax e Fe Pe) as [S1 S2]. split; [exact S1|]. rewrite S2. split.
        - intros E. destruct (Req_dec (B2R e) 0) as [Z|Z]; [exact Z|exfalso].
          revert E. apply (RN_keeps prec emax). rewrite Rabs_pos_eq by apply sqrt_pos.
          assert (Ge := fmt_ge_eta prec emax (B2R e) (generic_format_B2R _ _ e) Z). rewrite Rabs_pos_eq in Ge by exact Pe.
          assert (Pe0 := eta_pos prec emax). set (h := bpow radix2 (SpecFloat.emin prec emax)) in *.
          assert (H1 : h <= 1) by (unfold h; change 1 with (bpow radix2 0); apply bpow_le; unfold SpecFloat.emin; unfold Prec_gt_0 in Hp; lia).
          apply Rlt_le_trans with h; [lra|]. rewrite <- (sqrt_square h) by lra. apply sqrt_le_1_alt.
          apply Rle_trans with h; [nra|exact Ge].
        - intros ->. rewrite sqrt_0. apply (RN_0 prec emax). }
      exists (fun s => rm_release_gain s = gain_of O len /\ 0 <= B2R (rm_envelope s)), (@rm_envelope F).
      split; [|split; [|split; [|split]]].
      + intros s [Ea Pe] Fy. unfold sstep, sout. cbn [d_process dev_rms d_last_out].
        rewrite (rms_smooth' prec emax pim pie sz lm nn _ eq_refl). cbn [fst snd rm_release_gain rm_envelope].
        assert (Eg : rm_gain prec emax s (n_zero O) = gain_of O len).
        { unfold rm_gain. rewrite Bltb_correct; [|exact Fy|reflexivity].
          change (B2R (f_mul prec emax (n_zero O) (n_zero O))) with 0. rewrite Rlt_bool_false by exact Pe. exact Ea. }
        rewrite Eg.
        destruct (smooth_silent prec emax Hm3 (gain_of O len) (rm_envelope s) (f_mul prec emax (n_zero O) (n_zero O)) Z0 Fg Hg Fy) as [Q1 Q2].
        split; [split; [exact Ea|]|]. { rewrite Q2. apply Sgn; assumption. }
        split; [exact Q1|]. split; [|reflexivity]. f_equal. exact Q2.
      + intros s [_ Pe] Fy. apply Sq; assumption.
      + intros s s' [_ Pe] Fe [_ Pe'] Fe' H. cbn [d_last_out dev_rms].
        change (Rabs (B2R (f_sqrt prec emax (rm_envelope s'))) <= Rabs (B2R (f_sqrt prec emax (rm_envelope s)))).
        rewrite (Rabs_pos_eq _ Pe), (Rabs_pos_eq _ Pe') in H.
        destruct (sqrt_ok prec emax _ Fe Pe) as [_ ->]. destruct (sqrt_ok prec emax _ Fe' Pe') as [_ ->].
        assert (N : forall x, 0 <= RN (sqrt x)) by (intros x; rewrite <- (RN_0 prec emax); apply (RN_le prec emax); apply sqrt_pos).
        rewrite !Rabs_pos_eq by apply N. apply (RN_le prec emax), sqrt_le_1_alt, H.
      + split.
        * apply (Inv _ _ (dev_rms O) (fun s => rm_release_gain s = gain_of O len)).
          -- intros s'. cbn [d_set dev_rms]. unfold rms_set_release.
             rewrite (proj2 (length_guard prec emax pim pie sz lm nn len) Hl). reflexivity.
          -- intros s' x H. exact H.
        * rewrite Ey0 in Fs. change (is_finite (f_sqrt prec emax (rm_envelope s0)) = true) in Fs.
          destruct (rm_envelope s0) as [s|s| |s mm e Hb]; try (cbn; lra). destruct s; [discriminate Fs|].
          cbn. apply F2R_ge_0. cbn. lia.
      + rewrite Ey0 in Fs. change (is_finite (f_sqrt prec emax (rm_envelope s0)) = true) in Fs.
        destruct (rm_envelope s0) as [s|s| |s mm e Hb]; try reflexivity; [destruct s; discriminate Fs|discriminate Fs].
  Qed.
End Never.

(** C85: in [f32] and [f64], when the input stops, the output of [OnePole] with
    |a1| > 1/2, of [LeakyIntegrator] with alpha > 1/2, and of the detectors with a
    release gain above 1/2, never reaches zero again, although the exact response
    tends to zero: it stays a non-zero number for ever (and ends up in the
    subnormal numbers, which many processors handle slowly). *)
Lemma C85_tail_never_ends_refuted_thm :
  forall (T : Type) (O : num_ops T) (V : float_view T) (S K : Type) (D : device S K T) (k : K) (g : T)
         (history : list (call K T)) (samples : list T),
    ieee O V -> fin V g = true -> / 2 < Rabs (val V g) <= 1 ->
    let before := configured_and_fed history k samples in
    let y0 := d_last_out D (after D before) in
    decays O V D k g y0 -> fin V y0 = true -> val V y0 <> 0 ->
    forall n, Forall (fun r => exists y, r = Some y /\ fin V y = true /\ 0 < Rabs (val V y) <= Rabs (val V y0))
                (returns D before (silence O n)).
Proof.
  intros T O V S K D k g history samples HO Fg Hg before y0 HD Fy Hy n.
  destruct HO.
  - destruct (decays_facts 24 128 le3_32 _ _ _ lm b D k g history samples HD Fg (proj2 Hg) Fy) as [P [mem [A [B [C [E G]]]]]].
    exact (tail_never 24 128 _ _ _ lm b D P mem g A B C (after D before) E G n Hg Hy).
  - destruct (decays_facts 53 1024 le3_64 _ _ _ lm b D k g history samples HD Fg (proj2 Hg) Fy) as [P [mem [A [B [C [E G]]]]]].
    exact (tail_never 53 1024 _ _ _ lm b D P mem g A B C (after D before) E G n Hg Hy).
Qed.

(** C85: with a gain of 1/2 or less the output is exactly zero after a number of
    samples that depends on the float type only. *)
Lemma C85_tail_ends_thm :
  forall (T : Type) (O : num_ops T) (V : float_view T), ieee O V ->
  exists N : nat,
  forall (S K : Type) (D : device S K T) (k : K) (g : T) (history : list (call K T)) (samples : list T),
    fin V g = true -> Rabs (val V g) <= / 2 ->
    let before := configured_and_fed history k samples in
    let y0 := d_last_out D (after D before) in
    decays O V D k g y0 -> fin V y0 = true ->
    forall n, Forall (fun r => exists y, r = Some y /\ fin V y = true /\ val V y = 0)
                (returns D (before ++ silence O N) (silence O n)).
Proof.
  intros T O V HO. destruct HO.
  - destruct (enough 24 128) as [N HN]. exists (N + 2)%nat.
    intros S K D k g history samples Fg Hg before y0 HD Fy n.
    destruct (decays_facts 24 128 le3_32 _ _ _ lm b D k g history samples HD Fg ltac:(cbn [val ieee_view] in Hg; lra) Fy) as [P [mem [A [B [C [E G]]]]]].
    unfold returns. rewrite after_app. unfold silence at 1. rewrite run_silence. cbn [fst].
    exact (tail_ends 24 128 _ _ _ lm b D P mem g A B C (after D before) E G N n HN Hg).
  - destruct (enough 53 1024) as [N HN]. exists (N + 2)%nat.
    intros S K D k g history samples Fg Hg before y0 HD Fy n.
    destruct (decays_facts 53 1024 le3_64 _ _ _ lm b D k g history samples HD Fg ltac:(cbn [val ieee_view] in Hg; lra) Fy) as [P [mem [A [B [C [E G]]]]]].
    unfold returns. rewrite after_app. unfold silence at 1. rewrite run_silence. cbn [fst].
    exact (tail_ends 53 1024 _ _ _ lm b D P mem g A B C (after D before) E G N n HN Hg).
Qed.

Lemma exp_half : 57 / 100 <= exp (- / 2).
Proof.
  assert (E : exp (/ 2) * exp (/ 2) = exp 1) by (rewrite <- exp_plus; f_equal; lra).
  assert (E3 := exp_le_3). assert (P := exp_pos (/ 2)). assert (P' := exp_pos (- / 2)).
  assert (I : exp (- / 2) * exp (/ 2) = 1) by (rewrite <- exp_plus, <- exp_0; f_equal; lra).
  assert (exp (/ 2) <= 1733 / 1000) by nra. nra.
Qed.

Lemma release_gain prec emax {Hp : Prec_gt_0 prec} {Hm : Prec_lt_emax prec emax} (Hm4 : (4 <= emax)%Z) (Hp5 : (5 <= prec)%Z)
    pim pie sz lm nn (len : binary_float prec emax) :
  let O := ieee_ops prec emax pim pie sz lm nn in let V := ieee_view prec emax in
  exp_rounded O V -> fin V len = true -> 2 <= val V len ->
  fin V (gain_of O len) = true /\ / 2 < val V (gain_of O len) <= 1.
Proof.
  intros O V He Fl Hl. cbn [fin val V ieee_view] in Fl, Hl.
  set (RN := round radix2 (SpecFloat.fexp prec emax) (round_mode mode_NE)).
  assert (Hpe := Hm). unfold Prec_lt_emax in Hpe.
  assert (Hi : 0 < / B2R len <= / 2).
  { split; [apply Rinv_0_lt_compat; lra|]. apply Rinv_le; lra. }
  destruct (fone_correct prec emax) as [O1 [O2 _]].
  assert (Fe : generic_format radix2 (SpecFloat.fexp prec emax) (/ 2)).
  { change (/ 2) with (bpow radix2 (-1)). apply (format_bpow prec emax). unfold SpecFloat.emin. lia. }
  assert (Hq : - / 2 <= RN (- / B2R len) <= 0).
  { split.
    - unfold RN. rewrite (RN_opp prec emax). apply Ropp_le_contravar.
      rewrite <- (RN_id prec emax _ Fe). apply (RN_le prec emax). lra.
    - unfold RN. rewrite <- (RN_0 prec emax). apply (RN_le prec emax). lra. }
  assert (D := Bdiv_correct prec emax Hp Hm mode_NE (Bopp (f_of_Z prec emax 1)) len ltac:(lra)).
  rewrite B2R_Bopp, O1 in D. replace (-(1) / B2R len) with (- / B2R len) in D by (unfold Rdiv; lra).
  fold RN in D. rewrite Rlt_bool_true in D.
  2:{ assert (1 < bpow radix2 emax) by (change 1 with (bpow radix2 0); apply bpow_lt; lia).
      apply Rabs_def1; lra. }
  destruct D as [D1 [D2 _]]. rewrite is_finite_Bopp, O2 in D2.
  set (q := f_div prec emax (Bopp (f_of_Z prec emax 1)) len).
  change (gain_of O len) with (n_exp O q).
  assert (Eq : val V q = RN (- / B2R len)) by exact D1.
  assert (Fq : fin V q = true) by exact D2.
  assert (Hexp : 57 / 100 <= exp (val V q) <= 1).
  { rewrite Eq. split.
    - apply Rle_trans with (1 := exp_half). destruct (proj1 Hq) as [H|H]; [apply Rlt_le, exp_increasing, H|rewrite H; lra].
    - rewrite <- exp_0. destruct (proj2 Hq) as [H|H]; [apply Rlt_le, exp_increasing, H|rewrite H; lra]. }
  assert (Ern' : forall ex, 57 / 100 <= ex <= 1 -> / 2 < RN ex <= 1).
  { intros ex Hx. split.
    - assert (E := RN_err prec emax ex). unfold uro, eta, uro in E.
      rewrite (Rabs_pos_eq ex) in E by lra.
      assert (U0 := bpow_gt_0 radix2 (- prec)).
      assert (U : bpow radix2 (- prec) <= / 32) by (change (/ 32) with (bpow radix2 (-5)); apply bpow_le; lia).
      assert (W0 := bpow_gt_0 radix2 (2 - emax)).
      assert (W : bpow radix2 (2 - emax) <= / 4) by (change (/ 4) with (bpow radix2 (-2)); apply bpow_le; lia).
      assert (bpow radix2 (- prec) * bpow radix2 (2 - emax) <= / 32 * / 4) by (apply Rmult_le_compat; lra).
      assert (bpow radix2 (- prec) * ex <= / 32 * 1) by (apply Rmult_le_compat; lra).
      apply Rabs_le_inv in E. unfold RN. lra.
    - rewrite <- (RN_id prec emax 1 (format_F2R_1 prec emax)). apply (RN_le prec emax). apply Hx. }
  assert (Ern := Ern' _ Hexp). change (RN (exp (val V q))) with (rnd V (exp (val V q))) in Ern.
  destruct (He q Fq) as [H1 H2].
  - rewrite Rabs_pos_eq by lra. cbn [fmax V ieee_view].
    assert (bpow radix2 (- prec) <= / 2) by (change (/ 2) with (bpow radix2 (-1)); apply bpow_le; lia).
    assert (4 <= bpow radix2 emax) by (change 4 with (bpow radix2 2); apply bpow_le; lia).
    assert (0 < bpow radix2 (- prec)) by apply bpow_gt_0. cbn [rnd val V ieee_view] in *. nra.
  - split; [exact H1|]. rewrite H2. exact Ern.
Qed.

(** C85: with a correctly rounded exponential, every release of two samples or more
    has such a gain. *)
Lemma C85_release_gain_thm :
  forall (T : Type) (O : num_ops T) (V : float_view T) (len : T),
    ieee O V -> exp_rounded O V -> fin V len = true -> 2 <= val V len ->
    fin V (gain_of O len) = true /\ / 2 < val V (gain_of O len) <= 1.
Proof.
  intros T O V len HO He Fl Hl. destruct HO.
  - exact (release_gain 24 128 le4_32 ltac:(lia) _ _ _ lm b len He Fl Hl).
  - exact (release_gain 53 1024 le4_64 ltac:(lia) _ _ _ lm b len He Fl Hl).
Qed.

(*@PROP
(* OnePole with a1 = -3/4 and LeakyIntegrator with alpha = 3/4, fed one sample of 1;
   a release of two samples *)
Example C85_hyps :
  let V := ieee_view 24 128 in
  let y1 := d_last_out (dev_one_pole O32) (after (dev_one_pole O32) (configured_and_fed [CClear] (fl32 1 0, fl32 (-3) (-2)) [fl32 1 0])) in
  let y2 := d_last_out (dev_leaky O32) (after (dev_leaky O32) (configured_and_fed [CProcess (fl32 1 0)] (fl32 3 (-2)) [fl32 1 0])) in
  decays O32 V (dev_one_pole O32) (fl32 1 0, fl32 (-3) (-2)) (fl32 (-3) (-2)) y1
  /\ fin V y1 = true /\ val V y1 <> 0
  /\ decays O32 V (dev_leaky O32) (fl32 3 (-2)) (fl32 3 (-2)) y2
  /\ fin V y2 = true /\ val V y2 <> 0
  /\ / 2 < Rabs (val V (fl32 (-3) (-2))) <= 1
  /\ 2 <= val V (fl32 1 1).
Proof.
  cbv zeta. split; [constructor; reflexivity|]. split; [reflexivity|].
  split; [vm_compute; unfold F2R; cbn; lra|].
  split; [constructor; split; [reflexivity|]; cbn; unfold F2R; cbn; lra|]. split; [reflexivity|].
  split; [vm_compute; unfold F2R; cbn; lra|].
  split; cbn; unfold F2R; cbn; [|lra]. rewrite Rabs_left; lra.
Qed.
@*)
