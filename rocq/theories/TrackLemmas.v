(** Proofs of C90. *)
From Coq Require Import ZArith Reals List Bool Lra Lia Psatz.
From Flocq Require Import Core.Core IEEE754.BinarySingleNaN.
From Verif Require Import Base Num NumF FloatSpec FloatFacts SmoothF WinLemmasF FltFilterFacts RbjFltFacts CrLibm Witness
  ConstLemmas AnalysisM Device AnaSpec AnaFacts AnaLemmas TrackSpec TrackFacts.
Import ListNotations.
Open Scope R_scope.
(*@PROP
(** Property C90: the integrator and the detectors in [f32] and [f64] stay close to
    the ideal ones, over any history of calls.

    Vocabulary: [ieee O V] says that [O] is the arithmetic of [f32] or [f64] and [V]
    reads it as numbers ([FloatSpec]); [after D cs] is a new object after the calls
    [cs] ([Device]); the ideal integrator and detectors are in [TrackSpec]. *)
From Coq Require Import ZArith Reals List Lra Lia.
From Flocq Require Import Core.Core IEEE754.BinarySingleNaN.
From Verif Require Import Base Num NumF Witness FloatSpec AnalysisM Device AnaSpec CrLibm TrackSpec TrackLemmas.
Import ListNotations.
Open Scope R_scope.
@*)

(** The square of a rounded root. *)
Lemma sq_err u et q r : 0 < u <= / 16777216 -> 0 < et <= u * u -> 0 <= q -> Rabs (r - q) <= u * q + et ->
  Rabs (r * r - q * q) <= 3 * (u * (q * q)) + 3 * et.
Proof.
  intros U T Q G. set (A := q * q). assert (A0 : 0 <= A) by (unfold A; nra).
  assert (B1 : 2 * (q * et) <= et + et * A) by (unfold A; assert (0 <= et * ((1 - q) * (1 - q))) by (apply Rmult_le_pos; [lra|apply Rle_0_sqr]); lra).
  assert (U2 : u * u <= / 16777216 * u) by (apply Rmult_le_compat_r; lra).
  assert (B2 : et * A <= / 16777216 * (u * A)).
  { rewrite <- Rmult_assoc. apply Rmult_le_compat_r; lra. }
  assert (B3 : et * et <= / 16777216 * et) by (apply Rmult_le_compat_r; lra).
  assert (B4 : u * u * A <= / 16777216 * (u * A)) by (rewrite <- Rmult_assoc; apply Rmult_le_compat_r; lra).
  assert (B5 : 0 <= u * A) by (apply Rmult_le_pos; lra).
  replace (r * r - A) with ((r - q) * ((r - q) + 2 * q)) by (unfold A; ring). rewrite Rabs_mult.
  assert (C1 : Rabs (r - q + 2 * q) <= u * q + et + 2 * q).
  { eapply Rle_trans; [apply Rabs_triang|]. rewrite (Rabs_pos_eq (2 * q)) by lra. lra. }
  assert (C2 : Rabs (r - q) * Rabs (r - q + 2 * q) <= (u * q + et) * (u * q + et + 2 * q)) by (apply Rmult_le_compat; try apply Rabs_pos; assumption).
  replace ((u * q + et) * (u * q + et + 2 * q)) with (u * u * A + u * (2 * (q * et)) + et * et + 2 * (u * A) + 2 * (q * et)) in C2 by (unfold A; ring).
  assert (C3 : u * (2 * (q * et)) <= 1 * (2 * (q * et))) by (apply Rmult_le_compat_r; [|lra]; assert (0 <= q * et) by (apply Rmult_le_pos; lra); lra).
  lra.
Qed.

Section F.
  Context (prec emax : Z) {Hp : Prec_gt_0 prec} {Hm : Prec_lt_emax prec emax}
    (Hp24 : (24 <= prec)%Z) (Hbig : (prec + 100 <= emax)%Z) (Hm3 : (3 <= emax)%Z).
  Context (pim pie sz : Z) (lm : libm (binary_float prec emax)) (nn : bool).
  Notation F := (binary_float prec emax).
  Notation O := (ieee_ops prec emax pim pie sz lm nn).
  Notation V := (ieee_view prec emax).
  Notation fsmooth := (fsmooth prec emax).
  Notation RN := (round radix2 (SpecFloat.fexp prec emax) (round_mode mode_NE)).
  Notation MAX := ((1 - bpow radix2 (- prec)) * bpow radix2 emax).
  Notation u := (uro prec).
  Notation et := (eta prec emax).

  (** The rounded follower step against the exact one. *)
  Lemma step_close (ga gr e m : F) (ia ir ie im g W dg dm E : R) :
    unit_interval V ga -> unit_interval V gr -> within V 0 W e -> within V 0 W m -> W <= MAX ->
    0 <= ia <= g -> 0 <= ir <= g -> g <= 1 -> Rabs (B2R ga - ia) <= dg -> Rabs (B2R gr - ir) <= dg ->
    Rabs (B2R m - im) <= dm -> Rabs (B2R e - ie) <= E ->
    let a := if Bltb e m then ga else gr in
    within V 0 W (fsmooth a e m)
    /\ Rabs (B2R (fsmooth a e m) - xstep ia ir ie im) <= g * E + (u * (5 * W) + 4 * et + dg * W + dm).
  Proof.
    intros [A1 A2] [R1 R2] [E1 E2] [M1 M2] HW Hia Hir Hg Da Dr Dm De a. cbn [fin val ieee_view] in *.
    assert (Ua : is_finite a = true /\ 0 <= B2R a < 1) by (unfold a; destruct Bltb; split; assumption || lra).
    assert (Fs : is_finite (f_sub prec emax e m) = true) by (apply (sub_in prec emax Hm3 _ _ 0 W); assumption || lra).
    destruct (smooth_between prec emax Hm3 a e m (proj1 Ua) (proj2 Ua) E1 M1 Fs) as [B1 B2].
    split.
    { split; [exact B1|]. cbn [val ieee_view]. revert B2. unfold Rmin, Rmax. repeat destruct Rle_dec; lra. }
    assert (S := smooth_err prec emax Hp24 Hbig Hm3 a e m W W (proj1 Ua) (proj2 Ua) E1 M1 Fs).
    assert (S1 : Rabs (B2R e - B2R m) <= W) by (apply Rabs_le; lra).
    assert (S2 : Rabs (B2R e) <= W) by (apply Rabs_le; lra). assert (S3 : Rabs (B2R m) <= W) by (apply Rabs_le; lra).
    specialize (S S1 S2 S3). clear S2 S3.
    set (x1 := xstep ia ir (B2R e) (B2R m)).
    assert (G : Rabs (B2R m + B2R a * (B2R e - B2R m) - x1) <= dg * W).
    { unfold x1, xstep. assert (Ea : a = if Rlt_dec (B2R e) (B2R m) then ga else gr).
      { unfold a. rewrite Bltb_correct by assumption. destruct (Rlt_bool_spec (B2R e) (B2R m)), (Rlt_dec (B2R e) (B2R m)); lra || reflexivity. }
      rewrite Ea. assert (D0 := Rabs_pos (B2R e - B2R m)). destruct Rlt_dec.
      - replace (B2R m + B2R ga * (B2R e - B2R m) - (B2R m + ia * (B2R e - B2R m))) with ((B2R ga - ia) * (B2R e - B2R m)) by ring.
        rewrite Rabs_mult. assert (P := Rabs_pos (B2R ga - ia)). nra.
      - replace (B2R m + B2R gr * (B2R e - B2R m) - (B2R m + ir * (B2R e - B2R m))) with ((B2R gr - ir) * (B2R e - B2R m)) by ring.
        rewrite Rabs_mult. assert (P := Rabs_pos (B2R gr - ir)). nra. }
    assert (K := xstep_lip ia ir g Hia Hir Hg (B2R e) (B2R m) ie im). fold x1 in K.
    replace (B2R (fsmooth a e m) - xstep ia ir ie im)
      with ((B2R (fsmooth a e m) - (B2R m + B2R a * (B2R e - B2R m))) + ((B2R m + B2R a * (B2R e - B2R m) - x1) + (x1 - xstep ia ir ie im))) by ring.
    eapply Rle_trans; [apply Rabs_triang|]. eapply Rle_trans; [apply Rplus_le_compat_l, Rabs_triang|].
    assert (g * Rabs (B2R e - ie) <= g * E) by (apply Rmult_le_compat_l; lra). lra.
  Qed.

  Lemma Rabs_zero_diff : Rabs (0 - 0) = 0.
  Proof. rewrite Rminus_diag_eq, Rabs_R0 by reflexivity. reflexivity. Qed.

  Section Det.
    Context (HE : exp_rounded O V) (L : R) (HL : 1 <= L <= bpow radix2 (prec - 2)).
    Notation g := (exp (-1 / L)).

    (** Gains of the float detector and of the ideal one. *)
    Definition gclose (ga : F) (ia : R) : Prop := unit_interval V ga /\ 0 <= ia <= g /\ Rabs (B2R ga - ia) <= 3 * u.
    Lemma gclose_zero : gclose (B754_zero false) 0.
    Proof.
      split; [apply unit_zero|]. assert (U := u_small prec Hp24). assert (P := exp_pos (-1 / L)). split; [lra|].
      cbn [B2R]. rewrite Rminus_diag_eq, Rabs_R0 by reflexivity. lra.
    Qed.
    Lemma gclose_set (len : F) : is_finite len = true -> 1 <= B2R len <= L -> gclose (gain_of O len) (exp (-1 / B2R len)).
    Proof.
      intros Fl Hl. destruct (gain_close prec emax Hp24 Hbig Hm3 pim pie sz lm nn L len HE (proj2 HL) Fl Hl) as [G1 G2].
      split; [exact G1|]. split; [|exact G2]. split; [left; apply exp_pos|]. apply exp_mono.
      unfold Rdiv. assert (/ L <= / B2R len) by (apply Rinv_le_contravar; lra). lra.
    Qed.
    Lemma g_le : g <= 1 - / (L + 1) /\ g <= 1.
    Proof. destruct (exp_gap L) as [_ G]; [lra|]. assert (0 < / (L + 1)) by (apply Rinv_0_lt_compat; lra). lra. Qed.
    (** A fixed error per step, damped by the gain, accumulates to at most [L + 1] times itself. *)
    Lemma accumulate s : 0 <= s -> g * ((L + 1) * s) + s <= (L + 1) * s.
    Proof.
      intros Hs. destruct g_le as [G _]. assert (P : 0 <= (L + 1) * s) by (apply Rmult_le_pos; lra).
      assert (Q : g * ((L + 1) * s) <= (1 - / (L + 1)) * ((L + 1) * s)) by (apply Rmult_le_compat_r; lra).
      replace ((1 - / (L + 1)) * ((L + 1) * s)) with ((L + 1) * s - s) in Q by (field; lra). lra.
    Qed.
    Lemma good_len (l : F) : is_finite l = true -> 1 <= B2R l <= L -> n_lt O (n_zero O) l && n_is_finite O l = true.
    Proof. intros Fl Hl. apply length_guard. split; [exact Fl|]. cbn [val ieee_view]. lra. Qed.

    Section Peak.
      Context (M : R) (HM : 0 <= M <= MAX).
      Notation E := ((L + 1) * (8 * (u * M + et))).

      Lemma peak_track cs : detector_calls V M L cs ->
        let s := after (dev_peak O) cs in let r := fold_left (follow V Rabs) cs (Follower 0 0 0) in
        gclose (pk_attack_gain s) (f_attack r) /\ gclose (pk_release_gain s) (f_release r)
        /\ within V 0 M (pk_envelope s) /\ Rabs (B2R (pk_envelope s) - f_env r) <= E.
      Proof.
        assert (U := u_small prec Hp24). assert (T := et_small prec emax Hbig).
        assert (E0 : 0 <= E) by (apply Rmult_le_pos; nra).
        induction cs as [|c cs IH] using rev_ind; intros Hc.
        { cbv zeta. split; [exact gclose_zero|]. split; [exact gclose_zero|]. split; [split; [reflexivity|cbn; lra]|].
          cbn. rewrite Rminus_diag_eq, Rabs_R0 by reflexivity. exact E0. }
        apply Forall_app in Hc. destruct Hc as [Hc Hx]. specialize (IH Hc). inversion Hx as [|? ? Hx0 _]; subst. clear Hx Hc.
        cbv zeta in *. rewrite after_snoc, fold_left_app. cbn [fold_left].
        set (s := after (dev_peak O) cs) in *. set (r := fold_left (follow V Rabs) cs (Follower 0 0 0)) in *.
        destruct IH as [Ga [Gr [He De]]].
        destruct c as [x| |[l|l]|]; cbn [d_step dev_peak d_process d_clear d_set d_last_out fst snd follow].
        - rewrite peak_smooth. cbn [fst pk_attack_gain pk_release_gain pk_envelope f_attack f_release f_env].
          split; [exact Ga|]. split; [exact Gr|]. destruct Hx0 as [Fx Hx]. cbn [fin val ieee_view] in Fx, Hx.
          assert (Wm : within V 0 M (Babs x)).
          { split; cbn [fin val ieee_view]; [rewrite is_finite_Babs; exact Fx|]. rewrite B2R_Babs. pose proof (Rabs_pos (B2R x)). lra. }
          assert (Dm : Rabs (B2R (Babs x) - Rabs (B2R x)) <= 0) by (rewrite B2R_Babs, Rminus_diag_eq, Rabs_R0 by reflexivity; lra).
          destruct Ga as [A1 [A2 A3]]. destruct Gr as [R1 [R2 R3]].
          destruct (step_close _ _ (pk_envelope s) (Babs x) _ _ (f_env r) (Rabs (B2R x)) g M (3 * u) 0 E A1 R1 He Wm (proj2 HM) A2 R2 (proj2 g_le) A3 R3 Dm De) as [W1 W2].
          split; [exact W1|]. cbn [val ieee_view]. fold (xstep (f_attack r) (f_release r) (f_env r) (Rabs (B2R x))).
          eapply Rle_trans; [exact W2|]. assert (K := accumulate (8 * (u * M + et)) ltac:(nra)). nra.
        - cbn [peak_clear pk_attack_gain pk_release_gain pk_envelope f_attack f_release f_env].
          split; [exact Ga|]. split; [exact Gr|]. split; [split; [reflexivity|cbn; lra]|].
          cbn. rewrite Rminus_diag_eq, Rabs_R0 by reflexivity. exact E0.
        - destruct Hx0 as [Fl Hl]. unfold peak_set_attack. rewrite (good_len l Fl Hl). cbn. split; [apply gclose_set; assumption|]. tauto.
        - destruct Hx0 as [Fl Hl]. unfold peak_set_release. rewrite (good_len l Fl Hl). cbn. split; [exact Ga|]. split; [apply gclose_set; assumption|]. tauto.
        - tauto.
      Qed.
    End Peak.

    Section Rms.
      Context (M : R) (HM2 : M * M <= MAX).
      Notation W := (RN (M * M)).
      Notation E := ((L + 1) * (12 * (u * (M * M) + et))).

      Lemma W_ok : 0 <= W <= MAX /\ W <= M * M + (u * (M * M) + et).
      Proof.
        assert (P : 0 <= M * M) by nra.
        split; [split|].
        - rewrite <- (RN_0 prec emax). apply (RN_le prec emax), P.
        - apply Rle_trans with (RN MAX); [apply (RN_le prec emax), HM2|]. right. apply (RN_id prec emax), (MAX_fmt prec emax Hm3).
        - assert (G : Rabs (RN (M * M) - M * M) <= u * (M * M) + et) by (apply (err prec emax Hp24); rewrite Rabs_pos_eq; lra).
          apply Rabs_le_inv in G. lra.
      Qed.
      Lemma square (x : F) : is_finite x = true -> Rabs (B2R x) <= M ->
        within V 0 W (f_mul prec emax x x) /\ Rabs (B2R (f_mul prec emax x x) - (B2R x)²) <= u * (M * M) + et.
      Proof.
        intros Fx Hx. assert (X2 : B2R x * B2R x <= M * M).
        { rewrite <- (Rabs_pos_eq (B2R x * B2R x)) by nra. rewrite Rabs_mult. pose proof (Rabs_pos (B2R x)). nra. }
        assert (X0 : 0 <= B2R x * B2R x) by nra.
        destruct (mul_ok prec emax x x MAX Fx Fx (MAX_fmt prec emax Hm3) (MAX_lt prec emax)) as [S1 S2].
        { rewrite Rabs_pos_eq by exact X0. lra. }
        split.
        - split; [exact S1|]. cbn [val ieee_view]. rewrite S2.
          split; [rewrite <- (RN_0 prec emax)|]; apply (RN_le prec emax); assumption.
        - rewrite S2. unfold Rsqr. apply (err prec emax Hp24). rewrite Rabs_pos_eq; assumption.
      Qed.

      Lemma rms_track cs : detector_calls V M L cs ->
        let s := after (dev_rms O) cs in let r := fold_left (follow V Rsqr) cs (Follower 0 0 0) in
        gclose (rm_attack_gain s) (f_attack r) /\ gclose (rm_release_gain s) (f_release r)
        /\ within V 0 W (rm_envelope s) /\ Rabs (B2R (rm_envelope s) - f_env r) <= E.
      Proof.
        assert (U := u_small prec Hp24). assert (T := et_small prec emax Hbig). assert (P : 0 <= M * M) by nra.
        assert (Q : 0 <= u * (M * M)) by nra.
        assert (E0 : 0 <= E) by (apply Rmult_le_pos; nra). destruct W_ok as [W1 W2].
        induction cs as [|c cs IH] using rev_ind; intros Hc.
        { cbv zeta. split; [exact gclose_zero|]. split; [exact gclose_zero|]. split; [split; [reflexivity|exact (conj (Rle_refl 0) (proj1 W1))]|].
          eapply Rle_trans; [right; apply Rabs_zero_diff|exact E0]. }
        apply Forall_app in Hc. destruct Hc as [Hc Hx]. specialize (IH Hc). inversion Hx as [|? ? Hx0 _]; subst. clear Hx Hc.
        cbv zeta in *. rewrite after_snoc, fold_left_app. cbn [fold_left].
        set (s := after (dev_rms O) cs) in *. set (r := fold_left (follow V Rsqr) cs (Follower 0 0 0)) in *.
        destruct IH as [Ga [Gr [He De]]].
        destruct c as [x| |[l|l]|]; cbn [d_step dev_rms d_process d_clear d_set d_last_out fst snd follow].
        - rewrite rms_smooth. cbn [fst rm_attack_gain rm_release_gain rm_envelope f_attack f_release f_env].
          split; [exact Ga|]. split; [exact Gr|]. destruct Hx0 as [Fx Hx]. cbn [fin val ieee_view] in Fx, Hx.
          destruct (square x Fx Hx) as [Wm Dm].
          destruct Ga as [A1 [A2 A3]]. destruct Gr as [R1 [R2 R3]].
          destruct (step_close _ _ (rm_envelope s) (f_mul prec emax x x) _ _ (f_env r) (B2R x)² g W (3 * u) (u * (M * M) + et) E A1 R1 He Wm (proj2 W1) A2 R2 (proj2 g_le) A3 R3 Dm De) as [G1 G2].
          split; [exact G1|]. cbn [val ieee_view]. fold (xstep (f_attack r) (f_release r) (f_env r) (B2R x)²).
          eapply Rle_trans; [exact G2|]. assert (K := accumulate (12 * (u * (M * M) + et)) ltac:(lra)).
          assert (Z : u * (5 * W) + 4 * et + 3 * u * W + (u * (M * M) + et) <= 12 * (u * (M * M) + et)); [|lra].
          assert (Z1 : u * W <= u * (M * M) + u * (u * (M * M) + et)).
          { rewrite <- Rmult_plus_distr_l. apply Rmult_le_compat_l; lra. }
          assert (Z2 : u * (u * (M * M)) <= / 16777216 * (u * (M * M))) by (apply Rmult_le_compat_r; lra).
          assert (Z3 : u * et <= / 16777216 * et) by (apply Rmult_le_compat_r; lra).
          rewrite Rmult_plus_distr_l in Z1. lra.
        - cbn [rms_clear rm_attack_gain rm_release_gain rm_envelope f_attack f_release f_env].
          split; [exact Ga|]. split; [exact Gr|]. split; [split; [reflexivity|exact (conj (Rle_refl 0) (proj1 W1))]|].
          eapply Rle_trans; [right; apply Rabs_zero_diff|exact E0].
        - destruct Hx0 as [Fl Hl]. unfold rms_set_attack. rewrite (good_len l Fl Hl). cbn. split; [apply gclose_set; assumption|]. tauto.
        - destruct Hx0 as [Fl Hl]. unfold rms_set_release. rewrite (good_len l Fl Hl). cbn. split; [exact Ga|]. split; [apply gclose_set; assumption|]. tauto.
        - tauto.
      Qed.

      Lemma rms_out cs : detector_calls V M L cs ->
        let y := rms_last_out O (after (dev_rms O) cs) in
        is_finite y = true /\ Rabs (B2R y * B2R y - ideal_envelope V Rsqr cs) <= 16 * (L + 1) * (u * (M * M) + et).
      Proof.
        intros Hc y. destruct (rms_track cs Hc) as [_ [_ [[F1 R1] D]]]. cbn [fin val ieee_view] in *.
        assert (U := u_small prec Hp24). assert (T := et_small prec emax Hbig). assert (P : 0 <= M * M) by nra.
        assert (Q : 0 <= u * (M * M)) by nra. destruct W_ok as [W1 W2].
        set (e := rm_envelope (after (dev_rms O) cs)) in *.
        destruct (sqrt_ok prec emax e F1 (proj1 R1)) as [S1 S2]. split; [exact S1|].
        change (B2R y) with (B2R (f_sqrt prec emax e)). rewrite S2. unfold ideal_envelope.
        set (i := f_env _) in *. set (q := sqrt (B2R e)). assert (Q0 : 0 <= q) by apply sqrt_pos.
        assert (Qe : q * q = B2R e) by (apply sqrt_sqrt; lra).
        assert (G : Rabs (RN q - q) <= u * q + et) by (apply (err prec emax Hp24); rewrite Rabs_pos_eq; lra).
        assert (H : Rabs (RN q * RN q - B2R e) <= 4 * (u * (M * M) + et)).
        { rewrite <- Qe. eapply Rle_trans; [exact (sq_err u et q (RN q) U T Q0 G)|].
          assert (X1 : u * (q * q) <= u * (M * M) + u * (u * (M * M) + et)).
          { rewrite Qe, <- Rmult_plus_distr_l. apply Rmult_le_compat_l; lra. }
          assert (X2 : u * (u * (M * M)) <= / 16777216 * (u * (M * M))) by (apply Rmult_le_compat_r; lra).
          assert (X3 : u * et <= / 16777216 * et) by (apply Rmult_le_compat_r; lra).
          rewrite Rmult_plus_distr_l in X1. lra. }
        apply Rabs_le_inv in H. apply Rabs_le_inv in D. apply Rabs_le. assert (L1 : 1 <= L + 1) by lra.
        assert (4 * (u * (M * M) + et) <= (L + 1) * (4 * (u * (M * M) + et))) by nra. split; lra.
      Qed.
    End Rms.
  End Det.

  Section Leaky.
    Context (M g : R) (HM : 0 <= M) (HM2 : 2 * M <= MAX) (Hg : 0 <= g < 1).
    Notation E := (9 * (u * M + et) / (1 - g)).
    Lemma leaky_track cs : leaky_calls V M g cs ->
      let s := after (dev_leaky O) cs in let r := fold_left (leak V) cs (0, 0) in
      is_finite (lk_alpha s) = true /\ B2R (lk_alpha s) = fst r /\ 0 <= fst r <= g
      /\ within V (- M) M (lk_y_z1 s) /\ Rabs (B2R (lk_y_z1 s) - snd r) <= E.
    Proof.
      assert (U := u_small prec Hp24). assert (T := et_small prec emax Hbig).
      assert (E0 : 0 <= E).
      { apply Rmult_le_pos; [nra|]. left. apply Rinv_0_lt_compat. lra. }
      induction cs as [|c cs IH] using rev_ind; intros Hc.
      { cbv zeta. split; [reflexivity|]. split; [reflexivity|]. split; [cbn; lra|]. split; [split; [reflexivity|cbn; lra]|]. cbn. rewrite Rminus_diag_eq, Rabs_R0 by reflexivity. exact E0. }
      apply Forall_app in Hc. destruct Hc as [Hc Hx]. specialize (IH Hc). inversion Hx as [|? ? Hx0 _]; subst. clear Hx Hc.
      cbv zeta in *. rewrite after_snoc, fold_left_app. cbn [fold_left].
      set (s := after (dev_leaky O) cs) in *. set (r := fold_left (leak V) cs (0, 0)) in *.
      destruct IH as [Fa [Ea [Ha [[Fe He] De]]]].
      destruct c as [x| |k|]; cbn [d_step dev_leaky d_process d_clear d_set d_last_out fst snd leak].
      - rewrite leaky_smooth. cbn [fst snd lk_alpha lk_y_z1]. destruct Hx0 as [Fx Hx]. cbn [fin val ieee_view] in *.
        split; [exact Fa|]. split; [exact Ea|]. split; [exact Ha|].
        assert (Hx' := Rabs_le_inv _ _ Hx).
        assert (Fs : is_finite (f_sub prec emax (lk_y_z1 s) x) = true) by (apply (sub_in prec emax Hm3 _ _ (- M) M); assumption || lra).
        assert (Ha1 : 0 <= B2R (lk_alpha s) < 1) by lra.
        destruct (smooth_between prec emax Hm3 (lk_alpha s) (lk_y_z1 s) x Fa Ha1 Fe Fx Fs) as [B1 B2].
        split; [split; [exact B1|]; cbn [val ieee_view]; revert B2; unfold Rmin, Rmax; repeat destruct Rle_dec; lra|].
        assert (S1 : Rabs (B2R (lk_y_z1 s) - B2R x) <= 2 * M) by (apply Rabs_le; lra).
        assert (S2 : Rabs (B2R (lk_y_z1 s)) <= M) by (apply Rabs_le; lra).
        assert (S := smooth_err prec emax Hp24 Hbig Hm3 _ _ _ _ _ Fa Ha1 Fe Fx Fs S1 S2 Hx). rewrite Ea in S.
        set (y := B2R (fsmooth (lk_alpha s) (lk_y_z1 s) x)) in *.
        replace (y - (B2R x + fst r * (snd r - B2R x)))
          with ((y - (B2R x + fst r * (B2R (lk_y_z1 s) - B2R x))) + fst r * (B2R (lk_y_z1 s) - snd r)) by ring.
        eapply Rle_trans; [apply Rabs_triang|]. rewrite (Rabs_mult (fst r)), (Rabs_pos_eq (fst r)) by lra.
        assert (K1 : fst r * Rabs (B2R (lk_y_z1 s) - snd r) <= g * E).
        { apply Rmult_le_compat; try lra. apply Rabs_pos. }
        assert (K2 : g * E + 9 * (u * M + et) = E) by (field; lra). lra.
      - cbn [leaky_clear lk_alpha lk_y_z1]. split; [exact Fa|]. split; [exact Ea|]. split; [exact Ha|].
        split; [split; [reflexivity|cbn; lra]|]. cbn. rewrite Rminus_diag_eq, Rabs_R0 by reflexivity. exact E0.
      - destruct Hx0 as [Fk Hk]. unfold leaky_set_alpha.
        assert (G : n_le O (n_zero O) k && n_lt O k (n_one O) = true).
        { apply alpha_guard. split; [exact Fk|]. cbn [val ieee_view] in *. lra. }
        rewrite G. cbn [lk_alpha lk_y_z1 fst snd]. cbn [fin val ieee_view] in *. split; [exact Fk|]. split; [reflexivity|]. split; [exact Hk|]. split; [split; assumption|exact De].
      - cbn [fst snd]. split; [exact Fa|]. split; [exact Ea|]. split; [exact Ha|]. split; [split; assumption|exact De].
    Qed.
  End Leaky.
End F.

(** C90: over any history of samples up to [M] in magnitude and gains up to [g] < 1,
    the last output of [LeakyIntegrator] is a number within 9 (2^-p M + tiny) / (1 - g)
    of the exact integrator's, where p is the precision of the type. *)
Lemma C90_leaky_tracks_thm :
  forall (T : Type) (O : num_ops T) (V : float_view T), ieee O V ->
  forall (M g : R) (history : list (call T T)), 0 <= M -> 2 * M <= fmax V -> 0 <= g < 1 ->
    leaky_calls V M g history ->
    let y := leaky_last_out (after (dev_leaky O) history) in
    fin V y = true
    /\ Rabs (val V y - ideal_leaky V history) <= 9 * (half_ulp V * M + half_tiny V) / (1 - g).
Proof.
  intros T O V HO M g cs HM HM2 Hg Hc y. destruct HO.
  - destruct (leaky_track 24 128 ltac:(lia) ltac:(lia) ltac:(lia) 13176795 (-22) 4 lm b M g HM HM2 Hg cs Hc) as [_ [_ [_ [[G1 _] G2]]]].
    split; [exact G1|exact G2].
  - destruct (leaky_track 53 1024 ltac:(lia) ltac:(lia) ltac:(lia) 7074237752028440 (-51) 8 lm b M g HM HM2 Hg cs Hc) as [_ [_ [_ [[G1 _] G2]]]].
    split; [exact G1|exact G2].
Qed.
(** C90: over any history of samples up to [M] in magnitude and lengths from 1 to [L]
    samples, the envelope of [PeakEnvDetector] is a number within
    8 (L + 1) (2^-p M + tiny) of the ideal one.  The exponential is correctly rounded. *)
Lemma C90_peak_tracks_thm :
  forall (T : Type) (O : num_ops T) (V : float_view T), ieee O V -> exp_rounded O V ->
  forall (M L : R) (history : list (call (det_set T) T)), 0 <= M <= fmax V -> 1 <= L <= bpow radix2 (fprec V - 2) ->
    detector_calls V M L history ->
    let y := peak_last_out (after (dev_peak O) history) in
    fin V y = true
    /\ Rabs (val V y - ideal_envelope V Rabs history) <= 8 * (L + 1) * (half_ulp V * M + half_tiny V).
Proof.
  intros T O V HO HE M L cs HM HL Hc y.
  replace (8 * (L + 1) * (half_ulp V * M + half_tiny V)) with ((L + 1) * (8 * (half_ulp V * M + half_tiny V))) by ring. destruct HO.
  - destruct (peak_track 24 128 ltac:(lia) ltac:(lia) ltac:(lia) 13176795 (-22) 4 lm b HE L HL M HM cs Hc) as [_ [_ [[G1 _] G2]]].
    split; [exact G1|exact G2].
  - destruct (peak_track 53 1024 ltac:(lia) ltac:(lia) ltac:(lia) 7074237752028440 (-51) 8 lm b HE L HL M HM cs Hc) as [_ [_ [[G1 _] G2]]].
    split; [exact G1|exact G2].
Qed.
(** C90: the same for the square of the output of [RmsEnvDetector]. *)
Lemma C90_rms_tracks_thm :
  forall (T : Type) (O : num_ops T) (V : float_view T), ieee O V -> exp_rounded O V ->
  forall (M L : R) (history : list (call (det_set T) T)), M * M <= fmax V -> 1 <= L <= bpow radix2 (fprec V - 2) ->
    detector_calls V M L history ->
    let y := rms_last_out O (after (dev_rms O) history) in
    fin V y = true
    /\ Rabs (val V y * val V y - ideal_envelope V Rsqr history) <= 16 * (L + 1) * (half_ulp V * (M * M) + half_tiny V).
Proof.
  intros T O V HO HE M L cs HM2 HL Hc y. destruct HO.
  - exact (rms_out 24 128 ltac:(lia) ltac:(lia) ltac:(lia) 13176795 (-22) 4 lm b HE L HL M HM2 cs Hc).
  - exact (rms_out 53 1024 ltac:(lia) ltac:(lia) ltac:(lia) 7074237752028440 (-51) 8 lm b HE L HL M HM2 cs Hc).
Qed.

(*@PROP
(** Beside the theorems: histories that meet every hypothesis, in [f32] with a
    correctly rounded exponential, and the bound they get ([TrackSpec] has the
    definitions; 48000 samples is one second at 48 kHz). *)
Example C90_hypotheses_met :
  ieee O90 V90 /\ exp_rounded O90 V90 /\ 0 <= 1 <= fmax V90 /\ 1 <= 48000 <= bpow radix2 (fprec V90 - 2)
  /\ detector_calls V90 1 48000 history90
  /\ 8 * (48000 + 1) * (half_ulp V90 * 1 + half_tiny V90) < 23 / 1000
  /\ 0 < ideal_envelope V90 Rabs history90.
Proof. exact track_met. Qed.
Example C90_leaky_hypotheses_met :
  2 * 1 <= fmax V90
  /\ leaky_calls V90 1 (3/4) [CSet (fl32 3 (-2)); CProcess (fl32 1 0); CProcess (fl32 (-1) (-1)); CClear; CProcess (fl32 1 (-1))]
  /\ ideal_leaky V90 [CSet (fl32 3 (-2)); CProcess (fl32 1 0); CProcess (fl32 (-1) (-1)); CClear; CProcess (fl32 1 (-1))] = 1 / 8.
Proof. exact leaky_track_met. Qed.
@*)
Lemma fmax90 : 2 <= fmax V90.
Proof.
  unfold V90. cbn [fmax ieee_view]. assert (A : bpow radix2 3 <= bpow radix2 128) by (apply bpow_le; lia).
  assert (B : bpow radix2 (- (24)) <= bpow radix2 (-1)) by (apply bpow_le; lia).
  change (bpow radix2 3) with 8 in A. change (bpow radix2 (-1)) with (/ 2) in B. nra.
Qed.
Lemma one_second_val : B2R one_second = 48000.
Proof. unfold one_second. lit. cbn. lra. Qed.
Lemma leaky_track_met :
  2 * 1 <= fmax V90
  /\ leaky_calls V90 1 (3/4) [CSet (fl32 3 (-2)); CProcess (fl32 1 0); CProcess (fl32 (-1) (-1)); CClear; CProcess (fl32 1 (-1))]
  /\ ideal_leaky V90 [CSet (fl32 3 (-2)); CProcess (fl32 1 0); CProcess (fl32 (-1) (-1)); CClear; CProcess (fl32 1 (-1))] = 1 / 8.
Proof.
  assert (V1 : B2R (fl32 1 0) = 1) by (lit; cbn; lra).
  assert (V2 : B2R (fl32 (-1) (-1)) = - (1/2)) by (lit; cbn; lra).
  assert (V3 : B2R (fl32 1 (-1)) = 1/2) by (lit; cbn; lra).
  assert (V4 : B2R (fl32 3 (-2)) = 3/4) by (lit; cbn; lra).
  split; [pose proof fmax90; lra|]. split.
  - repeat apply List.Forall_cons; try apply List.Forall_nil; try exact I; (split; [reflexivity|]); cbn [val V90 ieee_view]; rewrite ?V1, ?V2, ?V3, ?V4; try lra;
    apply Rabs_le; lra.
  - unfold ideal_leaky. cbn [fold_left leak fst snd val V90 ieee_view]. rewrite V3, V4. lra.
Qed.
Lemma track_met :
  ieee O90 V90 /\ exp_rounded O90 V90 /\ 0 <= 1 <= fmax V90 /\ 1 <= 48000 <= bpow radix2 (fprec V90 - 2)
  /\ detector_calls V90 1 48000 history90
  /\ 8 * (48000 + 1) * (half_ulp V90 * 1 + half_tiny V90) < 23 / 1000
  /\ 0 < ideal_envelope V90 Rabs history90.
Proof.
  assert (V1 : B2R (fl32 1 0) = 1) by (lit; cbn; lra).
  assert (V2 : B2R (fl32 (-1) (-1)) = - (1/2)) by (lit; cbn; lra).
  assert (V0 := one_second_val). assert (X := fmax90).
  split; [constructor|]. split; [apply cr_exp_rounded|]. split; [lra|]. split.
  { unfold V90. cbn [fprec ieee_view]. change (bpow radix2 (24 - 2)) with 4194304. lra. }
  split; [|split].
  - repeat apply List.Forall_cons; try apply List.Forall_nil; try exact I; (split; [reflexivity|]); cbn [val V90 ieee_view]; rewrite ?V0, ?V1, ?V2; try lra;
    apply Rabs_le; lra.
  - unfold half_tiny, half_ulp, V90. cbn [fprec fmin ieee_view]. change (bpow radix2 (- (24))) with (/ 16777216).
    assert (Y : bpow radix2 (2 - 128) <= / 16777216) by (change (/ 16777216) with (bpow radix2 (-24)); apply bpow_le; lia).
    lra.
  - unfold ideal_envelope, history90. cbn [fold_left follow f_attack f_release f_env val V90 ieee_view]. rewrite V0, V1, V2.
    rewrite Rabs_R1. replace (Rabs (- (1 / 2))) with (1/2) by (rewrite Rabs_Ropp, Rabs_pos_eq; lra).
    assert (E1 : exp (-1 / 48000) < 1) by (rewrite <- exp_0; apply exp_increasing; lra).
    assert (E0 := exp_pos (-1 / 48000)). set (g := exp (-1 / 48000)) in *.
    destruct (Rlt_dec 0 1); [|lra]. destruct Rlt_dec; nra.
Qed.
