(** The control arithmetic of [LinearDelay] in [f32]. *)
From Coq Require Import ZArith Reals List Bool Lia Lra.
From Flocq Require Import Core.Core Sterbenz IEEE754.BinarySingleNaN.
From Verif Require Import Base BaseLemmas Num NumR NumF FloatFacts DelayM LinDelayM DelaySpec DelayProofs
  LinSpec LinRun LinFloatSpec LinProofs LinCtlR.
Import ListNotations.
Open Scope R_scope.

Notation RNle := (RN_le 24 128).

Lemma clip32_range d m : 0 <= m -> 0 <= clip32 d m <= m.
Proof.
  intros H. destruct d as [s|s| |s mm e He]; try apply clipR_range; try assumption.
  destruct s; cbn; lra.
Qed.

Lemma clip32_finite d m : is_finite d = true -> clip32 d m = clipR (B2R d) m.
Proof. destruct d; try discriminate; reflexivity. Qed.

Section Ctl.
  Context {T : Type} (cast : f32 -> T).
  Notation K := (f32_ctl_gen cast).

  Lemma bpow64_ok : generic_format radix2 fexp32 (bpow radix2 64) /\ bpow radix2 64 < bpow radix2 128.
  Proof. split; [apply (format_bpow 24 128); cbn; lia|apply bpow_lt; lia]. Qed.

  Lemma usize_f32 n : (0 <= n < two64)%Z ->
    is_finite (f_of_Z 24 128 n) = true /\ B2R (f_of_Z 24 128 n) = RN32 (IZR n)
    /\ 0 <= RN32 (IZR n) <= bpow radix2 64.
  Proof.
    intros H. destruct bpow64_ok as [Hf Hl].
    assert (Hb : 0 <= IZR n <= bpow radix2 64).
    { split; [apply IZR_le; lia|]. rewrite <- (IZR_Zpower radix2) by lia. apply IZR_le.
      change (radix2 ^ 64)%Z with two64. lia. }
    destruct (of_Z_ok 24 128 n (bpow radix2 64) Hf Hl) as [A B]; [rewrite Rabs_pos_eq; lra|].
    split; [exact A|]. split; [exact B|]. split.
    - rewrite <- (RN_0 24 128). apply (RN_le 24 128). lra.
    - rewrite <- (RN_id 24 128 (bpow radix2 64)) by exact Hf. apply (RN_le 24 128). lra.
  Qed.

  Lemma small_f32 n : (0 <= n <= 2 ^ 24)%Z ->
    is_finite (f_of_Z 24 128 n) = true /\ B2R (f_of_Z 24 128 n) = IZR n.
  Proof. intros H. apply (of_Z_exact 24 128). lia. Qed.

  Lemma RN32_small n : (0 <= n <= 2 ^ 24)%Z -> RN32 (IZR n) = IZR n.
  Proof. intros H. apply (RN_id 24 128). apply (format_IZR 24 128). lia. Qed.

  Lemma clip_f32 d m : (0 <= m < two64)%Z -> d <> B754_nan ->
    is_finite (clip_delay K d m) = true /\ B2R (clip_delay K d m) = clip32 d (RN32 (IZR m)).
  Proof.
    intros Hm Hd. destruct (usize_f32 m Hm) as [Mf [Mv [M0 _]]].
    unfold clip_delay. cbn [f32_ctl_gen c_lt c_of_usize c_zero].
    set (M := f_of_Z 24 128 m) in *.
    destruct (is_finite d) eqn:Fd.
    - rewrite clip32_finite by exact Fd. rewrite (Bltb_correct _ _ M d) by assumption. unfold clipR.
      case Rlt_bool_spec; intros H; cbn zeta.
      + rewrite Bltb_correct by (assumption || reflexivity). cbn [B2R].
        rewrite Rlt_bool_false by lra. rewrite Rmin_right, Rmax_right by lra. split; assumption.
      + rewrite Rmin_left by lra. rewrite Bltb_correct by (assumption || reflexivity). cbn [B2R].
        case Rlt_bool_spec; intros H'.
        * rewrite Rmax_left by lra. split; reflexivity.
        * rewrite Rmax_right by lra. split; [assumption|reflexivity].
    - destruct d as [s|s| |s mm e He]; try discriminate; [|contradiction].
      destruct s; cbn [clip32].
      + replace (Bltb M (B754_infinity true)) with false.
        * split; reflexivity.
        * destruct M; try discriminate; destruct s; reflexivity.
      + replace (Bltb M (B754_infinity false)) with true.
        * cbn zeta. rewrite Bltb_correct by (assumption || reflexivity). cbn [B2R].
          rewrite Rlt_bool_false by lra. split; assumption.
        * destruct M; try discriminate; destruct s; reflexivity.
  Qed.

  (** The normalisation loop runs at most once. *)
  Lemma norm_f32 len w d fuel : (1 <= len < two64)%Z -> (0 <= w < len)%Z -> d <> B754_nan ->
    let st := RN32 (RN32 (IZR w) - clip32 d (RN32 (IZR (len - 1)))) in
    exists pos,
      norm_loop K (S (S fuel)) len (c_sub K (c_of_usize K w) (clip_delay K d (len - 1))) = Ok pos
      /\ is_finite pos = true
      /\ B2R pos = (if Rlt_bool st 0 then RN32 (st + RN32 (IZR len)) else st)
      /\ 0 <= B2R pos.
  Proof.
    intros Hl Hw Hd st.
    destruct (clip_f32 d (len - 1) ltac:(lia) Hd) as [Df Dv].
    set (dt := clip_delay K d (len - 1)) in *.
    destruct (usize_f32 w ltac:(lia)) as [Wf [Wv Wr]].
    destruct (usize_f32 len ltac:(lia)) as [Lf [Lv Lr]].
    destruct (usize_f32 (len - 1) ltac:(lia)) as [_ [_ Mr]].
    set (M := RN32 (IZR (len - 1))) in *.
    assert (Cr := clip32_range d M (proj1 Mr)). rewrite <- Dv in Cr.
    destruct bpow64_ok as [Hf Hb].
    cbn [f32_ctl_gen c_sub c_of_usize].
    destruct (sub_ok 24 128 (f_of_Z 24 128 w) dt (bpow radix2 64)) as [Sf Sv]; auto.
    { rewrite Wv. apply Rabs_le. lra. }
    rewrite Wv, Dv in Sv. fold st in Sv.
    set (start := f_sub 24 128 (f_of_Z 24 128 w) dt) in *.
    assert (Hst : - M <= st).
    { unfold st. rewrite <- Dv. apply Rle_trans with (RN32 (- M)).
      - rewrite (RN_opp 24 128). unfold M. apply Ropp_le_contravar.
        rewrite (RN_id 24 128 (RN32 _)) by apply (RN_format 24 128). apply Rle_refl.
      - apply (RN_le 24 128). lra. }
    assert (Hst2 : st <= bpow radix2 64).
    { unfold st. rewrite <- Dv. rewrite <- (RN_id 24 128 (bpow radix2 64)) by exact Hf.
      apply (RN_le 24 128). lra. }
    cbn [norm_loop f32_ctl_gen c_lt c_zero c_add c_of_usize].
    rewrite Bltb_correct by (assumption || reflexivity). cbn [B2R]. rewrite Sv.
    destruct (Rlt_bool_spec st 0) as [Hneg|Hpos].
    - destruct (add_ok 24 128 start (f_of_Z 24 128 len) (bpow radix2 64)) as [Pf Pv]; auto.
      { rewrite Sv, Lv. apply Rabs_le. lra. }
      rewrite Sv, Lv in Pv. set (pos := f_add 24 128 start (f_of_Z 24 128 len)) in *.
      assert (HML : M <= RN32 (IZR len)) by (apply (RN_le 24 128), IZR_le; lia).
      assert (H0 : 0 <= B2R pos).
      { rewrite Pv. rewrite <- (RN_0 24 128). apply (RN_le 24 128). lra. }
      exists pos. rewrite Bltb_correct by (assumption || reflexivity). cbn [B2R].
      rewrite Rlt_bool_false by exact H0. auto.
    - exists start. rewrite Sv. auto.
  Qed.

  Lemma ctl_nan len w : (1 <= len < two64)%Z -> (0 <= w < len)%Z ->
    ctl K len w B754_nan = Ok (B754_nan, 0%Z, B754_nan).
  Proof.
    intros Hl Hw. unfold ctl, clip_delay. cbn [f32_ctl_gen c_lt c_of_usize c_zero c_sub].
    destruct (usize_f32 (len - 1) ltac:(lia)) as [Mf _].
    replace (Bltb (f_of_Z 24 128 (len - 1)) B754_nan) with false
      by (destruct (f_of_Z 24 128 (len - 1)) as [s|s| |s mm e He]; try destruct s; reflexivity).
    cbn zeta.
    change (Bltb B754_nan (B754_zero false)) with false. cbn iota.
    rewrite sub_nan. cbn [norm_loop f32_ctl_gen c_lt c_zero].
    change (Bltb B754_nan (B754_zero false)) with false. cbn iota. cbn [bind f_to_usize].
    replace (0 =? len)%Z with false by (symmetry; apply Z.eqb_neq; lia).
    cbn [f32_ctl_gen c_to_usize f_to_usize c_sub c_of_usize].
    replace (0 =? len)%Z with false by (symmetry; apply Z.eqb_neq; lia).
    rewrite nan_sub. reflexivity.
  Qed.

  Lemma to_usize_floor (x : f32) : is_finite x = true -> 0 <= B2R x < IZR two64 ->
    f_to_usize 24 128 x = Zfloor (B2R x).
  Proof.
    intros Fx Hx.
    assert (E : Btrunc x = Zfloor (B2R x)).
    { apply eq_IZR. rewrite Btrunc_correct by easy. rewrite round_FIX_IZR. rewrite Ztrunc_floor by lra. reflexivity. }
    assert (Hz : (0 <= Zfloor (B2R x) <= usize_max)%Z).
    { split; [apply Zfloor_lub; lra|].
      assert ((Zfloor (B2R x) < two64)%Z); [|unfold usize_max; lia].
      apply lt_IZR. apply Rle_lt_trans with (B2R x); [apply Zfloor_lb|lra]. }
    destruct x; try discriminate; unfold f_to_usize; rewrite E; lia.
  Qed.

  (** The fractional part of a non-negative [f32] is an [f32]. *)
  Lemma format_frac x : generic_format radix2 fexp32 x -> 0 <= x <= IZR (2 ^ 24) ->
    generic_format radix2 fexp32 (x - IZR (Zfloor x)).
  Proof.
    intros Hf Hx.
    assert (Hz : (0 <= Zfloor x <= 2 ^ 24)%Z).
    { split; [apply Zfloor_lub; lra|]. apply le_IZR. apply Rle_trans with x; [apply Zfloor_lb|lra]. }
    destruct (Z.eq_dec (Zfloor x) 0) as [E|E].
    - rewrite E, Rminus_0_r. exact Hf.
    - apply (sterbenz radix2 fexp32); [exact Hf|apply (format_IZR 24 128); lia|].
      assert (Hlb := Zfloor_lb x). assert (Hub := Zfloor_ub x).
        assert (1 <= IZR (Zfloor x)) by (apply IZR_le; lia). lra.
  Qed.

  Lemma pos32_range len w c : (1 <= len <= 2 ^ 24)%Z -> (0 <= w < len)%Z ->
    0 <= c <= IZR len - 1 -> 0 <= pos32 len w c <= IZR len
      /\ generic_format radix2 fexp32 (pos32 len w c).
  Proof.
    intros Hl Hw Hc. unfold pos32.
    assert (Hw0 : 0 <= IZR w) by (apply IZR_le; lia).
    assert (Hwl : IZR w <= IZR len - 1) by (rewrite <- minus_IZR; apply IZR_le; lia).
    assert (Hst : - (IZR len - 1) <= RN32 (IZR w - c)).
    { apply Rle_trans with (RN32 (- (IZR len - 1))).
      - rewrite (RN_opp 24 128), <- minus_IZR, RN32_small by lia. lra.
      - apply (RN_le 24 128). lra. }
    assert (Hst2 : RN32 (IZR w - c) <= IZR w).
    { apply Rle_trans with (RN32 (IZR w)); [apply (RN_le 24 128); lra|]. rewrite RN32_small by lia. lra. }
    split; [|case Rlt_bool; apply (RN_format 24 128)].
    case Rlt_bool_spec; intros H; [|lra]. split.
    - rewrite <- (RN_0 24 128). apply (RN_le 24 128). lra.
    - rewrite <- (RN32_small len) at 2 by lia. apply (RN_le 24 128). lra.
  Qed.

  Lemma read32_range len w c : (1 <= len <= 2 ^ 24)%Z -> (0 <= w < len)%Z ->
    0 <= c <= IZR len - 1 -> (0 <= read32 len w c < len)%Z.
  Proof.
    intros Hl Hw Hc. destruct (pos32_range len w c Hl Hw Hc) as [[H0 H1] _]. unfold read32.
    destruct (Z.eqb_spec (Zfloor (pos32 len w c)) len); [lia|].
    assert (0 <= Zfloor (pos32 len w c))%Z by (apply Zfloor_lub; lra).
    assert (Zfloor (pos32 len w c) <= len)%Z; [|lia].
    apply le_IZR. apply Rle_trans with (pos32 len w c); [apply Zfloor_lb|lra].
  Qed.

  Lemma ctl_f32 len w d : (1 <= len <= 2 ^ 24)%Z -> (0 <= w < len)%Z -> d <> B754_nan ->
    let c := clip32 d (IZR len - 1) in
    exists dt a, ctl K len w d = Ok (dt, read32 len w c, a)
      /\ is_finite dt = true /\ B2R dt = c
      /\ is_finite a = true /\ B2R a = pos32 len w c - IZR (read32 len w c).
  Proof.
    intros Hl Hw Hd c.
    assert (Ht : (2 ^ 24 < two64)%Z) by reflexivity.
    assert (EM : RN32 (IZR (len - 1)) = IZR len - 1) by (rewrite RN32_small, minus_IZR by lia; reflexivity).
    destruct (clip_f32 d (len - 1) ltac:(lia) Hd) as [Df Dv]. rewrite EM in Dv. fold c in Dv.
    destruct (norm_f32 len w d 62 ltac:(lia) Hw Hd) as [pos [En [Pf [Pv P0]]]].
    rewrite EM in Pv. fold c in Pv. rewrite !RN32_small in Pv by lia. 
    change (B2R pos = pos32 len w c) in Pv.
    assert (Hc : 0 <= c <= IZR len - 1).
    { apply clip32_range. assert (1 <= IZR len) by (apply IZR_le; lia). lra. }
    destruct (pos32_range len w c Hl Hw Hc) as [Pr Pfmt].
    assert (Hr := read32_range len w c Hl Hw Hc).
    unfold ctl. rewrite En. cbn [bind].
    exists (clip_delay K d (len - 1)).
    assert (Hlt : IZR len < IZR two64) by (apply IZR_lt; lia).
    assert (Er : (let read0 := c_to_usize K pos in if (read0 =? len)%Z then 0%Z else read0) = read32 len w c).
    { cbn [f32_ctl_gen c_to_usize]. rewrite to_usize_floor by (try assumption; rewrite Pv; lra).
      rewrite Pv. reflexivity. }
    cbn zeta in Er. rewrite Er.
    cbn [f32_ctl_gen c_sub c_of_usize].
    destruct (small_f32 (read32 len w c) ltac:(lia)) as [Rf Rv].
    assert (Hrz : 0 <= IZR (read32 len w c)) by (apply IZR_le; lia).
    destruct (sub_ok 24 128 pos (f_of_Z 24 128 (read32 len w c)) (IZR (2 ^ 24))) as [Af Av]; auto.
    { apply (format_IZR 24 128). lia. }
    { rewrite <- (IZR_Zpower radix2) by lia. apply IZR_lt. reflexivity. }
    { rewrite Pv, Rv. assert (IZR len <= IZR (2 ^ 24)) by (apply IZR_le; lia).
      assert (IZR (read32 len w c) <= IZR len) by (apply IZR_le; lia). apply Rabs_le. lra. }
    eexists. split; [reflexivity|]. split; [exact Df|]. split; [exact Dv|]. split; [exact Af|].
    rewrite Av, Pv, Rv. apply (RN_id 24 128).
    unfold read32. destruct (Z.eqb_spec (Zfloor (pos32 len w c)) len) as [E|E].
    - rewrite Rminus_0_r. exact Pfmt.
    - apply format_frac; [exact Pfmt|]. assert (IZR len <= IZR (2 ^ 24)) by (apply IZR_le; lia). lra.
  Qed.

  Lemma ctl_f32_range len w d : (1 <= len <= 2 ^ 24)%Z -> (0 <= w < len)%Z ->
    exists dt r a, ctl K len w d = Ok (dt, r, a) /\ (0 <= r < len)%Z.
  Proof.
    intros Hl Hw. assert (Ht : (2 ^ 24 < two64)%Z) by reflexivity.
    assert (Hdec : d = B754_nan \/ d <> B754_nan) by (destruct d; (now left) || (right; discriminate)).
    destruct Hdec as [->|Hd].
    - rewrite ctl_nan by lia. do 3 eexists. split; [reflexivity|]. lia.
    - destruct (ctl_f32 len w d Hl Hw Hd) as [dt [a [E _]]]. rewrite E.
      do 3 eexists. split; [reflexivity|]. apply read32_range; auto. apply clip32_range.
      assert (1 <= IZR len) by (apply IZR_le; lia). lra.
  Qed.
End Ctl.
