(** The control arithmetic of [LinearDelay] in exact arithmetic. *)
From Coq Require Import ZArith Reals List Bool Lia Lra.
From Flocq Require Import Core.Raux.
From Verif Require Import Base BaseLemmas Num NumR DelayM LinDelayM DelaySpec DelayProofs
  LinSpec LinRun LinFloatSpec LinProofs.
Import ListNotations.
Open Scope R_scope.

Lemma Rltb_true x y : Rltb x y = true <-> x < y.
Proof. unfold Rltb. destruct (Rlt_dec x y); split; intros; try easy. Qed.
Lemma Rltb_false x y : Rltb x y = false <-> y <= x.
Proof. unfold Rltb. destruct (Rlt_dec x y); split; intros; try easy; lra. Qed.

Lemma R_clip d m : (0 <= m)%Z -> clip_delay R_ctl d m = clipR d (IZR m).
Proof.
  intros Hm. apply IZR_le in Hm. unfold clip_delay, clipR. cbn [R_ctl c_lt c_of_usize c_zero].
  destruct (Rlt_le_dec (IZR m) d) as [H|H].
  - replace (Rltb (IZR m) d) with true by (symmetry; apply Rltb_true; exact H). cbn zeta.
    replace (Rltb (IZR m) 0) with false by (symmetry; apply Rltb_false; exact Hm).
    rewrite Rmin_right, Rmax_right by lra. reflexivity.
  - replace (Rltb (IZR m) d) with false by (symmetry; apply Rltb_false; exact H). cbn zeta.
    rewrite Rmin_left by lra. unfold Rltb, Rmax. destruct (Rlt_dec d 0), (Rle_dec 0 d); lra.
Qed.

Lemma clipR_range d m : 0 <= m -> 0 <= clipR d m <= m.
Proof.
  intros H. unfold clipR. split; [apply Rmax_l|]. apply Rmax_lub; [exact H|apply Rmin_r].
Qed.

Lemma clipR_id d m : 0 <= d <= m -> clipR d m = d.
Proof. intros H. unfold clipR. rewrite Rmin_left, Rmax_right by lra. reflexivity. Qed.

Lemma ctl_R (len w : Z) (d : R) :
  (1 <= len < two64)%Z -> (0 <= w < len)%Z ->
  let c := clipR d (IZR len - 1) in
  exists r, ctl R_ctl len w d = Ok (c, r, IZR (Zceil c) - c)
    /\ (0 <= r < len)%Z /\ lag_of len w r = Zceil c.
Proof.
  intros Hl Hw c.
  assert (Hc : 0 <= c <= IZR len - 1).
  { apply clipR_range. assert (1 <= IZR len) by (apply IZR_le; lia). lra. }
  assert (Ecl : clip_delay R_ctl d (len - 1) = c).
  { rewrite R_clip by lia. unfold c. rewrite minus_IZR. reflexivity. }
  assert (Hz : (0 <= Zceil c <= len - 1)%Z).
  { split.
    - apply le_IZR. apply Rle_trans with c; [lra|]. apply Zceil_ub.
    - apply Zceil_glb. rewrite minus_IZR. lra. }
  assert (Hub := Zceil_ub c).
  assert (Hlb : IZR (Zceil c) - 1 < c).
  { unfold Zceil. rewrite opp_IZR. assert (H := Zfloor_ub (- c)). lra. }
  unfold ctl. rewrite Ecl. cbn [R_ctl c_sub c_of_usize].
  assert (Hw0 : 0 <= IZR w) by (apply IZR_le; lia).
  assert (Hwl : IZR w <= IZR len - 1) by (rewrite <- minus_IZR; apply IZR_le; lia).
  destruct (Rlt_le_dec (IZR w - c) 0) as [Hneg|Hpos].
  - assert (En : norm_loop R_ctl 64 len (IZR w - c) = Ok (IZR w - c + IZR len)).
    { cbn [norm_loop R_ctl c_lt c_zero c_add c_of_usize].
      replace (Rltb (IZR w - c) 0) with true by (symmetry; apply Rltb_true; exact Hneg).
      replace (Rltb (IZR w - c + IZR len) 0) with false by (symmetry; apply Rltb_false; lra).
      reflexivity. }
    rewrite En. cbn [bind].
    set (r := (w + len - Zceil c)%Z).
    assert (Er : IZR r = IZR w + IZR len - IZR (Zceil c)) by (unfold r; rewrite minus_IZR, plus_IZR; ring).
    assert (Hf : Ztrunc (IZR w - c + IZR len) = r).
    { rewrite Ztrunc_floor by lra. apply Zfloor_imp. rewrite plus_IZR, Er. lra. }
    assert (Hr : (w < r < len)%Z).
    { split; [unfold r; lia|]. apply lt_IZR. rewrite Er. 
      destruct (Z_lt_le_dec w (Zceil c)) as [|Hcc]; [assert (IZR w < IZR (Zceil c)) by (apply IZR_lt; lia); lra|].
      apply IZR_le in Hcc. lra. }
    cbn [R_ctl c_to_usize c_sub c_of_usize]. unfold R_to_usize. rewrite Hf.
    replace (Z.min usize_max (Z.max 0 r)) with r by (unfold usize_max; lia).
    replace (r =? len)%Z with false by (symmetry; apply Z.eqb_neq; lia).
    exists r. split.
    + f_equal. f_equal. rewrite Er. ring.
    + split; [lia|]. unfold lag_of. destruct (Z.leb_spec r w); unfold r; lia.
  - assert (En : norm_loop R_ctl 64 len (IZR w - c) = Ok (IZR w - c)).
    { cbn [norm_loop R_ctl c_lt c_zero].
      replace (Rltb (IZR w - c) 0) with false by (symmetry; apply Rltb_false; lra).
      reflexivity. }
    rewrite En. cbn [bind].
    set (r := (w - Zceil c)%Z).
    assert (Er : IZR r = IZR w - IZR (Zceil c)) by (unfold r; apply minus_IZR).
    assert (Hf : Ztrunc (IZR w - c) = r).
    { rewrite Ztrunc_floor by lra. apply Zfloor_imp. rewrite plus_IZR, Er. lra. }
    assert (Hr : (0 <= r <= w)%Z).
    { split; [|unfold r; lia]. rewrite <- Hf. rewrite Ztrunc_floor by lra. apply Zfloor_lub. exact Hpos. }
    cbn [R_ctl c_to_usize c_sub c_of_usize]. unfold R_to_usize. rewrite Hf.
    replace (Z.min usize_max (Z.max 0 r)) with r by (unfold usize_max; lia).
    replace (r =? len)%Z with false by (symmetry; apply Z.eqb_neq; lia).
    exists r. split.
    + f_equal. f_equal. rewrite Er. ring.
    + split; [lia|]. unfold lag_of. destruct (Z.leb_spec r w); unfold r; lia.
Qed.

Lemma aims_R lim : (lim < two64)%Z -> aims R_ctl R_ops lim ideal_aim.
Proof.
  intros Hlim len w d Hl Hw.
  destruct (ctl_R len w d) as [r [E [Hr Hlag]]]; [lia|lia|].
  do 3 eexists. split; [exact E|]. split; [exact Hr|].
  unfold ideal_aim. rewrite INR_IZR_INZ, Z2Nat.id by lia.
  fold (clipR d (IZR len - 1)). rewrite Hlag. reflexivity.
Qed.
