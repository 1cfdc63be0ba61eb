(** Proofs of the properties of [LinearDelay] (C19-C27, C68-C70).  The statements
    are repeated, with nothing else, in [PropLin]. *)
From Coq Require Import ZArith Reals List Bool Lia Lra.
From Flocq Require Import Core.Core IEEE754.BinarySingleNaN.
From Verif Require Import Base BaseLemmas Num NumR NumF FloatFacts DelayM LinDelayM DelaySpec DelayRun DelayProofs
  LinSpec LinRun LinFloatSpec LinProofs LinCtlR LinCtlF LinInv LinFacts LinFloat.
Import ListNotations.
Open Scope Z_scope.

(*@PROP
(** Properties C19-C21: [LinearDelay], robustness.

    Vocabulary: [lin_session K O p d m ops] is [LinearDelay::new(d, m)] followed by
    the calls [ops], [lin_history] says that such a session completed, [lin_sane]
    and [lin_use] describe the arguments ([LinRun]); [f32_ctl_gen cast] is the
    [f32] control arithmetic with the cast to the sample type, [float_line] stands
    for [LinearDelay<f32>] and [LinearDelay<f64>] ([LinFloatSpec]). *)
From Coq Require Import ZArith Reals List Bool Lia Lra.
From Flocq Require Import Core.Core IEEE754.BinarySingleNaN.
From Verif Require Import Base Num NumR NumF Witness DelayM LinDelayM DelaySpec DelayRun
  LinSpec LinRun LinFloatSpec LinLemmas LinWit.
Import ListNotations.
Open Scope Z_scope.
@*)

(** C19: on a non-empty line of any length and at any write position, and for
    every [f32] delay (NaN, infinities, negative and subnormal values included),
    the loop of [set_delay] ends after at most one addition: two tests of its
    condition suffice. *)
Lemma C19_set_delay_terminates_thm :
  forall (T : Type) (cast : f32 -> T) (O : num_ops T) (p : profile) (s : lin_delay f32 T) (d : f32),
    1 <= vlen (ld_memory s) < two64 -> 0 <= ld_write s < vlen (ld_memory s) ->
    exists s', forall fuel,
      lin_set_delay_fuel (f32_ctl_gen cast) O p (S (S fuel)) s d = Ok s'.
Proof.
  intros T cast O p s d Hl Hw. unfold lin_set_delay_fuel, usub.
  rewrite chk_usize_ok by lia. cbn [bind].
  assert (H2 : exists pos, norm_loop (f32_ctl_gen cast) 2 (vlen (ld_memory s))
     (c_sub (f32_ctl_gen cast) (c_of_usize (f32_ctl_gen cast) (ld_write s))
        (clip_delay (f32_ctl_gen cast) d (vlen (ld_memory s) - 1))) = Ok pos).
  { assert (Hdec : d = B754_nan \/ d <> B754_nan) by (destruct d; (now left) || (right; discriminate)).
    destruct Hdec as [-> | Hd].
    - exists B754_nan. unfold clip_delay. cbn [f32_ctl_gen c_lt c_of_usize c_zero c_sub].
      replace (Bltb (f_of_Z 24 128 (vlen (ld_memory s) - 1)) B754_nan) with false
        by (destruct (f_of_Z 24 128 (vlen (ld_memory s) - 1)) as [b|b| |b mm e He]; try destruct b; reflexivity).
      change (Bltb B754_nan (B754_zero false : f32)) with false. cbn iota.
      rewrite (sub_nan 24 128). reflexivity.
    - destruct (norm_f32 cast (vlen (ld_memory s)) (ld_write s) d 0 Hl Hw Hd) as [pos [E _]]. eauto. }
  destruct H2 as [pos E]. eexists. intros fuel.
  rewrite (norm_loop_more _ _ 2 _ pos fuel E : norm_loop _ (S (S fuel)) _ _ = _). reflexivity.
Qed.
(*@PROP
Example C19_set_delay_terminates_hyps (a b : f32) :
  let s := MkLin [a; b] a 0 1 (B754_zero false : f32) true a a a in
  1 <= vlen (ld_memory s) < two64 /\ 0 <= ld_write s < vlen (ld_memory s).
Proof. repeat split; easy. Qed.
@*)

Lemma f32_term {T} (cast : f32 -> T) len w d : 1 <= len < two64 -> 0 <= w < len ->
  ctl (f32_ctl_gen cast) len w d <> Hang.
Proof.
  intros Hl Hw. assert (Hdec : d = B754_nan \/ d <> B754_nan) by (destruct d; (now left) || (right; discriminate)).
  destruct Hdec as [-> | Hd].
  - rewrite ctl_nan by assumption. discriminate.
  - destruct (norm_f32 cast len w d 62 Hl Hw Hd) as [pos [E _]]. unfold ctl. rewrite E. discriminate.
Qed.

(** C19: no sequence of calls makes the library loop, unless some length request
    is [usize::MAX]. *)
Lemma C19_no_session_hangs_thm :
  forall (T : Type) (cast : f32 -> T) (O : num_ops T) (p : profile) (d : f32) (m : Z)
         (ops : list (dl_op f32 T)),
    1 <= n_size_of O -> is_usize m -> m <> usize_max -> Forall lin_sane ops ->
    lin_session (f32_ctl_gen cast) O p d m ops <> Hang.
Proof.
  intros T cast O p d m ops Hs Hm Hx Ho. apply session_nohang; auto. apply f32_term.
Qed.
(*@PROP
Example C19_no_session_hangs_hyps (a : f64) :
  is_usize 8 /\ 8 <> usize_max
  /\ Forall lin_sane [DProcess a; DSetDelay (B754_nan : f32); DSetMaxDelay 16; DProcess a].
Proof. repeat split; try easy. repeat constructor; easy. Qed.
@*)

(** C19, the exception: in release builds [LinearDelay::new(d, usize::MAX)] with a
    positive [d] never returns (the capacity computation wraps to an empty line and
    the loop keeps adding a length of zero); in debug builds it panics. *)
Lemma C19_new_usize_max_hangs_refuted_thm :
  forall (T : Type) (cast : f32 -> T) (O : num_ops T) (d : f32) (fuel : nat),
    1 <= n_size_of O ->
    lin_new_fuel (f32_ctl_gen cast) O Debug fuel d usize_max = Panic
    /\ (Bltb (B754_zero false) d = true ->
        lin_new_fuel (f32_ctl_gen cast) O Release fuel d usize_max = Hang).
Proof.
  intros T cast O d fuel Hs. split; [reflexivity|]. intros Hd.
  unfold lin_new_fuel. change (uadd Release usize_max 1) with (Ok 0). cbn [bind].
  unfold vec_repeat, alloc_ok. replace (0 * n_size_of O <=? isize_max) with true by reflexivity.
  change (Z.to_nat 0) with 0%nat. cbn [repeat bind].
  unfold lin_set_delay_fuel. cbn [ld_memory ld_write]. change (vlen (@nil T)) with 0.
  change (usub Release 0 1) with (Ok usize_max). cbn [bind].
  set (d1 := clip_delay (f32_ctl_gen cast) d usize_max).
  assert (Hnan : d <> B754_nan) by (intros ->; discriminate).
  assert (Hum : 0 <= usize_max < two64) by (unfold usize_max; split; [discriminate|reflexivity]).
  destruct (clip_f32 cast d usize_max Hum Hnan) as [F1 V1]. fold d1 in F1, V1.
  assert (Hn1 : d1 <> B754_nan) by (intros E; rewrite E in F1; discriminate).
  destruct (clip_f32 cast d1 usize_max Hum Hn1) as [F2 V2].
  set (d2 := clip_delay (f32_ctl_gen cast) d1 usize_max) in *.
  assert (HM : (0 < RN32 (IZR usize_max))%R).
  { apply Rlt_le_trans with 1%R; [lra|]. apply (RN32_geZ _ 1); [lia|]. apply IZR_le. unfold usize_max, two64. lia. }
  assert (P1 : (0 < B2R d1)%R).
  { rewrite V1. destruct d as [b|b| |b mm e He]; try (destruct b; discriminate); try congruence.
    - destruct b; [discriminate|]. exact HM.
    - cbn [clip32]. unfold clipR. apply Rlt_le_trans with (2 := Rmax_r _ _). apply Rmin_pos; [|exact HM].
      rewrite (Bltb_correct _ _ (B754_zero false) (B754_finite b mm e He)) in Hd by reflexivity.
      apply Rlt_bool_true_iff in Hd || (revert Hd; case Rlt_bool_spec; [intros H _; exact H|discriminate]). }
  assert (P2 : (0 < B2R d2)%R).
  { rewrite V2, clip32_finite by exact F1. unfold clipR. apply Rlt_le_trans with (2 := Rmax_r _ _).
    apply Rmin_pos; assumption. }
  assert (Hloop : forall r : f32, is_finite r = true -> (B2R r < 0)%R -> norm_loop (f32_ctl_gen cast) fuel 0 r = Hang).
  { induction fuel as [|fuel IH]; intros r Fr Vr; [reflexivity|]. cbn [norm_loop f32_ctl_gen c_lt c_zero c_add c_of_usize].
    rewrite (Bltb_correct _ _ r (B754_zero false) Fr eq_refl), Rlt_bool_true by exact Vr.
    destruct (add_zero 24 128 r (f_of_Z 24 128 0) Fr) as [A1 [_ A2]]; [exists false; reflexivity|].
    apply IH; [exact A1|]. rewrite A2. exact Vr. }
  destruct (sub_ok 24 128 (f_of_Z 24 128 0) d2 (B2R d2)) as [S1 S2].
  - reflexivity.
  - exact F2.
  - apply generic_format_B2R.
  - apply Rle_lt_trans with (2 := abs_B2R_lt_emax 24 128 d2). apply Rle_abs.
  - change (B2R (f_of_Z 24 128 0)) with 0%R. rewrite Rminus_0_l, Rabs_Ropp, Rabs_pos_eq by lra. lra.
  - change (c_sub (f32_ctl_gen cast) (c_of_usize (f32_ctl_gen cast) 0) d2) with (f_sub 24 128 (f_of_Z 24 128 0) d2).
    rewrite Hloop; [reflexivity|exact S1|]. rewrite S2. change (B2R (f_of_Z 24 128 0)) with 0%R.
    rewrite Rminus_0_l, (RN_opp 24 128), (RN_B2R 24 128). lra.
Qed.
(*@PROP
Example C19_new_usize_max_hangs_refuted_hyps :
  Bltb (B754_zero false) (fl32 1 0) = true.
Proof. reflexivity. Qed.
@*)

(** C20: after any history, [set_delay] with a non-NaN [f32] makes [get_delay]
    return the request clipped to [0, max] (the maximum as an [f32]: exact up to
    2^24); NaN is stored as NaN.  The stored samples, the maximum and [last_out]
    stay as they are. *)
Lemma C20_set_delay_clips_thm :
  forall (T : Type) (cast : f32 -> T) (O : num_ops T) (p : profile) (d : f32) (m : Z)
         (ops : list (dl_op f32 T)) (s : lin_delay f32 T) (mx : Z) (d' : f32),
    1 <= n_size_of O -> lin_history (f32_ctl_gen cast) O p d m ops s ->
    lin_get_max_delay p s = Ok mx ->
    exists s', lin_set_delay (f32_ctl_gen cast) O p s d' = Ok s'
      /\ (d' <> B754_nan -> is_finite (lin_get_delay s') = true
                            /\ B2R (lin_get_delay s') = clip32 d' (RN32 (IZR mx)))
      /\ (d' = B754_nan -> lin_get_delay s' = B754_nan)
      /\ (mx <= 2 ^ 24 -> RN32 (IZR mx) = IZR mx)
      /\ lin_get_max_delay p s' = Ok mx
      /\ lin_last_out s' = lin_last_out s
      /\ (forall t, lin_tap_out p s' t = lin_tap_out p s t).
Proof.
  intros T cast O p d m ops s mx d' Hs Hh Hmx.
  assert (Hw := history_winv _ O p Hs d m ops s Hh).
  assert (HL := get_max_winv O p Hs s mx Hw Hmx). destruct Hw as [Hl Hw].
  pose proof (max_slots_lt O Hs) as Hms.
  assert (H64 : 1 <= vlen (ld_memory s) < two64) by (unfold two63, two64 in *; lia).
  rewrite lin_set_delay_ctl by exact H64. rewrite HL in *.
  assert (Hmx24 : mx <= 2 ^ 24 -> RN32 (IZR mx) = IZR mx) by (intros; apply RN32_small; lia).
  assert (Hdec : d' = B754_nan \/ d' <> B754_nan) by (destruct d'; (now left) || (right; discriminate)).
  destruct Hdec as [-> | Hd].
  - rewrite ctl_nan by assumption. cbn [bind]. eexists. split; [reflexivity|].
    split; [congruence|]. split; [reflexivity|]. split; [exact Hmx24|].
    split; [|split; [reflexivity|intros t; reflexivity]]. rewrite <- Hmx. reflexivity.
  - destruct (norm_f32 cast (mx + 1) (ld_write s) d' 62 H64 Hw Hd) as [pos [E _]].
    destruct (clip_f32 cast d' mx ltac:(lia) Hd) as [F1 V1].
    unfold ctl. rewrite E. cbn [bind]. eexists. split; [reflexivity|].
    replace (mx + 1 - 1) with mx by lia.
    split; [intros _; split; assumption|]. split; [congruence|]. split; [exact Hmx24|].
    split; [|split; [reflexivity|intros t; reflexivity]]. rewrite <- Hmx. reflexivity.
Qed.

(** C20, construction: [new(d, m)] reports [d] clipped to [0, m] (as above) and the
    maximum [m], and every tap reads zero. *)
Lemma C20_new_clips_thm :
  forall (T : Type) (cast : f32 -> T) (O : num_ops T) (p : profile) (d : f32) (m : Z),
    1 <= n_size_of O -> is_usize m -> fits O m ->
    exists s, lin_new (f32_ctl_gen cast) O p d m = Ok s
      /\ (d <> B754_nan -> is_finite (lin_get_delay s) = true
                           /\ B2R (lin_get_delay s) = clip32 d (RN32 (IZR m)))
      /\ (d = B754_nan -> lin_get_delay s = B754_nan)
      /\ lin_get_max_delay p s = Ok m
      /\ lin_last_out s = n_zero O
      /\ (forall t, 0 <= t <= m -> lin_tap_out p s t = Ok (n_zero O)).
Proof.
  intros T cast O p d m Hs Hm Hf. unfold is_usize in Hm.
  assert (Hfit : m + 1 <= max_slots O).
  { unfold fits in Hf. pose proof (alloc_ok_iff O Hs (m + 1)) as E. unfold alloc_ok in E. lia. }
  pose proof (max_slots_lt O Hs) as Hms.
  assert (HL : vlen (repeat (n_zero O) (Z.to_nat (m + 1))) = m + 1) by (unfold vlen; rewrite repeat_length; lia).
  assert (H64 : 1 <= m + 1 < two64) by (unfold two63, two64 in *; lia).
  assert (Hnew : forall dt r a, ctl (f32_ctl_gen cast) (m + 1) 0 (clip_delay (f32_ctl_gen cast) d m) = Ok (dt, r, a) ->
     exists s, lin_new (f32_ctl_gen cast) O p d m = Ok s /\ ld_delay s = dt
       /\ lin_get_max_delay p s = Ok m /\ lin_last_out s = n_zero O
       /\ (forall t, 0 <= t <= m -> lin_tap_out p s t = Ok (n_zero O))).
  { intros dt r a E. eexists. split.
    - unfold lin_new, lin_new_fuel. fold (lin_set_delay (f32_ctl_gen cast) O p). unfold uadd.
      rewrite chk_usize_ok by (unfold two63, two64 in *; lia). cbn [bind].
      unfold vec_repeat. rewrite alloc_ok_iff by exact Hs.
      replace (m + 1 <=? max_slots O) with true by lia. cbn [bind].
      rewrite lin_set_delay_ctl by (cbn [ld_memory]; rewrite HL; exact H64).
      cbn [ld_memory ld_write ld_output ld_do_next_out ld_next_out]. rewrite HL, E. cbn [bind]. reflexivity.
    - split; [reflexivity|]. split; [|split; [reflexivity|]].
      + unfold lin_get_max_delay. cbn [ld_memory]. rewrite HL. unfold usub. rewrite chk_usize_ok by lia. f_equal. lia.
      + intros t Ht.
        set (s0 := MkDelay (repeat (n_zero O) (Z.to_nat (m + 1))) (n_zero O) 0 0 0).
        assert (Hi0 : dl_inv O s0) by (constructor; cbn [s0 dl_memory dl_write dl_read dl_delay]; rewrite HL; lia).
        match goal with |- lin_tap_out p ?s t = _ => change (lin_tap_out p s t) with (delay_tap_out p s0 t) end.
        rewrite (refine_tap_out O p Hs s0 t Hi0) by (cbn [s0 dl_memory]; rewrite HL; lia).
        f_equal. unfold dl_abs; cbn [l_hist s0 dl_memory dl_write].
        rewrite nth_ring_hist; [apply nth_repeat| |]; rewrite repeat_length; cbn; lia. }
  assert (Hdec : d = B754_nan \/ d <> B754_nan) by (destruct d; (now left) || (right; discriminate)).
  destruct Hdec as [-> | Hd].
  - assert (Ecl : clip_delay (f32_ctl_gen cast) B754_nan m = B754_nan).
    { unfold clip_delay. cbn [f32_ctl_gen c_lt c_of_usize c_zero].
      replace (Bltb (f_of_Z 24 128 m) B754_nan) with false
        by (destruct (f_of_Z 24 128 m) as [b|b| |b mm e He]; try destruct b; reflexivity). reflexivity. }
    destruct (Hnew B754_nan 0 B754_nan) as [s [E1 [E2 E3]]]; [rewrite Ecl; apply ctl_nan; lia|].
    exists s. split; [exact E1|]. split; [congruence|]. split; [intros _; exact E2|exact E3].
  - destruct (clip_f32 cast d m ltac:(lia) Hd) as [F1 V1].
    set (d1 := clip_delay (f32_ctl_gen cast) d m) in *.
    assert (Hn1 : d1 <> B754_nan) by (intros E; rewrite E in F1; discriminate).
    destruct (clip_f32 cast d1 m ltac:(lia) Hn1) as [F2 V2].
    destruct (norm_f32 cast (m + 1) 0 d1 62 H64 ltac:(lia) Hn1) as [pos [E _]].
    destruct (Hnew (clip_delay (f32_ctl_gen cast) d1 (m + 1 - 1))
       (if c_to_usize (f32_ctl_gen cast) pos =? m + 1 then 0 else c_to_usize (f32_ctl_gen cast) pos)
       (c_sub (f32_ctl_gen cast) pos (c_of_usize (f32_ctl_gen cast)
          (if c_to_usize (f32_ctl_gen cast) pos =? m + 1 then 0 else c_to_usize (f32_ctl_gen cast) pos))))
      as [s [E1 [E2 E3]]].
    { unfold ctl. fold d1. rewrite E. reflexivity. }
    exists s. split; [exact E1|]. split; [intros _|split; [congruence|exact E3]].
    unfold lin_get_delay. rewrite E2. replace (m + 1 - 1) with m by lia. split; [exact F2|].
    rewrite V2, clip32_finite by exact F1. rewrite V1.
    apply clipR_id. apply clip32_range. rewrite <- (RN_0 24 128). apply (RN_le 24 128). apply IZR_le. lia.
Qed.
(*@PROP
(** A concrete [LinearDelay<f32>]: [new(1.5, 7)], some samples, a tap, and last
    [set_delay(d')].  The examples below reuse it. *)
Definition lin_ops (a b : f32) : list (dl_op f32 f32) :=
  [DProcess a; DProcess b; DTapIn a 3; DSetDelay (fl32 5 (-1)); DProcess b; DGetDelay].
Lemma lin_ops_ok (a b d' : f32) :
  exists s, lin_history f32_ctl_f32 O32 Debug (fl32 3 (-1)) 7 (lin_ops a b ++ [DSetDelay d']) s
    /\ lin_get_max_delay Debug s = Ok 7
    /\ (d' <> B754_nan -> is_finite (lin_get_delay s) = true /\ B2R (lin_get_delay s) = clip32 d' (IZR 7))
    /\ (d' = B754_nan -> lin_get_delay s = B754_nan).
Proof.
  apply wit_set; [easy|repeat constructor; easy|cbn; repeat split; discriminate|repeat constructor; discriminate].
Qed.

Example C20_set_delay_clips_hyps (a b : f32) :
  exists s, lin_history f32_ctl_f32 O32 Debug (fl32 3 (-1)) 7 (lin_ops a b ++ [DSetDelay (fl32 1 0)]) s
    /\ lin_get_max_delay Debug s = Ok 7.
Proof. destruct (lin_ops_ok a b (fl32 1 0)) as [s [H [H1 _]]]. eauto. Qed.
Example C20_new_clips_hyps : 1 <= n_size_of O64 /\ is_usize 7 /\ fits O64 7.
Proof. repeat split; easy. Qed.
@*)

(** C20: a NaN delay makes every following output non-finite (NaN), for every
    sample, until the delay is set again. *)
Lemma C20_nan_delay_poisons_thm :
  forall (T : Type) (K : ctl_ops f32 T) (O : num_ops T) (val : T -> R) (fin : T -> bool) (rnd : R -> R)
         (p : profile) (d : f32) (m : Z) (ops : list (dl_op f32 T)) (s : lin_delay f32 T) (mx : Z) (x : T),
    float_line K O val fin rnd ->
    lin_history K O p d m ops s -> lin_trusted ops -> unpeeked ops ->
    lin_get_max_delay p s = Ok mx -> mx < 2 ^ 24 -> lin_get_delay s = B754_nan ->
    exists s' y, lin_process O p s x = Ok (s', y) /\ fin y = false.
Proof.
  intros T K O val fin rnd p d m ops s mx x HFL Hh Ht Hu Hmx Hlim Hnan.
  assert (HF := float_line_fline _ _ _ _ _ HFL).
  assert (Hsize := fl_size _ _ _ _ _ HF).
  assert (Hw := history_winv K O p Hsize d m ops s Hh).
  assert (HL := get_max_winv O p Hsize s mx Hw Hmx).
  destruct (history_hinv K O p Hsize (2 ^ 24) (fl_range _ _ _ _ _ HF) d m ops s Hh ltac:(lia)) as [[Hi _] [Ha Hn]].
  destruct (Ha Ht) as [w0 [d0 [dt [r [a [A1 [A2 [A3 [A4 [A5 A6]]]]]]]]]]. clear Ha.
  assert (Ea : a = B754_nan).
  { assert (Hl : 1 <= vlen (ld_memory s) <= 2 ^ 24) by (destruct Hw as [[? _] _]; lia).
    assert (Hdec : d0 = B754_nan \/ d0 <> B754_nan) by (destruct d0; (now left) || (right; discriminate)).
    destruct Hdec as [-> | Hd].
    - destruct (fl_gen _ _ _ _ _ HF) as [cast EK]. rewrite EK in A2.
      assert (2 ^ 24 < two64) by reflexivity.
      rewrite ctl_nan in A2 by lia. inversion A2. reflexivity.
    - destruct (fl_ctl _ _ _ _ _ HF _ w0 d0 Hl A1 Hd) as [dt' [a' [E' [Df _]]]].
      rewrite A2 in E'. inversion E'; subst. unfold lin_get_delay in Hnan. rewrite Hnan in Df. discriminate. }
  destruct (process_blend O p Hsize s x Hi (Hn Hu)) as [s' [older [newer [E _]]]].
  exists s'. eexists. split; [exact E|]. rewrite A5, A6, Ea. apply (fl_nan _ _ _ _ _ HF).
Qed.
(*@PROP
Example C20_nan_delay_poisons_hyps (a b : f32) :
  exists s, lin_history f32_ctl_f32 O32 Debug (fl32 3 (-1)) 7 (lin_ops a b ++ [DSetDelay B754_nan]) s
    /\ lin_trusted (lin_ops a b ++ [DSetDelay B754_nan]) /\ unpeeked (lin_ops a b ++ [DSetDelay B754_nan])
    /\ lin_get_max_delay Debug s = Ok 7 /\ 7 < 2 ^ 24 /\ lin_get_delay s = B754_nan.
Proof.
  destruct (lin_ops_ok a b B754_nan) as [s [H [H1 [_ H2]]]]. exists s. repeat (split; [easy|]). apply H2. reflexivity.
Qed.
@*)

(** C21: as long as the line has at most 2^24 slots and taps stay within it, no
    sequence of calls panics or loops, whatever delays are requested. *)
Lemma C21_never_panics_thm :
  forall (T : Type) (cast : f32 -> T) (O : num_ops T) (p : profile) (d : f32) (m : Z)
         (ops : list (dl_op f32 T)),
    1 <= n_size_of O -> n_size_of O * 2 ^ 24 <= isize_max ->
    is_usize m -> short (2 ^ 24) m -> Forall op_usize_lin ops -> lin_use (2 ^ 24) m ops ->
    exists s os, lin_session (f32_ctl_gen cast) O p d m ops = Ok (s, os).
Proof.
  intros T cast O p d m ops Hs Hsz Hm Hsh Hu Hn. unfold is_usize in Hm. unfold short in Hsh.
  assert (Hlim : 2 ^ 24 <= max_slots O).
  { unfold max_slots. apply Z.div_le_lower_bound; lia. }
  assert (HA := aims_ctl (f32_ctl_gen cast) O (2 ^ 24) (ctl_f32_range cast)).
  destruct (refine_lnew (f32_ctl_gen cast) O p Hs (2 ^ 24) _ Hlim HA d m) as [s0 [E0 [Hi0 Ha0]]]; [lia|lia|].
  assert (HL : vlen (ld_memory s0) = m + 1).
  { assert (G := f_equal (fun i => slots (i_line i)) Ha0). cbn beta in G. rewrite lin_abs_slots in G.
    unfold vlen. rewrite G. unfold ilin_new, ilin_aim.
    destruct (aim_ctl _ _ _ _ _) as [[[? ?] ?] ?]. cbn [i_line]. unfold slots. cbn [l_hist line_new].
    rewrite repeat_length. lia. }
  destruct (lin_run_ok (f32_ctl_gen cast) O p Hs (2 ^ 24) _ Hlim HA s0 ops Hi0 Hu) as [s [os [E _]]].
  { rewrite HL. replace (m + 1 - 1) with m by lia. exact Hn. }
  exists s, os. unfold lin_session. rewrite E0. exact E.
Qed.
(*@PROP
Example C21_never_panics_hyps (a b : f32) :
  n_size_of O64 * 2 ^ 24 <= isize_max /\ is_usize 7 /\ short (2 ^ 24) 7
  /\ Forall op_usize_lin (lin_ops a b) /\ lin_use (2 ^ 24) 7 (lin_ops a b).
Proof.
  split; [discriminate|]. split; [easy|]. split; [discriminate|].
  split; [repeat constructor; easy|]. cbn. repeat split; discriminate.
Qed.
@*)

(** C21, the limit is real: with 2^24 + 3 slots, [new(1.0, 2^24 + 2)] puts the read
    position outside the line and the first [process] panics, whatever the
    sample. *)
Lemma C21_long_line_panics_refuted_thm :
  forall (T : Type) (cast : f32 -> T) (O : num_ops T) (p : profile) (d : f32) (m : Z),
    1 <= n_size_of O -> n_size_of O * 2 ^ 25 <= isize_max ->
    m = 2 ^ 24 + 2 -> d = f_of_Z 24 128 1 ->
    exists s, lin_new (f32_ctl_gen cast) O p d m = Ok s
      /\ lin_get_max_delay p s = Ok m
      /\ forall x, lin_process O p s x = Panic.
Proof.
  intros T cast O p d m Hs Hsz Hm Hd.
  assert (Hfit : m + 1 <= max_slots O).
  { unfold max_slots. apply Z.div_le_lower_bound; lia. }
  pose proof (max_slots_lt O Hs) as Hms.
  assert (HL : vlen (repeat (n_zero O) (Z.to_nat (m + 1))) = m + 1) by (unfold vlen; rewrite repeat_length; lia).
  assert (H64 : 1 <= m + 1 < two64) by (unfold two63, two64 in *; lia).
  assert (EC : exists dt a, ctl (f32_ctl_gen cast) (m + 1) 0 (clip_delay (f32_ctl_gen cast) d m) = Ok (dt, m + 2, a)).
  { rewrite Hd, Hm. clear.
    assert (Ecl : forall k, k = 2 ^ 24 + 2 -> clip_delay (f32_ctl_gen cast) (f_of_Z 24 128 1) k = f_of_Z 24 128 1).
    { intros k ->. unfold clip_delay. cbn [f32_ctl_gen c_lt c_of_usize c_zero].
      assert (B1 : Bltb (f_of_Z 24 128 (2 ^ 24 + 2)) (f_of_Z 24 128 1) = false) by (vm_compute; reflexivity).
      rewrite B1. assert (B2 : Bltb (f_of_Z 24 128 1) (B754_zero false : f32) = false) by (vm_compute; reflexivity).
      rewrite B2. reflexivity. }
    set (start := f_sub 24 128 (f_of_Z 24 128 0) (f_of_Z 24 128 1)).
    set (pos := f_add 24 128 start (f_of_Z 24 128 (2 ^ 24 + 2 + 1))).
    assert (EL : norm_loop (f32_ctl_gen cast) 64 (2 ^ 24 + 2 + 1) start = Ok pos
        /\ c_to_usize (f32_ctl_gen cast) pos = 2 ^ 24 + 2 + 2).
    { split; [|vm_compute; reflexivity].
      change 64%nat with (2 + 62)%nat. apply norm_loop_more.
      cbn [norm_loop f32_ctl_gen c_lt c_zero c_add c_of_usize]. fold pos.
      assert (B1 : Bltb start (B754_zero false) = true) by (vm_compute; reflexivity). rewrite B1.
      assert (B2 : Bltb pos (B754_zero false) = false) by (vm_compute; reflexivity). rewrite B2. reflexivity. }
    destruct EL as [E1 E2]. unfold ctl. rewrite !Ecl by lia.
    change (c_sub (f32_ctl_gen cast) (c_of_usize (f32_ctl_gen cast) 0) (f_of_Z 24 128 1)) with start.
    rewrite E1. cbn [bind]. rewrite E2.
    replace (2 ^ 24 + 2 + 2 =? 2 ^ 24 + 2 + 1) with false by reflexivity.
    do 2 eexists. reflexivity. }
  destruct EC as [dt [a EC]].
  eexists. split.
  - unfold lin_new, lin_new_fuel. fold (lin_set_delay (f32_ctl_gen cast) O p). unfold uadd.
    rewrite chk_usize_ok by (unfold two63, two64 in *; lia). cbn [bind].
    unfold vec_repeat. rewrite alloc_ok_iff by exact Hs.
    replace (m + 1 <=? max_slots O) with true by lia. cbn [bind].
    rewrite lin_set_delay_ctl by (cbn [ld_memory]; rewrite HL; exact H64).
    cbn [ld_memory ld_write ld_output ld_do_next_out ld_next_out]. rewrite HL, EC. cbn [bind]. reflexivity.
  - split.
    + unfold lin_get_max_delay. cbn [ld_memory]. rewrite HL. unfold usub. rewrite chk_usize_ok by lia. f_equal. lia.
    + intros x. unfold lin_process. cbn [ld_memory ld_write ld_read ld_output ld_do_next_out ld_next_out ld_delay ld_alpha ld_om_alpha].
      rewrite vset_ok by (rewrite HL; lia). cbn [bind]. unfold uadd at 1. rewrite chk_usize_ok by (unfold two64; lia).
      cbn [bind]. rewrite list_set_vlen, HL, urem_ok by lia. cbn [bind].
      unfold lin_next_out. cbn [ld_memory ld_write ld_read ld_output ld_do_next_out ld_next_out ld_delay ld_alpha ld_om_alpha].
      unfold vget at 1. replace (m + 2 <? 0) with false by (symmetry; apply Z.ltb_ge; lia).
      rewrite list_set_vlen, HL. replace (m + 1 <=? m + 2) with true by (symmetry; apply Z.leb_le; lia). reflexivity.
Qed.
(*@PROP
Example C21_long_line_panics_refuted_hyps : 1 <= n_size_of O32 /\ n_size_of O32 * 2 ^ 25 <= isize_max.
Proof. split; discriminate. Qed.
@*)
