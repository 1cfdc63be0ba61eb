(** Consequences of the refinement used by several properties of [LinearDelay]. *)
From Coq Require Import ZArith Reals List Bool Lia Lra ZifyBool ZifyNat.
From Flocq Require Import Core.Core IEEE754.BinarySingleNaN.
From Verif Require Import Base BaseLemmas Num NumR NumF FloatFacts DelayM LinDelayM DelaySpec DelayRun DelayProofs
  LinSpec LinRun LinFloatSpec LinProofs LinCtlR LinCtlF LinInv.
Import ListNotations.
Open Scope Z_scope.

Section Facts.
  Context {C T : Type} (K : ctl_ops C T) (O : num_ops T) (p : profile).
  Local Notation zero := (n_zero O).
  Hypothesis Hsize : 1 <= n_size_of O.

  Definition llag (s : lin_delay C T) : Z := lag_of (vlen (ld_memory s)) (ld_write s) (ld_read s).

  Lemma llag_range (s : lin_delay C T) : lin_inv O s -> 0 <= llag s < vlen (ld_memory s).
  Proof.
    intros [Hl Hw Hr Hd]. cbn [dl_of dl_memory dl_write dl_read dl_delay] in *. unfold llag, lag_of.
    destruct (Z.leb_spec (ld_read s) (ld_write s)); lia.
  Qed.

  Lemma value_behind_nth (s : lin_delay C T) x k v : lin_inv O s -> 0 <= k < vlen (ld_memory s) ->
    value_behind p s x k v <->
    v = nth (Z.to_nat k) (push x (l_hist (i_line (lin_abs s)))) zero.
  Proof.
    intros Hi Hk.
    assert (HL : length (l_hist (i_line (lin_abs s))) = length (ld_memory s)) by apply ring_hist_length.
    unfold vlen in Hk. rewrite nth_push by lia.
    unfold value_behind. destruct (Z.eqb_spec k 0) as [->|E]; [reflexivity|].
    change (lin_tap_out p s (k - 1)) with (delay_tap_out p (dl_of s) (k - 1)).
    rewrite (refine_tap_out O p Hsize (dl_of s)) by (try exact Hi; cbn [dl_of dl_memory]; unfold vlen; lia).
    replace (Z.to_nat k) with (S (Z.to_nat (k - 1))) by lia.
    cbn [lin_abs i_line]. split; [intros H; now inversion H|intros ->; reflexivity].
  Qed.

  (** The output of [process] without a pending peek. *)
  Lemma process_blend (s : lin_delay C T) x : lin_inv O s -> ld_do_next_out s = true ->
    let L := llag s in
    exists s' older newer, lin_process O p s x
      = Ok (s', n_add O (n_mul O older (ld_om_alpha s)) (n_mul O newer (ld_alpha s)))
      /\ value_behind p s x L older
      /\ value_behind p s x (if L =? 0 then vlen (ld_memory s) - 1 else L - 1) newer
      /\ lin_inv O s' /\ ld_do_next_out s' = true.
  Proof.
    intros Hi Hn L. destruct (refine_lprocess O p Hsize s x Hi) as [s' [E [Hi' Ha]]].
    assert (HL := llag_range s Hi). fold L in HL.
    exists s'.
    exists (nth (Z.to_nat L) (push x (l_hist (i_line (lin_abs s)))) zero).
    exists (nth (Z.to_nat (if L =? 0 then vlen (ld_memory s) - 1 else L - 1))
              (push x (l_hist (i_line (lin_abs s)))) zero).
    split; [|split; [|split; [|split; [exact Hi'|]]]].
    - rewrite E. unfold ilin_process, lin_abs. rewrite Hn. cbn [snd i_peek i_line i_new i_old].
      unfold blend.
      assert (HH : length (push x (l_hist (dl_abs (dl_of s)))) = length (ld_memory s)).
      { assert (HR : length (l_hist (dl_abs (dl_of s))) = length (ld_memory s)) by apply ring_hist_length.
        rewrite push_length; [exact HR|]. unfold vlen in HL. lia. }
      rewrite HH. change (l_lag (dl_abs (dl_of s))) with (Z.to_nat L).
      do 3 f_equal. f_equal.
      destruct (Z.eqb_spec L 0) as [E0|E0].
      + rewrite E0. change (Z.to_nat 0) with 0%nat. unfold vlen. f_equal. lia.
      + replace (Z.to_nat L) with (S (Z.to_nat (L - 1))) by lia. reflexivity.
    - apply value_behind_nth; auto.
    - apply value_behind_nth; auto. destruct (Z.eqb_spec L 0); lia.
    - assert (F := f_equal i_peek Ha). unfold ilin_process in F. cbn in F.
      destruct (ld_do_next_out s'); [reflexivity|discriminate].
  Qed.

  (** Streaming a whole signal through a line. *)
  Definition stream_out (m : nat) (lag : nat) (wn wo : T) (x : nat -> T) (n : nat) : T :=
    n_add O (n_mul O (behind zero x lag n) wo)
            (n_mul O (behind zero x (match lag with 0%nat => m | S k => k end) n) wn).

  Lemma push_behind x n h :
    (forall t, (t < length h)%nat -> nth t h zero = behind zero x (S t) n) ->
    (0 < length h)%nat ->
    forall t, (t < length h)%nat -> nth t (push (x n) h) zero = behind zero x t n.
  Proof.
    intros H H0 t Ht. rewrite nth_push by lia. unfold behind in *. destruct t.
    - cbn. now rewrite Nat.sub_0_r.
    - rewrite H by lia. reflexivity.
  Qed.

  Lemma run_stream x k : forall i s,
    lin_inv O s -> ld_do_next_out s = true ->
    (forall t, (t < length (ld_memory s))%nat -> nth t (l_hist (i_line (lin_abs s))) zero = behind zero x (S t) i) ->
    exists s', lin_run K O p s (map (fun n => DProcess (x n)) (seq i k))
      = Ok (s', map OSample (map (stream_out (length (ld_memory s) - 1) (Z.to_nat (llag s)) (ld_alpha s) (ld_om_alpha s) x) (seq i k))).
  Proof.
    induction k as [|k IH]; intros i s Hi Hn Hh.
    - eexists. reflexivity.
    - cbn [seq map lin_run lin_step].
      assert (HR : length (l_hist (dl_abs (dl_of s))) = length (ld_memory s)) by apply ring_hist_length.
      assert (Hlen : (0 < length (ld_memory s))%nat).
      { destruct Hi as [Hl _ _ _]. cbn [dl_of dl_memory] in Hl. unfold vlen in Hl. lia. }
      destruct (refine_lprocess O p Hsize s (x i) Hi) as [s1 [E [Hi1 Ha]]]. rewrite E. cbn [bind].
      assert (Hpush : forall t, (t < length (ld_memory s))%nat ->
        nth t (push (x i) (l_hist (dl_abs (dl_of s)))) zero = behind zero x t i).
      { intros t Ht. apply push_behind; rewrite ?HR; auto. }
      assert (Hlag := llag_range s Hi).
      assert (Hy : snd (ilin_process zero (n_add O) (n_mul O) (lin_abs s) (x i))
        = stream_out (length (ld_memory s) - 1) (Z.to_nat (llag s)) (ld_alpha s) (ld_om_alpha s) x i).
      { unfold ilin_process, lin_abs. rewrite Hn. cbn [snd i_peek i_line i_new i_old]. unfold blend, stream_out.
        rewrite push_length by lia. rewrite HR. change (l_lag (dl_abs (dl_of s))) with (Z.to_nat (llag s)).
        unfold vlen in Hlag. rewrite !Hpush by (try destruct (Z.to_nat (llag s)) eqn:EL; lia). reflexivity. }
      assert (F5 : ld_alpha s1 = ld_alpha s) by exact (f_equal i_new Ha).
      assert (F6 : ld_om_alpha s1 = ld_om_alpha s) by exact (f_equal i_old Ha).
      assert (F7 := f_equal i_peek Ha). unfold ilin_process, lin_abs in F7. cbn [fst i_peek] in F7.
      assert (HL1 : length (ld_memory s1) = length (ld_memory s)).
      { assert (G := f_equal (fun i => length (l_hist (i_line i))) Ha). cbn beta in G.
        unfold ilin_process, lin_abs in G. cbn [fst i_line l_hist] in G.
        rewrite push_length in G by lia.
        transitivity (length (l_hist (dl_abs (dl_of s1)))); [symmetry; apply ring_hist_length|].
        rewrite G. exact HR. }
      assert (Hn1 : ld_do_next_out s1 = true) by (destruct (ld_do_next_out s1); [reflexivity|discriminate]).
      destruct (IH (S i) s1 Hi1 Hn1) as [s2 E2].
      { intros t Ht. rewrite HL1 in Ht. cbn [lin_abs i_line].
        assert (G := f_equal (fun i => l_hist (i_line i)) Ha). cbn beta in G.
        unfold ilin_process, lin_abs in G. cbn [fst i_line l_hist] in G.
        change (i_line (lin_abs s1)) with (dl_abs (dl_of s1)). rewrite G, Hpush by exact Ht.
        unfold behind. reflexivity. }
      exists s2. rewrite E2. cbn [bind]. rewrite Hy.
      assert (GL := f_equal (fun i => l_lag (i_line i)) Ha). cbn beta in GL.
      unfold ilin_process, lin_abs in GL. cbn [fst i_line l_lag] in GL.
      change (Z.to_nat (llag s1) = Z.to_nat (llag s)) in GL.
      rewrite HL1, GL, F5, F6. reflexivity.
  Qed.

  Lemma new_stream d m s x k :
    lin_new K O p d m = Ok s -> lin_inv O s -> 0 <= m ->
    vlen (ld_memory s) = m + 1 -> i_line (lin_abs s) = i_line (lin_abs s) ->
    l_hist (i_line (lin_abs s)) = repeat zero (Z.to_nat (m + 1)) -> ld_do_next_out s = true ->
    exists s', lin_session K O p d m (map (fun n => DProcess (x n)) (seq 0 k))
      = Ok (s', map OSample (map (stream_out (Z.to_nat m) (Z.to_nat (llag s)) (ld_alpha s) (ld_om_alpha s) x) (seq 0 k))).
  Proof.
    intros E Hi Hm HL _ Hh Hn. unfold lin_session. rewrite E. cbn [bind].
    destruct (run_stream x k 0 s Hi Hn) as [s' E'].
    - intros t Ht. rewrite Hh, nth_repeat. reflexivity.
    - exists s'. rewrite E'. do 4 f_equal. f_equal. unfold vlen in HL. lia.
  Qed.

  (** The state of a new line in terms of [ctl]. *)
  Lemma new_ctl d m dt r a :
    0 <= m -> m + 1 <= max_slots O -> ctl K (m + 1) 0 (clip_delay K d m) = Ok (dt, r, a) -> 0 <= r < m + 1 ->
    exists s, lin_new K O p d m = Ok s /\ lin_inv O s /\ vlen (ld_memory s) = m + 1
      /\ l_hist (i_line (lin_abs s)) = repeat zero (Z.to_nat (m + 1)) /\ ld_do_next_out s = true
      /\ ld_delay s = dt /\ llag s = lag_of (m + 1) 0 r /\ ld_alpha s = c_cast K a
      /\ ld_om_alpha s = n_sub O (n_one O) (c_cast K a) /\ ld_output s = zero.
  Proof.
    intros Hm Hf Ec Hr. pose proof (max_slots_lt O Hsize) as Hms.
    assert (HL : vlen (repeat zero (Z.to_nat (m + 1))) = m + 1) by (unfold vlen; rewrite repeat_length; lia).
    eexists. split.
    - unfold lin_new, lin_new_fuel. fold (lin_set_delay K O p). unfold uadd.
      rewrite chk_usize_ok by (unfold two63, two64 in *; lia). cbn [bind].
      unfold vec_repeat. rewrite alloc_ok_iff by exact Hsize.
      replace (m + 1 <=? max_slots O) with true by lia. cbn [bind].
      rewrite lin_set_delay_ctl by (cbn [ld_memory]; rewrite HL; unfold two63, two64 in *; lia).
      cbn [ld_memory ld_write ld_output ld_do_next_out ld_next_out]. rewrite HL, Ec. cbn [bind]. reflexivity.
    - split; [constructor; cbn [dl_of dl_memory dl_write dl_read dl_delay ld_memory ld_write ld_read]; rewrite HL; lia|].
      unfold llag. cbn [ld_memory ld_write ld_read ld_delay ld_alpha ld_om_alpha ld_do_next_out ld_output].
      rewrite HL. repeat split.
      unfold lin_abs. cbn [i_line dl_abs l_hist dl_of dl_memory dl_write ld_memory ld_write]. cbn [l_hist dl_abs dl_of dl_memory dl_write ld_memory ld_write Z.to_nat].
      unfold ring_hist. cbn [firstn skipn rev app].
      clear. induction (Z.to_nat (m + 1)) as [|n IH]; [reflexivity|]. cbn [repeat rev]. rewrite IH, repeat_cons. reflexivity.
  Qed.

  Lemma get_max_lin (s : lin_delay C T) mx : lin_inv O s -> lin_get_max_delay p s = Ok mx -> vlen (ld_memory s) = mx + 1.
  Proof.
    intros [Hl _ _ _] E. cbn [dl_of dl_memory] in Hl. unfold lin_get_max_delay, usub in E.
    pose proof (max_slots_lt O Hsize).
    rewrite chk_usize_ok in E by (unfold two63, two64 in *; lia). inversion E. lia.
  Qed.

  Lemma get_max_winv (s : lin_delay C T) mx : winv O s -> lin_get_max_delay p s = Ok mx -> vlen (ld_memory s) = mx + 1.
  Proof.
    intros [Hl _] E. unfold lin_get_max_delay, usub in E.
    pose proof (max_slots_lt O Hsize).
    rewrite chk_usize_ok in E by (unfold two63, two64 in *; lia). inversion E. lia.
  Qed.

  Lemma winv_get_max (s : lin_delay C T) : winv O s -> lin_get_max_delay p s = Ok (vlen (ld_memory s) - 1).
  Proof.
    intros [Hl _]. unfold lin_get_max_delay, usub. pose proof (max_slots_lt O Hsize).
    apply chk_usize_ok. unfold two63, two64 in *; lia.
  Qed.

  Lemma history_winv d m ops s : lin_history K O p d m ops s -> winv O s.
  Proof.
    intros [Hm [Hmx [Hs [os E]]]]. unfold lin_session in E. unfold is_usize in Hm.
    apply bind_Ok in E. destruct E as [s0 [En E]]. pose proof (max_slots_lt O Hsize) as Hms.
    assert (Hw0 : winv O s0).
    { unfold lin_new, lin_new_fuel in En. fold (lin_set_delay K O p) in En. unfold uadd in En.
      rewrite chk_usize_ok in En by (unfold usize_max, two64 in *; lia). cbn [bind] in En.
      unfold vec_repeat in En. rewrite alloc_ok_iff in En by exact Hsize.
      destruct (Z.leb_spec (m + 1) (max_slots O)); [|discriminate]. cbn [bind] in En.
      assert (HL : vlen (repeat zero (Z.to_nat (m + 1))) = m + 1) by (unfold vlen; rewrite repeat_length; lia).
      rewrite lin_set_delay_ctl in En by (cbn [ld_memory]; rewrite HL; unfold two63, two64 in *; lia).
      apply bind_Ok in En. destruct En as [[[dt r] a] [Ec En]]. inversion En.
      unfold winv. cbn [ld_memory ld_write]. rewrite HL. lia. }
    clear En. revert s0 os Hw0 E. induction ops as [|op ops IH]; intros s0 os Hw0 E.
    - inversion E; subst. exact Hw0.
    - cbn [lin_run] in E. apply bind_Ok in E. destruct E as [[t o'] [F1 F2]].
      apply bind_Ok in F2. destruct F2 as [[t2 os3] [F2 F3]]. inversion F3; subst. inversion Hs; subst.
      destruct (step_frame K O p Hsize s0 op t o' Hw0 ltac:(assumption) F1) as [Hw2 _].
      apply (IH ltac:(assumption) t os3 Hw2 F2).
  Qed.

  Lemma lin_run_app ops1 : forall s ops2,
    lin_run K O p s (ops1 ++ ops2)
    = let* (s1, o1) := lin_run K O p s ops1 in
      let* (s2, o2) := lin_run K O p s1 ops2 in Ok (s2, o1 ++ o2).
  Proof.
    induction ops1 as [|op ops1 IH]; intros s ops2; cbn [app lin_run bind].
    - destruct (lin_run K O p s ops2) as [[? ?]| |]; reflexivity.
    - destruct (lin_step K O p s op) as [[s1 o]| |]; cbn [bind]; auto.
      rewrite IH. destruct (lin_run K O p s1 ops1) as [[s2 os]| |]; cbn [bind]; auto.
      destruct (lin_run K O p s2 ops2) as [[s3 os3]| |]; cbn [bind]; auto.
  Qed.
End Facts.

(** Fuel of the loop. *)
Lemma norm_loop_more {C T} (K : ctl_ops C T) len fuel : forall r r' k,
  norm_loop K fuel len r = Ok r' -> norm_loop K (fuel + k) len r = Ok r'.
Proof.
  induction fuel as [|fuel IH]; intros r r' k E; [discriminate|]. cbn [norm_loop Nat.add] in *.
  destruct (c_lt K r (c_zero K)); auto.
Qed.

Open Scope R_scope.

(** ** The latency realised by the [f32] control arithmetic *)
Lemma lag_of_lag32 len w c : (1 <= len <= 2 ^ 24)%Z -> (0 <= w < len)%Z -> 0 <= c <= IZR len - 1 ->
  lag_of len w (read32 len w c) = lag32 len w c.
Proof.
  intros Hl Hw Hc. assert (Hr := read32_range len w c Hl Hw Hc). unfold lag_of, lag32.
  destruct (Z.leb_spec (read32 len w c) w).
  - rewrite Z.mod_small by lia. reflexivity.
  - rewrite <- (Z_mod_plus_full _ 1), Z.mul_1_l, Z.mod_small by lia. reflexivity.
Qed.

Lemma RN32_leZ x k : (Z.abs k <= 2 ^ 24)%Z -> x <= IZR k -> RN32 x <= IZR k.
Proof.
  intros Hk H. rewrite <- (RN_id 24 128 (IZR k)); [apply (RN_le 24 128), H|apply (format_IZR 24 128), Hk].
Qed.
Lemma RN32_geZ x k : (Z.abs k <= 2 ^ 24)%Z -> IZR k <= x -> IZR k <= RN32 x.
Proof.
  intros Hk H. rewrite <- (RN_id 24 128 (IZR k)); [apply (RN_le 24 128), H|apply (format_IZR 24 128), Hk].
Qed.

(** Rounding never moves the latency past an integer. *)
Lemma lag32_ge len w c k : (1 <= len <= 2 ^ 24)%Z -> (0 <= w < len)%Z -> 0 <= c <= IZR len - 1 ->
  IZR k <= c -> (k <= lag32 len w c)%Z.
Proof.
  intros Hl Hw Hc Hk. destruct (Z_le_gt_dec k 0).
  { unfold lag32. assert (H := Z.mod_pos_bound (w - read32 len w c) len ltac:(lia)). lia. }
  rewrite <- lag_of_lag32 by assumption. assert (Hr := read32_range len w c Hl Hw Hc).
  assert (Hkl : (k <= len - 1)%Z) by (apply le_IZR; rewrite minus_IZR; lra).
  unfold lag_of, read32, pos32 in *.
  assert (Hst : RN32 (IZR w - c) <= IZR (w - k)) by (apply RN32_leZ; [lia|rewrite minus_IZR; lra]).
  revert Hr. case Rlt_bool_spec; intros Hneg.
  - assert (Hp : RN32 (RN32 (IZR w - c) + IZR len) <= IZR (Z.min len (len + w - k))).
    { destruct (Z_le_gt_dec k w).
      - rewrite Z.min_l by lia. apply RN32_leZ; [lia|lra].
      - rewrite Z.min_r by lia. apply RN32_leZ; [lia|]. rewrite minus_IZR in Hst. rewrite minus_IZR, plus_IZR. lra. }
    assert (Hf : (Zfloor (RN32 (RN32 (IZR w - c) + IZR len)) <= Z.min len (len + w - k))%Z).
    { apply le_IZR. apply Rle_trans with (2 := Hp). apply Zfloor_lb. }
    assert (Hge : (w < Zfloor (RN32 (RN32 (IZR w - c) + IZR len)))%Z).
    { apply Z.lt_le_trans with (w + 1)%Z; [lia|]. apply Zfloor_lub. apply RN32_geZ; [lia|].
      assert (IZR (w - (len - 1)) <= RN32 (IZR w - c)).
      { apply RN32_geZ; [lia|]. rewrite !minus_IZR. lra. }
      rewrite !minus_IZR in H. rewrite plus_IZR. lra. }
    destruct (Z.eqb_spec (Zfloor (RN32 (RN32 (IZR w - c) + IZR len))) len) as [E|E]; intros Hr.
    + destruct (Z.leb_spec 0 w); lia.
    + destruct (Z.leb_spec (Zfloor (RN32 (RN32 (IZR w - c) + IZR len))) w); lia.
  - assert (Hf : (Zfloor (RN32 (IZR w - c)) <= w - k)%Z).
    { apply le_IZR. apply Rle_trans with (2 := Hst). apply Zfloor_lb. }
    destruct (Z.eqb_spec (Zfloor (RN32 (IZR w - c))) len) as [E|E]; intros Hr; [lia|].
    destruct (Z.leb_spec (Zfloor (RN32 (IZR w - c))) w); lia.
Qed.

Lemma lag32_le len w c k : (1 <= len <= 2 ^ 24)%Z -> (0 <= w < len)%Z -> 0 <= c <= IZR len - 1 ->
  c <= IZR k -> (lag32 len w c <= k)%Z.
Proof.
  intros Hl Hw Hc Hk.
  assert (Hk0 : (0 <= k)%Z) by (apply le_IZR; lra).
  assert (Hr := read32_range len w c Hl Hw Hc).
  destruct (Z_le_gt_dec (len - 1) k).
  { rewrite <- lag_of_lag32 by assumption. unfold lag_of. destruct (Z.leb_spec (read32 len w c) w); lia. }
  rewrite <- lag_of_lag32 by assumption. unfold lag_of, read32, pos32 in *.
  assert (Hst : IZR (w - k) <= RN32 (IZR w - c)) by (apply RN32_geZ; [lia|rewrite minus_IZR; lra]).
  assert (Hw1 : RN32 (IZR w - c) <= IZR w) by (apply RN32_leZ; [lia|lra]).
  revert Hr. case Rlt_bool_spec; intros Hneg.
  - assert (Hwk : (w - k < 0)%Z) by (apply lt_IZR; lra).
    assert (Hf : (len + w - k <= Zfloor (RN32 (RN32 (IZR w - c) + IZR len)))%Z).
    { apply Zfloor_lub. apply RN32_geZ; [lia|]. rewrite minus_IZR in Hst. rewrite minus_IZR, plus_IZR. lra. }
    destruct (Z.eqb_spec (Zfloor (RN32 (RN32 (IZR w - c) + IZR len))) len) as [E|E]; intros Hr.
    + destruct (Z.leb_spec 0 w); lia.
    + destruct (Z.leb_spec (Zfloor (RN32 (RN32 (IZR w - c) + IZR len))) w); lia.
  - assert (Hf : (w - k <= Zfloor (RN32 (IZR w - c)))%Z) by (apply Zfloor_lub; exact Hst).
    destruct (Z.eqb_spec (Zfloor (RN32 (IZR w - c))) len) as [E|E]; intros Hr.
    + assert (Zfloor (RN32 (IZR w - c)) <= w)%Z; [|lia]. apply le_IZR. apply Rle_trans with (2 := Hw1). apply Zfloor_lb.
    + assert (Zfloor (RN32 (IZR w - c)) <= w)%Z by (apply le_IZR; apply Rle_trans with (2 := Hw1); apply Zfloor_lb).
      destruct (Z.leb_spec (Zfloor (RN32 (IZR w - c))) w); lia.
Qed.
