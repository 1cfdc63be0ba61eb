(** Growing a delay line in mid-stream (C110). *)
From Coq Require Import ZArith Reals List Bool Lia Lra ZifyBool.
From Flocq Require Import Core.Core IEEE754.BinarySingleNaN.
From Verif Require Import Base BaseLemmas Num NumR NumF Witness FloatFacts DelayM LinDelayM DelaySpec DelayRun DelayProofs
  LinSpec LinRun PlaceSpec GrowSpec LinFloatSpec LinProofs LinCtlR LinCtlF LinInv LinFacts LinFloat LinLemmas2 DelayLemmas.
Import ListNotations.
Open Scope Z_scope.

(*@PROP
(** Property C110: growing a delay line in mid-stream.

    Vocabulary: [dl_history], [lin_history]: a completed session, [new] followed by
    the calls [ops] ([DelayRun], [LinRun]); [write_after m ops]: the write position
    after them ([PlaceSpec]); [value_behind p s x k v]: [v] is the value [k] samples
    behind the [x] about to be processed, as the taps show it ([LinRun]);
    [lin_timing_after]: the timing of a [LinearDelay] computed from the calls alone
    ([GrowSpec]); [float_line]: [LinearDelay<f32>] and [LinearDelay<f64>]. *)
From Coq Require Import ZArith Reals List Bool Lia Lra.
From Flocq Require Import Core.Core IEEE754.BinarySingleNaN.
From Verif Require Import Base Num NumR NumF Witness DelayM LinDelayM DelaySpec DelayRun
  LinSpec LinRun PlaceSpec GrowSpec LinFloatSpec LinLemmas LinLemmas2 LinWit GrowLemmas.
Import ListNotations.
Open Scope Z_scope.

(** Completed sessions on a [Delay<f64>]. *)
Ltac sane := repeat constructor; unfold op_sane, is_usize, op_usize; repeat split;
  try discriminate; try (intros; discriminate); easy.
Ltac history := unfold dl_history, is_usize; split; [easy|];
  split; [easy|]; split; [discriminate|]; split; [sane|];
  eexists; vm_compute; reflexivity.

(** A completed session on a [LinearDelay] in exact arithmetic, with growths. *)
Definition grow_ops (a b : R) : list (dl_op R R) :=
  [DProcess a; DSetMaxDelay 6; DProcess b; DSetMaxDelay 5; DSetMaxDelay 9].
Lemma grown_R (a b : R) : exists s, lin_history R_ctl R_ops Debug (5 / 2)%R 4 (grow_ops a b) s.
Proof.
  destruct (C22_refines_ideal_thm Debug (5 / 2)%R 4 (grow_ops a b)) as [s [os [_ [E _]]]].
  - easy.
  - discriminate.
  - repeat constructor; easy.
  - cbn. repeat split; discriminate.
  - exists s. split; [easy|]. split; [discriminate|].
    split; [repeat constructor; easy|]. exists os. exact E.
Qed.

(** A completed session on a [LinearDelay<f32>]. *)
Definition lin_ops3 (a b : f32) : list (dl_op f32 f32) :=
  [DProcess a; DProcess b; DTapIn a 3; DProcess b; DGetDelay] ++ [DSetDelay (fl32 5 (-1))].
Lemma lin_ops3_ok (a b : f32) :
  exists s, lin_history f32_ctl_f32 O32 Debug (fl32 3 (-1)) 7 (lin_ops3 a b) s
    /\ lin_get_max_delay Debug s = Ok 7.
Proof.
  destruct (wit_set (fl32 3 (-1)) (fl32 5 (-1)) 7 [DProcess a; DProcess b; DTapIn a 3; DProcess b; DGetDelay])
    as [s [H1 [H2 _]]]; [lia|repeat constructor; easy|cbn; repeat split; discriminate| |].
  - repeat constructor; discriminate.
  - exists s. split; assumption.
Qed.
@*)

Lemma nth_grow {T} (z : T) (h : list T) (w g t : nat) : (w <= length h)%nat -> (t < length h + g)%nat ->
  nth t (firstn w h ++ repeat z g ++ skipn w h) z
  = if (t <? w)%nat then nth t h z else if (t <? w + g)%nat then z else nth (t - g) h z.
Proof.
  intros Hw Ht. destruct (Nat.ltb_spec t w).
  - rewrite app_nth1 by (rewrite firstn_length; lia).
    rewrite <- (firstn_skipn w h) at 2. rewrite app_nth1 by (rewrite firstn_length; lia). reflexivity.
  - rewrite app_nth2 by (rewrite firstn_length; lia). rewrite firstn_length, Nat.min_l by lia.
    destruct (Nat.ltb_spec t (w + g)).
    + rewrite app_nth1 by (rewrite repeat_length; lia). apply nth_repeat.
    + rewrite app_nth2 by (rewrite repeat_length; lia). rewrite repeat_length.
      rewrite <- (firstn_skipn w h) at 2. rewrite app_nth2 by (rewrite firstn_length; lia).
      rewrite firstn_length, Nat.min_l by lia. f_equal. lia.
Qed.

Section Taps.
  Context {T : Type} (O : num_ops T) (p : profile).
  Hypothesis Hsize : 1 <= n_size_of O.

  Lemma grow_taps (s s' : delay T) m' t :
    dl_inv O s -> is_usize m' -> delay_set_max_delay O p s m' = Ok s' ->
    vlen (dl_memory s) <= m' -> m' + 1 <= max_slots O -> 0 <= t <= m' ->
    delay_tap_out p s' t
    = if t <? dl_write s then delay_tap_out p s t
      else if t <? dl_write s + (m' + 1 - vlen (dl_memory s)) then Ok (n_zero O)
      else delay_tap_out p s (t - (m' + 1 - vlen (dl_memory s))).
  Proof.
    intros Hi Hu E Hm Hf Ht.
    destruct (refine_grow O p Hsize s m' Hi Hu Hm Hf) as [s1 [E1 [Hi1 Ha]]].
    rewrite E in E1. injection E1 as <-.
    assert (HR : length (l_hist (dl_abs s)) = length (dl_memory s)) by apply ring_hist_length.
    assert (HR1 : length (l_hist (dl_abs s')) = length (dl_memory s')) by apply ring_hist_length.
    assert (Hi2 := Hi). destruct Hi2 as [Hl Hw Hr Hd].
    assert (HL1 : vlen (dl_memory s') = m' + 1).
    { unfold vlen in *. rewrite <- HR1, Ha. unfold line_grow. cbn [l_hist].
      rewrite !app_length, repeat_length, firstn_length, skipn_length. rewrite HR.
      unfold dl_abs. cbn [l_phase]. lia. }
    rewrite (refine_tap_out O p Hsize s' t Hi1) by lia. rewrite Ha. unfold line_grow. cbn [l_hist].
    unfold vlen in *. rewrite nth_grow by (rewrite ?HR; unfold dl_abs; cbn [l_phase]; lia).
    change (l_phase (dl_abs s)) with (Z.to_nat (dl_write s)).
    destruct (Nat.ltb_spec (Z.to_nat t) (Z.to_nat (dl_write s))).
    { replace (t <? dl_write s) with true by lia. rewrite (refine_tap_out O p Hsize s t) by (try assumption; unfold vlen; lia).
      reflexivity. }
    replace (t <? dl_write s) with false by lia.
    destruct (Nat.ltb_spec (Z.to_nat t) (Z.to_nat (dl_write s) + (Z.to_nat (m' + 1) - length (dl_memory s)))).
    { replace (t <? _) with true by lia. reflexivity. }
    replace (t <? _) with false by lia.
    rewrite (refine_tap_out O p Hsize s) by (try assumption; unfold vlen; lia).
    do 2 f_equal. lia.
  Qed.
End Taps.

(** C110: growing a [Delay] inserts zeros at the write position: what [tap_out]
    showed there and beyond moves back by the growth, what it showed before stays. *)
Lemma C110_taps_thm :
  forall (T : Type) (O : num_ops T) (p : profile) (d m : Z) (ops : list (dl_op Z T))
         (s : delay T) (mx m' t : Z),
    1 <= n_size_of O -> dl_history O p d m ops s -> delay_get_max_delay p s = Ok mx ->
    is_usize m' -> fits O m' -> mx < m' -> 0 <= t <= m' ->
    exists s', delay_set_max_delay O p s m' = Ok s'
      /\ delay_tap_out p s' t
         = if t <? write_after m ops then delay_tap_out p s t
           else if t <? write_after m ops + (m' - mx) then Ok (n_zero O)
           else delay_tap_out p s (t - (m' - mx)).
Proof.
  intros T O p d m ops s mx m' t Hs Hh Hmx Hu Hf Hgt Ht. apply fits_iff in Hf; [|assumption].
  destruct (history_place O p Hs d m ops s Hh) as [Hi [Hlen Hw]].
  rewrite (get_max_ok O p s Hs Hi) in Hmx. injection Hmx as Hmx.
  destruct (refine_grow O p Hs s m' Hi Hu) as [s' [E _]]; [lia|lia|].
  exists s'. split; [exact E|].
  rewrite (grow_taps O p Hs s s' m' t Hi Hu E) by lia. rewrite Hw.
  replace (m' + 1 - vlen (dl_memory s)) with (m' - mx) by lia. reflexivity.
Qed.
(*@PROP
(* the newest two values stay, seven zeros are inserted, the rest moves back *)
Example C110_taps_hyps (a b c : f64) :
  exists s, dl_history O64 Debug 2 3 [DProcess a; DProcess b; DTapIn c 3] s
    /\ delay_get_max_delay Debug s = Ok 3 /\ is_usize 10 /\ fits O64 10
    /\ exists s', delay_set_max_delay O64 Debug s 10 = Ok s'
       /\ map (delay_tap_out Debug s') [0; 1; 2; 5; 8; 9; 10]
          = [Ok b; Ok a; Ok (n_zero O64); Ok (n_zero O64); Ok (n_zero O64); Ok (n_zero O64); Ok c].
Proof.
  eexists. split; [history|]. split; [reflexivity|]. split; [easy|]. split; [easy|].
  eexists. split; reflexivity.
Qed.
@*)

Section LinGrow.
  Context {C T : Type} (K : ctl_ops C T) (O : num_ops T) (p : profile).
  Hypothesis Hsize : 1 <= n_size_of O.

  (** The memory of a [LinearDelay] as a [Delay], whatever its read position. *)
  Definition mem_of (s : lin_delay C T) : delay T := MkDelay (ld_memory s) (ld_output s) 0 (ld_write s) 0.

  Lemma mem_inv (s : lin_delay C T) : winv O s -> dl_inv O (mem_of s).
  Proof. intros [H1 H2]. constructor; cbn [mem_of dl_memory dl_write dl_read dl_delay]; lia. Qed.

  Lemma lin_grow_mem (s : lin_delay C T) m' : winv O s -> is_usize m' -> m' + 1 <= max_slots O ->
    exists s', lin_set_max_delay O p s m' = Ok s'
      /\ delay_set_max_delay O p (mem_of s) m' = Ok (mem_of s')
      /\ winv O s'
      /\ vlen (ld_memory s') = Z.max (vlen (ld_memory s)) (m' + 1)
      /\ ld_output s' = ld_output s /\ ld_read s' = ld_read s /\ ld_write s' = ld_write s
      /\ ld_delay s' = ld_delay s /\ ld_do_next_out s' = ld_do_next_out s
      /\ ld_next_out s' = ld_next_out s /\ ld_alpha s' = ld_alpha s /\ ld_om_alpha s' = ld_om_alpha s
      /\ (m' < vlen (ld_memory s) -> s' = s).
  Proof.
    intros Hw Hu Hf. assert (Hw2 := Hw). destruct Hw2 as [W1 W2]. pose proof (max_slots_lt O Hsize) as Hms.
    unfold is_usize in Hu. unfold lin_set_max_delay, delay_set_max_delay, mem_of. cbn [dl_memory dl_write dl_output dl_read dl_delay].
    destruct (Z.ltb_spec m' (vlen (ld_memory s))).
    - exists s. rewrite Z.max_l by lia. auto 20.
    - unfold uadd. rewrite chk_usize_ok by (unfold two63, two64 in *; lia). cbn [bind].
      unfold vec_resize. replace (m' + 1 <=? vlen (ld_memory s)) with false by lia.
      rewrite alloc_ok_iff by exact Hsize. replace (m' + 1 <=? max_slots O) with true by lia. cbn [bind].
      assert (HL : vlen (ld_memory s ++ repeat (n_zero O) (Z.to_nat (m' + 1 - vlen (ld_memory s)))) = m' + 1).
      { unfold vlen in *. rewrite app_length, repeat_length. lia. }
      eexists. split; [reflexivity|]. unfold winv.
      cbn [ld_memory ld_write ld_do_next_out ld_delay ld_alpha ld_om_alpha ld_read ld_output ld_next_out].
      rewrite HL. rewrite Z.max_r by lia. repeat split; lia.
  Qed.

  (** The lag after growth. *)
  Lemma lin_grow_lag (s s' : lin_delay C T) g :
    0 <= ld_write s < vlen (ld_memory s) -> 0 <= ld_read s < vlen (ld_memory s) -> 0 <= g ->
    vlen (ld_memory s') = vlen (ld_memory s) + g -> ld_read s' = ld_read s -> ld_write s' = ld_write s ->
    llag s' = if llag s <=? ld_write s then llag s else llag s + g.
  Proof.
    intros Hw Hr Hg HL R W. unfold llag, lag_of. rewrite HL, R, W.
    destruct (Z.leb_spec (ld_read s) (ld_write s)).
    - replace (_ <=? _) with true by lia. reflexivity.
    - replace (_ <=? _) with false by lia. lia.
  Qed.

  Context (lim : Z).
  Hypothesis Hlim : lim <= max_slots O.
  Hypothesis Hctl : forall len w d, 1 <= len <= lim -> 0 <= w < len ->
    exists dt r a, ctl K len w d = Ok (dt, r, a) /\ 0 <= r < len.

  Lemma lin_growth d m ops (s : lin_delay C T) mx m' :
    lin_history K O p d m ops s -> unpeeked ops -> lin_get_max_delay p s = Ok mx ->
    mx < m' -> m' + 1 <= lim -> is_usize m' ->
    exists s' L wo wn, lin_set_max_delay O p s m' = Ok s' /\ 0 <= L <= mx
      /\ (forall x, exists s1 older newer,
            lin_process O p s x = Ok (s1, n_add O (n_mul O older wo) (n_mul O newer wn))
            /\ value_behind p s x L older
            /\ value_behind p s x (if L =? 0 then mx else L - 1) newer)
      /\ (forall x, exists s2 older newer,
            let L' := if L <=? write_after m ops then L else L + (m' - mx) in
            lin_process O p s' x = Ok (s2, n_add O (n_mul O older wo) (n_mul O newer wn))
            /\ value_behind p s' x L' older
            /\ value_behind p s' x (if L' =? 0 then m' else L' - 1) newer).
  Proof.
    intros Hh Hu Hmx Hgt Hfit Hus.
    assert (Hw := history_winv K O p Hsize d m ops s Hh).
    assert (HL := get_max_winv O p Hsize s mx Hw Hmx).
    destruct (LinInv.history_place K O p Hsize d m ops s Hh) as [_ HW].
    destruct (history_hinv K O p Hsize lim Hctl d m ops s Hh ltac:(lia)) as [[Hi _] [_ Hn]].
    specialize (Hn Hu).
    destruct (lin_grow_mem s m' Hw Hus ltac:(lia)) as [s' [E [_ [Hw' [HL' [Eo [Er [Ew [Ed [En [Enx [Ea [Eom _]]]]]]]]]]]]].
    assert (Hi2 := Hi). destruct Hi2 as [I1 I2 I3 I4]. cbn [dl_of dl_memory dl_write dl_read dl_delay] in *.
    assert (Hi' : lin_inv O s').
    { destruct Hw' as [W1 W2]. constructor; cbn [dl_of dl_memory dl_write dl_read dl_delay]; lia. }
    rewrite HL, Z.max_r in HL' by lia.
    assert (Hlag := lin_grow_lag s s' (m' - mx) ltac:(lia) ltac:(lia) ltac:(lia) ltac:(lia) Er Ew).
    pose proof (llag_range O s Hi) as HLr.
    exists s', (llag s), (ld_om_alpha s), (ld_alpha s). split; [exact E|]. split; [lia|]. split.
    - intros x. destruct (process_blend O p Hsize s x Hi Hn) as [s1 [older [newer [E1 [H1 [H2 _]]]]]].
      exists s1, older, newer. split; [exact E1|]. split; [exact H1|].
      replace mx with (vlen (ld_memory s) - 1) by lia. exact H2.
    - intros x. destruct (process_blend O p Hsize s' x Hi' ltac:(congruence)) as [s1 [older [newer [E1 [H1 [H2 _]]]]]].
      exists s1, older, newer. rewrite <- HW. cbv zeta. rewrite <- Hlag.
      split; [rewrite E1, Ea, Eom; reflexivity|]. split; [exact H1|].
      replace m' with (vlen (ld_memory s') - 1) by lia. exact H2.
  Qed.
End LinGrow.

(** C110: growing a [LinearDelay] succeeds after any completed session and keeps
    the reported delay and the last output; the maximum delay becomes the larger
    one; shrinking is a no-op. *)
Lemma C110_linear_grows_thm :
  forall (C T : Type) (K : ctl_ops C T) (O : num_ops T) (p : profile) (d : C) (m : Z)
         (ops : list (dl_op C T)) (s : lin_delay C T) (m' : Z),
    1 <= n_size_of O -> lin_history K O p d m ops s -> is_usize m' -> fits O m' ->
    exists s' mx,
      lin_set_max_delay O p s m' = Ok s'
      /\ lin_get_max_delay p s = Ok mx
      /\ lin_get_max_delay p s' = Ok (Z.max mx m')
      /\ lin_get_delay s' = lin_get_delay s
      /\ lin_last_out s' = lin_last_out s
      /\ (m' <= mx -> s' = s).
Proof.
  intros C T K O p d m ops s m' Hs Hh Hu Hf. apply fits_iff in Hf; [|assumption].
  assert (Hw := history_winv K O p Hs d m ops s Hh).
  destruct (lin_grow_mem O p Hs s m' Hw Hu ltac:(lia)) as [s' [E [_ [Hw' [HL' [Eo [Er [Ew [Ed [En [Enx [Ea [Eom Es]]]]]]]]]]]]].
  exists s', (vlen (ld_memory s) - 1). split; [exact E|].
  rewrite !(winv_get_max O p Hs) by assumption. split; [reflexivity|]. split; [rewrite HL'; f_equal; lia|].
  split; [exact Ed|]. split; [exact Eo|]. intros H. apply Es. lia.
Qed.
(*@PROP
Example C110_linear_grows_hyps (a b : f32) :
  exists s, lin_history f32_ctl_f32 O32 Debug (fl32 3 (-1)) 7 (lin_ops3 a b) s /\ is_usize 10 /\ fits O32 10.
Proof. destruct (lin_ops3_ok a b) as [s [H _]]. exists s. split; [exact H|]. split; easy. Qed.
@*)

(** C110: and what its taps show moves as it does in a [Delay]. *)
Lemma C110_linear_taps_thm :
  forall (C T : Type) (K : ctl_ops C T) (O : num_ops T) (p : profile) (d : C) (m : Z)
         (ops : list (dl_op C T)) (s : lin_delay C T) (mx m' t : Z),
    1 <= n_size_of O -> lin_history K O p d m ops s -> lin_get_max_delay p s = Ok mx ->
    is_usize m' -> fits O m' -> mx < m' -> 0 <= t <= m' ->
    exists s', lin_set_max_delay O p s m' = Ok s'
      /\ lin_tap_out p s' t
         = if t <? write_after m ops then lin_tap_out p s t
           else if t <? write_after m ops + (m' - mx) then Ok (n_zero O)
           else lin_tap_out p s (t - (m' - mx)).
Proof.
  intros C T K O p d m ops s mx m' t Hs Hh Hmx Hu Hf Hgt Ht. apply fits_iff in Hf; [|assumption].
  assert (Hw := history_winv K O p Hs d m ops s Hh).
  assert (HL := get_max_winv O p Hs s mx Hw Hmx).
  destruct (LinInv.history_place K O p Hs d m ops s Hh) as [_ HW].
  destruct (lin_grow_mem O p Hs s m' Hw Hu ltac:(lia)) as [s' [E [Em _]]].
  exists s'. split; [exact E|].
  assert (G := grow_taps O p Hs (mem_of s) (mem_of s') m' t (mem_inv O s Hw) Hu Em).
  cbn [mem_of dl_memory dl_write] in G. specialize (G ltac:(lia) ltac:(lia) Ht).
  rewrite HL, HW in G. replace (m' + 1 - (mx + 1)) with (m' - mx) in G by lia. exact G.
Qed.
(*@PROP
Example C110_linear_taps_hyps (a b : f32) :
  exists s, lin_history f32_ctl_f32 O32 Debug (fl32 3 (-1)) 7 (lin_ops3 a b) s
    /\ lin_get_max_delay Debug s = Ok 7 /\ is_usize 10 /\ fits O32 10 /\ 7 < 10
    /\ write_after 7 (lin_ops3 a b) = 3.
Proof. destruct (lin_ops3_ok a b) as [s [H1 H2]]. exists s. split; [exact H1|]. split; [exact H2|]. repeat split; easy. Qed.
@*)

(** C110: the two values [process] blends and their weights, before and after a
    growth, in exact arithmetic and in [f32] and [f64]: the weights are kept; the
    values are as far behind as before if the older of them is no farther behind
    than the write position, and farther behind by the growth if it is. *)
Lemma C110_linear_growth_thm :
  (forall (p : profile) (d : R) (m : Z) (ops : list (dl_op R R)) (s : lin_delay R R) (mx m' : Z),
    lin_history R_ctl R_ops p d m ops s -> unpeeked ops -> lin_get_max_delay p s = Ok mx ->
    mx < m' -> fits R_ops m' -> is_usize m' ->
    exists s' L wo wn, lin_set_max_delay R_ops p s m' = Ok s' /\ 0 <= L <= mx
      /\ (forall x, exists s1 older newer,
            lin_process R_ops p s x = Ok (s1, older * wo + newer * wn)%R
            /\ value_behind p s x L older
            /\ value_behind p s x (if L =? 0 then mx else L - 1) newer)
      /\ (forall x, exists s2 older newer,
            let L' := if L <=? write_after m ops then L else L + (m' - mx) in
            lin_process R_ops p s' x = Ok (s2, older * wo + newer * wn)%R
            /\ value_behind p s' x L' older
            /\ value_behind p s' x (if L' =? 0 then m' else L' - 1) newer))
  /\ (forall (T : Type) (K : ctl_ops f32 T) (O : num_ops T) (val : T -> R) (fin : T -> bool) (rnd : R -> R)
           (p : profile) (d : f32) (m : Z) (ops : list (dl_op f32 T)) (s : lin_delay f32 T) (mx m' : Z),
    float_line K O val fin rnd ->
    lin_history K O p d m ops s -> unpeeked ops -> lin_get_max_delay p s = Ok mx ->
    mx < m' -> m' + 1 <= 2 ^ 24 ->
    exists s' L wo wn, lin_set_max_delay O p s m' = Ok s' /\ 0 <= L <= mx
      /\ (forall x, exists s1 older newer,
            lin_process O p s x = Ok (s1, n_add O (n_mul O older wo) (n_mul O newer wn))
            /\ value_behind p s x L older
            /\ value_behind p s x (if L =? 0 then mx else L - 1) newer)
      /\ (forall x, exists s2 older newer,
            let L' := if L <=? write_after m ops then L else L + (m' - mx) in
            lin_process O p s' x = Ok (s2, n_add O (n_mul O older wo) (n_mul O newer wn))
            /\ value_behind p s' x L' older
            /\ value_behind p s' x (if L' =? 0 then m' else L' - 1) newer)).
Proof.
  split.
  - intros p d m ops s mx m' Hh Hu Hmx Hgt Hf Hus. apply fits_iff in Hf; [|exact R_size].
    exact (lin_growth R_ctl R_ops p R_size (max_slots R_ops) ltac:(lia) R_range d m ops s mx m' Hh Hu Hmx Hgt Hf Hus).
  - intros T K O val fin rnd p d m ops s mx m' HF Hh Hu Hmx Hgt Hf.
    assert (HL := float_line_fline _ _ _ _ _ HF).
    assert (Hsize := fl_size _ _ _ _ _ HL). assert (Hfits := fl_fits _ _ _ _ _ HL).
    assert (Hw := history_winv K O p Hsize d m ops s Hh).
    assert (HLm := get_max_winv O p Hsize s mx Hw Hmx). destruct Hw as [Hw _].
    apply (lin_growth K O p Hsize (2 ^ 24) Hfits (fl_range _ _ _ _ _ HL) d m ops s mx m' Hh Hu Hmx Hgt Hf).
    unfold is_usize, two64. lia.
Qed.
(*@PROP
Example C110_linear_growth_hyps :
  (forall a b : R, exists s, lin_history R_ctl R_ops Debug (5 / 2)%R 4 (grow_ops a b) s
     /\ unpeeked (grow_ops a b) /\ fits R_ops 12 /\ is_usize 12)
  /\ (forall a b : f32, exists s, float_line f32_ctl_f32 O32 B2R is_finite RN32
     /\ lin_history f32_ctl_f32 O32 Debug (fl32 3 (-1)) 7 (lin_ops3 a b) s
     /\ unpeeked (lin_ops3 a b) /\ lin_get_max_delay Debug s = Ok 7 /\ 7 < 10).
Proof.
  split.
  - intros a b. destruct (grown_R a b) as [s H]. exists s. split; [exact H|]. split; [reflexivity|]. split; easy.
  - intros a b. destruct (lin_ops3_ok a b) as [s [H1 H2]]. exists s. split; [constructor|].
    split; [exact H1|]. split; [reflexivity|]. split; [exact H2|lia].
Qed.
@*)

Open Scope R_scope.
(*@PROP
Open Scope R_scope.
@*)

(** A line in exact arithmetic with a given timing. *)
Record timed (t : lin_timing) (s : lin_delay R R) : Prop := {
  td_inv : lin_inv R_ops s;
  td_max : vlen (ld_memory s) = (lt_max t + 1)%Z;
  td_write : ld_write s = lt_write t;
  td_rep : ld_delay s = lt_reported t;
  td_range : 0 <= lt_latency t <= IZR (lt_max t);
  td_lag : llag s = Zceil (lt_latency t);
  td_new : ld_alpha s = IZR (Zceil (lt_latency t)) - lt_latency t;
  td_old : ld_om_alpha s = 1 - (IZR (Zceil (lt_latency t)) - lt_latency t)
}.

Lemma lag_succ len w r : (0 <= w < len)%Z -> (0 <= r < len)%Z ->
  lag_of len ((w + 1) mod len) ((r + 1) mod len) = lag_of len w r.
Proof.
  intros Hw Hr. rewrite !succ_mod by lia. unfold lag_of.
  destruct (Z.eqb_spec (w + 1) len); destruct (Z.eqb_spec (r + 1) len); destruct (Z.leb_spec r w);
    repeat match goal with |- context [(?a <=? ?b)%Z] => destruct (Z.leb_spec a b) end; lia.
Qed.

Lemma timed_step p t s op s' o : timed t s -> lin_sane op ->
  lin_step R_ctl R_ops p s op = Ok (s', o) -> timed (lin_timing_step t op) s'.
Proof.
  intros [Hi HL HW HD HR HG HA HB] Hs E.
  destruct (step_frame R_ctl R_ops p R_size s op s' o (inv_winv R_ops s Hi) Hs E) as [[Hw1 Hw2] [HL' [HW' [_ HF]]]].
  assert (Hi2 := Hi). destruct Hi2 as [I1 I2 I3 _]. cbn [dl_of dl_memory dl_write dl_read dl_delay] in *.
  assert (HI : (0 <= ld_read s' < vlen (ld_memory s'))%Z -> lin_inv R_ops s').
  { intros H. constructor; cbn [dl_of dl_memory dl_write dl_read dl_delay]; try assumption; lia. }
  destruct t as [tm tw tr tl]. cbn [lt_max lt_write lt_reported lt_latency] in *.
  assert (Hsame : (ld_delay s' = ld_delay s /\ ld_alpha s' = ld_alpha s /\ ld_om_alpha s' = ld_om_alpha s
     /\ ld_read s' = ld_read s) -> vlen (ld_memory s') = vlen (ld_memory s) -> ld_write s' = ld_write s ->
     timed (LinTiming tm tw tr tl) s').
  { intros [F1 [F2 [F3 F4]]] G1 G2. constructor; cbn [lt_max lt_write lt_reported lt_latency]; try congruence.
    - apply HI. rewrite F4, G1. exact I3.
    - unfold llag in *. now rewrite G1, G2, F4. }
  destruct op; cbn [lin_timing_step]; try (apply Hsame; assumption).
  - destruct HF as [F1 [F2 [F3 F4]]]. specialize (F4 ltac:(lia)).
    constructor; cbn [lt_max lt_write lt_reported lt_latency]; try congruence.
    + apply HI. rewrite F4, HL'. apply Z.mod_pos_bound. lia.
    + unfold llag in *. rewrite F4, HL', HW'. rewrite lag_succ by lia. exact HG.
  - destruct HF as [dt [r [a [Ec [F1 [F2 [F3 F4]]]]]]].
    destruct (ctl_R (vlen (ld_memory s)) (ld_write s) d ltac:(pose proof R_slots64; lia) ltac:(lia)) as [r' [E' [Hr Hlag]]].
    rewrite Ec in E'. injection E' as E1 E2 E3. rewrite E1 in F1; rewrite E2 in F2; rewrite E3 in F3, F4. clear Ec E1 E2 E3.
    replace (clipR d (IZR (vlen (ld_memory s)) - 1)) with (in_range d tm) in *
      by (unfold in_range, clipR; do 2 f_equal; rewrite HL, plus_IZR; ring).
    constructor; cbn [lt_max lt_write lt_reported lt_latency]; try congruence.
    + apply HI. lia.
    + apply clipR_range. apply IZR_le. lia.
    + unfold llag. rewrite HL', HW', F2. exact Hlag.
    + rewrite F3. reflexivity.
    + rewrite F4. reflexivity.
  - destruct (Z.leb_spec m tm).
    { apply Hsame; try assumption. lia. }
    destruct HF as [F1 [F2 [F3 F4]]]. rewrite HL, Z.max_r in HL' by lia.
    assert (Hlag := lin_grow_lag s s' (m - tm) ltac:(lia) ltac:(lia) ltac:(lia) ltac:(lia) F4 HW').
    rewrite HG, HW in Hlag.
    assert (Hcase : ((Zceil tl <=? tw)%Z = true /\ tl <= IZR tw) \/ ((Zceil tl <=? tw)%Z = false /\ ~ tl <= IZR tw)).
    { destruct (Z.leb_spec (Zceil tl) tw) as [H1|H1]; [left|right]; (split; [reflexivity|]).
      - apply IZR_le in H1. pose proof (Zceil_ub tl). lra.
      - intros H2. apply Zceil_glb in H2. lia. }
    assert (Hc : Zceil (tl + IZR (m - tm)) = (Zceil tl + (m - tm))%Z).
    { apply Zceil_imp. pose proof (Zceil_ub tl). pose proof (Zceil_lb tl). rewrite !minus_IZR, !plus_IZR, minus_IZR. lra. }
    assert (HI' : lin_inv R_ops s') by (apply HI; lia).
    assert (IZR tm < IZR m) by (apply IZR_lt; lia).
    destruct Hcase as [[C1 C2]|[C1 C2]]; rewrite C1 in Hlag; destruct (Rle_dec tl (IZR tw)) as [C3|C3]; try contradiction.
    + constructor; cbn [lt_max lt_write lt_reported lt_latency]; try congruence. lra.
    + constructor; cbn [lt_max lt_write lt_reported lt_latency]; try congruence.
      * rewrite minus_IZR. lra.
      * rewrite F2, HA, Hc, plus_IZR. ring.
      * rewrite F3, HB, Hc, plus_IZR. ring.
Qed.

Lemma history_timed_lin p d m ops s : lin_history R_ctl R_ops p d m ops s ->
  timed (lin_timing_after d m ops) s.
Proof.
  intros [Hm [Hmx [Hs [os E]]]]. unfold lin_session in E. unfold is_usize in Hm.
  apply bind_Ok in E. destruct E as [s0 [En E]]. pose proof (max_slots_lt R_ops R_size) as Hms.
  assert (Hfit : (m + 1 <= max_slots R_ops)%Z).
  { unfold lin_new, lin_new_fuel in En. unfold uadd in En.
    rewrite chk_usize_ok in En by (unfold usize_max, two64 in *; lia). cbn [bind] in En.
    unfold vec_repeat in En. rewrite alloc_ok_iff in En by exact R_size.
    destruct (Z.leb_spec (m + 1) (max_slots R_ops)); [lia|discriminate]. }
  assert (Ht : timed (LinTiming m 0 (in_range d m) (in_range d m)) s0).
  { destruct (ctl_R (m + 1) 0 (clip_delay R_ctl d m) ltac:(pose proof R_slots64; lia) ltac:(lia)) as [r [Ec [Hr Hlag]]].
    assert (Hd : 0 <= in_range d m <= IZR m) by (apply clipR_range, IZR_le; lia).
    assert (Ed : clipR (clip_delay R_ctl d m) (IZR (m + 1) - 1) = in_range d m).
    { rewrite R_clip by lia. rewrite plus_IZR. replace (IZR m + 1 - 1) with (IZR m) by ring.
      change (clipR d (IZR m)) with (in_range d m). apply clipR_id. exact Hd. }
    rewrite Ed in Ec, Hlag.
    destruct (new_ctl R_ctl R_ops p R_size d m _ r _ ltac:(lia) Hfit Ec Hr)
      as [s1 [E1 [Hi [HL [_ [_ [HD [HG [HA [HB _]]]]]]]]]].
    rewrite En in E1. injection E1 as <-.
    constructor; cbn [lt_max lt_write lt_reported lt_latency]; try congruence.
    - unfold lin_new, lin_new_fuel in En. fold (lin_set_delay R_ctl R_ops p) in En. unfold uadd in En.
      rewrite chk_usize_ok in En by (unfold usize_max, two64 in *; lia). cbn [bind] in En.
      unfold vec_repeat in En. rewrite alloc_ok_iff in En by exact R_size.
      replace (m + 1 <=? max_slots R_ops)%Z with true in En by lia. cbn [bind] in En.
      assert (HLr : vlen (repeat (n_zero R_ops) (Z.to_nat (m + 1))) = (m + 1)%Z) by (unfold vlen; rewrite repeat_length; lia).
      rewrite lin_set_delay_ctl in En by (cbn [ld_memory]; rewrite HLr; unfold two63, two64 in *; lia).
      apply bind_Ok in En. destruct En as [[[dt r1] a] [_ En]]. injection En as <-. reflexivity.
    - rewrite HA. reflexivity.
    - rewrite HB. reflexivity. }
  unfold lin_timing_after. clear En.
  revert Ht E. generalize (LinTiming m 0 (in_range d m) (in_range d m)).
  revert s0 os. induction ops as [|op ops IH]; intros s0 os t Ht E.
  - inversion E; subst. exact Ht.
  - cbn [lin_run] in E. apply bind_Ok in E. destruct E as [[s1 o] [E1 E2]].
    apply bind_Ok in E2. destruct E2 as [[s2 os2] [E2 E3]]. inversion E3; subst. inversion Hs; subst.
    cbn [fold_left]. apply (IH ltac:(assumption) s1 os2); [|exact E2].
    exact (timed_step p t s0 op s1 o Ht ltac:(assumption) E1).
Qed.

(** C110: after any history of a [LinearDelay] in exact arithmetic, growths
    included, the maximum delay, the reported delay and the latency it really has
    are those that [lin_timing_after] computes from the calls: with a latency of
    k + f, [process(x)] returns (1 - f) times the value k behind x plus f times the
    value k + 1 behind. *)
Lemma C110_linear_latency_thm :
  forall (p : profile) (d : R) (m : Z) (ops : list (dl_op R R)) (s : lin_delay R R) (x : R),
    lin_history R_ctl R_ops p d m ops s -> unpeeked ops ->
    let t := lin_timing_after d m ops in
    let c := lt_latency t in
    let k := Zfloor c in
    let f := c - IZR k in
    lin_get_max_delay p s = Ok (lt_max t)
    /\ lin_get_delay s = lt_reported t
    /\ 0 <= c <= IZR (lt_max t)
    /\ exists s' u v, value_behind p s x k u /\ value_behind p s x (k + 1) v
         /\ lin_process R_ops p s x = Ok (s', (1 - f) * u + f * v).
Proof.
  intros p d m ops s x Hh Hu t c k f.
  assert (Hw := history_winv R_ctl R_ops p R_size d m ops s Hh).
  destruct (history_hinv R_ctl R_ops p R_size (max_slots R_ops) R_range d m ops s Hh ltac:(apply Hw)) as [_ [_ Hn]].
  specialize (Hn Hu).
  destruct (history_timed_lin p d m ops s Hh) as [Hi HL HW HD Hc Hlag Hal Hom].
  fold t in HL, HW, HD, Hc, Hlag, Hal, Hom. fold c in Hc, Hlag, Hal, Hom.
  split; [rewrite (winv_get_max R_ops p R_size s Hw), HL; f_equal; lia|]. split; [exact HD|]. split; [exact Hc|].
  set (mx := lt_max t) in *.
  destruct (process_blend R_ops p R_size s x Hi Hn) as [s' [older [newer [E [H1 [H2 _]]]]]].
  rewrite Hal, Hom in E. cbn [n_add n_mul R_ops] in E. rewrite Hlag in *.
  assert (Hk : (0 <= k)%Z) by (apply Zfloor_lub; lra).
  assert (Hk2 : (k <= mx)%Z) by (apply le_IZR; apply Rle_trans with c; [apply Zfloor_lb|lra]).
  destruct (ceil_floor c) as [[A B]|[A B]]; fold k in A, B.
  - assert (Ef : f = 0) by (unfold f; lra).
    exists s', older, (nth (Z.to_nat k) (l_hist (i_line (lin_abs s))) 0).
    rewrite B in *. split; [exact H1|]. split.
    + unfold value_behind. replace (k + 1 =? 0)%Z with false by lia.
      replace (k + 1 - 1)%Z with k by lia.
      change (lin_tap_out p s k) with (delay_tap_out p (dl_of s) k).
      rewrite (refine_tap_out R_ops p R_size (dl_of s) k Hi) by (cbn [dl_of dl_memory]; lia). reflexivity.
    + rewrite E, Ef, <- A. do 2 f_equal. ring.
  - exists s', newer, older. rewrite B in *. replace (k + 1 =? 0)%Z with false in H2 by lia.
    replace (k + 1 - 1)%Z with k in H2 by lia. split; [exact H2|]. split; [exact H1|].
    rewrite E. do 2 f_equal. rewrite plus_IZR. unfold f. ring.
Qed.
(*@PROP
(* two growths with the write position below the latency: it becomes 2.5 + 2 + 3
   although the line reports 2.5 *)
Example C110_linear_latency_hyps (a b : R) :
  (exists s, lin_history R_ctl R_ops Debug (5 / 2) 4 (grow_ops a b) s)
  /\ unpeeked (grow_ops a b)
  /\ lin_timing_after (5 / 2) 4 (grow_ops a b) = LinTiming 9 2 (5 / 2) (15 / 2).
Proof.
  split; [apply grown_R|]. split; [reflexivity|].
  unfold lin_timing_after, grow_ops. cbn [fold_left lin_timing_step].
  replace (in_range (5 / 2) 4) with (5 / 2) by (unfold in_range; rewrite Rmin_left, Rmax_right; lra).
  change ((0 + 1) mod (4 + 1))%Z with 1%Z. change (6 <=? 4)%Z with false. cbn [lin_timing_step].
  destruct (Rle_dec (5 / 2) 1); [lra|]. change ((1 + 1) mod (6 + 1))%Z with 2%Z.
  change (5 <=? 6)%Z with true. change (9 <=? 6)%Z with false. cbn [lin_timing_step].
  change (6 - 4)%Z with 2%Z. change (9 - 6)%Z with 3%Z.
  destruct (Rle_dec (5 / 2 + 2) 2); [lra|]. replace (5 / 2 + 2 + 3) with (15 / 2) by lra. reflexivity.
Qed.
@*)

(** While the delay was set after the last growth, the latency is the reported one. *)
Lemma trusted_latency {T} (ops : list (dl_op R T)) : forall d m, lin_trusted ops ->
  lt_latency (lin_timing_after d m ops) = lt_reported (lin_timing_after d m ops).
Proof.
  intros d m. unfold lin_trusted, lin_timing_after.
  enough (G : forall b (t : lin_timing), (b = true -> lt_latency t = lt_reported t) ->
    fold_left (fun b (op : dl_op R T) => match op with DSetMaxDelay _ => false | DSetDelay _ => true | _ => b end) ops b = true ->
    lt_latency (fold_left lin_timing_step ops t) = lt_reported (fold_left lin_timing_step ops t)).
  { apply G. reflexivity. }
  induction ops as [|op ops IH]; intros b t Ht Hf; cbn [fold_left] in *; [auto|].
  apply IH with (2 := Hf). intros Hb. destruct t as [tm tw tr tl], op; cbn in *; try discriminate; auto.
Qed.

Lemma lin_place {T} (ops : list (dl_op R T)) d m :
  lt_max (lin_timing_after d m ops) = max_after m ops /\ lt_write (lin_timing_after d m ops) = write_after m ops.
Proof.
  unfold lin_timing_after, max_after, write_after.
  enough (G : forall t : lin_timing, lt_max (fold_left lin_timing_step ops t) = fst (fold_left place_step ops (lt_max t, lt_write t))
     /\ lt_write (fold_left lin_timing_step ops t) = snd (fold_left place_step ops (lt_max t, lt_write t))).
  { exact (G (LinTiming m 0 (in_range d m) (in_range d m))). }
  induction ops as [|op ops IH]; intros t; cbn [fold_left]; [split; reflexivity|].
  destruct (IH (lin_timing_step t op)) as [A B]. rewrite A, B.
  destruct t as [tm tw tr tl], op; cbn [lin_timing_step place_step lt_max lt_write]; auto.
  destruct (Z.leb_spec m0 tm); cbn [lt_max lt_write].
  - rewrite Z.max_l by lia. auto.
  - rewrite Z.max_r by lia. auto.
Qed.

(** C110: growing a [LinearDelay] whose write position is below its delay lengthens
    the latency by the growth, although [get_delay] still reports the old delay. *)
Lemma C110_linear_growth_refuted_thm :
  forall (p : profile) (d : R) (m : Z) (ops : list (dl_op R R)) (s : lin_delay R R) (mx m' : Z) (x : R),
    lin_history R_ctl R_ops p d m ops s -> lin_trusted ops -> unpeeked ops ->
    lin_get_max_delay p s = Ok mx -> (mx < m')%Z -> is_usize m' -> fits R_ops m' ->
    IZR (write_after m ops) < lin_get_delay s ->
    exists s' s2 u v,
      lin_set_max_delay R_ops p s m' = Ok s'
      /\ lin_get_delay s' = lin_get_delay s
      /\ let c := lin_get_delay s + IZR (m' - mx) in
         let k := Zfloor c in
         let f := c - IZR k in
         value_behind p s' x k u /\ value_behind p s' x (k + 1) v
         /\ lin_process R_ops p s' x = Ok (s2, (1 - f) * u + f * v).
Proof.
  intros p d m ops s mx m' x Hh Ht Hu Hmx Hgt Hus Hf Hph. assert (Hf2 := Hf). apply fits_iff in Hf2; [|exact R_size].
  assert (Hw := history_winv R_ctl R_ops p R_size d m ops s Hh).
  destruct (lin_grow_mem R_ops p R_size s m' Hw Hus ltac:(lia)) as [s' [E [_ [_ [_ [_ [_ [_ [Ed _]]]]]]]]].
  assert (Hh' : lin_history R_ctl R_ops p d m (ops ++ [DSetMaxDelay m']) s').
  { destruct Hh as [H1 [H2 [H3 [os H4]]]]. split; [exact H1|]. split; [exact H2|]. split.
    - apply Forall_app. split; [exact H3|]. constructor; [|constructor]. split; [exact Hus|].
      intros G. injection G as G. pose proof R_slots64. unfold usize_max in G. lia.
    - exists (os ++ [ONone]). unfold lin_session in *. apply bind_Ok in H4. destruct H4 as [s0 [En H4]].
      rewrite En. cbn [bind]. rewrite (lin_run_app R_ctl R_ops p), H4. cbn [bind lin_run lin_step]. rewrite E. reflexivity. }
  assert (Hu' : unpeeked (ops ++ [DSetMaxDelay m'])).
  { unfold unpeeked in *. rewrite fold_left_app, Hu. reflexivity. }
  destruct (C110_linear_latency_thm p d m _ s' x Hh' Hu') as [_ [_ [_ [s2 [u [v H]]]]]].
  destruct (C110_linear_latency_thm p d m ops s x Hh Hu) as [A [B _]].
  exists s', s2, u, v. split; [exact E|]. split; [exact Ed|].
  assert (El : lt_latency (lin_timing_after d m (ops ++ [DSetMaxDelay m'])) = lin_get_delay s + IZR (m' - mx)).
  { unfold lin_timing_after in *. rewrite fold_left_app. fold (lin_timing_after d m ops) in *.
    destruct (lin_place ops d m) as [P1 P2]. pose proof (trusted_latency ops d m Ht) as P3.
    rewrite A in Hmx. injection Hmx as Hmx.
    destruct (lin_timing_after d m ops) as [tm tw tr tl]. cbn [fold_left lin_timing_step lt_max lt_write lt_reported lt_latency] in *.
    replace (m' <=? tm)%Z with false by lia. cbn [lt_latency].
    rewrite <- P2, B, <- P3 in Hph. destruct (Rle_dec tl (IZR tw)); [lra|]. rewrite B, P3, Hmx. reflexivity. }
  rewrite El in H. exact H.
Qed.
(*@PROP
(* new(2.5, 4), one sample, set_max_delay(9): the latency is 7.5 from here on *)
Example C110_linear_growth_refuted_hyps (a : R) :
  exists s, lin_history R_ctl R_ops Debug (5 / 2) 4 [DProcess a] s
    /\ lin_trusted [@DProcess R R a] /\ unpeeked [@DProcess R R a]
    /\ is_usize 9 /\ fits R_ops 9
    /\ IZR (write_after 4 [@DProcess R R a]) < lin_get_delay s.
Proof.
  destruct (wit_R (5 / 2) 4 [DProcess a]) as [s [H1 H2]]; [lia|lra|repeat constructor| |exact I|].
  - repeat constructor; discriminate.
  - exists s. split; [exact H1|]. split; [reflexivity|]. split; [reflexivity|]. split; [easy|]. split; [discriminate|].
    rewrite H2. change (write_after 4 [@DProcess R R a]) with 1%Z. lra.
Qed.
@*)
