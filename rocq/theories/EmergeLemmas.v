(** Lemmas behind property C15 for [LinearDelay].  The [@PROP] blocks are copied into
    [PropEmerge.v]. *)
(*@PROP
(** Property C15 for [LinearDelay], in exact arithmetic.

    Vocabulary: [lin_history K O p d m ops s]: [LinearDelay::new(d, m)] followed by the calls
    [ops] completed and left [s]; [lin_run]: further calls; [lin_trusted ops]: no growth since the
    delay was set; [unpeeked ops]: no [next_out] since the last [process] ([LinRun]);
    [hat z] = max 0 (1 - |z|) ([HatSpec]). *)
From Coq Require Import ZArith Reals List Bool Lia Lra.
From Flocq Require Import Core.Core.
From Verif Require Import Base Num NumR DelayM LinDelayM DelaySpec DelayRun LinSpec LinRun HatSpec LinLemmas2 LinTapLemmas EmergeLemmas.
Import ListNotations.
Open Scope Z_scope.
@*)
From Coq Require Import ZArith Reals List Bool Lia Lra ZifyBool.
From Flocq Require Import Core.Core.
From Verif Require Import Base BaseLemmas Num NumR DelayM LinDelayM DelaySpec DelayRun
  DelayProofs PlaceSpec LinSpec LinRun LinInv HatSpec LinFacts LinLemmas2 LinTapLemmas.
Import ListNotations.
Open Scope Z_scope.


Lemma lin_process_frame {C T} (O : num_ops T) p (s s' : lin_delay C T) x y :
  lin_process O p s x = Ok (s', y) -> ld_delay s' = ld_delay s /\ vlen (ld_memory s') = vlen (ld_memory s).
Proof.
  unfold lin_process. intros E. apply bind_Ok in E. destruct E as [mem [E1 E]].
  apply bind_Ok in E. destruct E as [w1 [_ E]]. apply bind_Ok in E. destruct E as [w2 [_ E]].
  apply bind_Ok in E. destruct E as [[s2 o] [E2 E]].
  assert (L : vlen mem = vlen (ld_memory s)) by exact (vset_length _ _ _ _ E1).
  assert (F : ld_delay s2 = ld_delay s /\ ld_memory s2 = mem).
  { unfold lin_next_out in E2. cbn [ld_do_next_out ld_memory ld_read ld_next_out ld_delay] in E2.
    destruct (ld_do_next_out s).
    - repeat (apply bind_Ok in E2; destruct E2 as [? [_ E2]]). injection E2 as <- _. split; reflexivity.
    - injection E2 as <- _. split; reflexivity. }
  destruct F as [F1 F2].
  apply bind_Ok in E. destruct E as [r1 [_ E]]. apply bind_Ok in E. destruct E as [r2 [_ E]].
  injection E as <- _. cbn [ld_delay ld_memory]. rewrite F2. split; assumption.
Qed.

Lemma history_snoc {C T} (K : ctl_ops C T) (O : num_ops T) p d m ops (s s' : lin_delay C T) op o :
  lin_history K O p d m ops s -> lin_sane op -> lin_step K O p s op = Ok (s', o) ->
  lin_history K O p d m (ops ++ [op]) s'.
Proof.
  intros [H1 [H2 [H3 [os H4]]]] Hop E. split; [exact H1|]. split; [exact H2|].
  split; [apply Forall_app; split; [exact H3|repeat constructor; apply Hop]|].
  unfold lin_session in *. apply bind_Ok in H4. destruct H4 as [s0 [En H4]].
  eexists. rewrite En. cbn [bind]. rewrite (lin_run_app K O p), H4. cbn [bind lin_run]. rewrite E. reflexivity.
Qed.

(** Two lines that differ by [dv] at the tap [tau] and nowhere else. *)
Definition differ (p : profile) (mx : Z) (a b : lin_delay R R) (tau : Z) (dv : R) : Prop :=
  forall j, 0 <= j <= mx -> exists w, lin_tap_out p a j = Ok w
    /\ lin_tap_out p b j = Ok (w + (if j =? tau then dv else 0))%R.

Lemma value_differ p mx a b tau dv x k u v : differ p mx a b tau dv -> 0 <= tau -> 0 <= k <= mx + 1 ->
  value_behind p a x k u -> value_behind p b x k v -> (v - u = if k =? tau + 1 then dv else 0)%R.
Proof.
  intros Hd Ht Hk. unfold value_behind. destruct (k =? 0) eqn:Ek.
  - intros -> ->. replace (k =? tau + 1) with false by lia. ring.
  - intros Ha Hb. destruct (Hd (k - 1)) as [w [Ea Eb]]; [lia|]. rewrite Ea in Ha. rewrite Eb in Hb.
    injection Ha as <-. injection Hb as <-. replace (k =? tau + 1) with (k - 1 =? tau) by lia.
    destruct (k - 1 =? tau); ring.
Qed.

Lemma hat_weights (c : R) (tau : Z) (dv : R) :
  let k := Zfloor c in let f := (c - IZR k)%R in
  ((1 - f) * (if (k =? tau + 1)%Z then dv else 0) + f * (if (k + 1 =? tau + 1)%Z then dv else 0)
   = dv * hat (c - IZR tau - 1))%R.
Proof.
  intros k f. assert (F1 := Zfloor_lb c). assert (F2 := Zfloor_ub c). fold k in F1, F2.
  assert (Ec : (c = IZR k + f)%R) by (unfold f; ring). assert (Hf : (0 <= f < 1)%R) by (unfold f; lra).
  clearbody f. unfold hat. rewrite Ec.
  destruct (k =? tau + 1)%Z eqn:E1.
  - replace (k + 1 =? tau + 1)%Z with false by lia. replace k with (tau + 1)%Z by lia. rewrite plus_IZR.
    replace (IZR tau + 1 + f - IZR tau - 1)%R with f by ring. rewrite Rabs_pos_eq, Rmax_right by lra. ring.
  - destruct (k + 1 =? tau + 1)%Z eqn:E2.
    + replace k with tau by lia. replace (IZR tau + f - IZR tau - 1)%R with (- (1 - f))%R by ring.
      rewrite Rabs_Ropp, Rabs_pos_eq, Rmax_right by lra. ring.
    + rewrite Rmax_left; [ring|].
      destruct (Z_le_gt_dec k (tau - 1)) as [L|L].
      * apply IZR_le in L. rewrite minus_IZR in L. rewrite Rabs_left1 by lra. lra.
      * assert (L2 : (tau + 2 <= k)%Z) by lia. apply IZR_le in L2. rewrite plus_IZR in L2. rewrite Rabs_pos_eq by lra. lra.
Qed.

Lemma differ_step p mx d m ops ops' (a b : lin_delay R R) tau dv x :
  lin_history R_ctl R_ops p d m ops a -> lin_history R_ctl R_ops p d m ops' b ->
  lin_get_max_delay p a = Ok mx -> lin_get_max_delay p b = Ok mx -> lin_get_delay b = lin_get_delay a ->
  lin_trusted ops -> unpeeked ops -> lin_trusted ops' -> unpeeked ops' ->
  0 <= tau -> differ p mx a b tau dv ->
  exists a' b' y z, lin_process R_ops p a x = Ok (a', y) /\ lin_process R_ops p b x = Ok (b', z)
    /\ (z - y = dv * hat (lin_get_delay a - IZR tau - 1))%R
    /\ lin_get_max_delay p a' = Ok mx /\ lin_get_max_delay p b' = Ok mx
    /\ lin_get_delay a' = lin_get_delay a /\ lin_get_delay b' = lin_get_delay a
    /\ differ p mx a' b' (tau + 1) dv.
Proof.
  intros Ha Hb Ma Mb Hg T1 U1 T2 U2 Ht Hd.
  destruct (C22_mid_stream_thm p d m ops a mx x Ha Ma T1 U1) as [Hc [a' [u [v [A1 [A2 Ea]]]]]].
  destruct (C22_mid_stream_thm p d m ops' b mx x Hb Mb T2 U2) as [_ [b' [u' [v' [B1 [B2 Eb]]]]]].
  rewrite Hg in B1, B2, Eb. set (c := lin_get_delay a) in *.
  assert (Hk1 : 0 <= Zfloor c) by (apply Zfloor_lub; lra).
  assert (Hk2 : Zfloor c <= mx) by (apply le_IZR; apply Rle_trans with c; [apply Zfloor_lb|lra]).
  assert (D1 := value_differ p mx a b tau dv x (Zfloor c) u u' Hd Ht ltac:(lia) A1 B1).
  assert (D2 := value_differ p mx a b tau dv x (Zfloor c + 1) v v' Hd Ht ltac:(lia) A2 B2).
  destruct (lin_process_frame _ _ _ _ _ _ Ea) as [Fa La]. destruct (lin_process_frame _ _ _ _ _ _ Eb) as [Fb Lb].
  exists a', b', ((1 - (c - IZR (Zfloor c))) * u + (c - IZR (Zfloor c)) * v)%R,
    ((1 - (c - IZR (Zfloor c))) * u' + (c - IZR (Zfloor c)) * v')%R.
  split; [exact Ea|]. split; [exact Eb|]. split.
  { assert (W := hat_weights c tau dv). cbv zeta in W. rewrite <- W, <- D1, <- D2. ring. }
  unfold lin_get_max_delay in *. rewrite La, Lb. split; [exact Ma|]. split; [exact Mb|].
  split; [exact Fa|]. split; [unfold lin_get_delay in *; rewrite Fb; exact Hg|].
  destruct (C13_linear_process_shifts_taps_thm R R R_ctl R_ops p d m ops a a' x _ ltac:(discriminate) Ha Ea) as [N1 [m1 [M1 S1]]].
  destruct (C13_linear_process_shifts_taps_thm R R R_ctl R_ops p d m ops' b b' x _ ltac:(discriminate) Hb Eb) as [N2 [m2 [M2 S2]]].
  unfold lin_get_max_delay in *. rewrite Ma in M1. injection M1 as <-. rewrite Mb in M2. injection M2 as <-.
  intros j Hj. destruct (Z.eq_dec j 0) as [->|Hj0].
  - exists x. split; [exact N1|]. rewrite N2. replace (0 =? tau + 1) with false by lia. f_equal. ring.
  - destruct (Hd (j - 1)) as [w [E1 E2]]; [lia|]. exists w.
    assert (Q1 := S1 (j - 1) ltac:(lia)). assert (Q2 := S2 (j - 1) ltac:(lia)). replace (j - 1 + 1) with j in Q1, Q2 by lia.
    rewrite Q1, Q2. split; [exact E1|]. rewrite E2. replace (j - 1 =? tau) with (j =? tau + 1) by lia. reflexivity.
Qed.

Lemma differ_run p mx d m dv xs : forall ops ops' (a b : lin_delay R R) tau,
  lin_history R_ctl R_ops p d m ops a -> lin_history R_ctl R_ops p d m ops' b ->
  lin_get_max_delay p a = Ok mx -> lin_get_max_delay p b = Ok mx -> lin_get_delay b = lin_get_delay a ->
  lin_trusted ops -> unpeeked ops -> lin_trusted ops' -> unpeeked ops' ->
  0 <= tau -> differ p mx a b tau dv ->
  exists a' ys b' zs, lin_run R_ctl R_ops p a (map DProcess xs) = Ok (a', map OSample ys)
    /\ lin_run R_ctl R_ops p b (map DProcess xs) = Ok (b', map OSample zs)
    /\ forall n, (n < length xs)%nat -> (nth n zs 0 - nth n ys 0 = dv * hat (lin_get_delay a - IZR tau - 1 - INR n))%R.
Proof.
  induction xs as [|x xs IH]; intros ops ops' a b tau Ha Hb Ma Mb Hg T1 U1 T2 U2 Ht Hd.
  - exists a, [], b, []. split; [reflexivity|]. split; [reflexivity|]. intros n Hn. inversion Hn.
  - destruct (differ_step p mx d m ops ops' a b tau dv x Ha Hb Ma Mb Hg T1 U1 T2 U2 Ht Hd)
      as [a' [b' [y [z [Ea [Eb [D [M1 [M2 [G1 [G2 Hd']]]]]]]]]]].
    assert (Sane : @lin_sane R R (DProcess x)) by (split; [exact I|discriminate]).
    assert (Sa : lin_step R_ctl R_ops p a (DProcess x) = Ok (a', OSample y)) by (cbn [lin_step]; rewrite Ea; reflexivity).
    assert (Sb : lin_step R_ctl R_ops p b (DProcess x) = Ok (b', OSample z)) by (cbn [lin_step]; rewrite Eb; reflexivity).
    destruct (IH (ops ++ [DProcess x]) (ops' ++ [DProcess x]) a' b' (tau + 1)) as [a2 [ys [b2 [zs [Ra [Rb H]]]]]].
    + exact (history_snoc _ _ _ _ _ _ _ _ _ _ Ha Sane Sa).
    + exact (history_snoc _ _ _ _ _ _ _ _ _ _ Hb Sane Sb).
    + exact M1.
    + exact M2.
    + rewrite G1, G2. reflexivity.
    + unfold lin_trusted in *. rewrite fold_left_app, T1. reflexivity.
    + unfold unpeeked in *. rewrite fold_left_app, U1. reflexivity.
    + unfold lin_trusted in *. rewrite fold_left_app, T2. reflexivity.
    + unfold unpeeked in *. rewrite fold_left_app, U2. reflexivity.
    + lia.
    + exact Hd'.
    + exists a2, (y :: ys), b2, (z :: zs). cbn [map lin_run]. rewrite Sa, Sb. cbn [bind]. rewrite Ra, Rb. cbn [bind].
      split; [reflexivity|]. split; [reflexivity|]. intros n Hn. destruct n as [|n].
      * cbn [nth INR]. rewrite D. f_equal. f_equal. ring.
      * cbn [nth]. cbn [length] in Hn. rewrite H by lia. rewrite G1, plus_IZR, S_INR. f_equal. f_equal. ring.
Qed.

Lemma history_max p d m ops (s : lin_delay R R) : lin_history R_ctl R_ops p d m ops s ->
  lin_get_max_delay p s = Ok (max_after m ops).
Proof.
  intros H. rewrite (winv_get_max R_ops p ltac:(discriminate) s (history_winv R_ctl R_ops p ltac:(discriminate) d m ops s H)).
  destruct (history_place R_ctl R_ops p ltac:(discriminate) d m ops s H) as [E _]. rewrite E. f_equal. lia.
Qed.

(** C15: a value [v] tapped in [t] positions back, in place of [u], changes the following outputs
    by [v - u] times a triangle around the moment [get_delay() - t - 1] samples from now.  With a
    whole delay that is one sample, as for [Delay]; otherwise two, with the weights 1 - f and f;
    nothing when the delay has passed it already. *)
Lemma C15_linear_tapped_value_emerges_thm :
  forall (p : profile) (d : R) (m : Z) (ops : list (dl_op R R)) (s s1 : lin_delay R R)
         (mx t : Z) (u v : R) (xs : list R),
    lin_history R_ctl R_ops p d m ops s -> lin_trusted ops -> unpeeked ops ->
    lin_get_max_delay p s = Ok mx -> 0 <= t <= mx ->
    lin_tap_out p s t = Ok u -> lin_tap_in p s v t = Ok s1 ->
    exists s' ys s1' ys1,
      lin_run R_ctl R_ops p s (map DProcess xs) = Ok (s', map OSample ys)
      /\ lin_run R_ctl R_ops p s1 (map DProcess xs) = Ok (s1', map OSample ys1)
      /\ forall n, (n < length xs)%nat ->
         (nth n ys1 0 - nth n ys 0 = (v - u) * hat (lin_get_delay s - IZR t - 1 - INR n))%R.
Proof.
  intros p d m ops s s1 mx t u v xs Hh Ht Hu Hmx Hr Eo Ei.
  destruct (C14_linear_tap_in_edits_one_thm R R R_ctl R_ops p d m ops s mx t v ltac:(discriminate) Hh Hmx Hr)
    as [s1' [E [H1 [H2 [H3 [H4 _]]]]]]. rewrite Ei in E. injection E as <-.
  assert (Sane : @lin_sane R R (DTapIn v t)).
  { split; [|discriminate]. cbn. assert (Hw := history_winv R_ctl R_ops p ltac:(discriminate) d m ops s Hh).
    assert (HL := get_max_winv R_ops p ltac:(discriminate) s mx Hw Hmx). destruct Hw as [Hl _].
    pose proof (max_slots_lt R_ops ltac:(discriminate)). unfold is_usize, two63, two64, usize_max in *. lia. }
  apply (differ_run p mx d m (v - u) xs ops (ops ++ [DTapIn v t]) s s1 t).
  - exact Hh.
  - refine (history_snoc _ _ _ _ _ _ _ _ (DTapIn v t) ONone Hh Sane _). cbn [lin_step]. rewrite Ei. reflexivity.
  - exact Hmx.
  - exact H3.
  - exact H4.
  - exact Ht.
  - exact Hu.
  - unfold lin_trusted in *. rewrite fold_left_app, Ht. reflexivity.
  - unfold unpeeked in *. rewrite fold_left_app, Hu. reflexivity.
  - lia.
  - intros j Hj. destruct (Z.eq_dec j t) as [->|Hne].
    + exists u. split; [exact Eo|]. rewrite Z.eqb_refl, H1. f_equal. ring.
    + destruct (C14_linear_add_to_edits_one_thm R R R_ctl R_ops p d m ops s mx j 0%R ltac:(discriminate) Hh Hmx Hj) as [q [w [Ew _]]].
      exists w. split; [exact Ew|]. rewrite H2 by assumption. rewrite Ew. replace (j =? t) with false by lia. f_equal. ring.
Qed.

(*@PROP
Example C15_linear_tapped_value_emerges_hyps (a b : R) :
  exists s s1, lin_history R_ctl R_ops Debug (5 / 2)%R 7 [DProcess a; DProcess b] s
    /\ lin_get_max_delay Debug s = Ok 7 /\ lin_tap_out Debug s 1 = Ok a /\ lin_tap_in Debug s b 1 = Ok s1
    /\ (hat (5 / 2 - 1 - 1 - 0) = / 2 /\ hat (5 / 2 - 1 - 1 - 1) = / 2)%R.
Proof.
  destruct (C22_refines_ideal_thm Debug (5 / 2) 7 [DProcess a; DProcess b]) as [s [os [_ [E _]]]].
  - easy.
  - discriminate.
  - repeat constructor; easy.
  - cbn. repeat split; discriminate.
  - assert (H : lin_history R_ctl R_ops Debug (5 / 2)%R 7 (map DProcess [a; b]) s).
    { split; [easy|]. split; [discriminate|]. split; [repeat constructor; easy|]. exists os. exact E. }
    assert (M := history_max Debug _ _ _ _ H). cbn in M.
    assert (T := C13_linear_tap_out_reads_back_thm R R R_ctl R_ops Debug _ _ _ s 1 ltac:(discriminate) H ltac:(lia)).
    destruct (C14_linear_tap_in_edits_one_thm R R R_ctl R_ops Debug _ _ _ s 7 1 b ltac:(discriminate) H M ltac:(lia)) as [s1 [E1 _]].
    exists s, s1. split; [exact H|]. split; [exact M|]. split; [exact T|]. split; [exact E1|].
    unfold hat. split.
    + rewrite Rabs_pos_eq, Rmax_right; lra.
    + rewrite Rabs_left1, Rmax_right; lra.
Qed.
@*)
