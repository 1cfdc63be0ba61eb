(** Proofs of the properties of [LinearDelay], continued (C25-C27, C69). *)
From Coq Require Import ZArith Reals List Bool Lia Lra ZifyBool ZifyNat.
From Flocq Require Import Core.Core IEEE754.BinarySingleNaN.
From Verif Require Import Base BaseLemmas Num NumR NumF FloatFacts DelayM LinDelayM DelaySpec DelayRun DelayProofs
  LinSpec LinRun LinFloatSpec LinSame LinProofs LinCtlR LinCtlF LinInv LinFacts LinFloat LinLemmas2.
Import ListNotations.
Open Scope Z_scope.

(*@PROP
(** Properties C25-C27 and C69: [LinearDelay], peeking, and agreement with [Delay].

    Vocabulary as in [PropLin2]; [same_call], [same_obs], [same_line_call] and
    [same_tap_obs] are in [LinSame]. *)
From Coq Require Import ZArith Reals List Bool Lia Lra.
From Flocq Require Import Core.Core IEEE754.BinarySingleNaN.
From Verif Require Import Base Num NumR NumF Witness DelayM LinDelayM DelaySpec DelayRun
  LinSpec LinRun LinFloatSpec BaseLemmas LinSame LinLemmas2 LinLemmas3 LinWit.
Import ListNotations.
Open Scope R_scope.
@*)

Section Peek.
  Context {C T : Type} (K : ctl_ops C T) (O : num_ops T) (p : profile).
  Local Notation zero := (n_zero O).
  Hypothesis Hsize : 1 <= n_size_of O.

  Definition blendm (mem : list T) (r : Z) (al om : T) : T :=
    n_add O (n_mul O (nth (Z.to_nat r) mem zero) om)
      (n_mul O (nth (if S (Z.to_nat r) <? length mem then S (Z.to_nat r) else 0)%nat mem zero) al).

  Definition peeked (s : lin_delay C T) (v : T) : lin_delay C T :=
    MkLin (ld_memory s) (ld_output s) (ld_read s) (ld_write s) (ld_delay s) false v (ld_alpha s) (ld_om_alpha s).

  Lemma next_out_m (s : lin_delay C T) : lin_inv O s -> ld_do_next_out s = true ->
    let v := blendm (ld_memory s) (ld_read s) (ld_alpha s) (ld_om_alpha s) in
    lin_next_out O p s = Ok (peeked s v, v).
  Proof.
    intros Hi Hn v. rewrite (next_out_ok O p Hsize s Hi Hn).
    destruct Hi as [Hl Hw Hr Hd]. cbn [dl_of dl_memory dl_write dl_read dl_delay] in *.
    unfold age. fold (age (length (ld_memory s)) (Z.to_nat (ld_write s)) (Z.to_nat (ld_read s))).
    rewrite blend_ring by (unfold vlen in *; lia). reflexivity.
  Qed.

  Definition stepped (s : lin_delay C T) (x y : T) : lin_delay C T :=
    MkLin (list_set (ld_memory s) (Z.to_nat (ld_write s)) x) y ((ld_read s + 1) mod vlen (ld_memory s))
      ((ld_write s + 1) mod vlen (ld_memory s)) (ld_delay s) true y (ld_alpha s) (ld_om_alpha s).

  Lemma process_m (s : lin_delay C T) x : lin_inv O s ->
    let y := if ld_do_next_out s
             then blendm (list_set (ld_memory s) (Z.to_nat (ld_write s)) x) (ld_read s) (ld_alpha s) (ld_om_alpha s)
             else ld_next_out s in
    lin_process O p s x = Ok (stepped s x y, y).
  Proof.
    intros Hi y. assert (Hi0 := Hi). destruct Hi as [Hl Hw Hr Hd]. pose proof (max_slots_lt O Hsize) as Hms.
    cbn [dl_of dl_memory dl_write dl_read dl_delay] in *.
    unfold lin_process. rewrite vset_ok by lia. cbn [bind].
    set (mem' := list_set (ld_memory s) (Z.to_nat (ld_write s)) x) in *.
    assert (HL : vlen mem' = vlen (ld_memory s)) by apply list_set_vlen.
    unfold uadd at 1. rewrite chk_usize_ok by (unfold two63, two64 in *; lia). cbn [bind].
    rewrite urem_ok by lia. cbn [bind]. rewrite HL.
    assert (Hw' := Z.mod_pos_bound (ld_write s + 1) (vlen (ld_memory s)) ltac:(lia)).
    set (s1 := MkLin mem' _ _ _ _ _ _ _ _).
    assert (Hi1 : lin_inv O s1).
    { constructor; cbn [dl_of s1 dl_memory ld_memory dl_write ld_write dl_read ld_read dl_delay]; lia. }
    assert (E : lin_next_out O p s1 = Ok (peeked s1 y, y)).
    { destruct (ld_do_next_out s) eqn:En.
      - rewrite (next_out_m s1 Hi1 eq_refl). reflexivity.
      - unfold lin_next_out. cbn [s1 ld_do_next_out ld_next_out]. reflexivity. }
    rewrite E. cbn [bind peeked s1 ld_read ld_memory].
    unfold uadd. rewrite chk_usize_ok by (unfold two63, two64 in *; lia). cbn [bind].
    rewrite HL, urem_ok by lia. reflexivity.
  Qed.

  (** The value read before and after a push that does not touch the slots read. *)
  Lemma blendm_far (s : lin_delay C T) x : lin_inv O s -> 2 <= llag s ->
    blendm (list_set (ld_memory s) (Z.to_nat (ld_write s)) x) (ld_read s) (ld_alpha s) (ld_om_alpha s)
    = blendm (ld_memory s) (ld_read s) (ld_alpha s) (ld_om_alpha s).
  Proof.
    intros [Hl Hw Hr Hd] HL. cbn [dl_of dl_memory dl_write dl_read dl_delay] in *.
    unfold llag, lag_of in HL. unfold blendm, vlen in *. rewrite list_set_length.
    rewrite !nth_list_set_neq; [reflexivity| |].
    - destruct (Nat.ltb_spec (S (Z.to_nat (ld_read s))) (length (ld_memory s)));
        destruct (Z.leb_spec (ld_read s) (ld_write s)); lia.
    - destruct (Z.leb_spec (ld_read s) (ld_write s)); lia.
  Qed.

  (** At lag 1 only the newer value is affected. *)
  Lemma blendm_near (s : lin_delay C T) x : lin_inv O s -> llag s = 1 ->
    exists a b b', blendm (list_set (ld_memory s) (Z.to_nat (ld_write s)) x) (ld_read s) (ld_alpha s) (ld_om_alpha s)
      = n_add O (n_mul O a (ld_om_alpha s)) (n_mul O b (ld_alpha s))
    /\ blendm (ld_memory s) (ld_read s) (ld_alpha s) (ld_om_alpha s)
      = n_add O (n_mul O a (ld_om_alpha s)) (n_mul O b' (ld_alpha s))
    /\ In a (ld_memory s) /\ In b' (ld_memory s) /\ b = x.
  Proof.
    intros [Hl Hw Hr Hd] HL. cbn [dl_of dl_memory dl_write dl_read dl_delay] in *.
    unfold llag, lag_of in HL. unfold blendm, vlen in *. rewrite list_set_length.
    eexists. eexists. eexists. split; [|split; [reflexivity|]].
    - rewrite (nth_list_set_neq _ _ (Z.to_nat (ld_read s))); [reflexivity|].
      destruct (Z.leb_spec (ld_read s) (ld_write s)); lia.
    - split; [apply nth_In; lia|]. split.
      + apply nth_In. destruct (Nat.ltb_spec (S (Z.to_nat (ld_read s))) (length (ld_memory s))); lia.
      + replace (if (S (Z.to_nat (ld_read s)) <? length (ld_memory s))%nat then S (Z.to_nat (ld_read s)) else 0%nat)
          with (Z.to_nat (ld_write s)); [apply nth_list_set_eq; lia|].
        destruct (Nat.ltb_spec (S (Z.to_nat (ld_read s))) (length (ld_memory s)));
        destruct (Z.leb_spec (ld_read s) (ld_write s)); lia.
  Qed.

  Lemma peek_then (s : lin_delay C T) x v : lin_inv O s ->
    lin_process O p (peeked s v) x = Ok (stepped s x v, v).
  Proof. intros Hi. rewrite (process_m (peeked s v) x); [reflexivity|exact Hi]. Qed.

  Lemma peek_far (s : lin_delay C T) x : lin_inv O s -> ld_do_next_out s = true -> 2 <= llag s ->
    exists s1 s2 v, lin_next_out O p s = Ok (s1, v)
      /\ lin_process O p s x = Ok (s2, v) /\ lin_process O p s1 x = Ok (s2, v).
  Proof.
    intros Hi Hn HL. eexists. eexists. eexists. split; [apply (next_out_m s Hi Hn)|].
    split; [|apply peek_then; exact Hi].
    rewrite (process_m s x Hi), Hn, (blendm_far s x Hi HL). reflexivity.
  Qed.

  (** Steps other than [process] keep a pending peek. *)
  Lemma pending_step (s : lin_delay C T) op s' o v :
    ld_do_next_out s = false -> ld_next_out s = v -> (forall x, op <> DProcess x) ->
    lin_step K O p s op = Ok (s', o) -> ld_do_next_out s' = false /\ ld_next_out s' = v.
  Proof.
    intros Hn Hv Hop E. destruct op as [x| |d|m| | | | |t|u t|u t]; cbn [lin_step] in E.
    - now elim (Hop x).
    - injection E as <- _. split; assumption.
    - apply bind_Ok in E. destruct E as [t [E F]]. injection F as <- _.
      unfold lin_set_delay, lin_set_delay_fuel in E.
      apply bind_Ok in E. destruct E as [mx [_ E]]. apply bind_Ok in E. destruct E as [pos [_ E]].
      injection E as <-. split; assumption.
    - apply bind_Ok in E. destruct E as [t [E F]]. injection F as <- _.
      unfold lin_set_max_delay in E. destruct (m <? vlen (ld_memory s)); [injection E as <-; split; assumption|].
      apply bind_Ok in E. destruct E as [mx [_ E]]. apply bind_Ok in E. destruct E as [mm [_ E]].
      injection E as <-. split; assumption.
    - injection E as <- _. split; assumption.
    - apply bind_Ok in E. destruct E as [t [_ F]]. injection F as <- _. split; assumption.
    - unfold lin_next_out in E. rewrite Hn in E. cbn [bind] in E. injection E as <- _. split; assumption.
    - injection E as <- _. split; assumption.
    - apply bind_Ok in E. destruct E as [y [_ F]]. injection F as <- _. split; assumption.
    - apply bind_Ok in E. destruct E as [y [E F]]. injection F as <- _. unfold lin_tap_in in E.
      apply bind_Ok in E. destruct E as [tp [_ E]]. apply bind_Ok in E. destruct E as [mm [_ E]].
      injection E as <-. split; assumption.
    - apply bind_Ok in E. destruct E as [[y r] [E F]]. injection F as <- _. unfold lin_add_to in E.
      apply bind_Ok in E. destruct E as [tp [_ E]]. apply bind_Ok in E. destruct E as [old [_ E]].
      apply bind_Ok in E. destruct E as [mm [_ E]]. apply bind_Ok in E. destruct E as [r' [_ E]].
      injection E as <- _. split; assumption.
  Qed.

  Lemma pending_run ops : forall (s s' : lin_delay C T) os v,
    ld_do_next_out s = false -> ld_next_out s = v -> Forall (fun op => forall x, op <> DProcess x) ops ->
    lin_run K O p s ops = Ok (s', os) -> ld_do_next_out s' = false /\ ld_next_out s' = v.
  Proof.
    induction ops as [|op ops IH]; intros s s' os v Hn Hv Ho E; cbn [lin_run] in E.
    - injection E as <- _. split; assumption.
    - inversion Ho; subst. apply bind_Ok in E. destruct E as [[s1 o] [E1 E]].
      apply bind_Ok in E. destruct E as [[s2 os2] [E2 E]]. injection E as <- _.
      destruct (pending_step s op s1 o _ Hn eq_refl ltac:(assumption) E1) as [A B].
      destruct (IH s1 s2 os2 _ A B ltac:(assumption) E2) as [A2 B2]. split; [exact A2|congruence].
  Qed.
End Peek.

Open Scope R_scope.

(** C25: in exact arithmetic, with a delay of at least one sample, a peek with
    [next_out] before [process(x)] changes nothing: it announces the sample that
    [process(x)] returns with or without the peek, and the line ends up the same. *)
Lemma C25_peek_harmless_thm :
  forall (p : profile) (d : R) (m : Z) (ops : list (dl_op R R)) (s : lin_delay R R) (x : R),
    lin_history R_ctl R_ops p d m ops s -> lin_trusted ops -> unpeeked ops ->
    1 <= lin_get_delay s ->
    exists s1 s2 v, lin_next_out R_ops p s = Ok (s1, v)
      /\ lin_process R_ops p s x = Ok (s2, v) /\ lin_process R_ops p s1 x = Ok (s2, v).
Proof.
  intros p d m ops s x Hh Ht Hu Hd.
  assert (Hw := history_winv R_ctl R_ops p R_size d m ops s Hh).
  assert (Hmx := winv_get_max R_ops p R_size s Hw).
  destruct (history_state_R p d m ops s _ Hh Hmx Ht) as [Hi [HL [Hc [Hlag [Hal [Hom Hn]]]]]].
  specialize (Hn Hu). set (c := lin_get_delay s) in *.
  destruct (Z_le_gt_dec 2 (Zceil c)) as [H2|H2].
  - apply (peek_far R_ops p R_size s x Hi Hn). rewrite Hlag. exact H2.
  - assert (Hc1 : Zceil c = 1%Z).
    { assert (1 <= Zceil c)%Z; [|lia]. apply le_IZR. apply Rle_trans with (1 := Hd). apply Zceil_ub. }
    rewrite Hc1 in *. assert (Hc2 : c = 1).
    { apply Rle_antisym; [|exact Hd]. assert (G := Zceil_ub c). rewrite Hc1 in G. exact G. }
    destruct (blendm_near R_ops s x Hi Hlag) as [a [b [b' [E1 [E2 _]]]]].
    assert (Ha0 : ld_alpha s = 0) by (rewrite Hal, Hc2; ring).
    assert (Eq : blendm R_ops (list_set (ld_memory s) (Z.to_nat (ld_write s)) x) (ld_read s) (ld_alpha s) (ld_om_alpha s)
              = blendm R_ops (ld_memory s) (ld_read s) (ld_alpha s) (ld_om_alpha s)).
    { rewrite E1, E2, Ha0. cbn [n_add n_mul R_ops]. ring. }
    eexists. eexists. eexists. split; [apply (next_out_m R_ops p R_size s Hi Hn)|].
    split; [|apply (peek_then R_ops p R_size); exact Hi].
    rewrite (process_m R_ops p R_size s x Hi), Hn, Eq. reflexivity.
Qed.
(*@PROP
Example C25_peek_harmless_hyps (a b : R) :
  exists s, lin_history R_ctl R_ops Debug (5 / 2) 7 [DProcess a; DTapIn b 3; DProcess b] s
    /\ lin_trusted [@DProcess R R a; DTapIn b 3; DProcess b]
    /\ unpeeked [@DProcess R R a; DTapIn b 3; DProcess b] /\ 1 <= lin_get_delay s.
Proof.
  destruct (wit_R (5 / 2) 7 [DProcess a; DTapIn b 3; DProcess b]) as [s [H E]]; try easy.
  - lra.
  - repeat constructor; intros; easy.
  - repeat constructor; intros; discriminate.
  - exists s. repeat (split; [easy|]). rewrite E. lra.
Qed.
@*)

(** C25, floats: with a reported delay of at least two samples the peek is
    harmless bit for bit. *)
Lemma C25_peek_harmless_float_thm :
  forall (T : Type) (K : ctl_ops f32 T) (O : num_ops T) (val : T -> R) (fin : T -> bool) (rnd : R -> R)
         (p : profile) (d : f32) (m : Z) (ops : list (dl_op f32 T)) (s : lin_delay f32 T) (mx : Z) (x : T),
    float_line K O val fin rnd ->
    lin_history K O p d m ops s -> lin_trusted ops -> unpeeked ops ->
    lin_get_max_delay p s = Ok mx -> (mx < 2 ^ 24)%Z ->
    is_finite (lin_get_delay s) = true -> 2 <= B2R (lin_get_delay s) ->
    exists s1 s2 v, lin_next_out O p s = Ok (s1, v)
      /\ lin_process O p s x = Ok (s2, v) /\ lin_process O p s1 x = Ok (s2, v).
Proof.
  intros T K O val fin rnd p d m ops s mx x HFL Hh Ht Hu Hmx Hlim Hfin Hd.
  assert (HF := float_line_fline _ _ _ _ _ HFL). assert (Hsize := fl_size _ _ _ _ _ HF).
  destruct (history_state K O val fin rnd HF p d m ops s mx Hh Ht Hu Hmx Hlim Hfin)
    as [Hi [Hn [_ [Hc [w [Hwr [Hlag _]]]]]]].
  apply (peek_far O p Hsize s x Hi Hn). rewrite Hlag.
  apply (lag32_ge (mx + 1) w (B2R (lin_get_delay s)) 2); [lia|lia| |exact Hd]. rewrite plus_IZR. lra.
Qed.
(*@PROP
Example C25_peek_harmless_float_hyps (a b : f32) :
  exists s, lin_history f32_ctl_f32 O32 Debug (fl32 3 (-1)) 7 ([DProcess a; DTapIn b 3; DProcess b] ++ [DSetDelay (fl32 5 (-1))]) s
    /\ lin_get_max_delay Debug s = Ok 7%Z
    /\ is_finite (lin_get_delay s) = true /\ 2 <= B2R (lin_get_delay s).
Proof.
  destruct (wit_set (fl32 3 (-1)) (fl32 5 (-1)) 7 [DProcess a; DTapIn b 3; DProcess b]) as [s [H [H1 [H2 _]]]].
  - easy.
  - repeat constructor; intros; easy.
  - cbn; repeat split; easy.
  - repeat constructor; intros; discriminate.
  - exists s. repeat (split; [easy|]). destruct (H2 ltac:(discriminate)) as [H3 H4]. split; [exact H3|].
    rewrite H4. cbn. unfold clipR, F2R; cbn. rewrite Rmin_left, Rmax_right by lra. lra.
Qed.
@*)

(** The integer-delay control arithmetic is exact. *)
Lemma pos32_int len w k : (1 <= len <= 2 ^ 24)%Z -> (0 <= w < len)%Z -> (0 <= k < len)%Z ->
  let r := (if k <=? w then w - k else w - k + len)%Z in
  pos32 len w (IZR k) = IZR r /\ read32 len w (IZR k) = r.
Proof.
  intros Hl Hw Hk r.
  assert (E : pos32 len w (IZR k) = IZR r).
  { unfold pos32, r. rewrite <- minus_IZR.
    assert (Ei : forall n, (Z.abs n <= 2 ^ 24)%Z -> RN32 (IZR n) = IZR n)
      by (intros n Hn; apply (RN_id 24 128), (format_IZR 24 128), Hn).
    rewrite Ei by lia. destruct (Z.leb_spec k w).
    - rewrite Rlt_bool_false by (apply IZR_le; lia). reflexivity.
    - rewrite Rlt_bool_true by (apply IZR_lt; lia). rewrite <- plus_IZR. apply Ei. lia. }
  split; [exact E|]. unfold read32. rewrite E, Zfloor_IZR. unfold r.
  destruct (Z.eqb_spec (if k <=? w then w - k else w - k + len)%Z len) as [G|G]; [|reflexivity].
  destruct (Z.leb_spec k w); lia.
Qed.

(** C25, floats, with a reported delay of exactly one sample and finite samples the
    peek does not change the value of the output. *)
Lemma C25_peek_same_value_thm :
  forall (T : Type) (K : ctl_ops f32 T) (O : num_ops T) (val : T -> R) (fin : T -> bool) (rnd : R -> R)
         (p : profile) (d : f32) (m : Z) (ops : list (dl_op f32 T)) (s : lin_delay f32 T) (mx : Z) (x : T),
    float_line K O val fin rnd ->
    lin_history K O p d m ops s -> lin_trusted ops -> unpeeked ops ->
    lin_get_max_delay p s = Ok mx -> (mx < 2 ^ 24)%Z ->
    is_finite (lin_get_delay s) = true -> B2R (lin_get_delay s) = 1 ->
    (forall t v, (0 <= t <= mx)%Z -> lin_tap_out p s t = Ok v -> fin v = true) -> fin x = true ->
    exists s1 s2 s3 v y, lin_next_out O p s = Ok (s1, v)
      /\ lin_process O p s x = Ok (s2, y) /\ lin_process O p s1 x = Ok (s3, v)
      /\ fin y = true /\ fin v = true /\ val y = val v.
Proof.
  intros T K O val fin rnd p d m ops s mx x HFL Hh Ht Hu Hmx Hlim Hfin Hd Hall Hx.
  assert (HF := float_line_fline _ _ _ _ _ HFL). assert (Hsize := fl_size _ _ _ _ _ HF).
  destruct (history_state K O val fin rnd HF p d m ops s mx Hh Ht Hu Hmx Hlim Hfin)
    as [Hi [Hn [HL [Hc [w [Hwr [Hlag [Fa [Va [Fo Vo]]]]]]]]]].
  rewrite Hd in Hc, Hlag, Va.
  assert (Hmx1 : (1 <= mx)%Z) by (apply le_IZR; lra).
  destruct (pos32_int (mx + 1) w 1 ltac:(lia) ltac:(lia) ltac:(lia)) as [P1 P2].
  rewrite P1, P2, Rminus_diag_eq in Va by reflexivity.
  rewrite Va, Rminus_0_r in Vo. rewrite (fl_int _ _ _ _ _ HF 1) in Vo by lia.
  assert (HL1 : llag s = 1%Z).
  { rewrite Hlag. unfold lag32. rewrite P2. destruct (Z.leb_spec 1 w).
    - replace (w - (w - 1))%Z with 1%Z by ring. apply Z.mod_small. lia.
    - replace (w - (w - 1 + (mx + 1)))%Z with (1 + (-1) * (mx + 1))%Z by ring.
      rewrite Z_mod_plus_full. apply Z.mod_small. lia. }
  destruct (blendm_near O s x Hi HL1) as [a [b [b' [E1 [E2 [I1 [I2 ->]]]]]]].
  assert (Hmem : forall u, In u (ld_memory s) -> fin u = true).
  { intros u Hin. assert (Hin2 : In u (ring_hist (ld_memory s) (Z.to_nat (ld_write s)))).
    { unfold ring_hist. rewrite <- rev_app_distr, <- in_rev. rewrite in_app_iff.
      rewrite <- (firstn_skipn (Z.to_nat (ld_write s)) (ld_memory s)), in_app_iff in Hin. tauto. }
    apply (In_nth _ _ (n_zero O)) in Hin2. destruct Hin2 as [t [Htl Etn]]. rewrite ring_hist_length in Htl.
    apply (Hall (Z.of_nat t)); [unfold vlen in HL; lia|].
    change (lin_tap_out p s (Z.of_nat t)) with (delay_tap_out p (dl_of s) (Z.of_nat t)).
    rewrite (refine_tap_out O p Hsize (dl_of s) (Z.of_nat t) Hi) by (cbn [dl_of dl_memory]; unfold vlen; lia).
    rewrite Nat2Z.id. cbn [dl_abs l_hist dl_of dl_memory dl_write]. rewrite Etn. reflexivity. }
  destruct (fl_blend0 _ _ _ _ _ HF a x (ld_om_alpha s) (ld_alpha s) (Hmem a I1) Hx Fo Fa Vo Va) as [F1 V1].
  destruct (fl_blend0 _ _ _ _ _ HF a b' (ld_om_alpha s) (ld_alpha s) (Hmem a I1) (Hmem b' I2) Fo Fa Vo Va) as [F2 V2].
  eexists. eexists. eexists. eexists. eexists.
  split; [apply (next_out_m O p Hsize s Hi Hn)|].
  split; [rewrite (process_m O p Hsize s x Hi), Hn; reflexivity|].
  split; [apply (peek_then O p Hsize); exact Hi|].
  rewrite E1, E2. split; [exact F1|]. split; [exact F2|]. congruence.
Qed.
(*@PROP
Example C25_peek_same_value_hyps (a b : f32) :
  is_finite a = true -> is_finite b = true ->
  exists s, lin_history f32_ctl_f32 O32 Debug (fl32 3 (-1)) 7 ([DProcess a; DTapIn b 3; DProcess b] ++ [DSetDelay (fl32 1 0)]) s
    /\ lin_get_max_delay Debug s = Ok 7%Z
    /\ is_finite (lin_get_delay s) = true /\ B2R (lin_get_delay s) = 1
    /\ (forall t v, (0 <= t <= 7)%Z -> lin_tap_out Debug s t = Ok v -> is_finite v = true).
Proof.
  intros Ha Hb.
  destruct (wit_set (fl32 3 (-1)) (fl32 1 0) 7 [DProcess a; DTapIn b 3; DProcess b]) as [s [H [H1 [H2 _]]]].
  - easy.
  - repeat constructor; intros; easy.
  - cbn; repeat split; easy.
  - repeat constructor; intros; discriminate.
  - exists s. repeat (split; [easy|]). destruct (H2 ltac:(discriminate)) as [H3 H4]. split; [exact H3|]. split.
    + rewrite H4. cbn. unfold clipR, F2R; cbn. rewrite Rmin_left, Rmax_right by lra. lra.
    + intros t v _. apply (mem_taps f32_ctl_f32 O32 Debug (fun v => is_finite v = true) eq_refl _ _ _ s t v H).
      repeat constructor; assumption.
Qed.
@*)

(** C25, the exception: in exact arithmetic, with a delay below one sample, peeking
    changes the output for some sample. *)
Lemma C25_peek_stale_refuted_thm :
  forall (p : profile) (d : R) (m : Z) (ops : list (dl_op R R)) (s : lin_delay R R),
    lin_history R_ctl R_ops p d m ops s -> lin_trusted ops -> unpeeked ops ->
    lin_get_delay s < 1 ->
    exists s1 v, lin_next_out R_ops p s = Ok (s1, v)
      /\ exists x s2 s3 y, lin_process R_ops p s1 x = Ok (s2, v)
                         /\ lin_process R_ops p s x = Ok (s3, y) /\ y <> v.
Proof.
  intros p d m ops s Hh Ht Hu Hd.
  assert (Hw := history_winv R_ctl R_ops p R_size d m ops s Hh).
  assert (Hmx := winv_get_max R_ops p R_size s Hw).
  destruct (history_state_R p d m ops s _ Hh Hmx Ht) as [Hi [HL [Hc [Hlag [Hal [Hom Hn]]]]]].
  specialize (Hn Hu). set (c := lin_get_delay s) in *.
  set (v := blendm R_ops (ld_memory s) (ld_read s) (ld_alpha s) (ld_om_alpha s)).
  exists (peeked s v), v. split; [apply (next_out_m R_ops p R_size s Hi Hn)|]. clearbody v.
  assert (Hdec : exists x s3 y, lin_process R_ops p s x = Ok (s3, y) /\ y <> v).
  { destruct (Req_dec c 0) as [Hc0|Hc0].
    - (* delay 0: the output is x *)
      assert (Z0 : Zceil c = 0%Z) by (rewrite Hc0; apply (Zceil_IZR 0)).
      rewrite Z0, Hc0 in *.
      destruct (process_blend R_ops p R_size s (v + 1) Hi Hn) as [s3 [older [newer [E [H1 [H2 _]]]]]].
      rewrite Hlag in H1. unfold value_behind in H1. change (0 =? 0)%Z with true in H1. cbn iota in H1. subst older.
      exists (v + 1), s3. eexists. split; [exact E|]. rewrite Hal, Hom. cbn [n_add n_mul R_ops]. intros G. lra.
    - assert (Z1 : Zceil c = 1%Z).
      { apply Zceil_imp. split; simpl; lra. }
      rewrite Z1 in *.
      destruct (process_blend R_ops p R_size s 0 Hi Hn) as [s3 [older [newer [E [H1 [H2 _]]]]]].
      destruct (process_blend R_ops p R_size s 1 Hi Hn) as [s4 [older' [newer' [E' [H1' [H2' _]]]]]].
      rewrite Hlag in H1, H2, H1', H2'. unfold value_behind in H1, H2, H1', H2'. cbn in H2, H2'.
      change (1 =? 0)%Z with false in H1, H1'. rewrite H1 in H1'. injection H1' as <-. subst newer newer'.
      rewrite Hal, Hom in E, E'. cbn [n_add n_mul R_ops] in E, E'.
      destruct (Req_dec (older * (1 - (1 - c)) + 0 * (1 - c)) v) as [G|G].
      + exists 1, s4. eexists. split; [exact E'|]. intros G'. lra.
      + exists 0, s3. eexists. split; [exact E|exact G]. }
  destruct Hdec as [x [s3 [y [E Hy]]]].
  exists x. eexists. exists s3, y. split; [apply (peek_then R_ops p R_size s x v Hi)|]. split; assumption.
Qed.
(*@PROP
Example C25_peek_stale_refuted_hyps (a b : R) :
  exists s, lin_history R_ctl R_ops Debug (1 / 2) 7 [DProcess a; DTapIn b 3; DProcess b] s
    /\ lin_trusted [@DProcess R R a; DTapIn b 3; DProcess b]
    /\ unpeeked [@DProcess R R a; DTapIn b 3; DProcess b] /\ lin_get_delay s < 1.
Proof.
  destruct (wit_R (1 / 2) 7 [DProcess a; DTapIn b 3; DProcess b]) as [s [H E]]; try easy.
  - lra.
  - repeat constructor; intros; easy.
  - repeat constructor; intros; discriminate.
  - exists s. repeat (split; [easy|]). rewrite E. lra.
Qed.
@*)

(** C26: once [next_out] has been called, the next [process] returns the peeked
    value, whatever calls other than [process] come in between. *)
Lemma C26_pending_peek_thm :
  forall (C T : Type) (K : ctl_ops C T) (O : num_ops T) (p : profile)
         (s s1 s2 s3 : lin_delay C T) (ops : list (dl_op C T)) (os : list (obs C T)) (x v y : T),
    lin_next_out O p s = Ok (s1, v) ->
    Forall (fun op => forall x, op <> DProcess x) ops ->
    lin_run K O p s1 ops = Ok (s2, os) ->
    lin_process O p s2 x = Ok (s3, y) ->
    y = v.
Proof.
  intros C T K O p s s1 s2 s3 ops os x v y E1 Ho E2 E3.
  assert (H1 : ld_do_next_out s1 = false /\ ld_next_out s1 = v).
  { unfold lin_next_out in E1. destruct (ld_do_next_out s) eqn:En.
    - apply bind_Ok in E1. destruct E1 as [m0 [_ E1]]. apply bind_Ok in E1. destruct E1 as [l [_ E1]].
      apply bind_Ok in E1. destruct E1 as [w [_ E1]]. injection E1 as <- <-. split; reflexivity.
    - injection E1 as <- <-. split; [exact En|reflexivity]. }
  destruct (pending_run K O p ops s1 s2 os v (proj1 H1) (proj2 H1) Ho E2) as [A B].
  unfold lin_process in E3. apply bind_Ok in E3. destruct E3 as [mm [_ E3]].
  apply bind_Ok in E3. destruct E3 as [w1 [_ E3]]. apply bind_Ok in E3. destruct E3 as [w2 [_ E3]].
  unfold lin_next_out in E3. cbn [ld_do_next_out ld_next_out] in E3. rewrite A in E3. cbn [bind] in E3.
  apply bind_Ok in E3. destruct E3 as [r1 [_ E3]]. apply bind_Ok in E3. destruct E3 as [r2 [_ E3]].
  injection E3 as _ E3. congruence.
Qed.
(*@PROP
(* the hypotheses are met on every new line *)
Example C26_pending_peek_hyps (a b : R) :
  exists s1 s2 s3 v os y,
    (let* s0 := lin_new R_ctl R_ops Debug 1 7 in lin_next_out R_ops Debug s0) = Ok (s1, v)
    /\ Forall (fun op => forall x, op <> DProcess x) [@DClear R R; DSetDelay 3; DTapIn a 2; DNextOut]
    /\ lin_run R_ctl R_ops Debug s1 [DClear; DSetDelay 3; DTapIn a 2; DNextOut] = Ok (s2, os)
    /\ lin_process R_ops Debug s2 b = Ok (s3, y).
Proof.
  destruct (C22_refines_ideal_thm Debug 1 7 [DNextOut; DClear; DSetDelay 3; DTapIn a 2; DNextOut; DProcess b])
    as [s [os [_ [E _]]]]; [easy|discriminate|repeat constructor; easy|cbn; repeat split; discriminate|].
  unfold lin_session in E. destruct (lin_new R_ctl R_ops Debug 1 7) as [s0| |]; try discriminate.
  cbn [bind] in *. change [DNextOut; DClear; DSetDelay 3; DTapIn a 2; DNextOut; DProcess b]
    with ([@DNextOut R R] ++ [DClear; DSetDelay 3; DTapIn a 2; DNextOut] ++ [DProcess b]) in E.
  rewrite LinFacts.lin_run_app in E.
  apply bind_Ok in E. destruct E as [[s1 o1] [E1 E]]. apply bind_Ok in E. destruct E as [[t1 q1] [E E']]. clear E'.
  rewrite LinFacts.lin_run_app in E. apply bind_Ok in E. destruct E as [[s2 o2] [E2 E]]. apply bind_Ok in E. destruct E as [[t3 q3] [E E']]. clear E'.
  cbn [lin_run lin_step] in E1. apply bind_Ok in E1. destruct E1 as [[u1 r1] [E1 F]].
  apply bind_Ok in E1. destruct E1 as [[u2 v] [E1 F']]. injection F' as <- <-. injection F as <- _.
  cbn [lin_run lin_step] in E. apply bind_Ok in E. destruct E as [[w1 r2] [E _]].
  apply bind_Ok in E. destruct E as [[s3 y] [E _]].
  exists u2, s2, s3, v, o2, y. split; [exact E1|]. split; [repeat constructor; discriminate|].
  split; [exact E2|exact E].
Qed.
@*)

(** C26, the consequence: on a line with a delay of one sample, [process(a)], a
    peek, [clear] and [process(b)] returns [a], the sample that was cleared. *)
Lemma C26_clear_keeps_peek_refuted_thm :
  forall (p : profile) (m : Z) (a b : R),
    (1 <= m)%Z -> fits R_ops m ->
    exists s, lin_session R_ctl R_ops p 1 m [DProcess a; DNextOut; DClear; DProcess b]
      = Ok (s, [OSample 0; OSample a; ONone; OSample a]).
Proof.
  intros p m a b Hm Hf. assert (Hfs := Hf). apply fits_R in Hfs. pose proof R_slots64 as H64.
  destruct (C22_refines_ideal_thm p 1 m [DProcess a; DNextOut; DClear; DProcess b]) as [s [os [i [E F]]]].
  - unfold is_usize. lia.
  - exact Hf.
  - repeat constructor.
  - exact I.
  - exists s. rewrite E. do 2 f_equal. clear E s.
    unfold ilin_new, ilin_aim, ideal_aim in F.
    assert (HS : slots (line_new 0 0 (Z.to_nat m)) = S (Z.to_nat m)).
    { unfold slots, line_new. cbn [l_hist]. apply repeat_length. }
    rewrite HS in F.
    assert (Ec : Rmax 0 (Rmin 1 (INR (S (Z.to_nat m)) - 1)) = 1).
    { rewrite S_INR, INR_IZR_INZ, Z2Nat.id by lia.
      assert (1 <= IZR m) by (apply IZR_le; exact Hm).
      rewrite Rmin_left, Rmax_right by lra. reflexivity. }
    rewrite Ec in F. rewrite (Zceil_IZR 1) in F. change (Z.to_nat 1) with 1%nat in F.
    destruct (Z.to_nat m) as [|m'] eqn:Em; [lia|].
    cbn [line_new l_hist repeat l_phase] in F.
    cbn [ilin_run ilin_step ilin_process ilin_next fst snd i_peek i_line i_new i_old i_delay l_hist l_lag l_phase
      l_delay l_last with_line line_clear] in F.
    unfold blend in F. cbn [push nth length firstn removelast] in F.
    injection F as _ F. subst os. repeat f_equal; ring.
Qed.
(*@PROP
Example C26_clear_keeps_peek_refuted_hyps : (1 <= 7)%Z /\ fits R_ops 7.
Proof. split; discriminate. Qed.
@*)

(** ** Agreement with [Delay] *)
Ltac blia := repeat match goal with H : _ = true |- _ => clear H | H : _ = false |- _ => clear H | H : _ /\ _ |- _ => destruct H | H : @eq R _ _ |- _ => clear H end; lia.

Section Same.
  Context {T : Type} (K : ctl_ops f32 T) (O : num_ops T) (val : T -> R) (fin : T -> bool) (rnd : R -> R).
  Hypothesis HF : fline K O val fin rnd.
  Context (p : profile).
  Local Notation Hsize := (fl_size _ _ _ _ _ HF).

  Record sim (s : lin_delay f32 T) (t : delay T) : Prop := {
    sim_mem : ld_memory s = dl_memory t;
    sim_write : ld_write s = dl_write t;
    sim_read : ld_read s = dl_read t;
    sim_next : ld_do_next_out s = true;
    sim_fa : fin (ld_alpha s) = true;
    sim_va : val (ld_alpha s) = 0;
    sim_fo : fin (ld_om_alpha s) = true;
    sim_vo : val (ld_om_alpha s) = 1;
    sim_fin : List.Forall (fun v => fin v = true) (ld_memory s);
    sim_out : fin (ld_output s) = true /\ fin (dl_output t) = true /\ val (ld_output s) = val (dl_output t);
    sim_del : is_finite (ld_delay s) = true /\ B2R (ld_delay s) = IZR (dl_delay t);
    sim_inv : lin_inv O s;
    sim_dinv : dl_inv O t;
    sim_len : (vlen (ld_memory s) <= 2 ^ 24)%Z
  }.

  (** [set_delay] on both. *)
  Lemma sim_ctl len w d k : (1 <= len <= 2 ^ 24)%Z -> (0 <= w < len)%Z -> is_finite d = true -> B2R d = IZR k -> (0 <= k)%Z ->
    let k' := (if len - 1 <? k then len - 1 else k)%Z in
    let r := (if k' <=? w then w - k' else w - k' + len)%Z in
    exists dt a, ctl K len w d = Ok (dt, r, a) /\ is_finite dt = true /\ B2R dt = IZR k'
      /\ is_finite a = true /\ B2R a = 0.
  Proof.
    intros Hl Hw Hf Hv Hk k' r.
    assert (Hn : d <> B754_nan) by (intros ->; discriminate).
    destruct (fl_ctl K O val fin rnd HF len w d Hl Hw Hn) as [dt [a [E [Df [Dv [Af Av]]]]]].
    assert (Ec : clip32 d (IZR len - 1) = IZR k').
    { rewrite clip32_finite, Hv by exact Hf. unfold clipR, k'. replace (IZR len - 1) with (IZR (len - 1)) by (rewrite minus_IZR; reflexivity).
      destruct (Z.ltb_spec (len - 1) k).
      - rewrite Rmin_right by (apply IZR_le; blia). apply Rmax_right. apply IZR_le. blia.
      - rewrite Rmin_left by (apply IZR_le; blia). apply Rmax_right. apply IZR_le. blia. }
    rewrite Ec in *. assert (Hk' : (0 <= k' < len)%Z) by (unfold k'; destruct (Z.ltb_spec (len - 1) k); blia).
    destruct (pos32_int len w k' Hl Hw Hk') as [P1 P2]. fold r in P1, P2. rewrite P2 in E. rewrite P1, P2 in Av.
    exists dt, a. repeat split; try assumption. rewrite Av. ring.
  Qed.

  Lemma sim_set s t d k : sim s t -> is_finite d = true -> B2R d = IZR k -> is_usize k ->
    exists s' t', lin_set_delay K O p s d = Ok s' /\ delay_set_delay p t k = Ok t' /\ sim s' t'.
  Proof.
    intros [M W R N A1 A2 A3 A4 Fm So Sd I J L] Hf Hv Hk. unfold is_usize in Hk.
    assert (I0 := I). destruct I as [Il Iw Ir Id]. cbn [dl_of dl_memory dl_write dl_read dl_delay] in Il, Iw, Ir, Id.
    pose proof (max_slots_lt O Hsize) as Hms.
    destruct (sim_ctl (vlen (ld_memory s)) (ld_write s) d k ltac:(blia) Iw Hf Hv ltac:(blia)) as [dt [a [E [Df [Dv [Af Av]]]]]].
    rewrite lin_set_delay_ctl by (unfold two63, two64 in *; blia). rewrite E. cbn [bind].
    eexists. eexists. split; [reflexivity|]. rewrite M, W in *.
    set (k' := (if vlen (dl_memory t) - 1 <? k then vlen (dl_memory t) - 1 else k)%Z) in *.
    assert (Hk' : (0 <= k' < vlen (dl_memory t))%Z) by (unfold k'; destruct (Z.ltb_spec (vlen (dl_memory t) - 1) k); blia).
    split.
    { unfold delay_set_delay. unfold usub at 1. rewrite chk_usize_ok by (unfold two63, two64 in *; blia). cbn [bind].
      fold k'.
      assert (Er : (if (k' <=? dl_write t)%Z then usub p (dl_write t) k'
        else let* t0 := uadd p (vlen (dl_memory t)) (dl_write t) in usub p t0 k')
        = Ok (if (k' <=? dl_write t)%Z then dl_write t - k' else dl_write t - k' + vlen (dl_memory t))%Z).
      { destruct (Z.leb_spec k' (dl_write t)).
        - unfold usub. rewrite chk_usize_ok by (unfold two63, two64 in *; blia). reflexivity.
        - unfold uadd. rewrite chk_usize_ok by (unfold two63, two64 in *; blia). cbn [bind].
          unfold usub. rewrite chk_usize_ok by (unfold two63, two64 in *; blia). f_equal. ring. }
      rewrite Er. cbn [bind]. reflexivity. }
    destruct (fl_cast _ _ _ _ _ HF a Af) as [C1 C2].
    destruct (fl_om _ _ _ _ _ HF (c_cast K a) C1) as [C3 C4].
    { rewrite C2, Av, Rminus_0_r, Rabs_R1. apply IZR_le. blia. }
    assert (Hr : (0 <= (if k' <=? dl_write t then dl_write t - k' else dl_write t - k' + vlen (dl_memory t)) < vlen (dl_memory t))%Z)
      by (destruct (Z.leb_spec k' (dl_write t)); blia).
    constructor; cbn [ld_memory ld_output ld_read ld_write ld_delay ld_do_next_out ld_alpha ld_om_alpha
      dl_memory dl_write dl_read dl_delay dl_output]; auto.
    - rewrite C2. exact Av.
    - rewrite C4, C2, Av, Rminus_0_r. apply (fl_int _ _ _ _ _ HF 1). blia.
    - constructor; cbn [dl_of dl_memory dl_write dl_read dl_delay ld_memory ld_write ld_read]; auto.
    - constructor; cbn [dl_of dl_memory dl_write dl_read dl_delay ld_memory ld_write ld_read]; auto.
  Qed.

  Lemma sim_process s t x : sim s t -> fin x = true ->
    exists s' t' y z, lin_process O p s x = Ok (s', y) /\ delay_process p t x = Ok (t', z) /\ sim s' t'
      /\ fin y = true /\ fin z = true /\ val y = val z.
  Proof.
    intros [M W R N A1 A2 A3 A4 Fm So Sd I J L] Hx.
    assert (I0 := I). destruct I as [Il Iw Ir Id]. cbn [dl_of dl_memory dl_write dl_read dl_delay] in Il, Iw, Ir, Id.
    pose proof (max_slots_lt O Hsize) as Hms.
    set (mem' := list_set (ld_memory s) (Z.to_nat (ld_write s)) x).
    assert (HL : vlen mem' = vlen (ld_memory s)) by apply list_set_vlen.
    assert (Fm' : List.Forall (fun v => fin v = true) mem').
    { unfold mem'. rewrite list_set_split by (unfold vlen in *; blia).
      rewrite <- (firstn_skipn (Z.to_nat (ld_write s)) (ld_memory s)) in Fm.
      apply Forall_app in Fm. destruct Fm as [F1 F2].
      apply Forall_app. split; [exact F1|]. constructor; [exact Hx|].
      assert (Hsk : forall (n : nat) (l : list T), List.Forall (fun v => fin v = true) (skipn n l) -> List.Forall (fun v => fin v = true) (skipn (S n) l)).
      { induction n as [|n IH]; intros [|u l] H; cbn [skipn] in *; auto; first [inversion H; assumption|apply (IH l H)]. }
      apply Hsk. exact F2. }
    assert (Hnth : forall n, (n < length mem')%nat -> fin (nth n mem' (n_zero O)) = true).
    { intros n Hn. rewrite Forall_forall in Fm'. apply Fm'. apply nth_In. exact Hn. }
    assert (Hlen' : length mem' = length (ld_memory s)) by apply list_set_length.
    destruct (fl_blend0 _ _ _ _ _ HF (nth (Z.to_nat (ld_read s)) mem' (n_zero O))
      (nth (if S (Z.to_nat (ld_read s)) <? length mem' then S (Z.to_nat (ld_read s)) else 0)%nat mem' (n_zero O))
      (ld_om_alpha s) (ld_alpha s)) as [By Vy]; auto.
    { apply Hnth. unfold vlen in *. blia. }
    { apply Hnth. unfold vlen in *. destruct (Nat.ltb_spec (S (Z.to_nat (ld_read s))) (length mem')); blia. }
    fold (blendm O mem' (ld_read s) (ld_alpha s) (ld_om_alpha s)) in By, Vy.
    eexists. eexists. eexists. eexists. split; [apply (process_m O p Hsize s x I0)|]. rewrite N. fold mem'.
    split.
    { unfold delay_process. rewrite <- M, <- W, <- R. rewrite vset_ok by blia. cbn [bind]. fold mem'.
      unfold uadd at 1. rewrite chk_usize_ok by (unfold two63, two64 in *; blia). cbn [bind].
      rewrite urem_ok by blia. cbn [bind]. rewrite (vget_nth mem' (ld_read s) (n_zero O)) by blia. cbn [bind].
      unfold uadd. rewrite chk_usize_ok by (unfold two63, two64 in *; blia). cbn [bind].
      rewrite urem_ok by blia. cbn [bind]. reflexivity. }
    assert (Hz : fin (nth (Z.to_nat (ld_read s)) mem' (n_zero O)) = true) by (apply Hnth; unfold vlen in *; blia).
    split; [|auto].
    assert (Hm1 := Z.mod_pos_bound (ld_write s + 1) (vlen (ld_memory s)) ltac:(blia)).
    assert (Hm2 := Z.mod_pos_bound (ld_read s + 1) (vlen (ld_memory s)) ltac:(blia)).
    unfold stepped. fold mem'.
    constructor; cbn [ld_memory ld_output ld_read ld_write ld_delay ld_do_next_out ld_alpha ld_om_alpha
      dl_memory dl_write dl_read dl_delay dl_output]; rewrite ?HL; auto.
    - constructor; cbn [dl_of dl_memory dl_write dl_read dl_delay ld_memory ld_write ld_read]; rewrite ?HL; auto; try blia.
    - constructor; cbn [dl_of dl_memory dl_write dl_read dl_delay ld_memory ld_write ld_read]; rewrite ?HL; auto; try blia.
      destruct J as [Jl Jw Jr Jd]. rewrite M. exact Jd.
  Qed.

  Lemma tap_index_nohang w l t : tap_index p w l t <> Hang.
  Proof.
    unfold tap_index, isub, iadd, chk_isize.
    repeat match goal with
    | |- context [if ?b then _ else _] => destruct b; cbn [bind]
    | |- context [match p with Debug => _ | Release => _ end] => destruct p; cbn [bind]
    end; discriminate.
  Qed.

  Lemma sim_step s t op op' : sim s t -> same_call fin (2 ^ 24) op op' ->
    (exists s' o t' o', lin_step K O p s op = Ok (s', o) /\ dl_step O p t op' = Ok (t', o')
       /\ sim s' t' /\ same_obs fin val o o')
    \/ (lin_step K O p s op = Panic /\ dl_step O p t op' = Panic).
  Proof.
    intros S Hc. assert (S0 := S). destruct S as [M W R N A1 A2 A3 A4 Fm So Sd I J L].
    assert (I0 := I). destruct I as [Il Iw Ir Id]. cbn [dl_of dl_memory dl_write dl_read dl_delay] in Il, Iw, Ir, Id.
    pose proof (max_slots_lt O Hsize) as Hms.
    destruct Hc as [x Hx| |d k Hf Hv Hk|m Hm Hl| | | |tp Ht|v tp Hv Ht]; cbn [lin_step dl_step].
    - left. destruct (sim_process s t x S0 Hx) as [s' [t' [y [z [E1 [E2 [Ss [Fy [Fz V]]]]]]]]].
      rewrite E1, E2. cbn [bind]. do 4 eexists. split; [reflexivity|]. split; [reflexivity|].
      split; [exact Ss|]. constructor; assumption.
    - left. do 4 eexists. split; [reflexivity|]. split; [reflexivity|]. split; [|constructor].
      assert (HL : vlen (map (fun _ : T => n_zero O) (ld_memory s)) = vlen (ld_memory s)) by (unfold vlen; rewrite map_length; reflexivity).
      destruct (fl_zero _ _ _ _ _ HF) as [Z1 Z2]. destruct J as [Jl Jw Jr Jd].
      unfold lin_clear, delay_clear.
      constructor; cbn [ld_memory ld_output ld_read ld_write ld_delay ld_do_next_out ld_alpha ld_om_alpha
        dl_memory dl_write dl_read dl_delay dl_output]; rewrite ?HL; auto.
      + rewrite M. reflexivity.
      + apply Forall_forall. intros u Hu. apply in_map_iff in Hu. destruct Hu as [? [<- _]]. exact Z1.
      + constructor; cbn [dl_of dl_memory dl_write dl_read dl_delay ld_memory ld_write ld_read]; rewrite ?HL; auto.
      + constructor; cbn [dl_of dl_memory dl_write dl_read dl_delay ld_memory ld_write ld_read]; rewrite <- M, ?HL, M; auto.
    - left. destruct (sim_set s t d k S0 Hf Hv Hk) as [s' [t' [E1 [E2 Ss]]]]. rewrite E1, E2. cbn [bind].
      do 4 eexists. split; [reflexivity|]. split; [reflexivity|]. split; [exact Ss|constructor].
    - left. unfold is_usize in Hm. unfold lin_set_max_delay, delay_set_max_delay. rewrite M in *.
      destruct (Z.ltb_spec m (vlen (dl_memory t))).
      + cbn [bind]. do 4 eexists. split; [reflexivity|]. split; [reflexivity|]. split; [exact S0|constructor].
      + unfold uadd. rewrite chk_usize_ok by (unfold two64; blia). cbn [bind].
        unfold vec_resize. replace (m + 1 <=? vlen (dl_memory t))%Z with false by blia.
        rewrite alloc_ok_iff by exact Hsize. pose proof (fl_fits _ _ _ _ _ HF) as Hfit.
        replace (m + 1 <=? DelayRun.max_slots O)%Z with true by blia. cbn [bind].
        do 4 eexists. split; [reflexivity|]. split; [reflexivity|]. split; [|constructor].
        set (g := Z.to_nat (m + 1 - vlen (dl_memory t))).
        assert (HL : vlen (dl_memory t ++ repeat (n_zero O) g) = (m + 1)%Z).
        { unfold g, vlen. rewrite app_length, repeat_length. unfold vlen in *. blia. }
        destruct (fl_zero _ _ _ _ _ HF) as [Z1 Z2]. destruct J as [Jl Jw Jr Jd].
        constructor; cbn [ld_memory ld_output ld_read ld_write ld_delay ld_do_next_out ld_alpha ld_om_alpha
          dl_memory dl_write dl_read dl_delay dl_output]; rewrite ?HL; auto.
        * apply Forall_app. split; [exact Fm|]. apply Forall_forall. intros u Hu. apply repeat_spec in Hu. subst u. exact Z1.
        * constructor; cbn [dl_of dl_memory dl_write dl_read dl_delay ld_memory ld_write ld_read]; rewrite ?HL; blia.
        * constructor; cbn [dl_of dl_memory dl_write dl_read dl_delay ld_memory ld_write ld_read]; rewrite ?HL; blia.
    - left. do 4 eexists. split; [reflexivity|]. split; [reflexivity|]. split; [exact S0|].
      unfold lin_get_delay, delay_get_delay. destruct Sd as [D1 D2]. constructor; assumption.
    - left. unfold lin_get_max_delay, delay_get_max_delay, usub. rewrite M, chk_usize_ok by (rewrite <- M; unfold two63, two64 in *; blia).
      cbn [bind]. do 4 eexists. split; [reflexivity|]. split; [reflexivity|]. split; [exact S0|constructor].
    - left. do 4 eexists. split; [reflexivity|]. split; [reflexivity|]. split; [exact S0|].
      destruct So as [S1 [S2 S3]]. constructor; assumption.
    - unfold lin_tap_out, delay_tap_out. rewrite M, W in *.
      pose proof (tap_index_nohang (dl_write t) (vlen (dl_memory t)) tp) as Hnh.
      destruct (tap_index p (dl_write t) (vlen (dl_memory t)) tp) as [i| |]; [|right; split; reflexivity|now elim Hnh].
      cbn [bind]. destruct (Z_le_gt_dec 0 i) as [H0|H0]; [destruct (Z_lt_ge_dec i (vlen (dl_memory t))) as [H1|H1]|].
      + left. rewrite (vget_nth _ _ (n_zero O)) by blia. cbn [bind].
        do 4 eexists. split; [reflexivity|]. split; [reflexivity|]. split; [exact S0|].
        assert (Hin : fin (nth (Z.to_nat i) (dl_memory t) (n_zero O)) = true).
        { rewrite Forall_forall in Fm. apply Fm, nth_In. unfold vlen in *. blia. }
        constructor; auto.
      + right. rewrite vget_out by blia. split; reflexivity.
      + right. rewrite vget_out by blia. split; reflexivity.
    - unfold lin_tap_in, delay_tap_in. rewrite M, W in *.
      pose proof (tap_index_nohang (dl_write t) (vlen (dl_memory t)) tp) as Hnh.
      destruct (tap_index p (dl_write t) (vlen (dl_memory t)) tp) as [i| |]; [|right; split; reflexivity|now elim Hnh].
      cbn [bind]. destruct (Z_le_gt_dec 0 i) as [H0|H0]; [destruct (Z_lt_ge_dec i (vlen (dl_memory t))) as [H1|H1]|].
      + left. rewrite vset_ok by blia. cbn [bind].
        do 4 eexists. split; [reflexivity|]. split; [reflexivity|]. split; [|constructor].
        assert (HL := list_set_vlen (dl_memory t) (Z.to_nat i) v). destruct J as [Jl Jw Jr Jd].
        constructor; cbn [ld_memory ld_output ld_read ld_write ld_delay ld_do_next_out ld_alpha ld_om_alpha
          dl_memory dl_write dl_read dl_delay dl_output]; rewrite ?HL; auto.
        * apply Forall_forall. intros u Hu. apply (In_nth _ _ (n_zero O)) in Hu. destruct Hu as [n [Hn <-]].
          rewrite list_set_length in Hn. destruct (Nat.eq_dec (Z.to_nat i) n) as [<-|Hne].
          -- rewrite nth_list_set_eq by exact Hn. exact Hv.
          -- rewrite nth_list_set_neq by exact Hne. rewrite Forall_forall in Fm. apply Fm, nth_In, Hn.
        * constructor; cbn [dl_of dl_memory dl_write dl_read dl_delay ld_memory ld_write ld_read]; rewrite ?HL; blia.
        * constructor; cbn [dl_of dl_memory dl_write dl_read dl_delay ld_memory ld_write ld_read]; rewrite ?HL; blia.
      + right. rewrite vset_out by blia. split; reflexivity.
      + right. rewrite vset_out by blia. split; reflexivity.
  Qed.

  Lemma sim_run ops ops' : Forall2 (same_call fin (2 ^ 24)) ops ops' -> forall s t, sim s t ->
    (exists s' os t' os', lin_run K O p s ops = Ok (s', os) /\ dl_run O p t ops' = Ok (t', os')
       /\ Forall2 (same_obs fin val) os os')
    \/ (lin_run K O p s ops = Panic /\ dl_run O p t ops' = Panic).
  Proof.
    induction 1 as [|op op' ops ops' Hc Hcs IH]; intros s t S; cbn [lin_run dl_run].
    - left. do 4 eexists. split; [reflexivity|]. split; [reflexivity|constructor].
    - destruct (sim_step s t op op' S Hc) as [[s' [o [t' [o' [E1 [E2 [S' Ho]]]]]]]|[E1 E2]]; rewrite E1, E2; cbn [bind].
      + destruct (IH s' t' S') as [[s2 [os [t2 [os' [F1 [F2 Hos]]]]]]|[F1 F2]]; rewrite F1, F2; cbn [bind].
        * left. do 4 eexists. split; [reflexivity|]. split; [reflexivity|]. constructor; assumption.
        * right. split; reflexivity.
      + right. split; reflexivity.
  Qed.

  Lemma sim_new d k m : is_finite d = true -> B2R d = IZR k -> is_usize k -> (0 <= m < 2 ^ 24)%Z ->
    exists s t, lin_new K O p d m = Ok s /\ delay_new O p k m = Ok t /\ sim s t.
  Proof.
    intros Hf Hv Hk Hm. unfold is_usize in Hk. pose proof (fl_fits _ _ _ _ _ HF) as Hfit.
    set (k1 := (if m <? k then m else k)%Z).
    destruct (fl_gen _ _ _ _ _ HF) as [cast EK].
    assert (Hnan : d <> B754_nan) by (intros ->; discriminate).
    assert (Hm64 : (0 <= m < two64)%Z) by (unfold two64; blia).
    destruct (clip_f32 cast d m Hm64 Hnan) as [F1 V1]. rewrite <- EK in F1, V1.
    rewrite RN32_small, clip32_finite, Hv in V1 by (assumption || blia).
    assert (Ek : clipR (IZR k) (IZR m) = IZR k1).
    { unfold clipR, k1. destruct (Z.ltb_spec m k).
      - rewrite Rmin_right by (apply IZR_le; blia). apply Rmax_right. apply IZR_le. blia.
      - rewrite Rmin_left by (apply IZR_le; blia). apply Rmax_right. apply IZR_le. blia. }
    rewrite Ek in V1.
    unfold lin_new, lin_new_fuel. fold (lin_set_delay K O p). unfold delay_new. fold k1.
    unfold uadd. rewrite chk_usize_ok by (unfold two64; blia). cbn [bind].
    unfold vec_repeat. rewrite alloc_ok_iff by exact Hsize.
    replace (m + 1 <=? DelayRun.max_slots O)%Z with true by blia. cbn [bind].
    assert (HL : vlen (repeat (n_zero O) (Z.to_nat (m + 1))) = (m + 1)%Z) by (unfold vlen; rewrite repeat_length; blia).
    (* the state before [set_delay] is not yet a simulation: the weights are zero *)
    destruct (sim_ctl (vlen (repeat (n_zero O) (Z.to_nat (m + 1)))) 0 (clip_delay K d m) k1
      ltac:(rewrite HL; blia) ltac:(rewrite HL; blia) F1 V1 ltac:(unfold k1; destruct (Z.ltb_spec m k); blia))
      as [dt [a [E [Df [Dv [Af Av]]]]]].
    rewrite lin_set_delay_ctl by (cbn [ld_memory]; rewrite HL; unfold two64; blia).
    cbn [ld_memory ld_write ld_output ld_do_next_out ld_next_out]. rewrite E. cbn [bind].
    assert (Hk1 : (0 <= k1 <= m)%Z) by (unfold k1; destruct (Z.ltb_spec m k); blia).
    rewrite HL in *. replace (m + 1 - 1 <? k1)%Z with false in * by blia.
    unfold delay_set_delay. cbn [dl_memory dl_write dl_output]. rewrite HL.
    unfold usub at 1. rewrite chk_usize_ok by (unfold two64; blia). cbn [bind].
    replace (m + 1 - 1 <? k1)%Z with false by blia.
    assert (Er : (if (k1 <=? 0)%Z then usub p 0 k1
        else let* t0 := chk_usize p (m + 1 + 0) in usub p t0 k1)
        = Ok (if (k1 <=? 0)%Z then 0 - k1 else 0 - k1 + (m + 1))%Z).
    { destruct (Z.leb_spec k1 0).
      - unfold usub. rewrite chk_usize_ok by (unfold two64; blia). reflexivity.
      - rewrite chk_usize_ok by (unfold two64; blia). cbn [bind].
        unfold usub. rewrite chk_usize_ok by (unfold two64; blia). f_equal. ring. }
    unfold uadd. rewrite Er. cbn [bind].
    do 2 eexists. split; [reflexivity|]. split; [reflexivity|].
    destruct (fl_cast _ _ _ _ _ HF a Af) as [C1 C2].
    destruct (fl_om _ _ _ _ _ HF (c_cast K a) C1) as [C3 C4].
    { rewrite C2, Av, Rminus_0_r, Rabs_R1. apply IZR_le. blia. }
    destruct (fl_zero _ _ _ _ _ HF) as [Z1 Z2].
    assert (Hr : (0 <= (if k1 <=? 0 then 0 - k1 else 0 - k1 + (m + 1)) < m + 1)%Z)
      by (destruct (Z.leb_spec k1 0); blia).
    constructor; cbn [ld_memory ld_output ld_read ld_write ld_delay ld_do_next_out ld_alpha ld_om_alpha
      dl_memory dl_write dl_read dl_delay dl_output]; rewrite ?HL; auto.
    - rewrite C2. exact Av.
    - rewrite C4, C2, Av, Rminus_0_r. apply (fl_int _ _ _ _ _ HF 1). blia.
    - apply Forall_forall. intros u Hu. apply repeat_spec in Hu. subst u. exact Z1.
    - constructor; cbn [dl_of dl_memory dl_write dl_read dl_delay ld_memory ld_write ld_read]; rewrite ?HL; blia.
    - constructor; cbn [dl_of dl_memory dl_write dl_read dl_delay ld_memory ld_write ld_read]; rewrite ?HL; blia.
    - blia.
  Qed.
End Same.

(** C27: the same calls on a [LinearDelay] and on a [Delay], with whole numbers of
    samples as delays and finite samples, on lines of at most 2^24 slots: both
    complete with the same answers (a zero may differ in sign), or both panic. *)
Lemma C27_agrees_with_Delay_thm :
  forall (T : Type) (K : ctl_ops f32 T) (O : num_ops T) (val : T -> R) (fin : T -> bool) (rnd : R -> R)
         (p : profile) (d : f32) (k m : Z) (ops : list (dl_op f32 T)) (ops' : list (dl_op Z T)),
    float_line K O val fin rnd ->
    is_finite d = true -> B2R d = IZR k -> is_usize k -> (0 <= m < 2 ^ 24)%Z ->
    Forall2 (same_call fin (2 ^ 24)) ops ops' ->
    match lin_session K O p d m ops, dl_session O p k m ops' with
    | Ok (_, os), Ok (_, os') => Forall2 (same_obs fin val) os os'
    | Panic, Panic => True
    | _, _ => False
    end.
Proof.
  intros T K O val fin rnd p d k m ops ops' HFL Hf Hv Hk Hm Hops.
  assert (HF := float_line_fline _ _ _ _ _ HFL).
  destruct (sim_new K O val fin rnd HF p d k m Hf Hv Hk Hm) as [s [t [E1 [E2 S]]]].
  unfold lin_session, dl_session. rewrite E1, E2. cbn [bind].
  destruct (sim_run K O val fin rnd HF p ops ops' Hops s t S) as [[s' [os [t' [os' [F1 [F2 H]]]]]]|[F1 F2]];
    rewrite F1, F2; [exact H|exact I].
Qed.
(*@PROP
Example C27_agrees_with_Delay_hyps (a b : f32) :
  is_finite a = true -> is_finite b = true ->
  is_finite (fl32 3 0) = true /\ B2R (fl32 3 0) = IZR 3
  /\ Forall2 (same_call is_finite (2 ^ 24))
       [DProcess a; DSetDelay (fl32 1 1); DProcess b; DTapIn a 5; DSetMaxDelay 9; DProcess a; DLastOut]
       [DProcess a; DSetDelay 2%Z; DProcess b; DTapIn a 5; DSetMaxDelay 9; DProcess a; DLastOut].
Proof.
  intros Ha Hb. split; [reflexivity|]. split; [cbn; unfold F2R; cbn; lra|].
  repeat constructor; try assumption; try easy. cbn; unfold F2R; cbn; lra.
Qed.
@*)

Section Taps.
  Context {C T : Type} (K : ctl_ops C T) (O : num_ops T) (p : profile).

  Definition sim2 (s : lin_delay C T) (t : delay T) : Prop :=
    ld_memory s = dl_memory t /\ ld_write s = dl_write t.

  Ltac binv H := let x := fresh "x" in let E := fresh "E" in
    apply bind_Ok in H; destruct H as [x [E H]].

  Lemma sim2_next (s s' : lin_delay C T) y t : sim2 s t -> lin_next_out O p s = Ok (s', y) -> sim2 s' t.
  Proof.
    intros S E. unfold lin_next_out in E. destruct (ld_do_next_out s).
    - binv E. binv E. binv E. injection E as <- _. exact S.
    - injection E as <- _. exact S.
  Qed.

  Lemma sim2_step (s s' : lin_delay C T) t t' op op' o o' : sim2 s t -> same_line_call op op' ->
    lin_step K O p s op = Ok (s', o) -> dl_step O p t op' = Ok (t', o') ->
    sim2 s' t' /\ same_tap_obs op o o'.
  Proof.
    intros [M W] Hc E F. destruct Hc; cbn [lin_step dl_step] in E, F.
    - apply bind_Ok in E. destruct E as [[u y] [E E']]. injection E' as <- <-.
      apply bind_Ok in F. destruct F as [[v z] [F F']]. injection F' as <- <-.
      split; [|exact I]. unfold lin_process in E. unfold delay_process in F. rewrite M, W in E.
      binv E. binv F. assert (x1 = x0) by congruence. subst x1. clear E1.
      binv E. binv F. assert (x2 = x1) by congruence. subst x2.
      binv E. binv F. assert (x3 = x2) by congruence. subst x3.
      apply bind_Ok in E. destruct E as [[s2 out] [En E]]. binv E. binv E. injection E as <- _.
      binv F. binv F. binv F. injection F as <- _.
      apply sim2_next with (t := MkDelay x0 y 0 x2 0) in En; [|split; reflexivity]. exact En.
    - injection E as <- <-. injection F as <- <-. split; [|exact I]. split; [cbn; rewrite M; reflexivity|first [exact W|reflexivity]].
    - binv E. binv F. injection E as <- <-. injection F as <- <-. split; [|exact I].
      unfold lin_set_delay, lin_set_delay_fuel in E0. binv E0. binv E0. injection E0 as <-.
      unfold delay_set_delay in E1. binv E1. binv E1. injection E1 as <-. split; assumption.
    - binv E. binv F. injection E as <- <-. injection F as <- <-. split; [|exact I].
      unfold lin_set_max_delay in E0. unfold delay_set_max_delay in E1. rewrite M in E0.
      destruct (m <? vlen (dl_memory t))%Z.
      + injection E0 as <-. injection E1 as <-. split; assumption.
      + binv E0. binv E0. injection E0 as <-. binv E1. binv E1. injection E1 as <-.
        split; [|first [exact W|reflexivity]]. cbn [ld_memory dl_memory]. congruence.
    - injection E as <- <-. injection F as <- <-. split; [split; assumption|exact I].
    - binv E. binv F. injection E as <- <-. injection F as <- <-. split; [split; assumption|].
      unfold lin_get_max_delay in E0. unfold delay_get_max_delay in E1. rewrite M in E0.
      exists x. split; [reflexivity|]. congruence.
    - apply bind_Ok in E. destruct E as [[u y] [E E']]. injection E' as <- <-.
      binv F. injection F as <- <-. split; [|exact I]. apply (sim2_next s u y t); [split; assumption|exact E].
    - injection E as <- <-. injection F as <- <-. split; [split; assumption|exact I].
    - binv E. binv F. injection E as <- <-. injection F as <- <-. split; [split; assumption|].
      unfold lin_tap_out in E0. unfold delay_tap_out in E1. rewrite M, W in E0.
      exists x. split; [reflexivity|]. congruence.
    - binv E. binv F. injection E as <- <-. injection F as <- <-. split; [|exact I].
      unfold lin_tap_in in E0. unfold delay_tap_in in E1. rewrite M, W in E0.
      binv E0. binv E0. injection E0 as <-. binv E1. binv E1. injection E1 as <-.
      split; [|first [exact W|reflexivity]]. cbn [ld_memory dl_memory]. congruence.
    - apply bind_Ok in E. destruct E as [[u y] [E E']]. injection E' as <- <-.
      apply bind_Ok in F. destruct F as [[w z] [F F']]. injection F' as <- <-.
      unfold lin_add_to in E. unfold delay_add_to in F. rewrite M, W in E.
      binv E. binv E. binv E. binv E. injection E as <- <-.
      binv F. binv F. binv F. binv F. injection F as <- <-.
      assert (x3 = x) by congruence. subst x3. assert (x4 = x0) by congruence. subst x4.
      assert (x5 = x1) by congruence. subst x5. assert (x6 = x2) by congruence. subst x6.
      split; [split; reflexivity|]. exists x2. split; reflexivity.
  Qed.
End Taps.

(** C69: the taps of a [LinearDelay] are those of a [Delay]: the same calls, with
    any delays whatever and any peeks, give the same answers to [tap_out],
    [add_to] and [get_max_delay], and leave the same values behind the taps. *)
Lemma C69_taps_agree_thm :
  forall (C T : Type) (K : ctl_ops C T) (O : num_ops T) (p : profile) (d : C) (k m : Z)
         (ops : list (dl_op C T)) (ops' : list (dl_op Z T))
         (s : lin_delay C T) (t : delay T) (os : list (obs C T)) (os' : list (obs Z T)),
    Forall2 same_line_call ops ops' ->
    lin_session K O p d m ops = Ok (s, os) -> dl_session O p k m ops' = Ok (t, os') ->
    Forall2 (fun op_o o' => same_tap_obs (fst op_o) (snd op_o) o') (combine ops os) os'
    /\ (forall tap, lin_tap_out p s tap = delay_tap_out p t tap).
Proof.
  intros C T K O p d k m ops ops' s t os os' Hops E F.
  unfold lin_session in E. unfold dl_session in F.
  apply bind_Ok in E. destruct E as [s0 [E0 E]]. apply bind_Ok in F. destruct F as [t0 [F0 F]].
  assert (S : sim2 s0 t0).
  { unfold lin_new, lin_new_fuel in E0. unfold delay_new in F0.
    apply bind_Ok in E0. destruct E0 as [n [En E0]]. apply bind_Ok in E0. destruct E0 as [mem [Em E0]].
    apply bind_Ok in F0. destruct F0 as [n' [Fn F0]]. apply bind_Ok in F0. destruct F0 as [mem' [Fm F0]].
    assert (n' = n) by congruence. subst n'. assert (mem' = mem) by congruence. subst mem'.
    unfold lin_set_delay_fuel in E0. apply bind_Ok in E0. destruct E0 as [x1 [_ E0]].
    apply bind_Ok in E0. destruct E0 as [x2 [_ E0]]. injection E0 as <-.
    unfold delay_set_delay in F0. apply bind_Ok in F0. destruct F0 as [y1 [_ F0]].
    apply bind_Ok in F0. destruct F0 as [y2 [_ F0]]. injection F0 as <-. split; reflexivity. }
  clear E0 F0. revert s0 t0 s t os os' S E F.
  induction Hops as [|op op' ops ops' Hc Hcs IH]; intros s0 t0 s t os os' S E F; cbn [lin_run dl_run] in E, F.
  - injection E as <- <-. injection F as <- <-. split; [constructor|].
    intros tap. unfold lin_tap_out, delay_tap_out. destruct S as [M W]. rewrite M, W. reflexivity.
  - apply bind_Ok in E. destruct E as [[s1 o] [E1 E]]. apply bind_Ok in E. destruct E as [[s2 os2] [E2 E]]. injection E as <- <-.
    apply bind_Ok in F. destruct F as [[t1 o'] [F1 F]]. apply bind_Ok in F. destruct F as [[t2 os2'] [F2 F]]. injection F as <- <-.
    destruct (sim2_step K O p s0 s1 t0 t1 op op' o o' S Hc E1 F1) as [S' Ho].
    destruct (IH s1 t1 s2 t2 os2 os2' S' E2 F2) as [H1 H2].
    split; [|exact H2]. cbn [combine]. constructor; [exact Ho|exact H1].
Qed.
(*@PROP
(* both sessions of the example complete, by C21 and the corresponding theorem on [Delay] *)
Example C69_taps_agree_hyps (a b : R) :
  exists s os t os',
    lin_session R_ctl R_ops Debug (5 / 2) 7 [DProcess a; DSetDelay (1 / 3); DProcess b; DTapOut 1; DAddTo b 0] = Ok (s, os)
    /\ dl_session R_ops Debug 4 7 [DProcess a; DSetDelay 0%Z; DProcess b; DTapOut 1; DAddTo b 0] = Ok (t, os').
Proof.
  destruct (C22_refines_ideal_thm Debug (5 / 2) 7 [DProcess a; DSetDelay (1 / 3); DProcess b; DTapOut 1; DAddTo b 0])
    as [s [os [_ [E _]]]]; [easy|discriminate|repeat constructor; easy|cbn; repeat split; discriminate|].
  exists s, os. do 2 eexists. split; [exact E|]. lazy -[Rplus]. reflexivity.
Qed.
@*)
