(** Refinement of the model of [Delay] to the specification [DelaySpec]. *)
From Coq Require Import ZArith List Bool Lia ZifyBool ZifyNat.
From Verif Require Import Base BaseLemmas Num DelayM DelaySpec DelayRun.
Import ListNotations.
Open Scope Z_scope.

(** ** Ring buffer as a history list *)

(** Newest-first contents of a ring buffer whose next write goes to slot [w]. *)
Definition ring_hist {T} (mem : list T) (w : nat) : list T :=
  rev (firstn w mem) ++ rev (skipn w mem).

Lemma ring_hist_length {T} (mem : list T) w : length (ring_hist mem w) = length mem.
Proof.
  unfold ring_hist. rewrite app_length, !rev_length, firstn_length, skipn_length. lia.
Qed.

(** Slot of the [t]-th newest value. *)
Definition slot_of (len w t : nat) : nat := if (t <? w)%nat then w - 1 - t else len + w - 1 - t.

Lemma nth_ring_hist {T} (mem : list T) w t d :
  (w <= length mem)%nat -> (t < length mem)%nat ->
  nth t (ring_hist mem w) d = nth (slot_of (length mem) w t) mem d.
Proof.
  intros Hw Ht. unfold ring_hist, slot_of.
  destruct (Nat.ltb_spec t w).
  - rewrite app_nth1 by (rewrite rev_length, firstn_length; lia).
    rewrite rev_nth by (rewrite firstn_length; lia).
    rewrite firstn_length.
    transitivity (nth (w - 1 - t) (firstn w mem ++ skipn w mem) d);
      [|rewrite firstn_skipn; reflexivity].
    rewrite app_nth1 by (rewrite firstn_length; lia).
    f_equal. lia.
  - rewrite app_nth2 by (rewrite rev_length, firstn_length; lia).
    rewrite rev_length, firstn_length.
    rewrite rev_nth by (rewrite skipn_length; lia).
    rewrite skipn_length.
    transitivity (nth (length mem + w - 1 - t) (firstn w mem ++ skipn w mem) d);
      [|rewrite firstn_skipn; reflexivity].
    rewrite app_nth2 by (rewrite firstn_length; lia).
    rewrite firstn_length. f_equal. lia.
Qed.

Lemma nth_ext_len {T} (l1 l2 : list T) :
  length l1 = length l2 ->
  (forall t d, (t < length l1)%nat -> nth t l1 d = nth t l2 d) -> l1 = l2.
Proof.
  intros HL HN. destruct l1 as [|a l1].
  - destruct l2; [reflexivity|discriminate].
  - apply (nth_ext _ _ a a HL). intros t Ht. apply HN. exact Ht.
Qed.

Lemma nth_removelast {T} (l : list T) t d :
  (t < length l - 1)%nat -> nth t (removelast l) d = nth t l d.
Proof.
  revert t; induction l as [|a l IH]; intros t Ht; simpl in *; [lia|].
  destruct l as [|b l]; [simpl in *; lia|].
  destruct t; [reflexivity|]. cbn [nth]. apply IH. simpl in *. lia.
Qed.

Lemma removelast_length {T} (l : list T) : length (removelast l) = (length l - 1)%nat.
Proof.
  induction l as [|a l IH]; [reflexivity|].
  destruct l as [|b l]; [reflexivity|]. simpl in *. lia.
Qed.

Lemma push_length {T} (x : T) h : (0 < length h)%nat -> length (push x h) = length h.
Proof. intros H. unfold push. cbn [length]. rewrite removelast_length. lia. Qed.

Lemma nth_push {T} (x : T) h t d :
  (t < length h)%nat -> nth t (push x h) d = match t with O => x | S t' => nth t' h d end.
Proof.
  intros H. unfold push. destruct t; [reflexivity|]. cbn [nth].
  apply nth_removelast. lia.
Qed.

Lemma put_length {T} (h : list T) t v : (t < length h)%nat -> length (put h t v) = length h.
Proof.
  intros H. unfold put. rewrite app_length. cbn [length].
  rewrite firstn_length, skipn_length. lia.
Qed.

Lemma nth_put {T} (h : list T) t v s d :
  (t < length h)%nat -> nth s (put h t v) d = if (s =? t)%nat then v else nth s h d.
Proof.
  intros H. unfold put. rewrite <- list_set_split by assumption.
  destruct (Nat.eqb_spec s t) as [->|].
  - apply nth_list_set_eq; assumption.
  - apply nth_list_set_neq; lia.
Qed.

(** Writing at [w] and advancing pushes the value. *)
Lemma ring_push {T} (mem : list T) w x :
  (w < length mem)%nat ->
  ring_hist (list_set mem w x) ((w + 1) mod length mem) = push x (ring_hist mem w).
Proof.
  intros Hw.
  assert (Hw' : ((w + 1) mod length mem = if w + 1 =? length mem then 0 else w + 1)%nat).
  { destruct (Nat.eqb_spec (w + 1) (length mem)) as [->|].
    - apply Nat.mod_same; lia.
    - apply Nat.mod_small; lia. }
  rewrite Hw'.
  apply nth_ext_len.
  - rewrite push_length by (rewrite ring_hist_length; lia).
    rewrite !ring_hist_length, list_set_length. reflexivity.
  - intros t d Ht. rewrite ring_hist_length, list_set_length in Ht.
    rewrite nth_push by (rewrite ring_hist_length; lia).
    rewrite nth_ring_hist by (rewrite list_set_length; destruct (Nat.eqb_spec (w + 1) (length mem)); lia).
    rewrite list_set_length.
    destruct t as [|t].
    + replace (slot_of _ _ 0) with w.
      * apply nth_list_set_eq; assumption.
      * unfold slot_of. destruct (Nat.eqb_spec (w + 1) (length mem)).
        -- simpl. lia.
        -- destruct (Nat.ltb_spec 0 (w + 1)); lia.
    + rewrite nth_ring_hist by lia.
      replace (slot_of (length mem) (if w + 1 =? length mem then 0 else w + 1)%nat (S t))
        with (slot_of (length mem) w t).
      * apply nth_list_set_neq. unfold slot_of.
        destruct (Nat.ltb_spec t w); lia.
      * unfold slot_of. destruct (Nat.eqb_spec (w + 1) (length mem)).
        -- replace (S t <? 0)%nat with false by lia.
           destruct (Nat.ltb_spec t w); lia.
        -- destruct (Nat.ltb_spec t w), (Nat.ltb_spec (S t) (w + 1)); lia.
Qed.

(** Overwriting the [t]-th newest value. *)
Lemma ring_put {T} (mem : list T) w t v :
  (w <= length mem)%nat -> (t < length mem)%nat ->
  ring_hist (list_set mem (slot_of (length mem) w t) v) w = put (ring_hist mem w) t v.
Proof.
  intros Hw Ht. apply nth_ext_len.
  - rewrite put_length by (rewrite ring_hist_length; lia).
    rewrite !ring_hist_length, list_set_length. reflexivity.
  - intros s d Hs. rewrite ring_hist_length, list_set_length in Hs.
    rewrite nth_put by (rewrite ring_hist_length; lia).
    rewrite nth_ring_hist by (rewrite list_set_length; lia).
    rewrite list_set_length.
    destruct (Nat.eqb_spec s t) as [->|].
    + apply nth_list_set_eq. unfold slot_of. destruct (Nat.ltb_spec t w); lia.
    + rewrite nth_ring_hist by lia. apply nth_list_set_neq.
      unfold slot_of. destruct (Nat.ltb_spec t w), (Nat.ltb_spec s w); lia.
Qed.

Lemma ring_grow {T} (mem : list T) w z g :
  (w <= length mem)%nat ->
  ring_hist (mem ++ repeat z g) w
  = firstn w (ring_hist mem w) ++ repeat z g ++ skipn w (ring_hist mem w).
Proof.
  intros Hw. unfold ring_hist.
  assert (HL : length (rev (firstn w mem)) = w) by (rewrite rev_length, firstn_length; lia).
  rewrite firstn_app, skipn_app.
  replace (w - length mem)%nat with 0%nat by lia. cbn [firstn skipn].
  rewrite app_nil_r, rev_app_distr.
  rewrite firstn_app, skipn_app, HL, Nat.sub_diag. cbn [firstn skipn].
  rewrite (firstn_all2 (rev (firstn w mem))) by lia.
  rewrite (skipn_all2 (rev (firstn w mem))) by lia.
  rewrite app_nil_r. cbn [app]. f_equal. f_equal.
  clear. induction g as [|g IH]; [reflexivity|].
  cbn [repeat rev]. rewrite IH. rewrite repeat_cons. reflexivity.
Qed.

Lemma ring_clear {T} (mem : list T) w (z : T) :
  ring_hist (map (fun _ => z) mem) w = repeat z (length mem).
Proof.
  apply nth_ext_len.
  - rewrite ring_hist_length, map_length, repeat_length. reflexivity.
  - intros t d Ht. rewrite ring_hist_length, map_length in Ht.
    assert (HI : forall l, (forall y, In y l -> y = z) -> forall t, (t < length l)%nat -> nth t l d = z).
    { intros l Hl n Hn. apply Hl. apply nth_In. assumption. }
    rewrite HI.
    + symmetry. apply HI. intros y. apply repeat_spec. rewrite repeat_length. lia.
    + unfold ring_hist. intros y Hy. apply in_app_or in Hy.
      assert (Hm : In y (map (fun _ => z) mem)).
      { rewrite <- (firstn_skipn w (map _ mem)). apply in_or_app.
        rewrite <- !in_rev in Hy. exact Hy. }
      apply in_map_iff in Hm. destruct Hm as [? [? ?]]. congruence.
    + rewrite ring_hist_length, map_length. lia.
Qed.

(** ** Tap positions *)
Lemma tap_index_ok p (w len t : Z) :
  0 <= w < len -> len < two63 -> 0 <= t < len ->
  tap_index p w len t = Ok (Z.of_nat (slot_of (Z.to_nat len) (Z.to_nat w) (Z.to_nat t))).
Proof.
  intros Hw Hl Ht. unfold tap_index.
  rewrite !as_isize_small by (unfold two63 in *; lia).
  unfold isub at 1. rewrite chk_isize_ok by (unfold two63 in *; lia). cbn [bind].
  unfold isub at 1. rewrite chk_isize_ok by (unfold two63 in *; lia). cbn [bind].
  unfold slot_of.
  destruct (Z.ltb_spec (w - t - 1) 0).
  - unfold iadd. rewrite chk_isize_ok by (unfold two63 in *; lia). cbn [bind].
    rewrite as_usize_small by (unfold two63, two64 in *; lia).
    f_equal. destruct (Nat.ltb_spec (Z.to_nat t) (Z.to_nat w)); lia.
  - cbn [bind]. rewrite as_usize_small by (unfold two63, two64 in *; lia).
    f_equal. destruct (Nat.ltb_spec (Z.to_nat t) (Z.to_nat w)); lia.
Qed.

Section Refine.
  Context {T : Type} (O : num_ops T) (p : profile).
  Local Notation zero := (n_zero O).

  (** Largest number of slots an allocation of [T]s can have. *)
  Local Notation max_slots := (DelayRun.max_slots O).

  Hypothesis Hsize : 1 <= n_size_of O.

  Lemma alloc_ok_iff n : alloc_ok (n_size_of O) n = (n <=? max_slots).
  Proof.
    unfold alloc_ok, DelayRun.max_slots.
    apply eq_true_iff_eq. rewrite !Z.leb_le.
    split; intros H.
    - apply Z.div_le_lower_bound; lia.
    - transitivity (isize_max / n_size_of O * n_size_of O).
      + apply Z.mul_le_mono_nonneg_r; lia.
      + rewrite Z.mul_comm. apply Z.mul_div_le. lia.
  Qed.

  Lemma max_slots_lt : max_slots < two63.
  Proof.
    unfold DelayRun.max_slots.
    enough (isize_max / n_size_of O <= isize_max) by (unfold isize_max in *; lia).
    apply Z.div_le_upper_bound; [lia|]. unfold isize_max, two63. nia.
  Qed.

  (** Reachable states of a [Delay]. *)
  Record dl_inv (s : delay T) : Prop := {
    inv_len : 1 <= vlen (dl_memory s) <= max_slots;
    inv_w : 0 <= dl_write s < vlen (dl_memory s);
    inv_r : 0 <= dl_read s < vlen (dl_memory s);
    inv_d : 0 <= dl_delay s < vlen (dl_memory s)
  }.

  Definition lag_of (len w r : Z) : Z := if r <=? w then w - r else w - r + len.

  Definition dl_abs (s : delay T) : line T :=
    Line (ring_hist (dl_memory s) (Z.to_nat (dl_write s)))
         (Z.to_nat (dl_write s))
         (Z.to_nat (lag_of (vlen (dl_memory s)) (dl_write s) (dl_read s)))
         (Z.to_nat (dl_delay s))
         (dl_output s).

  Lemma dl_abs_slots s : slots (dl_abs s) = length (dl_memory s).
  Proof. unfold slots, dl_abs. cbn. apply ring_hist_length. Qed.

  Lemma refine_process s x :
    dl_inv s ->
    exists s', delay_process p s x = Ok (s', snd (line_process zero (dl_abs s) x))
               /\ dl_inv s' /\ dl_abs s' = fst (line_process zero (dl_abs s) x).
  Proof.
    intros [Hl Hw Hr Hd]. pose proof max_slots_lt as Hms.
    unfold delay_process.
    rewrite vset_ok by lia. cbn [bind].
    set (mem' := list_set (dl_memory s) (Z.to_nat (dl_write s)) x).
    assert (HL : vlen mem' = vlen (dl_memory s)) by apply list_set_vlen.
    unfold uadd at 1. rewrite chk_usize_ok by (unfold two63, two64 in *; lia). cbn [bind].
    rewrite urem_ok by lia. cbn [bind].
    rewrite (vget_nth mem' (dl_read s) zero) by lia. cbn [bind].
    unfold uadd at 1. rewrite chk_usize_ok by (unfold two63, two64 in *; lia). cbn [bind].
    rewrite urem_ok by lia. cbn [bind].
    rewrite HL.
    unfold line_process. cbn [fst snd].
    assert (Hpush : ring_hist mem' (Z.to_nat ((dl_write s + 1) mod vlen (dl_memory s)))
                    = push x (l_hist (dl_abs s))).
    { unfold dl_abs; cbn [l_hist]. rewrite <- ring_push by (unfold vlen in *; lia).
      fold mem'. f_equal. unfold vlen.
      rewrite Z2Nat.inj_mod by lia. f_equal; lia. }
    assert (Hout : nth (Z.to_nat (dl_read s)) mem' zero
                   = nth (l_lag (dl_abs s)) (push x (l_hist (dl_abs s))) zero).
    { rewrite <- Hpush. unfold dl_abs; cbn [l_lag].
      rewrite (succ_mod (dl_write s)) by lia.
      rewrite nth_ring_hist.
      - f_equal. unfold slot_of, lag_of. unfold vlen in *.
        destruct (Z.eqb_spec (dl_write s + 1) (Z.of_nat (length (dl_memory s))));
          destruct (Z.leb_spec (dl_read s) (dl_write s));
          match goal with |- context [(?a <? ?b)%nat] => destruct (Nat.ltb_spec a b) end; lia.
      - unfold vlen in *. destruct (Z.eqb_spec (dl_write s + 1) (Z.of_nat (length (dl_memory s)))); lia.
      - unfold lag_of. unfold vlen in *. destruct (Z.leb_spec (dl_read s) (dl_write s)); lia. }
    rewrite Hout.
    eexists; split; [reflexivity|]. split.
    - constructor; cbn [dl_memory dl_write dl_read dl_delay]; rewrite ?HL; auto;
        apply Z.mod_pos_bound; lia.
    - unfold dl_abs at 1. cbn [dl_memory dl_write dl_read dl_delay dl_output].
      rewrite HL, Hpush. f_equal.
      + rewrite dl_abs_slots. unfold dl_abs; cbn [l_phase]. unfold vlen in *.
        rewrite Z2Nat.inj_mod by lia. f_equal; lia.
      + unfold dl_abs at 1; cbn [l_lag].
        rewrite !succ_mod by lia. unfold lag_of.
        destruct (Z.eqb_spec (dl_write s + 1) (vlen (dl_memory s)));
          destruct (Z.eqb_spec (dl_read s + 1) (vlen (dl_memory s)));
          destruct (Z.leb_spec (dl_read s) (dl_write s));
          repeat match goal with |- context [?a <=? ?b] => destruct (Z.leb_spec a b) end; lia.
  Qed.

  Lemma refine_set_delay s d :
    dl_inv s -> is_usize d ->
    exists s', delay_set_delay p s d = Ok s' /\ dl_inv s'
      /\ dl_abs s' = line_set_delay (dl_abs s) (Z.to_nat (Z.min d (vlen (dl_memory s) - 1))).
  Proof.
    intros [Hl Hw Hr Hd] Hu. pose proof max_slots_lt as Hms. unfold is_usize in Hu.
    unfold delay_set_delay.
    unfold usub at 1. rewrite chk_usize_ok by (unfold two63, two64 in *; lia). cbn [bind].
    assert (Hmin : (if vlen (dl_memory s) - 1 <? d then vlen (dl_memory s) - 1 else d)
                   = Z.min d (vlen (dl_memory s) - 1)).
    { destruct (Z.ltb_spec (vlen (dl_memory s) - 1) d); lia. }
    rewrite Hmin. set (d' := Z.min d (vlen (dl_memory s) - 1)) in *.
    assert (Hd' : 0 <= d' < vlen (dl_memory s)) by lia.
    assert (Hread : exists r,
       (if d' <=? dl_write s then usub p (dl_write s) d'
        else let* t := uadd p (vlen (dl_memory s)) (dl_write s) in usub p t d') = Ok r
       /\ 0 <= r < vlen (dl_memory s) /\ lag_of (vlen (dl_memory s)) (dl_write s) r = d').
    { destruct (Z.leb_spec d' (dl_write s)).
      - exists (dl_write s - d'). unfold usub. rewrite chk_usize_ok by (unfold two63, two64 in *; lia).
        repeat split; try lia. unfold lag_of.
        destruct (Z.leb_spec (dl_write s - d') (dl_write s)); lia.
      - exists (vlen (dl_memory s) + dl_write s - d').
        unfold uadd. rewrite chk_usize_ok by (unfold two63, two64 in *; lia). cbn [bind].
        unfold usub. rewrite chk_usize_ok by (unfold two63, two64 in *; lia).
        repeat split; try lia. unfold lag_of.
        destruct (Z.leb_spec (vlen (dl_memory s) + dl_write s - d') (dl_write s)); lia. }
    destruct Hread as [r [-> [Hr' Hlag]]]. cbn [bind].
    eexists; split; [reflexivity|]. split.
    - constructor; cbn [dl_memory dl_write dl_read dl_delay]; auto.
    - unfold dl_abs, line_set_delay. cbn [dl_memory dl_write dl_read dl_delay dl_output l_hist l_phase l_last].
      rewrite Hlag. reflexivity.
  Qed.

  Lemma refine_new d m :
    is_usize d -> 0 <= m -> m + 1 <= max_slots ->
    exists s, delay_new O p d m = Ok s /\ dl_inv s
      /\ dl_abs s = line_new zero (Z.to_nat (Z.min d m)) (Z.to_nat m).
  Proof.
    intros Hd Hm Ha. pose proof max_slots_lt as Hms. unfold is_usize in Hd.
    unfold delay_new.
    unfold uadd at 1. rewrite chk_usize_ok by (unfold two63, two64 in *; lia). cbn [bind].
    unfold vec_repeat. rewrite alloc_ok_iff. replace (m + 1 <=? max_slots) with true by lia.
    cbn [bind].
    set (s0 := MkDelay (repeat zero (Z.to_nat (m + 1))) zero 0 0 0).
    assert (HL : vlen (dl_memory s0) = m + 1).
    { unfold s0, vlen; cbn [dl_memory]. rewrite repeat_length. lia. }
    assert (Hi : dl_inv s0).
    { constructor; rewrite HL; unfold s0; cbn [dl_write dl_read dl_delay]; lia. }
    destruct (refine_set_delay s0 (if m <? d then m else d) Hi) as [s' [E [Hi' Habs]]].
    { unfold is_usize. destruct (Z.ltb_spec m d); lia. }
    exists s'. split; [exact E|]. split; [exact Hi'|].
    rewrite Habs, HL. unfold line_new, line_set_delay.
    replace (Z.to_nat (Z.min (if m <? d then m else d) (m + 1 - 1))) with (Z.to_nat (Z.min d m))
      by (destruct (Z.ltb_spec m d); lia).
    unfold s0, dl_abs; cbn [dl_memory dl_write dl_read dl_delay dl_output l_hist l_phase l_last].
    f_equal; try lia.
    unfold ring_hist. cbn [Z.to_nat firstn skipn rev app].
    replace (Z.to_nat (m + 1)) with (S (Z.to_nat m)) by lia.
    generalize (S (Z.to_nat m)). clear. intros n. induction n as [|n IH]; [reflexivity|].
    cbn [repeat rev]. rewrite IH, repeat_cons. reflexivity.
  Qed.

  Lemma refine_grow s m :
    dl_inv s -> is_usize m -> vlen (dl_memory s) <= m -> m + 1 <= max_slots ->
    exists s', delay_set_max_delay O p s m = Ok s' /\ dl_inv s'
      /\ dl_abs s' = line_grow zero (dl_abs s) (Z.to_nat (m + 1) - length (dl_memory s)).
  Proof.
    intros [Hl Hw Hr Hd] Hu Hm Ha. pose proof max_slots_lt as Hms. unfold is_usize in Hu.
    unfold delay_set_max_delay. replace (m <? vlen (dl_memory s)) with false by lia.
    unfold uadd at 1. rewrite chk_usize_ok by (unfold two63, two64 in *; lia). cbn [bind].
    unfold vec_resize. replace (m + 1 <=? vlen (dl_memory s)) with false by lia.
    rewrite alloc_ok_iff. replace (m + 1 <=? max_slots) with true by lia. cbn [bind].
    set (g := Z.to_nat (m + 1 - vlen (dl_memory s))).
    assert (HL : vlen (dl_memory s ++ repeat zero g) = m + 1).
    { unfold g, vlen. rewrite app_length, repeat_length. unfold vlen in *. lia. }
    eexists; split; [reflexivity|]. split.
    - constructor; cbn [dl_memory dl_write dl_read dl_delay]; rewrite HL; lia.
    - unfold dl_abs, line_grow.
      cbn [dl_memory dl_write dl_read dl_delay dl_output l_hist l_phase l_last l_lag l_delay].
      replace (Z.to_nat (m + 1) - length (dl_memory s))%nat with g by (unfold g, vlen; lia).
      rewrite ring_grow by (unfold vlen in *; lia). rewrite HL. f_equal.
      unfold lag_of. unfold g in *.
      destruct (Z.leb_spec (dl_read s) (dl_write s));
      match goal with |- context [(?a <=? ?b)%nat] => destruct (Nat.leb_spec a b) end; lia.
  Qed.

  Lemma refine_next s :
    dl_inv s -> delay_next_out s = Ok (line_next zero (dl_abs s)).
  Proof.
    intros [Hl Hw Hr Hd].
    unfold delay_next_out. rewrite (vget_nth _ _ zero) by lia. f_equal.
    unfold line_next. rewrite dl_abs_slots.
    unfold dl_abs; cbn [l_lag l_hist].
    assert (HL : length (dl_memory s) = Z.to_nat (vlen (dl_memory s))) by (unfold vlen; lia).
    destruct (Z.to_nat (lag_of (vlen (dl_memory s)) (dl_write s) (dl_read s))) eqn:E.
    - rewrite nth_ring_hist by lia. f_equal. unfold slot_of, lag_of in *.
      destruct (Z.leb_spec (dl_read s) (dl_write s));
      match goal with |- context [(?a <? ?b)%nat] => destruct (Nat.ltb_spec a b) end; lia.
    - unfold lag_of in *. rewrite nth_ring_hist by (destruct (Z.leb_spec (dl_read s) (dl_write s)); lia).
      f_equal. unfold slot_of.
      destruct (Z.leb_spec (dl_read s) (dl_write s));
      match goal with |- context [(?a <? ?b)%nat] => destruct (Nat.ltb_spec a b) end; lia.
  Qed.

  Lemma slot_of_lt len w t : (w <= len)%nat -> (t < len)%nat -> (slot_of len w t < len)%nat.
  Proof. intros. unfold slot_of. destruct (Nat.ltb_spec t w); lia. Qed.

  Lemma refine_tap_index s t :
    dl_inv s -> 0 <= t < vlen (dl_memory s) ->
    tap_index p (dl_write s) (vlen (dl_memory s)) t
    = Ok (Z.of_nat (slot_of (length (dl_memory s)) (Z.to_nat (dl_write s)) (Z.to_nat t))).
  Proof.
    intros [Hl Hw Hr Hd] Ht. pose proof max_slots_lt as Hms.
    rewrite tap_index_ok by lia. do 3 f_equal. unfold vlen; lia.
  Qed.

  Lemma refine_tap_out s t :
    dl_inv s -> 0 <= t < vlen (dl_memory s) ->
    delay_tap_out p s t = Ok (nth (Z.to_nat t) (l_hist (dl_abs s)) zero).
  Proof.
    intros Hi Ht. unfold delay_tap_out. rewrite refine_tap_index by assumption. cbn [bind].
    destruct Hi as [Hl Hw Hr Hd].
    assert (Hs := slot_of_lt (length (dl_memory s)) (Z.to_nat (dl_write s)) (Z.to_nat t)).
    rewrite (vget_nth _ _ zero) by (unfold vlen in *; lia).
    rewrite Nat2Z.id. unfold dl_abs; cbn [l_hist].
    rewrite nth_ring_hist by (unfold vlen in *; lia). reflexivity.
  Qed.

  Lemma refine_tap_in s v t :
    dl_inv s -> 0 <= t < vlen (dl_memory s) ->
    exists s', delay_tap_in p s v t = Ok s' /\ dl_inv s'
               /\ dl_abs s' = line_put (dl_abs s) (Z.to_nat t) v.
  Proof.
    intros Hi Ht. unfold delay_tap_in. rewrite refine_tap_index by assumption. cbn [bind].
    destruct Hi as [Hl Hw Hr Hd].
    assert (Hs := slot_of_lt (length (dl_memory s)) (Z.to_nat (dl_write s)) (Z.to_nat t)).
    rewrite vset_ok by (unfold vlen in *; lia). cbn [bind]. rewrite Nat2Z.id.
    eexists; split; [reflexivity|]. split.
    - constructor; cbn [dl_memory dl_write dl_read dl_delay]; rewrite list_set_vlen; assumption.
    - unfold dl_abs, line_put.
      cbn [dl_memory dl_write dl_read dl_delay dl_output l_hist l_phase l_last l_lag l_delay].
      rewrite list_set_vlen, ring_put by (unfold vlen in *; lia). reflexivity.
  Qed.

  Lemma refine_add_to s v t :
    dl_inv s -> 0 <= t < vlen (dl_memory s) ->
    let r := n_add O (nth (Z.to_nat t) (l_hist (dl_abs s)) zero) v in
    exists s', delay_add_to O p s v t = Ok (s', r) /\ dl_inv s'
               /\ dl_abs s' = line_put (dl_abs s) (Z.to_nat t) r.
  Proof.
    intros Hi Ht r. unfold delay_add_to. rewrite refine_tap_index by assumption. cbn [bind].
    destruct Hi as [Hl Hw Hr Hd].
    assert (Hs := slot_of_lt (length (dl_memory s)) (Z.to_nat (dl_write s)) (Z.to_nat t)).
    rewrite (vget_nth _ _ zero) by (unfold vlen in *; lia). cbn [bind].
    rewrite vset_ok by (unfold vlen in *; lia). cbn [bind].
    rewrite (vget_nth _ _ zero) by (rewrite list_set_vlen; unfold vlen in *; lia). cbn [bind].
    rewrite Nat2Z.id, nth_list_set_eq by (apply Hs; unfold vlen in *; lia).
    assert (Hr' : n_add O (nth (slot_of (length (dl_memory s)) (Z.to_nat (dl_write s)) (Z.to_nat t))
                          (dl_memory s) zero) v = r).
    { unfold r, dl_abs; cbn [l_hist]. rewrite nth_ring_hist by (unfold vlen in *; lia). reflexivity. }
    rewrite Hr'.
    eexists; split; [reflexivity|]. split.
    - constructor; cbn [dl_memory dl_write dl_read dl_delay]; rewrite list_set_vlen; assumption.
    - unfold dl_abs, line_put.
      cbn [dl_memory dl_write dl_read dl_delay dl_output l_hist l_phase l_last l_lag l_delay].
      rewrite list_set_vlen, ring_put by (unfold vlen in *; lia). reflexivity.
  Qed.

  Lemma refine_clear s :
    dl_inv s -> dl_inv (delay_clear O s) /\ dl_abs (delay_clear O s) = line_clear zero (dl_abs s).
  Proof.
    intros [Hl Hw Hr Hd].
    assert (HL : vlen (map (fun _ : T => zero) (dl_memory s)) = vlen (dl_memory s))
      by (unfold vlen; rewrite map_length; reflexivity).
    split.
    - constructor; unfold delay_clear; cbn [dl_memory dl_write dl_read dl_delay]; rewrite HL; assumption.
    - unfold delay_clear, line_clear. rewrite dl_abs_slots. unfold dl_abs.
      cbn [dl_memory dl_write dl_read dl_delay dl_output l_hist l_phase l_last l_lag l_delay].
      rewrite ring_clear, HL. reflexivity.
  Qed.

  (** One call. *)
  Lemma refine_step s op l' o :
    dl_inv s -> op_usize op ->
    line_step zero (n_add O) max_slots (dl_abs s) op = Some (l', o) ->
    exists s', dl_step O p s op = Ok (s', o) /\ dl_inv s' /\ dl_abs s' = l'.
  Proof.
    intros Hi Hu Hstep. pose proof max_slots_lt as Hms.
    assert (HS : Z.of_nat (slots (dl_abs s)) = vlen (dl_memory s)) by (rewrite dl_abs_slots; reflexivity).
    destruct op; cbn [line_step dl_step op_usize] in *.
    - destruct (refine_process s x Hi) as [s' [E [Hi' Ha]]].
      destruct (line_process zero (dl_abs s) x) as [l1 y] eqn:EP. cbn [fst snd] in *.
      inversion Hstep; subst. rewrite E. cbn [bind]. eauto.
    - inversion Hstep; subst. destruct (refine_clear s Hi). eauto.
    - destruct (refine_set_delay s d Hi Hu) as [s' [E [Hi' Ha]]].
      rewrite E. cbn [bind]. inversion Hstep; subst. rewrite HS. eauto.
    - rewrite HS in Hstep. destruct (Z.ltb_spec m (vlen (dl_memory s))).
      + inversion Hstep; subst. unfold delay_set_max_delay.
        replace (m <? vlen (dl_memory s)) with true by lia. cbn [bind]. eauto.
      + destruct (Z.leb_spec (m + 1) max_slots); [|discriminate].
        inversion Hstep; subst.
        destruct (refine_grow s m Hi Hu) as [s' [E [Hi' Ha]]]; [lia|lia|].
        rewrite E. cbn [bind]. rewrite dl_abs_slots. eauto.
    - inversion Hstep; subst. exists s. unfold dl_abs; cbn [l_delay]. destruct Hi.
      rewrite Z2Nat.id by lia. split; [reflexivity|]. split; [constructor; assumption|reflexivity].
    - inversion Hstep; subst. exists s. unfold delay_get_max_delay, usub.
      destruct Hi. rewrite chk_usize_ok by (unfold two63, two64 in *; lia). cbn [bind].
      rewrite HS. split; [reflexivity|]. split; [constructor; assumption|reflexivity].
    - inversion Hstep; subst. rewrite (refine_next s Hi). cbn [bind]. eauto.
    - inversion Hstep; subst. exists s. auto.
    - rewrite HS in Hstep. destruct (Z.ltb_spec t (vlen (dl_memory s))); [|discriminate].
      inversion Hstep; subst. unfold is_usize in Hu.
      rewrite refine_tap_out by (assumption || lia). cbn [bind]. eauto.
    - rewrite HS in Hstep. destruct (Z.ltb_spec t (vlen (dl_memory s))); [|discriminate].
      inversion Hstep; subst. unfold is_usize in Hu.
      destruct (refine_tap_in s v t Hi) as [s' [E [Hi' Ha]]]; [lia|].
      rewrite E. cbn [bind]. eauto.
    - rewrite HS in Hstep. destruct (Z.ltb_spec t (vlen (dl_memory s))); [|discriminate].
      inversion Hstep; subst. unfold is_usize in Hu.
      destruct (refine_add_to s v t Hi) as [s' [E [Hi' Ha]]]; [lia|].
      rewrite E. cbn [bind]. eauto.
  Qed.

  Lemma refine_run ops : forall s l' os,
    dl_inv s -> Forall op_usize ops ->
    line_run zero (n_add O) max_slots (dl_abs s) ops = Some (l', os) ->
    exists s', dl_run O p s ops = Ok (s', os) /\ dl_inv s' /\ dl_abs s' = l'.
  Proof.
    induction ops as [|op ops IH]; intros s l' os Hi Hu Hrun; cbn [line_run dl_run] in *.
    - inversion Hrun; subst. eauto.
    - inversion Hu; subst.
      destruct (line_step _ _ _ _ op) as [[l1 o]|] eqn:E1; [|discriminate].
      destruct (line_run _ _ _ l1 ops) as [[l2 os2]|] eqn:E2; [|discriminate].
      inversion Hrun; subst.
      destruct (refine_step s op l1 o Hi) as [s1 [Es [Hi1 Ha1]]]; [assumption..|].
      rewrite Es. cbn [bind]. rewrite <- Ha1 in E2.
      destruct (IH s1 l' os2 Hi1 H2 E2) as [s2 [Er [Hi2 Ha2]]].
      rewrite Er. cbn [bind]. eauto.
  Qed.
End Refine.
