(** Lemmas behind property C107.  The [@PROP] blocks are copied into [PropPort.v]. *)
(*@PROP
(** Property C107: targets whose [usize] has fewer than 64 bits.

    Vocabulary: [PortM] (the delay lines and windows with [w]-bit machine integers),
    [PortSpec] ([fits_w], [port_op], [port_op_lin]); [dl_session], [lin_session]: the model of
    the other properties ([DelayRun], [LinRun]). *)
From Coq Require Import ZArith Reals List Bool Lia.
From Flocq Require Import IEEE754.BinarySingleNaN.
From Verif Require Import Base Num NumR NumF Witness DelayM LinDelayM WindowM DelaySpec DelayRun LinRun PortM PortSpec PortLemmas.
Import ListNotations.
Open Scope Z_scope.
@*)
From Coq Require Import ZArith Reals List Bool Lia Lra.
From Flocq Require Import Core.Core IEEE754.BinarySingleNaN.
From Verif Require Import Base BaseLemmas Num NumR NumF FloatFacts DelayM LinDelayM WindowM DelaySpec DelayRun DelayProofs
  LinSpec LinFloatSpec LinRun LinProofs LinCtlR LinCtlF Witness PortM PortSpec.
Import ListNotations.
Open Scope Z_scope.

Section Small.
  Context (w : Z) (Hw : 2 <= w <= 64) (p : profile).
  Local Notation HALF := (2 ^ (w - 1)).

  Lemma word_half : 2 ^ w = 2 * HALF.
  Proof. replace w with (Z.succ (w - 1)) at 1 by lia. apply Z.pow_succ_r. lia. Qed.
  Lemma half_range : 2 <= HALF <= two63.
  Proof.
    split.
    - change 2 with (2 ^ 1) at 1. apply Z.pow_le_mono_r; lia.
    - change two63 with (2 ^ 63). apply Z.pow_le_mono_r; lia.
  Qed.

  Lemma chk_u z : 0 <= z < 2 * HALF -> chk_usize_w w p z = Ok z /\ chk_usize p z = Ok z.
  Proof.
    intros Hz. assert (B := half_range). unfold chk_usize_w, chk_usize. rewrite word_half.
    assert (two64 = 2 * two63) by reflexivity.
    replace (0 <=? z) with true by (symmetry; apply Z.leb_le; lia).
    replace (z <? 2 * HALF) with true by (symmetry; apply Z.ltb_lt; lia).
    replace (z <? two64) with true by (symmetry; apply Z.ltb_lt; lia). split; reflexivity.
  Qed.
  Lemma chk_i z : - HALF <= z < HALF -> chk_isize_w w p z = Ok z /\ chk_isize p z = Ok z.
  Proof.
    intros Hz. assert (B := half_range). unfold chk_isize_w, chk_isize.
    replace (- HALF <=? z) with true by (symmetry; apply Z.leb_le; lia).
    replace (z <? HALF) with true by (symmetry; apply Z.ltb_lt; lia).
    replace (- two63 <=? z) with true by (symmetry; apply Z.leb_le; lia).
    replace (z <? two63) with true by (symmetry; apply Z.ltb_lt; lia). split; reflexivity.
  Qed.
  Lemma uadd_same a b : 0 <= a + b < 2 * HALF -> uadd_w w p a b = uadd p a b.
  Proof. intros Hz. unfold uadd_w, uadd. destruct (chk_u (a + b) Hz) as [-> ->]. reflexivity. Qed.
  Lemma usub_same a b : 0 <= a - b < 2 * HALF -> usub_w w p a b = usub p a b.
  Proof. intros Hz. unfold usub_w, usub. destruct (chk_u (a - b) Hz) as [-> ->]. reflexivity. Qed.
  Lemma uadd_val a b : 0 <= a + b < 2 * HALF -> uadd p a b = Ok (a + b).
  Proof. intros Hz. unfold uadd. destruct (chk_u (a + b) Hz) as [_ ->]. reflexivity. Qed.
  Lemma usub_val a b : 0 <= a - b < 2 * HALF -> usub p a b = Ok (a - b).
  Proof. intros Hz. unfold usub. destruct (chk_u (a - b) Hz) as [_ ->]. reflexivity. Qed.

  Lemma as_i z : 0 <= z < HALF -> as_isize_w w z = z /\ as_isize z = z.
  Proof.
    intros Hz. assert (B := half_range). unfold as_isize_w, as_isize. rewrite word_half.
    assert (two64 = 2 * two63) by reflexivity.
    rewrite !Z.mod_small by lia. lia.
  Qed.

  Lemma alloc_same size n : n * size <= HALF - 1 -> alloc_ok_w w size n = true /\ alloc_ok size n = true.
  Proof.
    intros Hz. assert (B := half_range). unfold alloc_ok_w, alloc_ok, isize_max.
    split; apply Z.leb_le; lia.
  Qed.

  Lemma tap_same len wr t : 0 <= wr < len -> len < HALF -> 0 <= t < HALF ->
    exists a b, tap_index_w w p wr len t = Ok a /\ tap_index p wr len t = Ok b
      /\ (a = b \/ (len <= a /\ len <= b)).
  Proof.
    intros H1 H2 H3. assert (B := half_range).
    unfold tap_index_w, tap_index, isub_w, isub, iadd_w, iadd.
    destruct (as_i wr ltac:(lia)) as [-> ->]. destruct (as_i t ltac:(lia)) as [-> ->].
    destruct (as_i len ltac:(lia)) as [-> ->].
    destruct (chk_i (wr - t) ltac:(lia)) as [-> ->]. cbn [bind].
    destruct (chk_i (wr - t - 1) ltac:(lia)) as [-> ->]. cbn [bind].
    unfold as_usize_w, as_usize. rewrite word_half. assert (E64 : two64 = 2 * two63) by reflexivity.
    destruct (Z.ltb_spec (wr - t - 1) 0) as [N|N].
    - destruct (chk_i (wr - t - 1 + len) ltac:(lia)) as [-> ->]. cbn [bind].
      destruct (Z.le_gt_cases 0 (wr - t - 1 + len)) as [P|P].
      + do 2 eexists. split; [reflexivity|]. split; [reflexivity|]. left. rewrite !Z.mod_small by lia. reflexivity.
      + do 2 eexists. split; [reflexivity|]. split; [reflexivity|]. right.
        rewrite E64. rewrite <- (Z.mod_add _ 1 (2 * HALF)) by lia. rewrite <- (Z.mod_add _ 1 (2 * two63)) by lia.
        rewrite !Z.mod_small by lia. lia.
    - cbn [bind]. do 2 eexists. split; [reflexivity|]. split; [reflexivity|]. left. rewrite !Z.mod_small by lia. reflexivity.
  Qed.

  Lemma vget_out {T} (v : list T) i : vlen v <= i -> vget v i = Panic.
  Proof.
    intros L. unfold vget. destruct (i <? 0); [reflexivity|].
    replace (vlen v <=? i) with true by (symmetry; apply Z.leb_le; lia). reflexivity.
  Qed.
  Lemma vset_out {T} (v : list T) i x : vlen v <= i -> vset v i x = Panic.
  Proof.
    intros L. unfold vset. destruct (i <? 0); [reflexivity|].
    replace (vlen v <=? i) with true by (symmetry; apply Z.leb_le; lia). reflexivity.
  Qed.
  Lemma vset_len {T} (v v' : list T) i x : vset v i x = Ok v' -> vlen v' = vlen v.
  Proof.
    unfold vset. destruct (i <? 0); [discriminate|]. destruct (vlen v <=? i); [discriminate|].
    intros E. injection E as <-. unfold vlen. rewrite list_set_length. reflexivity.
  Qed.

  (** *** [Delay] *)
  Context {T : Type} (O : num_ops T) (Hsize : 1 <= n_size_of O).

  Definition room (len : Z) : Prop := 1 <= len /\ len * n_size_of O <= HALF - 1.
  Lemma room_lt len : room len -> 1 <= len < HALF.
  Proof. intros [A B]. split; [exact A|]. nia. Qed.

  Definition pinv (s : delay T) : Prop :=
    room (vlen (dl_memory s)) /\ 0 <= dl_write s < vlen (dl_memory s) /\ 0 <= dl_read s <= HALF.

  Lemma set_delay_same s d : pinv s -> 0 <= d ->
    delay_set_delay_w w p s d = delay_set_delay p s d
    /\ forall s', delay_set_delay p s d = Ok s' -> pinv s'.
  Proof.
    intros [HR [HW HD]] Hd. assert (L := room_lt _ HR).
    unfold delay_set_delay_w, delay_set_delay.
    rewrite !usub_same, !usub_val by lia. cbn [bind].
    set (len := vlen (dl_memory s)) in *. set (dt := if len - 1 <? d then len - 1 else d).
    assert (Hdt : 0 <= dt <= len - 1) by (unfold dt; destruct (Z.ltb_spec (len - 1) d); lia).
    destruct (Z.leb_spec dt (dl_write s)) as [N|N].
    - rewrite !usub_same, !usub_val by lia. cbn [bind]. split; [reflexivity|].
      intros s' E. injection E as <-. unfold pinv. cbn [dl_memory dl_write dl_read]. fold len. repeat split; try apply HR; lia.
    - rewrite uadd_same, uadd_val by lia. cbn [bind]. rewrite !usub_same, !usub_val by lia. cbn [bind]. split; [reflexivity|].
      intros s' E. injection E as <-. unfold pinv. cbn [dl_memory dl_write dl_read]. fold len. repeat split; try apply HR; lia.
  Qed.

  Lemma new_same d m : 0 <= d -> 0 <= m -> fits_w w O m ->
    delay_new_w w O p d m = delay_new O p d m /\ forall s, delay_new O p d m = Ok s -> pinv s.
  Proof.
    intros Hd Hm Hf. unfold fits_w in Hf.
    assert (HR : room (m + 1)) by (split; lia). assert (L := room_lt _ HR).
    unfold delay_new_w, delay_new, vec_repeat_w, vec_repeat.
    rewrite uadd_same, uadd_val by lia. cbn [bind].
    destruct (alloc_same _ _ Hf) as [-> ->]. cbn [bind].
    assert (E : vlen (repeat (n_zero O) (Z.to_nat (m + 1))) = m + 1).
    { unfold vlen. rewrite repeat_length. lia. }
    apply set_delay_same.
    - unfold pinv. cbn [dl_memory dl_write dl_read]. rewrite E. split; [exact HR|]. assert (B := half_range). lia.
    - destruct (m <? d); lia.
  Qed.

  Lemma step_same s op : pinv s -> port_op w O op ->
    dl_step_w w O p s op = dl_step O p s op /\ forall s' o, dl_step O p s op = Ok (s', o) -> pinv s'.
  Proof.
    intros HI Hop. assert (HI' := HI). destruct HI' as [HR [HW HD]]. assert (L := room_lt _ HR). assert (B := half_range).
    destruct op as [x| |d|m| | | | |t|v t|v t]; cbn [port_op] in Hop; cbn [dl_step_w dl_step].
    - unfold delay_process_w, delay_process.
      destruct (vset (dl_memory s) (dl_write s) x) as [mem| |] eqn:E; cbn [bind]; [|split; [reflexivity|discriminate]..].
      assert (EL := vset_len _ _ _ _ E).
      rewrite !uadd_same, !uadd_val by lia. cbn [bind].
      unfold urem. rewrite EL. destruct (Z.eqb_spec (vlen (dl_memory s)) 0); [lia|]. cbn [bind].
      destruct (vget mem (dl_read s)) as [y| |]; cbn [bind]; [|split; [reflexivity|discriminate]..].
      split; [reflexivity|]. intros s' o Es. injection Es as <- _. unfold pinv. cbn [dl_memory dl_write dl_read]. rewrite EL.
      assert (M1 := Z.mod_pos_bound (dl_write s + 1) (vlen (dl_memory s)) ltac:(lia)).
      assert (M2 := Z.mod_pos_bound (dl_read s + 1) (vlen (dl_memory s)) ltac:(lia)).
      split; [exact HR|]. lia.
    - split; [reflexivity|]. intros s' o E. injection E as <- _. unfold pinv, delay_clear. cbn [dl_memory dl_write dl_read].
      unfold vlen. rewrite map_length. exact HI.
    - destruct (set_delay_same s d HI ltac:(lia)) as [-> P].
      destruct (delay_set_delay p s d) as [s1| |]; cbn [bind]; (split; [reflexivity|]); try discriminate.
      intros s' o E. injection E as <- _. apply P. reflexivity.
    - destruct Hop as [Hm Hf]. unfold fits_w in Hf. unfold delay_set_max_delay_w, delay_set_max_delay.
      destruct (Z.ltb_spec m (vlen (dl_memory s))) as [N|N]; cbn [bind].
      { split; [reflexivity|]. intros s' o E. injection E as <- _. exact HI. }
      assert (HRm : room (m + 1)) by (split; lia). assert (Lm := room_lt _ HRm).
      rewrite uadd_same, uadd_val by lia. cbn [bind]. unfold vec_resize_w, vec_resize.
      destruct (Z.leb_spec (m + 1) (vlen (dl_memory s))); [lia|].
      destruct (alloc_same _ _ Hf) as [-> ->]. cbn [bind]. split; [reflexivity|].
      intros s' o E. injection E as <- _. unfold pinv. cbn [dl_memory dl_write dl_read].
      assert (EL : vlen (dl_memory s ++ repeat (n_zero O) (Z.to_nat (m + 1 - vlen (dl_memory s)))) = m + 1).
      { unfold vlen in *. rewrite app_length, repeat_length. lia. }
      rewrite EL. split; [exact HRm|]. lia.
    - split; [reflexivity|]. intros s' o E. injection E as <- _. exact HI.
    - unfold delay_get_max_delay_w, delay_get_max_delay. rewrite usub_same by lia. split; [reflexivity|].
      rewrite usub_val by lia. intros s' o E. injection E as <- _. exact HI.
    - split; [reflexivity|]. intros s' o E. apply bind_Ok in E. destruct E as [? [_ E]]. injection E as <- _. exact HI.
    - split; [reflexivity|]. intros s' o E. injection E as <- _. exact HI.
    - destruct (tap_same (vlen (dl_memory s)) (dl_write s) t) as [a [b [Ea [Eb Hab]]]]; try lia.
      unfold delay_tap_out_w, delay_tap_out. rewrite Ea, Eb. cbn [bind].
      destruct Hab as [->|[A1 A2]].
      + split; [reflexivity|]. intros s' o E. apply bind_Ok in E. destruct E as [? [_ E]]. injection E as <- _. exact HI.
      + rewrite !vget_out by assumption. split; [reflexivity|discriminate].
    - destruct (tap_same (vlen (dl_memory s)) (dl_write s) t) as [a [b [Ea [Eb Hab]]]]; try lia.
      unfold delay_tap_in_w, delay_tap_in. rewrite Ea, Eb. cbn [bind].
      destruct Hab as [->|[A1 A2]].
      + split; [reflexivity|]. intros s' o E. apply bind_Ok in E. destruct E as [s1 [E1 E]]. injection E as <- _.
        apply bind_Ok in E1. destruct E1 as [mem [Em E1]]. injection E1 as <-. assert (EL := vset_len _ _ _ _ Em).
        unfold pinv. cbn [dl_memory dl_write dl_read]. rewrite EL. exact HI.
      + rewrite !vset_out by assumption. split; [reflexivity|discriminate].
    - destruct (tap_same (vlen (dl_memory s)) (dl_write s) t) as [a [b [Ea [Eb Hab]]]]; try lia.
      unfold delay_add_to_w, delay_add_to. rewrite Ea, Eb. cbn [bind].
      destruct Hab as [->|[A1 A2]].
      + split; [reflexivity|]. intros s' o E. apply bind_Ok in E. destruct E as [[s1 y] [E1 E]]. injection E as <- _.
        apply bind_Ok in E1. destruct E1 as [old [_ E1]]. apply bind_Ok in E1. destruct E1 as [mem [Em E1]].
        apply bind_Ok in E1. destruct E1 as [r [_ E1]]. injection E1 as <- _. assert (EL := vset_len _ _ _ _ Em).
        unfold pinv. cbn [dl_memory dl_write dl_read]. rewrite EL. exact HI.
      + rewrite !vget_out by assumption. split; [reflexivity|discriminate].
  Qed.

  Lemma run_same ops : forall s, pinv s -> Forall (port_op w O) ops -> dl_run_w w O p s ops = dl_run O p s ops.
  Proof.
    induction ops as [|op ops IH]; intros s HI Hops; [reflexivity|]. cbn [dl_run_w dl_run].
    destruct (step_same s op HI (Forall_inv Hops)) as [-> P].
    destruct (dl_step O p s op) as [[s1 o]| |] eqn:E; cbn [bind]; try reflexivity.
    rewrite IH; [reflexivity|eapply P; reflexivity|exact (Forall_inv_tail Hops)].
  Qed.

  (** *** [LinearDelay] *)
  Context {C : Type} (K : ctl_ops C T).
  Hypothesis HK : forall len wr d pos, 1 <= len < HALF -> 0 <= wr < len ->
    norm_loop K 64 len (c_sub K (c_of_usize K wr) (clip_delay K d (len - 1))) = Ok pos ->
    0 <= c_to_usize K pos <= HALF.

  Definition linv (s : lin_delay C T) : Prop :=
    room (vlen (ld_memory s)) /\ 0 <= ld_write s < vlen (ld_memory s) /\ 0 <= ld_read s <= HALF.

  Lemma lin_set_delay_same s d : linv s ->
    lin_set_delay_w w K O p s d = lin_set_delay K O p s d
    /\ forall s', lin_set_delay K O p s d = Ok s' -> linv s'.
  Proof.
    intros [HR [HW HD]]. assert (L := room_lt _ HR). assert (B := half_range).
    unfold lin_set_delay_w, lin_set_delay, lin_set_delay_fuel_w, lin_set_delay_fuel.
    rewrite usub_same, usub_val by lia. cbn [bind].
    destruct (norm_loop K 64 _ _) as [pos| |] eqn:E; cbn [bind]; [|split; [reflexivity|discriminate]..].
    assert (Q := HK _ _ _ _ L HW E).
    unfold c_to_usize_w. rewrite word_half, Z.min_r by lia. split; [reflexivity|].
    intros s' Es. injection Es as <-. unfold linv. cbn [ld_memory ld_write ld_read].
    split; [exact HR|]. split; [exact HW|]. destruct (_ =? _); lia.
  Qed.

  Lemma lin_new_same d m : 0 <= m -> fits_w w O m ->
    lin_new_w w K O p d m = lin_new K O p d m /\ forall s, lin_new K O p d m = Ok s -> linv s.
  Proof.
    intros Hm Hf. unfold fits_w in Hf.
    assert (HR : room (m + 1)) by (split; lia). assert (L := room_lt _ HR).
    unfold lin_new_w, lin_new, lin_new_fuel_w, lin_new_fuel, vec_repeat_w, vec_repeat.
    rewrite uadd_same, uadd_val by lia. cbn [bind].
    destruct (alloc_same _ _ Hf) as [-> ->]. cbn [bind].
    assert (E : vlen (repeat (n_zero O) (Z.to_nat (m + 1))) = m + 1).
    { unfold vlen. rewrite repeat_length. lia. }
    apply lin_set_delay_same.
    unfold linv. cbn [ld_memory ld_write ld_read]. rewrite E. split; [exact HR|]. assert (B := half_range). lia.
  Qed.

  Lemma lin_next_same s : linv s ->
    lin_next_out_w w O p s = lin_next_out O p s
    /\ forall s' v, lin_next_out O p s = Ok (s', v) -> linv s' /\ ld_memory s' = ld_memory s
         /\ ld_read s' = ld_read s.
  Proof.
    intros HI. assert (HI' := HI). destruct HI' as [HR [HW HD]]. assert (L := room_lt _ HR). assert (B := half_range).
    unfold lin_next_out_w, lin_next_out. destruct (ld_do_next_out s).
    - destruct (vget (ld_memory s) (ld_read s)) as [m0| |]; cbn [bind]; [|split; [reflexivity|discriminate]..].
      rewrite usub_same, usub_val by lia. cbn [bind]. rewrite uadd_same by lia. split; [reflexivity|].
      intros s' v E. apply bind_Ok in E. destruct E as [? [_ E]]. injection E as <- _. repeat split; try apply HR; cbn; lia.
    - split; [reflexivity|]. intros s' v E. injection E as <- _. auto.
  Qed.

  Lemma lin_step_same s op : linv s -> port_op_lin w O op ->
    lin_step_w w K O p s op = lin_step K O p s op /\ forall s' o, lin_step K O p s op = Ok (s', o) -> linv s'.
  Proof.
    intros HI Hop. assert (HI' := HI). destruct HI' as [HR [HW HD]]. assert (L := room_lt _ HR). assert (B := half_range).
    destruct op as [x| |d|m| | | | |t|v t|v t]; cbn [port_op_lin] in Hop; cbn [lin_step_w lin_step].
    - unfold lin_process_w, lin_process.
      destruct (vset (ld_memory s) (ld_write s) x) as [mem| |] eqn:E; cbn [bind]; [|split; [reflexivity|discriminate]..].
      assert (EL := vset_len _ _ _ _ E).
      rewrite !uadd_same, !uadd_val by lia. cbn [bind].
      unfold urem. rewrite EL. destruct (Z.eqb_spec (vlen (ld_memory s)) 0); [lia|]. cbn [bind].
      assert (M1 := Z.mod_pos_bound (ld_write s + 1) (vlen (ld_memory s)) ltac:(lia)).
      set (s1 := MkLin mem _ _ _ _ _ _ _ _).
      assert (HI1 : linv s1).
      { unfold linv, s1. cbn [ld_memory ld_write ld_read]. rewrite EL. split; [exact HR|]. lia. }
      destruct (lin_next_same s1 HI1) as [-> P].
      destruct (lin_next_out O p s1) as [[s2 y]| |]; cbn [bind]; [|split; [reflexivity|discriminate]..].
      destruct (P _ _ eq_refl) as [HI2 [Em Er]]. cbn [s1 ld_memory ld_read] in Em, Er.
      rewrite Er, Em, EL. rewrite !uadd_same, !uadd_val by lia. cbn [bind].
      destruct (Z.eqb_spec (vlen (ld_memory s)) 0); [lia|]. cbn [bind].
      split; [reflexivity|]. intros s' o Es. injection Es as <- _. unfold linv. cbn [ld_memory ld_write ld_read].
      destruct HI2 as [HR2 [HW2 _]]. rewrite Em in HR2, HW2.
      assert (M2 := Z.mod_pos_bound (ld_read s + 1) (vlen (ld_memory s)) ltac:(lia)).
      split; [exact HR2|]. split; [exact HW2|]. lia.
    - split; [reflexivity|]. intros s' o E. injection E as <- _. unfold linv, lin_clear. cbn [ld_memory ld_write ld_read].
      unfold vlen. rewrite map_length. exact HI.
    - destruct (lin_set_delay_same s d HI) as [-> P].
      destruct (lin_set_delay K O p s d) as [s1| |]; cbn [bind]; (split; [reflexivity|]); try discriminate.
      intros s' o E. injection E as <- _. apply P. reflexivity.
    - destruct Hop as [Hm Hf]. unfold fits_w in Hf. unfold lin_set_max_delay_w, lin_set_max_delay.
      destruct (Z.ltb_spec m (vlen (ld_memory s))) as [N|N]; cbn [bind].
      { split; [reflexivity|]. intros s' o E. injection E as <- _. exact HI. }
      assert (HRm : room (m + 1)) by (split; lia). assert (Lm := room_lt _ HRm).
      rewrite uadd_same, uadd_val by lia. cbn [bind]. unfold vec_resize_w, vec_resize.
      destruct (Z.leb_spec (m + 1) (vlen (ld_memory s))); [lia|].
      destruct (alloc_same _ _ Hf) as [-> ->]. cbn [bind]. split; [reflexivity|].
      intros s' o E. injection E as <- _. unfold linv. cbn [ld_memory ld_write ld_read].
      assert (EL : vlen (ld_memory s ++ repeat (n_zero O) (Z.to_nat (m + 1 - vlen (ld_memory s)))) = m + 1).
      { unfold vlen in *. rewrite app_length, repeat_length. lia. }
      rewrite EL. split; [exact HRm|]. lia.
    - split; [reflexivity|]. intros s' o E. injection E as <- _. exact HI.
    - unfold lin_get_max_delay_w, lin_get_max_delay. rewrite usub_same by lia. split; [reflexivity|].
      rewrite usub_val by lia. intros s' o E. injection E as <- _. exact HI.
    - destruct (lin_next_same s HI) as [-> P]. split; [reflexivity|].
      intros s' o E. apply bind_Ok in E. destruct E as [[s1 y] [E1 E]]. injection E as <- _. apply (P _ _ E1).
    - split; [reflexivity|]. intros s' o E. injection E as <- _. exact HI.
    - destruct (tap_same (vlen (ld_memory s)) (ld_write s) t) as [a [b [Ea [Eb Hab]]]]; try lia.
      unfold lin_tap_out_w, lin_tap_out. rewrite Ea, Eb. cbn [bind].
      destruct Hab as [->|[A1 A2]].
      + split; [reflexivity|]. intros s' o E. apply bind_Ok in E. destruct E as [? [_ E]]. injection E as <- _. exact HI.
      + rewrite !vget_out by assumption. split; [reflexivity|discriminate].
    - destruct (tap_same (vlen (ld_memory s)) (ld_write s) t) as [a [b [Ea [Eb Hab]]]]; try lia.
      unfold lin_tap_in_w, lin_tap_in. rewrite Ea, Eb. cbn [bind].
      destruct Hab as [->|[A1 A2]].
      + split; [reflexivity|]. intros s' o E. apply bind_Ok in E. destruct E as [s1 [E1 E]]. injection E as <- _.
        apply bind_Ok in E1. destruct E1 as [mem [Em E1]]. injection E1 as <-. assert (EL := vset_len _ _ _ _ Em).
        unfold linv. cbn [ld_memory ld_write ld_read]. rewrite EL. exact HI.
      + rewrite !vset_out by assumption. split; [reflexivity|discriminate].
    - destruct (tap_same (vlen (ld_memory s)) (ld_write s) t) as [a [b [Ea [Eb Hab]]]]; try lia.
      unfold lin_add_to_w, lin_add_to. rewrite Ea, Eb. cbn [bind].
      destruct Hab as [->|[A1 A2]].
      + split; [reflexivity|]. intros s' o E. apply bind_Ok in E. destruct E as [[s1 y] [E1 E]]. injection E as <- _.
        apply bind_Ok in E1. destruct E1 as [old [_ E1]]. apply bind_Ok in E1. destruct E1 as [mem [Em E1]].
        apply bind_Ok in E1. destruct E1 as [r [_ E1]]. injection E1 as <- _. assert (EL := vset_len _ _ _ _ Em).
        unfold linv. cbn [ld_memory ld_write ld_read]. rewrite EL. exact HI.
      + rewrite !vget_out by assumption. split; [reflexivity|discriminate].
  Qed.

  Lemma lin_run_same ops : forall s, linv s -> Forall (port_op_lin w O) ops -> lin_run_w w K O p s ops = lin_run K O p s ops.
  Proof.
    induction ops as [|op ops IH]; intros s HI Hops; [reflexivity|]. cbn [lin_run_w lin_run].
    destruct (lin_step_same s op HI (Forall_inv Hops)) as [-> P].
    destruct (lin_step K O p s op) as [[s1 o]| |] eqn:E; cbn [bind]; try reflexivity.
    rewrite IH; [reflexivity|eapply P; reflexivity|exact (Forall_inv_tail Hops)].
  Qed.
End Small.

(** ** The control arithmetics *)
Lemma port_R w : 2 <= w <= 64 -> forall len wr d pos, 1 <= len < 2 ^ (w - 1) -> 0 <= wr < len ->
  norm_loop R_ctl 64 len (c_sub R_ctl (c_of_usize R_ctl wr) (clip_delay R_ctl d (len - 1))) = Ok pos ->
  0 <= c_to_usize R_ctl pos <= 2 ^ (w - 1).
Proof.
  intros Hw len wr d pos Hl Hr E. assert (B := half_range w Hw).
  destruct (ctl_R len wr d) as [r [Ec [Hb _]]]; [unfold two63, two64 in *; lia|lia|].
  unfold ctl in Ec. rewrite E in Ec. cbn [bind] in Ec. cbn zeta in Ec. revert Ec.
  generalize (c_to_usize R_ctl pos). intros u Ec.
  assert (Er : (if u =? len then 0 else u) = r) by congruence.
  destruct (Z.eqb_spec u len); lia.
Qed.

Lemma port_f32 {T} (cast : f32 -> T) w : 2 <= w <= 64 -> forall len wr d pos, 1 <= len < 2 ^ (w - 1) -> 0 <= wr < len ->
  norm_loop (f32_ctl_gen cast) 64 len (c_sub (f32_ctl_gen cast) (c_of_usize (f32_ctl_gen cast) wr)
     (clip_delay (f32_ctl_gen cast) d (len - 1))) = Ok pos ->
  0 <= c_to_usize (f32_ctl_gen cast) pos <= 2 ^ (w - 1).
Proof.
  intros Hw len wr d pos Hl Hr E. assert (B := half_range w Hw).
  assert (Hl64 : 1 <= len < two64) by (unfold two63, two64 in *; lia).
  assert (Hdec : d = B754_nan \/ d <> B754_nan) by (clear; destruct d; (now left) || (right; discriminate)).
  destruct Hdec as [->|Hd].
  - assert (N := ctl_nan cast len wr Hl64 Hr). unfold ctl in N. rewrite E in N. cbn [bind] in N. cbn zeta in N. revert N.
    generalize (c_to_usize (f32_ctl_gen cast) pos). intros u N.
    assert (Er : (if u =? len then 0 else u) = 0) by congruence.
    destruct (Z.eqb_spec u len); lia.
  - assert (NF := norm_f32 cast len wr d 62 Hl64 Hr Hd). cbv zeta in NF. change (Datatypes.S (Datatypes.S 62)) with 64%nat in NF.
    destruct NF as [pos' [E' [Fp [Vp Pp]]]]. rewrite E in E'. injection E' as <-.
    assert (EH : IZR (2 ^ (w - 1)) = bpow radix2 (w - 1)) by (apply (IZR_Zpower radix2); lia).
    assert (FH : RN32 (bpow radix2 (w - 1)) = bpow radix2 (w - 1)).
    { apply (RN_id 24 128). apply (format_bpow 24 128). cbn. lia. }
    assert (UP : forall x, (x <= bpow radix2 (w - 1))%R -> (RN32 x <= bpow radix2 (w - 1))%R).
    { intros x Hx. rewrite <- FH. apply (RN_le 24 128). exact Hx. }
    destruct (usize_f32 (len - 1) ltac:(lia)) as [_ [_ Mr]].
    assert (Cr := clip32_range d _ (proj1 Mr)).
    assert (U1 : (RN32 (IZR wr) <= bpow radix2 (w - 1))%R) by (apply UP; rewrite <- EH; apply IZR_le; lia).
    assert (U2 : (RN32 (IZR len) <= bpow radix2 (w - 1))%R) by (apply UP; rewrite <- EH; apply IZR_le; lia).
    set (st := RN32 (RN32 (IZR wr) - clip32 d (RN32 (IZR (len - 1))))%R) in *.
    assert (U3 : (st <= bpow radix2 (w - 1))%R) by (unfold st; apply UP; lra).
    assert (UB : (B2R pos <= bpow radix2 (w - 1))%R).
    { rewrite Vp. destruct (Rlt_bool_spec st 0); [apply UP; lra|exact U3]. }
    rewrite <- EH in UB.
    cbn [f32_ctl_gen c_to_usize]. rewrite (to_usize_floor cast).
    + split; [apply Zfloor_lub; exact Pp|]. apply le_IZR. eapply Rle_trans; [apply Zfloor_lb|exact UB].
    + exact Fp.
    + split; [exact Pp|]. eapply Rle_lt_trans; [exact UB|]. apply IZR_lt. unfold two63, two64 in *. lia.
Qed.

(** ** w = 64 is the model of the other properties *)
Ltac to64 :=
  unfold delay_set_delay_w, delay_new_w, delay_set_max_delay_w, delay_get_max_delay_w, delay_process_w, delay_tap_out_w,
    delay_tap_in_w, delay_add_to_w, lin_set_max_delay_w, lin_get_max_delay_w, lin_process_w, lin_next_out_w, lin_tap_out_w,
    lin_tap_in_w, lin_add_to_w, tap_index_w, triangular_gen_w, bartlett_gen_w, hann_gen_w, hamming_gen_w, blackman_gen_w,
    blackman_harris_gen_w;
  change (uadd_w 64) with uadd; change (usub_w 64) with usub; change (iadd_w 64) with iadd; change (isub_w 64) with isub;
  change (as_usize_w 64) with as_usize; change (as_isize_w 64) with as_isize.

Lemma repeat_64 {T} size (x : T) n : vec_repeat_w 64 size x n = vec_repeat size x n.
Proof. unfold vec_repeat_w, vec_repeat, alloc_ok_w, alloc_ok. change (2 ^ (64 - 1) - 1) with isize_max. reflexivity. Qed.
Lemma resize_64 {T} size v (x : T) n : vec_resize_w 64 size v n x = vec_resize size v n x.
Proof. unfold vec_resize_w, vec_resize, alloc_ok_w, alloc_ok. change (2 ^ (64 - 1) - 1) with isize_max. reflexivity. Qed.
Lemma max_64 {T} (O : num_ops T) p s d : delay_set_max_delay_w 64 O p s d = delay_set_max_delay O p s d.
Proof.
  unfold delay_set_max_delay. to64. destruct (_ <? _); [reflexivity|].
  destruct (uadd p d 1); cbn [bind]; [|reflexivity..]. rewrite resize_64. reflexivity.
Qed.
Lemma lin_max_64 {C T} (O : num_ops T) p (s : lin_delay C T) d : lin_set_max_delay_w 64 O p s d = lin_set_max_delay O p s d.
Proof.
  unfold lin_set_max_delay. to64. destruct (_ <? _); [reflexivity|].
  destruct (uadd p d 1); cbn [bind]; [|reflexivity..]. rewrite resize_64. reflexivity.
Qed.
Lemma tap_64 p wr len t : tap_index_w 64 p wr len t = tap_index p wr len t.
Proof. unfold tap_index. to64. reflexivity. Qed.
Lemma lin_next_64 {C T} (O : num_ops T) p (s : lin_delay C T) : lin_next_out_w 64 O p s = lin_next_out O p s.
Proof. unfold lin_next_out. to64. reflexivity. Qed.
Lemma lin_process_64 {C T} (O : num_ops T) p (s : lin_delay C T) x : lin_process_w 64 O p s x = lin_process O p s x.
Proof.
  unfold lin_process, lin_process_w. change (uadd_w 64) with uadd.
  destruct (vset _ _ _); cbn [bind]; [|reflexivity..]. destruct (uadd _ _ _); cbn [bind]; [|reflexivity..].
  destruct (urem _ _); cbn [bind]; [|reflexivity..]. rewrite lin_next_64. reflexivity.
Qed.
Lemma new_64 {T} (O : num_ops T) p d m : delay_new_w 64 O p d m = delay_new O p d m.
Proof.
  assert (SD : forall s d, delay_set_delay_w 64 p s d = delay_set_delay (T := T) p s d) by (intros; to64; reflexivity).
  unfold delay_new_w, delay_new. change (uadd_w 64) with uadd.
  destruct (uadd p m 1); cbn [bind]; [|reflexivity..]. rewrite repeat_64.
  destruct (vec_repeat _ _ _); cbn [bind]; [|reflexivity..]. apply SD.
Qed.

Lemma to_usize_64 {C T} (K : ctl_ops C T) x : c_to_usize K x <= usize_max -> c_to_usize_w 64 K x = c_to_usize K x.
Proof. intros Hx. unfold c_to_usize_w. change (2 ^ 64 - 1) with usize_max. lia. Qed.

Lemma lin_session_64 {C T} (K : ctl_ops C T) (O : num_ops T) p d m ops : (forall x, c_to_usize K x <= usize_max) ->
  lin_session_w 64 K O p d m ops = lin_session K O p d m ops.
Proof.
  intros HK.
  assert (SD : forall s d, lin_set_delay_w 64 K O p s d = lin_set_delay K O p s d).
  { intros s d0. unfold lin_set_delay_w, lin_set_delay, lin_set_delay_fuel_w, lin_set_delay_fuel.
    change (usub_w 64 p) with (usub p). destruct (usub p (vlen (ld_memory s)) 1); cbn [bind]; [|reflexivity..].
    destruct (norm_loop _ _ _ _); cbn [bind]; [|reflexivity..]. rewrite to_usize_64 by apply HK. reflexivity. }
  assert (RN : forall l s, lin_run_w 64 K O p s l = lin_run K O p s l).
  { induction l as [|op ops0 IH]; intros s; cbn [lin_run_w lin_run]; [reflexivity|].
    assert (ST : lin_step_w 64 K O p s op = lin_step K O p s op).
    { destruct op; cbn [lin_step_w lin_step];
        [rewrite lin_process_64; reflexivity|reflexivity|rewrite SD; reflexivity|rewrite lin_max_64; reflexivity|reflexivity| |rewrite lin_next_64; reflexivity|reflexivity|..].
      - unfold lin_get_max_delay_w. change (usub_w 64) with usub. reflexivity.
      - unfold lin_tap_out_w. rewrite tap_64. reflexivity.
      - unfold lin_tap_in_w. rewrite tap_64. reflexivity.
      - unfold lin_add_to_w. rewrite tap_64. reflexivity. }
    rewrite ST. destruct (lin_step K O p s op) as [[s1 o]| |]; cbn [bind]; [|reflexivity..]. rewrite IH. reflexivity. }
  unfold lin_session_w, lin_session, lin_new_w, lin_new, lin_new_fuel_w, lin_new_fuel.
  change (uadd_w 64 p) with (uadd p). destruct (uadd p m 1) as [n| |]; cbn [bind]; [|reflexivity..].
  rewrite repeat_64.
  destruct (vec_repeat _ _ _) as [mem| |]; cbn [bind]; [|reflexivity..].
  change (lin_set_delay_fuel_w 64 K O p 64) with (lin_set_delay_w 64 K O p).
  change (lin_set_delay_fuel K O p 64) with (lin_set_delay K O p).
  rewrite SD. destruct (lin_set_delay _ _ _ _ _); cbn [bind]; [|reflexivity..]. apply RN.
Qed.

(*@PROP
(** C107: with w = 64 the parametrised model is the model of all other properties. *)
@*)
Lemma C107_word64_thm :
  (forall T (O : num_ops T) p d m ops, dl_session_w 64 O p d m ops = dl_session O p d m ops)
  /\ (forall p d m ops, lin_session_w 64 R_ctl R_ops p d m ops = lin_session R_ctl R_ops p d m ops)
  /\ (forall T (O : num_ops T) (cast : f32 -> T) p d m ops,
        lin_session_w 64 (f32_ctl_gen cast) O p d m ops = lin_session (f32_ctl_gen cast) O p d m ops)
  /\ (forall T (O : num_ops T) p samples win, apply_window_w 64 O p samples win = apply_window O p samples win).
Proof.
  split; [|split; [|split]].
  - intros. unfold dl_session_w, dl_session. 
    rewrite new_64.
    destruct (delay_new O p d m) as [s| |]; cbn [bind]; [|reflexivity..]. revert s.
    induction ops as [|op ops0 IH]; intros s; cbn [dl_run_w dl_run]; [reflexivity|].
    assert (ST : dl_step_w 64 O p s op = dl_step O p s op) .
    { destruct op; cbn [dl_step_w dl_step]; 
        [|reflexivity| |rewrite max_64; reflexivity|reflexivity| |reflexivity|reflexivity|..].
      - unfold delay_process. to64. reflexivity.
      - unfold delay_set_delay. to64. reflexivity.
      - unfold delay_get_max_delay_w. change (usub_w 64) with usub. reflexivity.
      - unfold delay_tap_out_w. rewrite tap_64. reflexivity.
      - unfold delay_tap_in_w. rewrite tap_64. reflexivity.
      - unfold delay_add_to_w. rewrite tap_64. reflexivity. }
    rewrite ST.
    destruct (dl_step O p s op) as [[s1 o]| |]; cbn [bind]; [|reflexivity..]. rewrite IH. reflexivity.
  - intros. apply lin_session_64. intros x. cbn [R_ctl c_to_usize]. unfold R_to_usize. lia.
  - intros. apply lin_session_64. intros x. cbn [f32_ctl_gen c_to_usize]. unfold f_to_usize, usize_max, two64.
    destruct x as [?|[|]| |]; lia.
  - intros T O p samples win.
    assert (Z : forall k xs it, zip_apply_w 64 O k p it xs = zip_apply O k p it xs).
    { intros k xs. induction xs as [|x xs IH]; intros it; cbn [zip_apply_w zip_apply]; [reflexivity|].
      assert (N : win_next_w 64 O k p it = win_next O k p it).
      { unfold win_next_w, win_next, win_generate_w, win_generate. destruct k; to64; reflexivity. }
      rewrite N. destruct (win_next O k p it) as [[it' [g|]]| |]; cbn [bind]; [|reflexivity..]. rewrite IH. reflexivity. }
    destruct win; cbn [apply_window_w apply_window]; [reflexivity|apply Z..].
Qed.

(*@PROP
(** C107: on a target with [w]-bit [usize] every session on a [Delay] whose arguments exist
    there, whose taps are at most [isize::MAX] and whose buffers can be allocated has the
    outcome it has on a 64-bit target: the same results, the same panics. *)
@*)
Lemma C107_delay_thm :
  forall (w : Z) (T : Type) (O : num_ops T) (p : profile) (d m : Z) (ops : list (dl_op Z T)),
    2 <= w <= 64 -> 1 <= n_size_of O -> 0 <= d < 2 ^ w -> 0 <= m -> fits_w w O m -> Forall (port_op w O) ops ->
    dl_session_w w O p d m ops = dl_session O p d m ops.
Proof.
  intros w T O p d m ops Hw Hs Hd Hm Hf Hops. unfold dl_session_w, dl_session.
  destruct (new_same w Hw p O Hs d m ltac:(lia) Hm Hf) as [-> P].
  destruct (delay_new O p d m) as [s| |] eqn:E; cbn [bind]; [|reflexivity..].
  apply run_same; try assumption. apply P. reflexivity.
Qed.

(*@PROP
Example C107_delay_hyps :
  2 <= 32 <= 64 /\ 1 <= n_size_of O32 /\ 0 <= 48000 < 2 ^ 32 /\ fits_w 32 O32 96000
  /\ Forall (port_op 32 O32) [DProcess (fl32 1 0); DSetDelay 100; DTapOut 2000000000; DSetMaxDelay 1000000].
Proof. repeat split; try easy. repeat constructor; easy. Qed.
@*)

(*@PROP
(** C107, [LinearDelay], in exact arithmetic and with the [f32] delay of the code (sample type
    [T], [as T] of an [f32] being [cast]). *)
@*)
Lemma C107_linear_thm :
  forall (w : Z) (p : profile) (m : Z),
    2 <= w <= 64 -> 0 <= m ->
    (forall d ops, fits_w w R_ops m -> Forall (port_op_lin w R_ops) ops ->
       lin_session_w w R_ctl R_ops p d m ops = lin_session R_ctl R_ops p d m ops)
    /\ (forall T (O : num_ops T) (cast : f32 -> T) d ops,
       1 <= n_size_of O -> fits_w w O m -> Forall (port_op_lin w O) ops ->
       lin_session_w w (f32_ctl_gen cast) O p d m ops = lin_session (f32_ctl_gen cast) O p d m ops).
Proof.
  intros w p m Hw Hm. split.
  - intros d ops Hf Hops. unfold lin_session_w, lin_session.
    destruct (lin_new_same w Hw p R_ops ltac:(cbn; lia) R_ctl (port_R w Hw) d m Hm Hf) as [-> P].
    destruct (lin_new R_ctl R_ops p d m) as [s| |] eqn:E; cbn [bind]; [|reflexivity..].
    apply lin_run_same; try assumption; [cbn; lia|apply (port_R w Hw)|apply P; reflexivity].
  - intros T O cast d ops Hs Hf Hops. unfold lin_session_w, lin_session.
    destruct (lin_new_same w Hw p O Hs (f32_ctl_gen cast) (port_f32 cast w Hw) d m Hm Hf) as [-> P].
    destruct (lin_new (f32_ctl_gen cast) O p d m) as [s| |] eqn:E; cbn [bind]; [|reflexivity..].
    apply lin_run_same; try assumption; [apply (port_f32 cast w Hw)|apply P; reflexivity].
Qed.

(*@PROP
Example C107_linear_hyps :
  2 <= 32 <= 64 /\ 1 <= n_size_of O64 /\ fits_w 32 O64 96000
  /\ Forall (port_op_lin 32 O64) [DProcess (fl64 1 0); DSetDelay (fl32 3 (-1)); DTapOut 5].
Proof. repeat split; try easy. repeat constructor; easy. Qed.
@*)

Lemma zip_same (w : Z) (Hw : 2 <= w <= 64) {T} (O : num_ops T) p k samples : forall i n,
  0 <= i -> n < 2 ^ w -> zip_apply_w w O k p (WinIter i n) samples = zip_apply O k p (WinIter i n) samples.
Proof.
  assert (Bw := word_half w Hw).
  induction samples as [|x xs IH]; intros i n Hi Hn; [reflexivity|]. cbn [zip_apply_w zip_apply].
  assert (N : win_next_w w O k p (WinIter i n) = win_next O k p (WinIter i n)).
  { unfold win_next_w, win_next. cbn [wi_index wi_size]. destruct (Z.ltb_spec i n); [|reflexivity].
    rewrite uadd_same by lia.
    assert (G : win_generate_w w O k p (WinIter i n) = win_generate O k p (WinIter i n)).
    { destruct k; cbn [win_generate_w win_generate wi_index wi_size];
      unfold triangular_gen_w, triangular_gen, bartlett_gen_w, bartlett_gen, hann_gen_w, hann_gen, hamming_gen_w, hamming_gen,
        blackman_gen_w, blackman_gen, blackman_harris_gen_w, blackman_harris_gen; rewrite usub_same by lia; reflexivity. }
    rewrite G. reflexivity. }
  rewrite N. destruct (win_next O k p (WinIter i n)) as [[it g]| |] eqn:E; cbn [bind]; [|reflexivity..].
  destruct g as [g|]; [|reflexivity].
  unfold win_next in E. cbn [wi_index wi_size] in E. destruct (Z.ltb_spec i n); [|discriminate].
  apply bind_Ok in E. destruct E as [? [_ E]]. apply bind_Ok in E. destruct E as [i' [Ei E]].
  rewrite (uadd_val w Hw) in Ei by lia. injection Ei as <-. injection E as <- _.
  rewrite IH by lia. reflexivity.
Qed.

(*@PROP
(** C107, windows: [apply_window] on a buffer that exists on the target. *)
@*)
Lemma C107_windows_thm :
  forall (w : Z) (T : Type) (O : num_ops T) (p : profile) (samples : list T) (win : window),
    2 <= w <= 64 -> Z.of_nat (length samples) < 2 ^ w ->
    apply_window_w w O p samples win = apply_window O p samples win.
Proof.
  intros w T O p samples win Hw Hl. destruct win; [reflexivity|..];
    cbn [apply_window_w apply_window]; unfold win_new; apply zip_same; try assumption; lia.
Qed.

(*@PROP
Example C107_windows_hyps : 2 <= 32 <= 64 /\ Z.of_nat (length [1%R; 2%R; 3%R]) < 2 ^ 32.
Proof. cbn [length]. lia. Qed.
@*)

(*@PROP
(** C107, where the targets differ: [tap_out(u32::MAX)].  On a 64-bit target it lies outside
    the line and panics; a 32-bit target takes it for a tap of -1 and returns the oldest
    sample, in both build profiles. *)
@*)
Lemma C107_taps_refuted_thm :
  exists (d m : Z) (ops : list (dl_op Z R)),
    0 <= d < 2 ^ 32 /\ fits_w 32 R_ops m
    /\ ops = [DProcess 1%R; DProcess 2%R; DProcess 3%R; DTapOut (2 ^ 32 - 1)]
    /\ forall p, (exists s os, dl_session_w 32 R_ops p d m ops = Ok (s, os) /\ last os ONone = OSample 1%R)
               /\ dl_session R_ops p d m ops = Panic.
Proof.
  exists 1, 2. eexists. split; [lia|]. split; [discriminate|]. split; [reflexivity|].
  intros [|]; (split; [do 2 eexists; split; reflexivity|reflexivity]).
Qed.
