(** Sessions on [LinearDelay<f32>] that complete, used in the [Example]s of the
    property files: building them from the theorems avoids computing with floats. *)
From Coq Require Import ZArith Reals List Bool Lia Lra.
From Flocq Require Import Core.Core IEEE754.BinarySingleNaN.
From Verif Require Import Base BaseLemmas Num NumR NumF Witness DelayM LinDelayM DelaySpec DelayRun DelayProofs
  LinSpec LinRun LinFloatSpec LinProofs LinCtlR LinInv LinFacts LinLemmas LinLemmas2.
Import ListNotations.
Open Scope Z_scope.

(** [LinearDelay::<f32>::new(d, m)], the calls [ops], and finally [set_delay(d')]. *)
Lemma wit_set (d d' : f32) (m : Z) (ops : list (dl_op f32 f32)) :
  0 <= m < 2 ^ 24 -> Forall op_usize_lin ops -> lin_use (2 ^ 24) m ops -> lin_fixed ops ->
  exists s, lin_history f32_ctl_f32 O32 Debug d m (ops ++ [DSetDelay d']) s
    /\ lin_get_max_delay Debug s = Ok m
    /\ (d' <> B754_nan -> is_finite (lin_get_delay s) = true /\ B2R (lin_get_delay s) = clip32 d' (IZR m))
    /\ (d' = B754_nan -> lin_get_delay s = B754_nan).
Proof.
  intros Hm Hu Hn Hf.
  assert (Hs : 1 <= n_size_of O32) by discriminate.
  assert (Hmu : is_usize m) by (unfold is_usize, two64; lia).
  assert (Hsh : short (2 ^ 24) m) by (unfold short; lia).
  destruct (C21_never_panics_thm f32 (fun x => x) O32 Debug d m ops Hs ltac:(discriminate) Hmu Hsh Hu Hn) as [s0 [os0 E0]].
  assert (Hsane : Forall (@lin_sane f32 f32) ops).
  { apply Forall_forall. intros op Hin. split; [exact (proj1 (Forall_forall _ _) Hu op Hin)|].
    exact (proj1 (Forall_forall _ _) Hf op Hin usize_max). }
  assert (Hh : lin_history f32_ctl_f32 O32 Debug d m ops s0).
  { split; [exact Hmu|]. split; [unfold usize_max, two64; lia|]. split; [exact Hsane|]. exists os0. exact E0. }
  destruct (history_place f32_ctl_f32 O32 Debug Hs d m ops s0 Hh) as [HL _]. rewrite (place_fixed _ _ Hf) in HL.
  assert (Hw := history_winv f32_ctl_f32 O32 Debug Hs d m ops s0 Hh).
  assert (Hmx : lin_get_max_delay Debug s0 = Ok m).
  { rewrite (winv_get_max O32 Debug Hs s0 Hw), HL. f_equal. lia. }
  destruct (C20_set_delay_clips_thm f32 (fun x => x) O32 Debug d m ops s0 m d' Hs Hh Hmx)
    as [s1 [E1 [H1 [H2 [H3 [H4 _]]]]]].
  rewrite H3 in H1 by lia.
  exists s1. split; [|repeat split; assumption || apply H1; assumption].
  split; [exact Hmu|]. split; [unfold usize_max, two64; lia|]. split.
  - apply Forall_app. split; [exact Hsane|]. repeat constructor; easy.
  - exists (os0 ++ [ONone]). unfold lin_session in *. change (f32_ctl_gen (fun x : f32 => x)) with f32_ctl_f32 in *.
    apply bind_Ok in E0. destruct E0 as [sn [En E0]].
    rewrite En. cbn [bind]. rewrite lin_run_app.
    rewrite E0. cbn [bind lin_run lin_step]. rewrite E1. reflexivity.
Qed.

(** In exact arithmetic: [LinearDelay::new(d, m)] and calls that do not touch the
    delay. *)
Lemma wit_R (d : R) (m : Z) (ops : list (dl_op R R)) :
  0 <= m < 2 ^ 24 -> (0 <= d <= IZR m)%R -> Forall op_usize_lin ops ->
  Forall (fun op => (forall d', op <> DSetDelay d') /\ (forall m', op <> DSetMaxDelay m')) ops ->
  lin_use (max_slots R_ops) m ops ->
  exists s, lin_history R_ctl R_ops Debug d m ops s /\ lin_get_delay s = d.
Proof.
  intros Hm Hd Hu Hf Hn.
  assert (Hmu : is_usize m) by (unfold is_usize, two64; lia).
  assert (Hfit : fits R_ops m) by (unfold fits; cbn [n_size_of R_ops]; unfold isize_max, two63; lia).
  destruct (C22_refines_ideal_thm Debug d m ops Hmu Hfit Hu Hn) as [s [os [i [E _]]]].
  exists s. split.
  - split; [exact Hmu|]. split; [unfold usize_max, two64; lia|]. split; [|exists os; exact E].
    apply Forall_forall. intros op Hin. split; [exact (proj1 (Forall_forall _ _) Hu op Hin)|].
    exact (proj2 (proj1 (Forall_forall _ _) Hf op Hin) usize_max).
  - unfold lin_session in E. apply bind_Ok in E. destruct E as [s0 [E0 E]].
    assert (Hdl0 : lin_get_delay s0 = d).
    { destruct (ctl_R (m + 1) 0 (clip_delay R_ctl d m)) as [r [Ec [Hr _]]]; [unfold two64; lia|lia|].
      assert (Hms : m + 1 <= max_slots R_ops) by (apply fits_R; exact Hfit).
      destruct (new_ctl R_ctl R_ops Debug R_size d m _ _ _ ltac:(lia) Hms Ec ltac:(lia)) as [s' [E' [_ [_ [_ [_ [Hdl _]]]]]]].
      rewrite E0 in E'. injection E' as <-. unfold lin_get_delay. rewrite Hdl.
      rewrite R_clip by lia. unfold clipR. rewrite !Rmin_left, !Rmax_right;
        rewrite ?Rmin_left, ?Rmax_right; try rewrite plus_IZR; lra || reflexivity. }
    clear E0 Hn. revert s0 os Hdl0 E. induction ops as [|op ops IH]; intros s0 os Hdl0 E; cbn [lin_run] in E.
    + injection E as <- _. exact Hdl0.
    + apply bind_Ok in E. destruct E as [[s1 o] [E1 E]]. apply bind_Ok in E. destruct E as [[s2 os2] [E2 E]].
      injection E as <- _. destruct (Forall_inv Hf) as [Hf1 Hf2].
      apply (IH (Forall_inv_tail Hu) (Forall_inv_tail Hf) s1 os2); [|exact E2]. rewrite <- Hdl0. clear E2 IH.
      unfold lin_get_delay in *.
      destruct op as [x| |d'|m'| | | | |t|u t|u t]; cbn [lin_step] in E1.
      * apply bind_Ok in E1. destruct E1 as [[t y] [E1 F]]. injection F as <- _. unfold lin_process in E1.
        do 3 (apply bind_Ok in E1; destruct E1 as [? [_ E1]]).
        apply bind_Ok in E1. destruct E1 as [[t2 y2] [En E1]].
        do 2 (apply bind_Ok in E1; destruct E1 as [? [_ E1]]). injection E1 as <- _. cbn [ld_delay].
        unfold lin_next_out in En. cbn [ld_do_next_out ld_next_out ld_memory ld_read ld_om_alpha ld_alpha ld_delay ld_output ld_write] in En.
        destruct (ld_do_next_out s0).
        -- do 3 (apply bind_Ok in En; destruct En as [? [_ En]]). injection En as <- _. reflexivity.
        -- injection En as <- _. reflexivity.
      * injection E1 as <- _. reflexivity.
      * now elim (Hf1 d').
      * now elim (Hf2 m').
      * injection E1 as <- _. reflexivity.
      * apply bind_Ok in E1. destruct E1 as [n [_ F]]. injection F as <- _. reflexivity.
      * apply bind_Ok in E1. destruct E1 as [[t y] [En F]]. injection F as <- _. unfold lin_next_out in En.
        destruct (ld_do_next_out s0).
        -- do 3 (apply bind_Ok in En; destruct En as [? [_ En]]). injection En as <- _. reflexivity.
        -- injection En as <- _. reflexivity.
      * injection E1 as <- _. reflexivity.
      * apply bind_Ok in E1. destruct E1 as [n [_ F]]. injection F as <- _. reflexivity.
      * apply bind_Ok in E1. destruct E1 as [n [E1 F]]. injection F as <- _. unfold lin_tap_in in E1.
        do 2 (apply bind_Ok in E1; destruct E1 as [? [_ E1]]). injection E1 as <-. reflexivity.
      * apply bind_Ok in E1. destruct E1 as [[n y] [E1 F]]. injection F as <- _. unfold lin_add_to in E1.
        do 4 (apply bind_Ok in E1; destruct E1 as [? [_ E1]]). injection E1 as <- _. reflexivity.
Qed.

(** What holds of zero and of every sample put on a line holds of its taps. *)
Lemma mem_set {A} (P : A -> Prop) v i (x : A) v' : List.Forall P v -> P x -> vset v i x = Ok v' -> List.Forall P v'.
Proof.
  intros Hv Hx E. unfold vset in E. destruct (i <? 0); [discriminate|]. destruct (vlen v <=? i) eqn:Ei; [discriminate|].
  injection E as <-. rewrite Forall_forall in *. intros y Hy.
  destruct (In_nth _ _ x Hy) as [k [Hk <-]]. rewrite list_set_length in Hk.
  destruct (Nat.eq_dec k (Z.to_nat i)) as [->|Hne].
  - rewrite nth_list_set_eq by exact Hk. exact Hx.
  - rewrite nth_list_set_neq by auto. apply Hv, nth_In, Hk.
Qed.

Section Mem.
  Context {C T : Type} (K : ctl_ops C T) (O : num_ops T) (p : profile) (P : T -> Prop).
  Hypothesis P0 : P (n_zero O).

  Definition feeds (op : dl_op C T) : Prop :=
    match op with DProcess x | DTapIn x _ => P x | DAddTo _ _ | DSetMaxDelay _ => False | _ => True end.

  Lemma mem_step (s : lin_delay C T) op s' o :
    List.Forall P (ld_memory s) -> feeds op -> lin_step K O p s op = Ok (s', o) -> List.Forall P (ld_memory s').
  Proof.
    intros Hm Hf E.
    destruct op as [x| |d'|m'| | | | |t|u t|u t]; cbn [lin_step feeds] in *; try contradiction.
    - apply bind_Ok in E. destruct E as [[t y] [E1 F]]. injection F as <- _. unfold lin_process in E1.
      apply bind_Ok in E1. destruct E1 as [mem [Em E1]].
      do 2 (apply bind_Ok in E1; destruct E1 as [? [_ E1]]).
      apply bind_Ok in E1. destruct E1 as [[t2 y2] [En E1]].
      do 2 (apply bind_Ok in E1; destruct E1 as [? [_ E1]]). injection E1 as <- _. cbn [ld_memory].
      apply (mem_set P _ _ _ _ Hm Hf) in Em. unfold lin_next_out in En.
      cbn [ld_do_next_out ld_next_out ld_memory ld_read ld_om_alpha ld_alpha ld_delay ld_output ld_write] in En.
      destruct (ld_do_next_out s).
      + do 3 (apply bind_Ok in En; destruct En as [? [_ En]]). injection En as <- _. exact Em.
      + injection En as <- _. exact Em.
    - injection E as <- _. cbn [lin_clear ld_memory]. apply Forall_forall. intros y Hy.
      apply in_map_iff in Hy. destruct Hy as [? [<- _]]. exact P0.
    - apply bind_Ok in E. destruct E as [t [E1 F]]. injection F as <- _.
      unfold lin_set_delay, lin_set_delay_fuel in E1.
      do 2 (apply bind_Ok in E1; destruct E1 as [? [_ E1]]). injection E1 as <-. exact Hm.
    - injection E as <- _. exact Hm.
    - apply bind_Ok in E. destruct E as [n [_ F]]. injection F as <- _. exact Hm.
    - apply bind_Ok in E. destruct E as [[t y] [En F]]. injection F as <- _. unfold lin_next_out in En.
      destruct (ld_do_next_out s).
      + do 3 (apply bind_Ok in En; destruct En as [? [_ En]]). injection En as <- _. exact Hm.
      + injection En as <- _. exact Hm.
    - injection E as <- _. exact Hm.
    - apply bind_Ok in E. destruct E as [n [_ F]]. injection F as <- _. exact Hm.
    - apply bind_Ok in E. destruct E as [n [E1 F]]. injection F as <- _. unfold lin_tap_in in E1.
      apply bind_Ok in E1; destruct E1 as [? [_ E1]]. apply bind_Ok in E1; destruct E1 as [mem [Em E1]].
      injection E1 as <-. exact (mem_set P _ _ _ _ Hm Hf Em).
  Qed.

  Lemma mem_taps d m ops (s : lin_delay C T) t v :
    lin_history K O p d m ops s -> List.Forall feeds ops -> lin_tap_out p s t = Ok v -> P v.
  Proof.
    intros [_ [_ [_ [os E]]]] Hf Ht. unfold lin_session in E. apply bind_Ok in E. destruct E as [s0 [E0 E]].
    assert (H : List.Forall P (ld_memory s)).
    { assert (H0 : List.Forall P (ld_memory s0)).
      { unfold lin_new, lin_new_fuel in E0. apply bind_Ok in E0. destruct E0 as [n [_ E0]].
        apply bind_Ok in E0. destruct E0 as [mem [Em E0]]. unfold lin_set_delay_fuel in E0.
        do 2 (apply bind_Ok in E0; destruct E0 as [? [_ E0]]). injection E0 as <-. cbn [ld_memory].
        unfold vec_repeat in Em. destruct (alloc_ok _ _); [|discriminate]. injection Em as <-.
        apply Forall_forall. intros y Hy. apply repeat_spec in Hy. subst y. exact P0. }
      clear E0 Ht. revert s0 os E H0. induction ops as [|op ops IH]; intros s0 os E H0; cbn [lin_run] in E.
      - injection E as <- _. exact H0.
      - apply bind_Ok in E. destruct E as [[s1 o] [E1 E]]. apply bind_Ok in E. destruct E as [[s2 os2] [E2 E]].
        injection E as <- _. apply (IH (Forall_inv_tail Hf) s1 os2 E2).
        exact (mem_step _ _ _ _ H0 (Forall_inv Hf) E1). }
    unfold lin_tap_out in Ht. apply bind_Ok in Ht. destruct Ht as [i [_ Ht]].
    unfold vget in Ht. destruct (i <? 0); [discriminate|]. destruct (vlen _ <=? i); [discriminate|]. destruct (nth_error (ld_memory s) (Z.to_nat i)) eqn:En; [|discriminate].
    injection Ht as <-. apply nth_error_In in En. exact (proj1 (Forall_forall _ _) H _ En).
  Qed.
End Mem.
