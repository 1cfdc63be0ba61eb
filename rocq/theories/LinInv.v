(** Invariants of [LinearDelay] over arbitrary completed histories. *)
From Coq Require Import ZArith List Bool Lia ZifyBool ZifyNat.
From Verif Require Import Base BaseLemmas Num DelayM LinDelayM DelaySpec DelayRun DelayProofs
  LinSpec LinRun PlaceSpec LinProofs.
Import ListNotations.
Open Scope Z_scope.

Section Inv.
  Context {C T : Type} (K : ctl_ops C T) (O : num_ops T) (p : profile).
  Local Notation zero := (n_zero O).
  Hypothesis Hsize : 1 <= n_size_of O.

  (** Lengths and write position, whatever the control arithmetic does. *)
  Definition winv (s : lin_delay C T) : Prop :=
    1 <= vlen (ld_memory s) <= max_slots O /\ 0 <= ld_write s < vlen (ld_memory s).

  Lemma vset_length {A} (v v' : list A) i x : vset v i x = Ok v' -> vlen v' = vlen v.
  Proof.
    unfold vset. destruct (i <? 0); [discriminate|]. destruct (vlen v <=? i); [discriminate|].
    intros E. inversion E. apply list_set_vlen.
  Qed.

  Lemma winv_len64 s : winv s -> 1 <= vlen (ld_memory s) < two63.
  Proof. intros [H _]. pose proof (max_slots_lt O Hsize). lia. Qed.

  (** Effect of a completed call on everything but the values stored. *)
  Lemma step_frame s op s' o :
    winv s -> lin_sane op -> lin_step K O p s op = Ok (s', o) ->
    winv s'
    /\ vlen (ld_memory s') = match op with DSetMaxDelay m => Z.max (vlen (ld_memory s)) (m + 1)
                                      | _ => vlen (ld_memory s) end
    /\ ld_write s' = match op with DProcess _ => (ld_write s + 1) mod vlen (ld_memory s) | _ => ld_write s end
    /\ ld_do_next_out s' = match op with DProcess _ => true | DNextOut => false | _ => ld_do_next_out s end
    /\ match op with
       | DSetDelay d => exists dt r a, ctl K (vlen (ld_memory s)) (ld_write s) d = Ok (dt, r, a)
           /\ ld_delay s' = dt /\ ld_read s' = r /\ ld_alpha s' = c_cast K a
           /\ ld_om_alpha s' = n_sub O (n_one O) (c_cast K a)
       | DProcess _ => ld_delay s' = ld_delay s /\ ld_alpha s' = ld_alpha s /\ ld_om_alpha s' = ld_om_alpha s
           /\ (0 <= ld_read s < vlen (ld_memory s) -> ld_read s' = (ld_read s + 1) mod vlen (ld_memory s))
       | _ => ld_delay s' = ld_delay s /\ ld_alpha s' = ld_alpha s /\ ld_om_alpha s' = ld_om_alpha s
           /\ ld_read s' = ld_read s
       end.
  Proof.
    intros Hw Hs E. pose proof (max_slots_lt O Hsize) as Hms. assert (Hl := winv_len64 s Hw).
    destruct Hw as [Hlen Hwr].
    destruct op; cbn [lin_step] in E.
    - apply bind_Ok in E. destruct E as [[s1 y] [E1 E2]]. inversion E2; subst s1 o; clear E2.
      unfold lin_process in E1. rewrite vset_ok in E1 by lia. cbn [bind] in E1.
      set (mem := list_set _ _ _) in E1.
      assert (HL : vlen mem = vlen (ld_memory s)) by apply list_set_vlen.
      unfold uadd at 1 in E1. rewrite chk_usize_ok in E1 by (unfold two63, two64 in *; lia).
      cbn [bind] in E1. rewrite urem_ok in E1 by lia. cbn [bind] in E1. rewrite HL in E1.
      apply bind_Ok in E1. destruct E1 as [[s2 yy] [En E1]].
      assert (Hs2 : ld_memory s2 = mem /\ ld_write s2 = (ld_write s + 1) mod vlen (ld_memory s)
        /\ ld_read s2 = ld_read s /\ ld_delay s2 = ld_delay s /\ ld_alpha s2 = ld_alpha s
        /\ ld_om_alpha s2 = ld_om_alpha s).
      { unfold lin_next_out in En. cbn [ld_do_next_out ld_memory ld_read ld_om_alpha ld_alpha ld_next_out ld_output ld_write ld_delay] in En.
        destruct (ld_do_next_out s).
        - apply bind_Ok in En. destruct En as [m0 [_ En]]. apply bind_Ok in En. destruct En as [la [_ En]].
          apply bind_Ok in En. destruct En as [v [_ En]]. inversion En. cbn. auto 10.
        - inversion En. cbn. auto 10. }
      destruct Hs2 as [M2 [W2 [R2 [D2 [A2 O2]]]]].
      apply bind_Ok in E1. destruct E1 as [r1 [Er1 E1]]. apply bind_Ok in E1. destruct E1 as [rd [Erd E1]].
      inversion E1; subst s' yy. clear E1. cbn [ld_memory ld_write ld_do_next_out ld_delay ld_alpha ld_om_alpha ld_read].
      rewrite M2, W2, D2, A2, O2. unfold winv. cbn [ld_memory ld_write]. rewrite ?HL.
      assert (Hm := Z.mod_pos_bound (ld_write s + 1) (vlen (ld_memory s)) ltac:(lia)).
      repeat (split; [now auto|]). intros Hr.
      rewrite M2, HL in Erd. rewrite R2 in Er1. unfold uadd in Er1.
      rewrite chk_usize_ok in Er1 by (unfold two63, two64 in *; lia). inversion Er1; subst r1.
      rewrite urem_ok in Erd by lia. inversion Erd. reflexivity.
    - inversion E; subst. unfold winv, lin_clear. cbn [ld_memory ld_write ld_do_next_out ld_delay ld_alpha ld_om_alpha ld_read].
      assert (HL : vlen (map (fun _ : T => zero) (ld_memory s)) = vlen (ld_memory s))
        by (unfold vlen; rewrite map_length; reflexivity).
      rewrite HL. auto 10.
    - apply bind_Ok in E. destruct E as [s1 [E1 E2]]. inversion E2; subst s1 o; clear E2.
      rewrite lin_set_delay_ctl in E1 by (unfold two63, two64 in *; lia).
      apply bind_Ok in E1. destruct E1 as [[[dt r] a] [Ec E1]]. inversion E1. unfold winv.
      cbn [ld_memory ld_write ld_do_next_out ld_delay ld_alpha ld_om_alpha ld_read].
      repeat (split; [now auto|]). exists dt, r, a. auto.
    - apply bind_Ok in E. destruct E as [s1 [E1 E2]]. inversion E2; subst s1 o; clear E2.
      unfold lin_set_max_delay in E1. destruct Hs as [Hu Hn]. cbn in Hu. unfold is_usize in Hu.
      destruct (Z.ltb_spec m (vlen (ld_memory s))).
      + inversion E1; subst. unfold winv. repeat (split; [now (auto || lia)|]). auto.
      + assert (m <> usize_max) by (intros ->; apply Hn; reflexivity).
        unfold uadd in E1. rewrite chk_usize_ok in E1 by (unfold usize_max, two64 in *; lia). cbn [bind] in E1.
        unfold vec_resize in E1. replace (m + 1 <=? vlen (ld_memory s)) with false in E1 by lia.
        rewrite alloc_ok_iff in E1 by exact Hsize.
        destruct (Z.leb_spec (m + 1) (max_slots O)); [|discriminate]. cbn [bind] in E1. inversion E1.
        unfold winv. cbn [ld_memory ld_write ld_do_next_out ld_delay ld_alpha ld_om_alpha ld_read].
        assert (HL : vlen (ld_memory s ++ repeat zero (Z.to_nat (m + 1 - vlen (ld_memory s)))) = m + 1).
        { unfold vlen in *. rewrite app_length, repeat_length. lia. }
        rewrite HL. repeat (split; [now (auto || lia)|]). auto.
    - inversion E; subst. unfold winv. auto 10.
    - apply bind_Ok in E. destruct E as [n [_ E]]. inversion E; subst. unfold winv. auto 10.
    - apply bind_Ok in E. destruct E as [[s1 y] [E1 E2]]. inversion E2; subst s1 o; clear E2.
      unfold lin_next_out in E1. destruct (ld_do_next_out s) eqn:En.
      + apply bind_Ok in E1. destruct E1 as [m0 [_ E1]]. apply bind_Ok in E1. destruct E1 as [la [_ E1]].
        apply bind_Ok in E1. destruct E1 as [v [_ E1]]. inversion E1. unfold winv. cbn. auto 10.
      + inversion E1; subst. unfold winv. auto 10.
    - inversion E; subst. unfold winv. auto 10.
    - apply bind_Ok in E. destruct E as [n [_ E]]. inversion E; subst. unfold winv. auto 10.
    - apply bind_Ok in E. destruct E as [s1 [E1 E2]]. inversion E2; subst s1 o; clear E2.
      unfold lin_tap_in in E1. apply bind_Ok in E1. destruct E1 as [i [_ E1]].
      apply bind_Ok in E1. destruct E1 as [mem [Em E1]]. apply vset_length in Em. inversion E1. unfold winv. cbn [ld_memory ld_write ld_do_next_out ld_delay ld_alpha ld_om_alpha ld_read].
      rewrite Em. auto 10.
    - apply bind_Ok in E. destruct E as [[s1 y] [E1 E2]]. inversion E2; subst s1 o; clear E2.
      unfold lin_add_to in E1. apply bind_Ok in E1. destruct E1 as [i [_ E1]].
      apply bind_Ok in E1. destruct E1 as [old [_ E1]].
      apply bind_Ok in E1. destruct E1 as [mem [Em E1]]. apply vset_length in Em.
      apply bind_Ok in E1. destruct E1 as [r [_ E1]]. inversion E1. unfold winv. cbn [ld_memory ld_write ld_do_next_out ld_delay ld_alpha ld_om_alpha ld_read].
      rewrite Em. auto 10.
  Qed.

  (** Weights and lag come from one [set_delay] computation on a line of this
      length. *)
  Definition aimed (s : lin_delay C T) : Prop :=
    exists w0 d0 dt r a, 0 <= w0 < vlen (ld_memory s) /\ ctl K (vlen (ld_memory s)) w0 d0 = Ok (dt, r, a)
      /\ ld_delay s = dt /\ lag_of (vlen (ld_memory s)) (ld_write s) (ld_read s) = lag_of (vlen (ld_memory s)) w0 r
      /\ ld_alpha s = c_cast K a /\ ld_om_alpha s = n_sub O (n_one O) (c_cast K a).

  Context (lim : Z).
  Hypothesis Hlim : lim <= max_slots O.
  Hypothesis Hctl : forall len w d, 1 <= len <= lim -> 0 <= w < len ->
    exists dt r a, ctl K len w d = Ok (dt, r, a) /\ 0 <= r < len.

  Notation trusted_step := (fun b (op : dl_op C T) => match op with
                           | DSetMaxDelay _ => false
                           | DSetDelay _ => true
                           | _ => b
                           end).
  Notation unpeeked_step := (fun b (op : dl_op C T) => match op with
                           | DNextOut => false
                           | DProcess _ => true
                           | _ => b
                           end).

  Definition hinv (tr un : bool) (s : lin_delay C T) : Prop :=
    lin_inv' O lim s /\ (tr = true -> aimed s) /\ (un = true -> ld_do_next_out s = true).

  Lemma inv_winv s : lin_inv O s -> winv s.
  Proof. intros [Hl Hw Hr Hd]. split; assumption. Qed.

  Lemma step_hinv tr un s op s' o :
    hinv tr un s -> lin_sane op -> lin_step K O p s op = Ok (s', o) -> vlen (ld_memory s') <= lim ->
    hinv (trusted_step tr op) (unpeeked_step un op) s'.
  Proof.
    intros [[Hi Hv] [Ht Hun]] Hs E Hv'.
    destruct (step_frame s op s' o (inv_winv s Hi) Hs E) as [Hw' [HL [HW [HN HR]]]].
    destruct Hi as [Hl Hw Hr Hd]. cbn [dl_of dl_memory dl_write dl_read dl_delay] in *.
    destruct Hw' as [Hlw Hww].
    assert (Hread : 0 <= ld_read s' < vlen (ld_memory s')).
    { assert (Hmod := Z.mod_pos_bound (ld_read s + 1) (vlen (ld_memory s)) ltac:(lia)).
      destruct op; cbn beta iota in *;
        lazymatch goal with
        | H : exists _, _ |- _ =>
            destruct HR as [dt [r [a [Ec [_ [-> _]]]]]];
            destruct (Hctl (vlen (ld_memory s)) (ld_write s) d ltac:(lia) ltac:(lia)) as [dt' [r' [a' [Ec' Hr']]]];
            rewrite Ec in Ec'; inversion Ec'; subst; lia
        | _ => destruct HR as [_ [_ [_ HR]]]; lia
        end. }
    split; [split; [constructor; cbn [dl_of dl_memory dl_write dl_read dl_delay]; lia|exact Hv']|].
    split.
    - intros Htr. destruct op; cbn beta iota in *;
        try (destruct (Ht Htr) as [w0 [d0 [dt [r [a [A1 [A2 [A3 [A4 [A5 A6]]]]]]]]]];
             destruct HR as [R1 [R2 [R3 R4]]];
             exists w0, d0, dt, r, a; rewrite HL, HW, R1, R2, R3, R4; solve [auto 10]).
      + destruct (Ht Htr) as [w0 [d0 [dt [r [a [A1 [A2 [A3 [A4 [A5 A6]]]]]]]]]].
        destruct HR as [R1 [R2 [R3 R4]]]. specialize (R4 ltac:(lia)).
        exists w0, d0, dt, r, a. rewrite HL, HW, R1, R2, R3, R4.
        repeat (split; [assumption|]). split; [|auto]. rewrite <- A4. clear A4.
        rewrite !succ_mod by lia. unfold lag_of.
        destruct (Z.eqb_spec (ld_write s + 1) (vlen (ld_memory s)));
          destruct (Z.eqb_spec (ld_read s + 1) (vlen (ld_memory s)));
          destruct (Z.leb_spec (ld_read s) (ld_write s));
          repeat match goal with |- context [?a <=? ?b] => destruct (Z.leb_spec a b) end; lia.
      + destruct HR as [dt [r [a [Ec [R1 [R2 [R3 R4]]]]]]].
        exists (ld_write s), d, dt, r, a. rewrite HL, HW, R2. auto 10.
      + discriminate.
    - intros Hu. rewrite HN. destruct op; auto.
  Qed.

  Lemma run_hinv ops tr un s s' os :
    hinv tr un s -> Forall lin_sane ops -> lin_run K O p s ops = Ok (s', os) -> vlen (ld_memory s') <= lim ->
    hinv (fold_left trusted_step ops tr) (fold_left unpeeked_step ops un) s'
    /\ vlen (ld_memory s) <= vlen (ld_memory s').
  Proof.
    revert tr un s os; induction ops as [|op ops IH]; intros tr un s os Hh Hs E Hv.
    - inversion E; subst. cbn. split; [exact Hh|lia].
    - cbn [lin_run] in E. apply bind_Ok in E. destruct E as [[s1 o] [E1 E]].
      apply bind_Ok in E. destruct E as [[s2 os2] [E2 E]]. inversion E; subst. clear E.
      inversion Hs as [|? ? Hs1 Hs2]; subst.
      assert (Hmono : vlen (ld_memory s1) <= vlen (ld_memory s')).
      { assert (Hw1 : winv s1) by (apply (step_frame s op s1 o); [apply inv_winv, Hh|assumption|assumption]).
        clear -Hw1 E2 Hs2 Hsize. revert s1 os2 Hw1 E2. induction ops as [|op' ops IH']; intros s1 os2 Hw1 E2.
        - inversion E2; subst; lia.
        - cbn [lin_run] in E2. apply bind_Ok in E2. destruct E2 as [[t o'] [F1 F2]].
          apply bind_Ok in F2. destruct F2 as [[t2 os3] [F2 F3]]. inversion F3; subst. inversion Hs2; subst.
          destruct (step_frame s1 op' t o' Hw1 ltac:(assumption) F1) as [Hw2 [HL _]].
          specialize (IH' ltac:(assumption) t os3 Hw2 F2).
          rewrite HL in IH'. destruct op'; lia. }
      assert (Hh1 := step_hinv tr un s op s1 o Hh Hs1 E1 ltac:(lia)).
      destruct (IH _ _ _ _ Hh1 Hs2 E2 Hv) as [A B]. split; [exact A|].
      destruct (step_frame s op s1 o (inv_winv s (proj1 (proj1 Hh))) Hs1 E1) as [_ [HL _]].
      rewrite HL in B. destruct op; lia.
  Qed.

  Lemma history_hinv d m ops s :
    lin_history K O p d m ops s -> vlen (ld_memory s) <= lim ->
    lin_inv' O lim s /\ (lin_trusted ops -> aimed s) /\ (unpeeked ops -> ld_do_next_out s = true).
  Proof.
    intros [Hm [Hmx [Hs [os E]]]] Hv. unfold lin_session in E. unfold is_usize in Hm.
    apply bind_Ok in E. destruct E as [s0 [En E]]. pose proof (max_slots_lt O Hsize) as Hms.
    assert (Hfit : m + 1 <= max_slots O).
    { unfold lin_new, lin_new_fuel in En. unfold uadd in En.
      rewrite chk_usize_ok in En by (unfold usize_max, two64 in *; lia). cbn [bind] in En.
      unfold vec_repeat in En. rewrite alloc_ok_iff in En by exact Hsize.
      destruct (Z.leb_spec (m + 1) (max_slots O)); [lia|discriminate]. }
    assert (Hw0 : winv s0 /\ vlen (ld_memory s0) = m + 1).
    { unfold lin_new, lin_new_fuel in En. fold (lin_set_delay K O p) in En. unfold uadd in En.
      rewrite chk_usize_ok in En by (unfold usize_max, two64 in *; lia). cbn [bind] in En.
      unfold vec_repeat in En. rewrite alloc_ok_iff in En by exact Hsize.
      replace (m + 1 <=? max_slots O) with true in En by lia. cbn [bind] in En.
      assert (HL : vlen (repeat zero (Z.to_nat (m + 1))) = m + 1) by (unfold vlen; rewrite repeat_length; lia).
      rewrite lin_set_delay_ctl in En by (cbn [ld_memory]; rewrite HL; unfold two63, two64 in *; lia).
      apply bind_Ok in En. destruct En as [[[dt r] a] [Ec En]]. inversion En.
      unfold winv. cbn [ld_memory ld_write]. rewrite HL. lia. }
    destruct Hw0 as [Hw0 HL0].
    assert (Hmono : vlen (ld_memory s0) <= vlen (ld_memory s)).
    { clear -Hw0 E Hs Hsize. revert s0 os Hw0 E. induction ops as [|op' ops IH']; intros s0 os Hw0 E.
      - inversion E; subst; lia.
      - cbn [lin_run] in E. apply bind_Ok in E. destruct E as [[t o'] [F1 F2]].
        apply bind_Ok in F2. destruct F2 as [[t2 os3] [F2 F3]]. inversion F3; subst. inversion Hs; subst.
        destruct (step_frame s0 op' t o' Hw0 ltac:(assumption) F1) as [Hw2 [HL _]].
        specialize (IH' ltac:(assumption) t os3 Hw2 F2).
        rewrite HL in IH'. destruct op'; lia. }
    assert (Hh0 : hinv true true s0).
    { unfold lin_new, lin_new_fuel in En. fold (lin_set_delay K O p) in En. unfold uadd in En.
      rewrite chk_usize_ok in En by (unfold usize_max, two64 in *; lia). cbn [bind] in En.
      unfold vec_repeat in En. rewrite alloc_ok_iff in En by exact Hsize.
      replace (m + 1 <=? max_slots O) with true in En by lia. cbn [bind] in En.
      assert (HL : vlen (repeat zero (Z.to_nat (m + 1))) = m + 1) by (unfold vlen; rewrite repeat_length; lia).
      rewrite lin_set_delay_ctl in En by (cbn [ld_memory]; rewrite HL; unfold two63, two64 in *; lia).
      cbn [ld_memory ld_write] in En. rewrite HL in En.
      apply bind_Ok in En. destruct En as [[[dt r] a] [Ec En]].
      destruct (Hctl (m + 1) 0 (clip_delay K d m) ltac:(lia) ltac:(lia)) as [dt' [r' [a' [Ec' Hr']]]].
      rewrite Ec in Ec'. inversion Ec'; subst dt' r' a'.
      inversion En. split; [|split].
      - split; [constructor|]; cbn [dl_of dl_memory dl_write dl_read dl_delay ld_memory ld_write ld_read]; rewrite HL; lia.
      - intros _. exists 0, (clip_delay K d m), dt, r, a. cbn [ld_memory ld_write ld_read ld_delay ld_alpha ld_om_alpha].
        rewrite HL. repeat split; try lia. exact Ec.
      - reflexivity. }
    destruct (run_hinv ops true true s0 s os Hh0 Hs E Hv) as [[A [B D]] _].
    split; [exact A|]. split; assumption.
  Qed.

  (** Length and write position after any history. *)
  Lemma history_place d m ops s :
    lin_history K O p d m ops s ->
    vlen (ld_memory s) = max_after m ops + 1 /\ ld_write s = write_after m ops.
  Proof using Hsize.
    clear lim Hlim Hctl.
    intros [Hm [Hmx [Hs [os E]]]]. unfold lin_session in E. unfold is_usize in Hm.
    apply bind_Ok in E. destruct E as [s0 [En E]]. pose proof (max_slots_lt O Hsize) as Hms.
    assert (Hw0 : winv s0 /\ vlen (ld_memory s0) = m + 1 /\ ld_write s0 = 0).
    { unfold lin_new, lin_new_fuel in En. fold (lin_set_delay K O p) in En. unfold uadd in En.
      rewrite chk_usize_ok in En by (unfold usize_max, two64 in *; lia). cbn [bind] in En.
      unfold vec_repeat in En. rewrite alloc_ok_iff in En by exact Hsize.
      destruct (Z.leb_spec (m + 1) (max_slots O)); [|discriminate]. cbn [bind] in En.
      assert (HL : vlen (repeat zero (Z.to_nat (m + 1))) = m + 1) by (unfold vlen; rewrite repeat_length; lia).
      rewrite lin_set_delay_ctl in En by (cbn [ld_memory]; rewrite HL; unfold two63, two64 in *; lia).
      apply bind_Ok in En. destruct En as [[[dt r] a] [Ec En]]. inversion En.
      unfold winv. cbn [ld_memory ld_write]. rewrite HL. lia. }
    destruct Hw0 as [Hw0 [HL0 W0]].
    enough (G : forall ops s0 os mw, Forall lin_sane ops -> winv s0 ->
       vlen (ld_memory s0) = fst mw + 1 -> ld_write s0 = snd mw ->
       lin_run K O p s0 ops = Ok (s, os) ->
       vlen (ld_memory s) = fst (fold_left place_step ops mw) + 1
       /\ ld_write s = snd (fold_left place_step ops mw)).
    { exact (G ops s0 os (m, 0) Hs Hw0 HL0 W0 E). }
    clear - Hsize. induction ops as [|op ops IH]; intros s0 os mw Hs Hw HL HW E.
    - inversion E; subst. auto.
    - cbn [lin_run] in E. apply bind_Ok in E. destruct E as [[t o'] [F1 F2]].
      apply bind_Ok in F2. destruct F2 as [[t2 os3] [F2 F3]]. inversion F3; subst. inversion Hs; subst.
      destruct (step_frame s0 op t o' Hw ltac:(assumption) F1) as [Hw2 [HL2 [HW2 _]]].
      cbn [fold_left]. apply (IH t os3); try assumption; destruct mw as [mx w]; cbn [fst snd] in *.
      + rewrite HL2. destruct op; cbn [place_step fst]; try exact HL. rewrite HL. lia.
      + rewrite HW2. destruct op; cbn [place_step snd]; try exact HW. now rewrite HW, HL.
  Qed.

  Lemma place_fixed m (ops : list (dl_op C T)) : lin_fixed ops -> max_after m ops = m.
  Proof using Type.
    unfold max_after. generalize 0. induction ops as [|op ops IH]; intros w Hf; [reflexivity|].
    cbn [fold_left]. pose proof (Forall_inv Hf) as H1. pose proof (Forall_inv_tail Hf) as H2.
    destruct op; cbn [place_step]; try apply (IH _ H2). now elim (H1 m0).
  Qed.

End Inv.

Section NoHang.
  Context {C T : Type} (K : ctl_ops C T) (O : num_ops T) (p : profile).
  Local Notation zero := (n_zero O).
  Hypothesis Hsize : 1 <= n_size_of O.

  (** No hang: the loop of [set_delay] always ends on a non-empty line. *)
  Hypothesis Hterm : forall len w d, 1 <= len < two64 -> 0 <= w < len -> ctl K len w d <> Hang.

  Lemma step_nohang s op : winv O s -> lin_step K O p s op <> Hang.
  Proof.
    intros Hw. assert (Hl := winv_len64 O Hsize s Hw).
    assert (Hb : forall {A B} (m : outcome A) (k : A -> outcome B), m <> Hang -> (forall a, k a <> Hang) -> bind m k <> Hang).
    { intros A B m k H1 H2. destruct m; cbn; auto; congruence. }
    assert (Hu : forall z, chk_usize p z <> Hang).
    { intros z. unfold chk_usize. destruct (_ && _); [discriminate|]. destruct p; discriminate. }
    assert (Hii : forall z, chk_isize p z <> Hang).
    { intros z. unfold chk_isize. destruct (_ && _); [discriminate|]. destruct p; discriminate. }
    assert (Hvs : forall (v : list T) i x, vset v i x <> Hang).
    { intros v i x. unfold vset. destruct (i <? 0); [discriminate|]. destruct (vlen v <=? i); discriminate. }
    assert (Hvg : forall (v : list T) i, vget v i <> Hang).
    { intros v i. unfold vget. destruct (i <? 0); [discriminate|]. destruct (vlen v <=? i); [discriminate|].
      destruct (nth_error v (Z.to_nat i)); discriminate. }
    assert (Hur : forall a b, urem a b <> Hang) by (intros a b; unfold urem; destruct (b =? 0); discriminate).
    assert (Hti : forall a b c, tap_index p a b c <> Hang).
    { intros a b c. unfold tap_index, isub, iadd. apply Hb; [auto|intros]. apply Hb; [auto|intros].
      apply Hb; [|discriminate]. destruct (_ <? 0); [auto|discriminate]. }
    assert (Hno : forall s : lin_delay C T, lin_next_out O p s <> Hang).
    { intros s'. unfold lin_next_out, usub, uadd. destruct (ld_do_next_out s'); [|discriminate].
      apply Hb; [auto|intros]. apply Hb; [auto|intros]. apply Hb; [|discriminate].
      destruct (_ <? _).
      - apply Hb; [auto|intros]. apply Hb; [auto|discriminate].
      - apply Hb; [auto|discriminate]. }
    destruct op; cbn [lin_step]; try discriminate.
    - apply Hb; [|intros []; discriminate]. unfold lin_process, uadd.
      apply Hb; [auto|intros]. apply Hb; [auto|intros]. apply Hb; [auto|intros]. apply Hb; [auto|intros []].
      apply Hb; [auto|intros]. apply Hb; [auto|discriminate].
    - apply Hb; [|discriminate]. rewrite lin_set_delay_ctl by (unfold two63, two64 in *; lia).
      apply Hb; [|intros [[]]; discriminate]. apply Hterm; [unfold two63, two64 in *; lia|apply Hw].
    - apply Hb; [|discriminate]. unfold lin_set_max_delay, uadd. destruct (_ <? _); [discriminate|].
      apply Hb; [auto|intros]. apply Hb; [|discriminate]. unfold vec_resize. destruct (_ <=? _); [discriminate|].
      destruct (alloc_ok _ _); discriminate.
    - apply Hb; [|discriminate]. unfold lin_get_max_delay, usub. auto.
    - apply Hb; [auto|intros []; discriminate].
    - apply Hb; [|discriminate]. unfold lin_tap_out. apply Hb; auto.
    - apply Hb; [|discriminate]. unfold lin_tap_in. apply Hb; [auto|intros]. apply Hb; [auto|discriminate].
    - apply Hb; [|intros []; discriminate]. unfold lin_add_to. apply Hb; [auto|intros].
      apply Hb; [auto|intros]. apply Hb; [auto|intros]. apply Hb; [auto|discriminate].
  Qed.

  Lemma session_nohang d m ops : is_usize m -> m <> usize_max -> Forall lin_sane ops ->
    lin_session K O p d m ops <> Hang.
  Proof.
    intros Hm Hmx Hs. unfold is_usize in Hm. pose proof (max_slots_lt O Hsize) as Hms.
    unfold lin_session, lin_new, lin_new_fuel. fold (lin_set_delay K O p). unfold uadd.
    rewrite chk_usize_ok by (unfold usize_max, two64 in *; lia). cbn [bind].
    unfold vec_repeat. rewrite alloc_ok_iff by exact Hsize.
    destruct (Z.leb_spec (m + 1) (max_slots O)); [|discriminate]. cbn [bind].
    assert (HL : vlen (repeat zero (Z.to_nat (m + 1))) = m + 1) by (unfold vlen; rewrite repeat_length; lia).
    rewrite lin_set_delay_ctl by (cbn [ld_memory]; rewrite HL; unfold two63, two64 in *; lia).
    cbn [ld_memory ld_write ld_output ld_do_next_out ld_next_out]. rewrite HL.
    assert (Ht := Hterm (m + 1) 0 (clip_delay K d m) ltac:(unfold usize_max in *; lia) ltac:(lia)).
    destruct (ctl K (m + 1) 0 (clip_delay K d m)) as [[[dt r] a]| |]; [|discriminate|congruence]. cbn [bind].
    match goal with |- lin_run K O p ?s0 ops <> Hang => assert (Hw0 : winv O s0);
      [unfold winv; cbn [ld_memory ld_write]; rewrite HL; lia|generalize dependent s0] end.
    clear - Hs Hsize Hterm. induction ops as [|op ops IH]; intros s0 Hw; [discriminate|].
    inversion Hs; subst. cbn [lin_run].
    destruct (lin_step K O p s0 op) as [[s1 o]| |] eqn:E; cbn [bind]; [|discriminate|exfalso; eapply step_nohang; eassumption].
    destruct (step_frame K O p Hsize s0 op s1 o Hw ltac:(assumption) E) as [Hw1 _].
    specialize (IH ltac:(assumption) s1 Hw1).
    destruct (lin_run K O p s1 ops) as [[]| |]; [discriminate|discriminate|congruence].
  Qed.
End NoHang.
