(** Facts about reachable [Delay] states, used by the property theorems. *)
From Coq Require Import ZArith List Bool Lia ZifyBool ZifyNat.
From Verif Require Import Base BaseLemmas Num DelayM DelaySpec DelayRun DelayProofs.
Import ListNotations.
Open Scope Z_scope.

Section Facts.
  Context {T : Type} (O : num_ops T) (p : profile).
  Local Notation zero := (n_zero O).
  Hypothesis Hsize : 1 <= n_size_of O.

  Ltac binds H :=
    repeat match type of H with
    | bind _ _ = Ok _ =>
        let a := fresh "a" in let E := fresh "E" in
        apply bind_Ok in H; destruct H as [a [E H]];
        try match type of a with (_ * _)%type => destruct a end
    end.

  Lemma new_ok_inv d m s :
    is_usize d -> is_usize m -> m <> usize_max -> delay_new O p d m = Ok s ->
    m + 1 <= max_slots O /\ dl_inv O s
    /\ dl_abs s = line_new zero (Z.to_nat (Z.min d m)) (Z.to_nat m).
  Proof.
    intros Hd Hm Hne E. unfold is_usize, usize_max in *.
    assert (Ha : m + 1 <= max_slots O).
    { unfold delay_new in E. unfold uadd in E. rewrite chk_usize_ok in E by lia. cbn [bind] in E.
      unfold vec_repeat in E. rewrite (alloc_ok_iff O Hsize) in E.
      destruct (Z.leb_spec (m + 1) (max_slots O)); [assumption|discriminate]. }
    split; [assumption|].
    destruct (refine_new O p Hsize d m) as [s' [E' [Hi Hab]]]; [unfold is_usize; lia | lia | lia |].
    rewrite E in E'. inversion E'; subst. auto.
  Qed.

  Lemma tap_in_frame (s : delay T) v t s' :
    delay_tap_in p s v t = Ok s' ->
    exists i, (i < length (dl_memory s))%nat /\
      s' = MkDelay (list_set (dl_memory s) i v) (dl_output s) (dl_read s) (dl_write s) (dl_delay s).
  Proof.
    unfold delay_tap_in. intros H. binds H. inversion H; subst. clear H.
    unfold vset in E0. destruct (Z.ltb_spec a 0); [discriminate|].
    destruct (Z.leb_spec (vlen (dl_memory s)) a); [discriminate|].
    inversion E0; subst. exists (Z.to_nat a). split; [unfold vlen in *; lia|reflexivity].
  Qed.

  Lemma add_to_frame s v t s' r :
    delay_add_to O p s v t = Ok (s', r) ->
    exists i x, (i < length (dl_memory s))%nat /\
      s' = MkDelay (list_set (dl_memory s) i x) (dl_output s) (dl_read s) (dl_write s) (dl_delay s).
  Proof.
    unfold delay_add_to. intros H. binds H. inversion H; subst. clear H.
    unfold vset in E1. destruct (Z.ltb_spec a 0); [discriminate|].
    destruct (Z.leb_spec (vlen (dl_memory s)) a); [discriminate|].
    inversion E1; subst. eexists (Z.to_nat a), _. split; [unfold vlen in *; lia|reflexivity].
  Qed.

  (** Invariants of completed steps.  [dl_lag s] is the real latency. *)
  Definition dl_lag (s : delay T) : Z :=
    lag_of (vlen (dl_memory s)) (dl_write s) (dl_read s).

  Record step_frame (op : dl_op Z T) (s s' : delay T) : Prop := {
    sf_inv : dl_inv O s';
    sf_lag : dl_lag s' = dl_delay s' \/ (dl_delay s' = dl_delay s /\ dl_lag s <= dl_lag s');
    sf_lag0 : (dl_delay s = 0 -> dl_lag s = 0) -> (dl_delay s' = 0 -> dl_lag s' = 0);
    sf_fixed : (forall m, op <> DSetMaxDelay m) ->
       vlen (dl_memory s') = vlen (dl_memory s)
       /\ (dl_lag s = dl_delay s -> dl_lag s' = dl_delay s')
       /\ dl_write s' = if is_process op then (dl_write s + 1) mod vlen (dl_memory s) else dl_write s
  }.

  Lemma same_lag_frame op s s' :
    dl_inv O s -> is_process op = false ->
    vlen (dl_memory s') = vlen (dl_memory s) -> dl_write s' = dl_write s ->
    dl_read s' = dl_read s -> dl_delay s' = dl_delay s -> step_frame op s s'.
  Proof.
    intros [? ? ? ?] Hp Hm Hw Hr Hd.
    assert (HL : dl_lag s' = dl_lag s) by (unfold dl_lag; rewrite Hm, Hw, Hr; reflexivity).
    constructor.
    - constructor; rewrite ?Hm, ?Hw, ?Hr, ?Hd; assumption.
    - right. lia.
    - rewrite HL, Hd. auto.
    - intros _. rewrite Hm, HL, Hd, Hw, Hp. auto.
  Qed.

  Lemma step_ok_frame s op s' o :
    dl_inv O s -> op_sane op -> dl_step O p s op = Ok (s', o) -> step_frame op s s'.
  Proof.
    intros Hi [Hu Hne] E. pose proof (max_slots_lt O Hsize) as Hms.
    destruct op; cbn [dl_step op_usize] in *; binds E; inversion E; subst; clear E.
    - (* process *)
      destruct (refine_process O p Hsize s x Hi) as [s2 [E2 [Hi2 Hab]]].
      rewrite E0 in E2. inversion E2; subst. clear E2.
      unfold line_process in Hab. cbn [fst] in Hab.
      assert (Hlag : dl_lag s2 = dl_lag s).
      { apply (f_equal (@l_lag T)) in Hab. unfold dl_abs in Hab. cbn [l_lag] in Hab.
        unfold dl_lag. destruct Hi, Hi2. unfold lag_of in *.
        destruct (dl_read s <=? dl_write s) eqn:?, (dl_read s2 <=? dl_write s2) eqn:?; lia. }
      assert (Hd : dl_delay s2 = dl_delay s).
      { apply (f_equal (@l_delay T)) in Hab. unfold dl_abs in Hab. cbn [l_delay] in Hab.
        destruct Hi, Hi2. lia. }
      constructor; auto.
      + right. lia.
      + rewrite Hlag, Hd. auto.
      + intros _. rewrite Hlag, Hd. cbn [is_process].
        unfold delay_process in E0. binds E0. inversion E0; subst. clear E0.
        cbn [dl_memory dl_write].
        assert (HL : vlen a = vlen (dl_memory s)).
        { unfold vset in E. destruct (dl_write s <? 0); [discriminate|].
          destruct (vlen (dl_memory s) <=? dl_write s); [discriminate|].
          inversion E; subst. apply list_set_vlen. }
        repeat split; auto.
        unfold uadd in E1. destruct Hi. rewrite chk_usize_ok in E1 by (unfold two63, two64 in *; lia).
        inversion E1; subst. rewrite urem_ok in E2 by lia. inversion E2; subst.
        rewrite HL. reflexivity.
    - apply same_lag_frame; auto. unfold delay_clear; cbn [dl_memory]. unfold vlen; rewrite map_length; reflexivity.
    - (* set_delay *)
      destruct (refine_set_delay O p Hsize s d Hi Hu) as [s2 [E2 [Hi2 Hab]]].
      rewrite E0 in E2. inversion E2; subst. clear E2.
      assert (Hl : dl_lag s2 = dl_delay s2).
      { unfold line_set_delay in Hab. unfold dl_abs in Hab at 1. inversion Hab.
        unfold dl_lag. destruct Hi2. unfold lag_of in *.
        destruct (dl_read s2 <=? dl_write s2) eqn:?; lia. }
      constructor; auto.
      + lia.
      + intros _. unfold delay_set_delay in E0. binds E0. inversion E0; subst. cbn. auto.
    - (* set_max_delay *)
      unfold delay_set_max_delay in E0. destruct (Z.ltb_spec m (vlen (dl_memory s))).
      + inversion E0; subst. constructor; auto. right; lia.
      + assert (Hm : m <> usize_max) by congruence. unfold is_usize, usize_max in *.
        unfold uadd in E0. rewrite chk_usize_ok in E0 by lia. cbn [bind] in E0.
        unfold vec_resize in E0. replace (m + 1 <=? vlen (dl_memory s)) with false in E0 by lia.
        rewrite (alloc_ok_iff O Hsize) in E0.
        destruct (Z.leb_spec (m + 1) (max_slots O)); [|discriminate].
        cbn [bind] in E0. inversion E0; subst. clear E0.
        assert (HL : vlen (dl_memory s ++ repeat zero (Z.to_nat (m + 1 - vlen (dl_memory s)))) = m + 1).
        { unfold vlen. rewrite app_length, repeat_length. unfold vlen in *. lia. }
        destruct Hi. constructor; cbn [dl_memory dl_write dl_read dl_delay].
        * constructor; cbn [dl_memory dl_write dl_read dl_delay]; rewrite HL; lia.
        * right. split; [reflexivity|]. unfold dl_lag; cbn [dl_memory dl_write dl_read]. rewrite HL.
          unfold lag_of. destruct (Z.leb_spec (dl_read s) (dl_write s)); lia.
        * unfold dl_lag; cbn [dl_memory dl_write dl_read]. rewrite HL. unfold lag_of.
          destruct (Z.leb_spec (dl_read s) (dl_write s)); lia.
        * intros HH. exfalso. eapply HH; reflexivity.
    - apply same_lag_frame; auto.
    - apply same_lag_frame; auto.
    - apply same_lag_frame; auto.
    - apply same_lag_frame; auto.
    - apply same_lag_frame; auto.
    - destruct (tap_in_frame _ _ _ _ E0) as [i [? ->]]. apply same_lag_frame; auto.
      cbn [dl_memory]. apply list_set_vlen.
    - destruct (add_to_frame _ _ _ _ _ E0) as [i [x' [? ->]]]. apply same_lag_frame; auto.
      cbn [dl_memory]. apply list_set_vlen.
  Qed.

  Definition sane_state (s : delay T) : Prop :=
    dl_inv O s /\ dl_delay s <= dl_lag s /\ (dl_delay s = 0 -> dl_lag s = 0).

  Lemma run_ok_sane ops : forall s s' os,
    sane_state s -> Forall op_sane ops -> dl_run O p s ops = Ok (s', os) -> sane_state s'.
  Proof.
    induction ops as [|op ops IH]; intros s s' os Hs Ha E; cbn [dl_run] in E.
    - inversion E; subst. assumption.
    - inversion Ha; subst. binds E. inversion E; subst.
      apply (IH d s' l); auto.
      destruct Hs as [Hi [H0 H00]].
      destruct (step_ok_frame s op d o Hi H1 E0) as [F1 F2 F3 F4].
      split; [assumption|]. split; [lia|auto].
  Qed.

  Lemma run_ok_fixed ops : forall s s' os,
    dl_inv O s -> dl_lag s = dl_delay s -> Forall op_sane ops -> fixed_length ops ->
    dl_run O p s ops = Ok (s', os) ->
    dl_lag s' = dl_delay s' /\ vlen (dl_memory s') = vlen (dl_memory s)
    /\ dl_write s' = (dl_write s + process_count ops) mod vlen (dl_memory s).
  Proof.
    induction ops as [|op ops IH]; intros s s' os Hi HL Ha Hf E; cbn [dl_run] in E.
    - inversion E; subst. unfold process_count. cbn. rewrite Z.add_0_r.
      destruct Hi. rewrite Z.mod_small by lia. auto.
    - inversion Ha; subst. inversion Hf; subst. binds E. inversion E; subst.
      destruct (step_ok_frame s op d o Hi H1 E0) as [F1 F2 F3 F4].
      destruct (F4 H3) as [G1 [G2 G3]].
      destruct (IH d s' l F1 (G2 HL) H2 H4 E1) as [I1 [I2 I3]].
      split; [assumption|]. split; [congruence|].
      rewrite I3, G1, G3. unfold process_count. cbn [filter].
      destruct (is_process op); cbn [length].
      + rewrite Z.add_mod_idemp_l by (destruct Hi; lia). f_equal. lia.
      + reflexivity.
  Qed.

  Lemma new_sane d m s :
    is_usize d -> is_usize m -> m <> usize_max -> delay_new O p d m = Ok s ->
    dl_inv O s /\ dl_lag s = dl_delay s /\ dl_write s = 0 /\ vlen (dl_memory s) = m + 1
    /\ dl_delay s = Z.min d m.
  Proof.
    intros Hd Hm Hne E. destruct (new_ok_inv d m s Hd Hm Hne E) as [Ha [Hi Hab]].
    unfold is_usize in *.
    unfold dl_abs, line_new in Hab. inversion Hab.
    assert (HL : vlen (dl_memory s) = m + 1).
    { apply (f_equal (@length T)) in H0. rewrite ring_hist_length in H0. cbn [length] in H0.
      rewrite repeat_length in H0. unfold vlen. lia. }
    destruct Hi. repeat split; auto; try lia.
    unfold dl_lag, lag_of in *. destruct (Z.leb_spec (dl_read s) (dl_write s)); lia.
  Qed.

  Lemma history_sane d m ops s : dl_history O p d m ops s -> sane_state s.
  Proof.
    intros [Hd [Hm [Hne [Ha [os E]]]]]. unfold dl_session in E. binds E.
    destruct (new_sane d m a Hd Hm Hne E0) as [Hi [HL [_ [_ _]]]].
    eapply run_ok_sane; eauto. split; [assumption|]. lia.
  Qed.

  Lemma history_fixed d m ops s :
    dl_history O p d m ops s -> fixed_length ops ->
    dl_inv O s /\ dl_lag s = dl_delay s /\ vlen (dl_memory s) = m + 1
    /\ dl_write s = process_count ops mod (m + 1).
  Proof.
    intros Hh Hf. pose proof (history_sane _ _ _ _ Hh) as [Hi _].
    destruct Hh as [Hd [Hm [Hne [Ha [os E]]]]]. unfold dl_session in E. binds E.
    destruct (new_sane d m a Hd Hm Hne E0) as [Hi0 [HL [Hw [Hl _]]]].
    destruct (run_ok_fixed ops a s os Hi0 HL Ha Hf E) as [I1 [I2 I3]].
    rewrite Hw, Hl in I3. rewrite Hl in I2. auto.
  Qed.

  (** ** Running [process] on a line *)
  Lemma push_firstn (x : T) h n : (S n <= length h)%nat -> firstn (S n) (push x h) = x :: firstn n h.
  Proof.
    intros Hn. unfold push. cbn [firstn]. f_equal.
    apply nth_ext_len.
    - rewrite !firstn_length, removelast_length. lia.
    - intros t d Ht. rewrite firstn_length, removelast_length in Ht.
      assert (G : forall k (l : list T), (t < k)%nat -> (k <= length l)%nat -> nth t (firstn k l) d = nth t l d).
      { intros k l Hk Hl. transitivity (nth t (firstn k l ++ skipn k l) d).
        - rewrite app_nth1; [reflexivity|]. rewrite firstn_length. lia.
        - rewrite firstn_skipn. reflexivity. }
      rewrite !G by (rewrite ?removelast_length; lia).
      apply nth_removelast. lia.
  Qed.

  Lemma firstn_snoc (l : list T) k d :
    (k < length l)%nat -> firstn (S k) l = firstn k l ++ [nth k l d].
  Proof.
    revert k; induction l as [|a l IH]; intros k Hk; cbn [length] in *; [lia|].
    destruct k; [reflexivity|]. cbn [firstn app nth]. f_equal. apply IH. lia.
  Qed.

  Lemma firstn_push_all (x : T) h n :
    (1 <= length h)%nat -> n = length h -> push x h = firstn n (x :: h).
  Proof.
    intros Hl ->. apply nth_ext_len.
    - rewrite push_length, firstn_length by lia. cbn [length]. lia.
    - intros t d Ht. rewrite push_length in Ht by lia.
      rewrite nth_push by lia.
      transitivity (nth t (firstn (length h) (x :: h) ++ skipn (length h) (x :: h)) d).
      + rewrite firstn_skipn. destruct t; reflexivity.
      + rewrite app_nth1; [reflexivity|]. rewrite firstn_length. cbn [length]. lia.
  Qed.

  (** Outputs of processing [xs] on a line with latency [lag]: the last [lag]
      line values, oldest first, then [xs], truncated to the number of samples. *)
  Lemma line_process_run add ms xs : forall l,
    (l_lag l < slots l)%nat -> (l_phase l < slots l)%nat ->
    exists l', line_run zero add ms l (map DProcess xs)
      = Some (l', map OSample (firstn (length xs) (rev (firstn (l_lag l) (l_hist l)) ++ xs)))
      /\ l_hist l' = firstn (slots l) (rev xs ++ l_hist l)
      /\ l_lag l' = l_lag l /\ l_delay l' = l_delay l
      /\ l_phase l' = ((l_phase l + length xs) mod slots l)%nat.
  Proof.
    induction xs as [|x xs IH]; intros l Hl Hp; cbn [map line_run length].
    - exists l. rewrite Nat.add_0_r, Nat.mod_small by assumption. cbn [rev app]. unfold slots.
      rewrite firstn_all. auto.
    - cbn [line_step]. unfold line_process.
      set (l1 := Line (push x (l_hist l)) ((l_phase l + 1) mod slots l) (l_lag l) (l_delay l)
                 (nth (l_lag l) (push x (l_hist l)) zero)).
      assert (HS : slots l1 = slots l).
      { unfold slots, l1; cbn [l_hist]. apply push_length. unfold slots in *; lia. }
      destruct (IH l1) as [l' [E [Hh [Hg [Hd Hph]]]]].
      { rewrite HS. unfold l1; cbn [l_lag]. assumption. }
      { rewrite HS. unfold l1; cbn [l_phase]. apply Nat.mod_upper_bound. lia. }
      rewrite E. exists l'. rewrite HS in *.
      assert (Hlag1 : l_lag l1 = l_lag l) by reflexivity.
      split.
      + f_equal. f_equal.
        assert (E1 : rev (firstn (l_lag l) (l_hist l)) ++ x :: xs
                = nth (l_lag l) (push x (l_hist l)) zero
                  :: (rev (firstn (l_lag l) (push x (l_hist l))) ++ xs)).
        { destruct (l_lag l) as [|k] eqn:Ek.
          - reflexivity.
          - rewrite nth_push by (unfold slots in *; lia).
            rewrite (firstn_snoc _ _ zero) by (unfold slots in *; lia).
            rewrite rev_app_distr. rewrite push_firstn by (unfold slots in *; lia).
            cbn [rev app]. rewrite <- app_assoc. reflexivity. }
        rewrite E1. cbn [firstn map]. f_equal.
      + split; [|split; [exact Hg|split; [exact Hd|]]].
        * rewrite Hh. unfold l1; cbn [l_hist rev]. rewrite <- app_assoc. cbn [app].
          rewrite (firstn_push_all x (l_hist l) (slots l)) by (unfold slots in *; lia).
          rewrite !firstn_app. f_equal.
          rewrite firstn_firstn. f_equal. lia.
        * rewrite Hph. unfold l1; cbn [l_phase].
          rewrite Nat.add_mod_idemp_l by lia. f_equal. lia.
  Qed.

  Lemma lag_lt s : dl_inv O s -> 0 <= dl_lag s < vlen (dl_memory s).
  Proof.
    intros [? ? ? ?]. unfold dl_lag, lag_of. destruct (Z.leb_spec (dl_read s) (dl_write s)); lia.
  Qed.

  Lemma process_run s xs :
    dl_inv O s ->
    exists s', dl_run O p s (map DProcess xs)
      = Ok (s', map OSample (firstn (length xs)
                (rev (firstn (Z.to_nat (dl_lag s)) (l_hist (dl_abs s))) ++ xs)))
      /\ dl_inv O s'
      /\ l_hist (dl_abs s') = firstn (length (dl_memory s)) (rev xs ++ l_hist (dl_abs s))
      /\ dl_lag s' = dl_lag s /\ dl_delay s' = dl_delay s
      /\ dl_write s' = (dl_write s + Z.of_nat (length xs)) mod vlen (dl_memory s).
  Proof.
    intros Hi. pose proof (lag_lt s Hi) as HL.
    destruct (line_process_run (n_add O) (max_slots O) xs (dl_abs s)) as [l' [E [Hh [Hg [Hd Hp]]]]].
    - rewrite dl_abs_slots. unfold dl_abs; cbn [l_lag]. unfold dl_lag, vlen in *. lia.
    - rewrite dl_abs_slots. unfold dl_abs; cbn [l_phase]. destruct Hi. unfold vlen in *. lia.
    - apply (refine_run O p Hsize) in E; [|assumption|].
      + destruct E as [s' [E [Hi' Hab]]]. exists s'. split; [exact E|]. split; [assumption|].
        pose proof (lag_lt s' Hi') as HL'.
        subst l'. rewrite dl_abs_slots in *. split; [exact Hh|].
        unfold dl_abs in Hg, Hd, Hp; cbn [l_lag l_delay l_phase] in Hg, Hd, Hp.
        unfold dl_lag in *. destruct Hi, Hi'. repeat split; try lia.
        unfold vlen in *. apply Nat2Z.inj_iff in Hp. rewrite Nat2Z.inj_mod, Nat2Z.inj_add in Hp.
        rewrite !Z2Nat.id in Hp by lia. exact Hp.
      + clear. induction xs; constructor; auto. exact I.
  Qed.

  (** ** Length limits *)
  Lemma new_fits d m s :
    is_usize d -> is_usize m -> m <> usize_max -> delay_new O p d m = Ok s -> m + 1 <= max_slots O.
  Proof. intros Hd Hm Hne E. exact (proj1 (new_ok_inv d m s Hd Hm Hne E)). Qed.
End Facts.
