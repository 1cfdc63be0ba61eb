(** Two [LinearDelay]s of any sample types given corresponding calls. *)
From Coq Require Import ZArith Reals List Bool Lia Lra.
From Flocq Require Import Core.Core IEEE754.BinarySingleNaN.
From Verif Require Import Base BaseLemmas Num NumR NumF FloatSpec FloatFacts DelayM LinDelayM DelaySpec DelayRun DelayProofs
  LinSpec LinRun LinFloatSpec LinProofs LinCtlF LinInv LinFacts LinFloat LinPairSpec.
Import ListNotations.
Open Scope Z_scope.

Lemma norm_cast {T T'} (c : f32 -> T) (c' : f32 -> T') fuel : forall len r, norm_loop (f32_ctl_gen c) fuel len r = norm_loop (f32_ctl_gen c') fuel len r.
Proof.
  induction fuel as [|fuel IH]; intros len r; [reflexivity|]. cbn [norm_loop].
  cbn [f32_ctl_gen c_lt c_zero c_add c_of_usize]. destruct (Bltb r (B754_zero false)); [apply IH|reflexivity].
Qed.
Lemma clip_cast {T T'} (c : f32 -> T) (c' : f32 -> T') d m : clip_delay (f32_ctl_gen c) d m = clip_delay (f32_ctl_gen c') d m.
Proof. reflexivity. Qed.
Lemma ctl_cast {T T'} (c : f32 -> T) (c' : f32 -> T') len w d : ctl (f32_ctl_gen c') len w d = ctl (f32_ctl_gen c) len w d.
Proof. unfold ctl. rewrite (norm_cast c' c), (clip_cast c' c). reflexivity. Qed.

Section Pair.
  Context {T T' : Type} (O : num_ops T) (O' : num_ops T') (cast : f32 -> T) (cast' : f32 -> T') (p : profile).
  Let K := f32_ctl_gen cast.
  Let K' := f32_ctl_gen cast'.
  Context (mr orr : T -> T' -> Prop) (W : T -> T -> T' -> T' -> Prop) (sums : Prop) (lim : Z) (okd : f32 -> Prop).
  Hypothesis Hlim : lim <= 2 ^ 24.
  Hypothesis Hs : 1 <= n_size_of O <= 64.
  Hypothesis Hs' : 1 <= n_size_of O' <= 64.
  Hypothesis mo : forall a a', mr a a' -> orr a a'.
  Hypothesis mz : mr (n_zero O) (n_zero O').
  Hypothesis madd : sums -> forall a a' b b', mr a a' -> mr b b' -> mr (n_add O a b) (n_add O' a' b').
  Hypothesis mblend : forall wo wn wo' wn' a a' b b', W wo wn wo' wn' -> mr a a' -> mr b b' ->
    orr (n_add O (n_mul O a wo) (n_mul O b wn)) (n_add O' (n_mul O' a' wo') (n_mul O' b' wn')).
  Hypothesis HW : forall len w d dt r a, 1 <= len <= lim -> 0 <= w < len -> okd d -> ctl K len w d = Ok (dt, r, a) ->
    W (n_sub O (n_one O) (cast a)) (cast a) (n_sub O' (n_one O') (cast' a)) (cast' a).

  Hypothesis Hclip : forall d m, 0 <= m < two64 -> okd d -> okd (clip_delay K d m).
  Definition delays_ok {S} (op : dl_op f32 S) : Prop := match op with DSetDelay d => okd d | _ => True end.

  Definition prel (s : lin_delay f32 T) (s' : lin_delay f32 T') : Prop :=
    Forall2 mr (ld_memory s) (ld_memory s') /\ orr (ld_output s) (ld_output s') /\ orr (ld_next_out s) (ld_next_out s')
    /\ ld_read s = ld_read s' /\ ld_write s = ld_write s' /\ ld_delay s = ld_delay s' /\ ld_do_next_out s = ld_do_next_out s'
    /\ W (ld_om_alpha s) (ld_alpha s) (ld_om_alpha s') (ld_alpha s')
    /\ 1 <= vlen (ld_memory s) <= lim /\ 0 <= ld_write s < vlen (ld_memory s).

  Lemma al_bind {A B A2 B2} (P : A -> A2 -> Prop) (Q : B -> B2 -> Prop) x y f g :
    alike P x y -> (forall a b, P a b -> alike Q (f a) (g b)) -> alike Q (bind x f) (bind y g).
  Proof using. destruct x, y; cbn; try contradiction; auto. Qed.
  Lemma al_eq {A} (x : outcome A) : x <> Hang -> alike eq x x.
  Proof using. destruct x; cbn; auto. Qed.
  Lemma chk_nh z : chk_usize p z <> Hang.
  Proof using. unfold chk_usize. destruct (_ && _); [discriminate|]. destruct p; discriminate. Qed.
  Lemma chki_nh z : chk_isize p z <> Hang.
  Proof using. unfold chk_isize. destruct (_ && _); [discriminate|]. destruct p; discriminate. Qed.
  Lemma tap_nh w l t : tap_index p w l t <> Hang.
  Proof using.
    unfold tap_index, isub, iadd. set (z := as_isize w - as_isize t).
    assert (A := chki_nh z). destruct (chk_isize p z) as [y| |]; cbn [bind]; [|discriminate|congruence].
    assert (B := chki_nh (y - 1)). destruct (chk_isize p (y - 1)) as [x| |]; cbn [bind]; [|discriminate|congruence].
    destruct (x <? 0); cbn [bind]; [|discriminate].
    assert (C := chki_nh (x + as_isize l)). destruct (chk_isize p (x + as_isize l)); cbn [bind]; congruence.
  Qed.
  Lemma len2 (v : list T) (v' : list T') : Forall2 mr v v' -> vlen v = vlen v'.
  Proof using. intros H. unfold vlen. f_equal. induction H; cbn; congruence. Qed.

  Lemma al_get v v' i : Forall2 mr v v' -> alike mr (vget v i) (vget v' i).
  Proof using.
    intros H. unfold vget. rewrite (len2 _ _ H). destruct (i <? 0); [exact I|]. destruct (vlen v' <=? i); [exact I|].
    assert (G : forall n, match nth_error v n, nth_error v' n with Some a, Some b => mr a b | None, None => True | _, _ => False end).
    { clear -H. induction H; intros [|n]; cbn; auto. apply IHForall2. }
    specialize (G (Z.to_nat i)). destruct (nth_error v _), (nth_error v' _); cbn; auto; contradiction.
  Qed.
  Lemma al_set v v' i x x' : Forall2 mr v v' -> mr x x' -> alike (fun u u' => Forall2 mr u u' /\ vlen u = vlen v) (vset v i x) (vset v' i x').
  Proof using.
    intros H Hx. unfold vset. rewrite (len2 _ _ H). destruct (i <? 0); [exact I|]. destruct (vlen v' <=? i); [exact I|]. cbn.
    split; [|rewrite <- (len2 _ _ H); apply list_set_vlen].
    generalize (Z.to_nat i). induction H as [|a a' v v' Ha H IH]; intros [|n]; cbn; auto.
  Qed.
  Lemma rep2 n : Forall2 mr (repeat (n_zero O) n) (repeat (n_zero O') n).
  Proof using mz. induction n; cbn; auto. Qed.

  Lemma al_set_delay s s' d : okd d -> prel s s' -> alike prel (lin_set_delay K O p s d) (lin_set_delay K' O' p s' d).
  Proof using Hlim HW Hclip Hs Hs' mo mz madd mblend.
    intros Ok0 (M & Ou & N & R & Wr & D & F & Ws & L & WL). assert (E := len2 _ _ M).
    assert (B : (2 ^ 24 < two64)) by reflexivity.
    rewrite !lin_set_delay_ctl by lia. rewrite <- E, <- Wr.
    destruct (ctl_f32_range cast (vlen (ld_memory s)) (ld_write s) d ltac:(lia) WL) as (dt & r & a & Ec & Hr).
    unfold K', K. rewrite (ctl_cast cast cast'), Ec. cbn [bind alike]. unfold prel.
    cbn [ld_memory ld_output ld_read ld_write ld_delay ld_do_next_out ld_next_out ld_alpha ld_om_alpha].
    repeat match goal with |- _ /\ _ => split end; try assumption; try reflexivity; try lia. exact (HW _ _ _ _ _ _ L WL Ok0 Ec).
  Qed.

  Lemma al_next s s' : prel s s' -> alike (fun a b => prel (fst a) (fst b) /\ orr (snd a) (snd b) /\ vlen (ld_memory (fst a)) = vlen (ld_memory s)) (lin_next_out O p s) (lin_next_out O' p s').
  Proof using Hlim HW Hclip Hs Hs' mo mz madd mblend.
    intros H. assert (H0 := H). destruct H as (M & Ou & N & R & Wr & D & F & Ws & L & WL). assert (E := len2 _ _ M).
    unfold lin_next_out. rewrite <- F, <- R, <- E. destruct (ld_do_next_out s).
    - eapply al_bind; [apply al_get, M|]. intros a a' Ha.
      eapply al_bind; [apply al_eq, chk_nh|]. intros l ? <-.
      eapply al_bind with (P := orr).
      + destruct (ld_read s <? l).
        * eapply al_bind; [apply al_eq, chk_nh|]. intros i ? <-. eapply al_bind; [apply al_get, M|]. intros b b' Hb. cbn [alike]. apply mblend; assumption.
        * eapply al_bind; [apply al_get, M|]. intros b b' Hb. cbn [alike]. apply mblend; assumption.
      + intros y y' Hy. cbn [alike fst snd ld_memory]. split; [|split; [exact Hy|reflexivity]]. unfold prel.
        cbn [ld_memory ld_output ld_read ld_write ld_delay ld_do_next_out ld_next_out ld_alpha ld_om_alpha].
        repeat match goal with |- _ /\ _ => split end; try assumption; try reflexivity; try lia.
    - cbn [alike fst snd]. auto.
  Qed.

  Lemma al_step s s' op op' : prel s s' -> same_call mr op op' -> stays_short lim op -> delays_ok op -> (sums \/ no_sum op) ->
    alike (fun a b => prel (fst a) (fst b) /\ same_answer orr (snd a) (snd b)) (lin_step K O p s op) (lin_step K' O' p s' op').
  Proof using Hlim HW Hclip Hs Hs' mo mz madd mblend.
    intros H C Sh Sd Su. assert (H0 := H). destruct H as (M & Ou & N & R & Wr & D & F & Ws & L & WL). assert (E := len2 _ _ M).
    destruct op, op'; cbn [same_call] in C; try contradiction; cbn [lin_step].
    - apply al_bind with (P := fun a b => prel (fst a) (fst b) /\ orr (snd a) (snd b)); [|intros [a y] [b y'] [P Q]; cbn in *; auto].
      unfold lin_process. rewrite <- Wr. eapply al_bind; [apply al_set; [exact M|exact C]|]. intros u u' [Hu Lu].
      eapply al_bind; [apply al_eq, chk_nh|]. intros w ? <-. rewrite <- (len2 _ _ Hu).
      eapply al_bind with (P := fun a b => a = b /\ 0 <= a < vlen u).
      { unfold urem. destruct (vlen u =? 0) eqn:Z0; [exact I|]. cbn. split; [reflexivity|]. apply Z.mod_pos_bound. apply Z.eqb_neq in Z0. lia. }
      intros w1 ? [<- Hw1].
      eapply al_bind; [apply al_next|].
      { unfold prel. cbn [ld_memory ld_output ld_read ld_write ld_delay ld_do_next_out ld_next_out ld_alpha ld_om_alpha].
        repeat match goal with |- _ /\ _ => split end; try assumption; try reflexivity; lia. }
      intros [s2 y] [s2' y'] [P [Q Lq]]. cbn [fst snd ld_memory] in P, Q, Lq. destruct P as (M2 & Ou2 & N2 & R2 & Wr2 & D2 & F2 & Ws2 & L2 & WL2).
      rewrite <- R2, <- (len2 _ _ M2).
      eapply al_bind; [apply al_eq, chk_nh|]. intros r ? <-.
      eapply al_bind with (P := eq). { unfold urem. destruct (_ =? 0); [exact I|reflexivity]. }
      intros r1 ? <-. cbn [alike fst snd]. split; [|exact Q]. unfold prel.
      cbn [ld_memory ld_output ld_read ld_write ld_delay ld_do_next_out ld_next_out ld_alpha ld_om_alpha].
      repeat match goal with |- _ /\ _ => split end; try assumption; try reflexivity; try lia.
    - cbn [alike fst snd same_answer]. split; [|exact I]. unfold prel, lin_clear.
      cbn [ld_memory ld_output ld_read ld_write ld_delay ld_do_next_out ld_next_out ld_alpha ld_om_alpha].
      assert (Lm : vlen (map (fun _ : T => n_zero O) (ld_memory s)) = vlen (ld_memory s)) by (unfold vlen; rewrite map_length; reflexivity).
      rewrite Lm. repeat match goal with |- _ /\ _ => split end; try assumption; try lia.
      + clear -M mz. induction M; cbn; auto.
      + apply mo, mz.
    - subst d0. eapply al_bind; [apply al_set_delay; [exact Sd|exact H0]|]. intros a b P. cbn. auto.
    - subst m0. cbn [stays_short] in Sh. destruct Sh as [Sh1 Sh2]. unfold short in Sh2.
      apply al_bind with (P := prel); [|intros; cbn; auto]. unfold lin_set_max_delay. rewrite <- E.
      destruct (m <? vlen (ld_memory s)) eqn:Lt; [exact H0|]. apply Z.ltb_ge in Lt.
      assert (B24 : 2 ^ 24 = 16777216) by reflexivity.
      unfold uadd, chk_usize. replace ((0 <=? m + 1) && (m + 1 <? two64)) with true
        by (symmetry; apply andb_true_intro; split; [apply Z.leb_le; lia|apply Z.ltb_lt; unfold two64; lia]).
      cbn [bind]. unfold vec_resize. rewrite <- E. replace (m + 1 <=? vlen (ld_memory s)) with false by (symmetry; apply Z.leb_gt; lia).
      unfold alloc_ok. replace ((m + 1) * n_size_of O <=? isize_max) with true by (symmetry; apply Z.leb_le; unfold isize_max, two63; nia).
      replace ((m + 1) * n_size_of O' <=? isize_max) with true by (symmetry; apply Z.leb_le; unfold isize_max, two63; nia).
      cbn [bind alike]. unfold prel.
      cbn [ld_memory ld_output ld_read ld_write ld_delay ld_do_next_out ld_next_out ld_alpha ld_om_alpha].
      assert (Lm : vlen (ld_memory s ++ repeat (n_zero O) (Z.to_nat (m + 1 - vlen (ld_memory s)))) = m + 1).
      { unfold vlen in *. rewrite app_length, repeat_length. lia. }
      rewrite Lm. repeat match goal with |- _ /\ _ => split end; try assumption; try lia. apply Forall2_app; [exact M|apply rep2].
    - cbn. auto.
    - unfold lin_get_max_delay. rewrite <- E. eapply al_bind; [apply al_eq, chk_nh|]. intros n ? <-. cbn. auto.
    - eapply al_bind; [apply al_next, H0|]. intros [a y] [b y'] (P & Q & _). cbn in *. auto.
    - cbn. auto.
    - subst t0. apply al_bind with (P := mr); [|intros a b Hab; cbn; auto]. unfold lin_tap_out. rewrite <- E, <- Wr.
      eapply al_bind; [apply al_eq, tap_nh|]. intros i ? <-. apply al_get, M.
    - destruct C as [C <-]. apply al_bind with (P := prel); [|intros; cbn; auto]. unfold lin_tap_in. rewrite <- E, <- Wr.
      eapply al_bind; [apply al_eq, tap_nh|]. intros i ? <-. eapply al_bind; [apply al_set; [exact M|exact C]|]. intros u u' [Hu Lu]. cbn [alike]. unfold prel.
      cbn [ld_memory ld_output ld_read ld_write ld_delay ld_do_next_out ld_next_out ld_alpha ld_om_alpha].
      repeat match goal with |- _ /\ _ => split end; try assumption; try reflexivity; lia.
    - destruct C as [C <-]. apply al_bind with (P := fun a b => prel (fst a) (fst b) /\ mr (snd a) (snd b)); [|intros [a y] [b y'] [P Q]; cbn in *; auto].
      assert (Sm : sums) by (destruct Su as [Su|Su]; [exact Su|destruct Su]).
      unfold lin_add_to. rewrite <- E, <- Wr.
      eapply al_bind; [apply al_eq, tap_nh|]. intros i ? <-. eapply al_bind; [apply al_get, M|]. intros a a' Ha.
      eapply al_bind; [apply al_set; [exact M|apply (madd Sm); [exact Ha|exact C]]|]. intros u u' [Hu Lu].
      eapply al_bind; [apply al_get, Hu|]. intros y y' Hy. cbn [alike fst snd]. split; [|exact Hy]. unfold prel.
      cbn [ld_memory ld_output ld_read ld_write ld_delay ld_do_next_out ld_next_out ld_alpha ld_om_alpha].
      repeat match goal with |- _ /\ _ => split end; try assumption; try reflexivity; lia.
  Qed.

  Lemma al_run ops : forall ops' s s', prel s s' -> Forall2 (same_call mr) ops ops' -> Forall (stays_short lim) ops -> Forall delays_ok ops -> (sums \/ Forall no_sum ops) ->
    alike (fun a b => prel (fst a) (fst b) /\ Forall2 (same_answer orr) (snd a) (snd b)) (lin_run K O p s ops) (lin_run K' O' p s' ops').
  Proof using Hlim HW Hclip Hs Hs' mo mz madd mblend.
    induction ops as [|op ops IH]; intros ops' s s' P C Sh Sd Su; inversion C; subst; cbn [lin_run].
    - cbn. auto.
    - inversion Sh; inversion Sd; subst. assert (Su1 : sums \/ no_sum op) by (destruct Su as [Su|Su]; [auto|inversion Su; auto]).
      assert (Su2 : sums \/ Forall no_sum ops) by (destruct Su as [Su|Su]; [auto|inversion Su; auto]).
      eapply al_bind; [apply al_step; eassumption|]. intros [a1 o1] [b1 o1'] [P1 Q1]. cbn [fst snd] in *.
      eapply al_bind; [apply IH; eassumption|]. intros [a2 o2] [b2 o2'] [P2 Q2]. cbn [alike fst snd] in *. auto.
  Qed.

  (** Theorem of this file: corresponding sessions give corresponding answers. *)
  Lemma al_session d m ops ops' : okd d -> 0 <= m -> m + 1 <= lim ->
    Forall2 (same_call mr) ops ops' -> Forall (stays_short lim) ops -> Forall delays_ok ops -> (sums \/ Forall no_sum ops) ->
    alike (fun a b => Forall2 (same_answer orr) (snd a) (snd b)) (lin_session K O p d m ops) (lin_session K' O' p d m ops').
  Proof using Hlim HW Hclip Hs Hs' mo mz madd mblend.
    intros Hd Hm0 Hm1 C Sh Sd Su. unfold lin_session.
    apply al_bind with (P := prel).
    2:{ intros s s' P. assert (Q := al_run ops ops' s s' P C Sh Sd Su).
        destruct (lin_run K O p s ops) as [[a y]| |], (lin_run K' O' p s' ops') as [[b y']| |]; cbn in *; tauto. }
    assert (B24 : 2 ^ 24 = 16777216) by reflexivity.
    unfold lin_new, lin_new_fuel. unfold uadd, chk_usize.
    replace ((0 <=? m + 1) && (m + 1 <? two64)) with true
      by (symmetry; apply andb_true_intro; split; [apply Z.leb_le; lia|apply Z.ltb_lt; unfold two64; lia]).
    cbn [bind]. unfold vec_repeat, alloc_ok.
    replace ((m + 1) * n_size_of O <=? isize_max) with true by (symmetry; apply Z.leb_le; unfold isize_max, two63; nia).
    replace ((m + 1) * n_size_of O' <=? isize_max) with true by (symmetry; apply Z.leb_le; unfold isize_max, two63; nia).
    cbn [bind]. fold (lin_set_delay K O p). fold (lin_set_delay K' O' p).
    assert (Lr : vlen (repeat (n_zero O) (Z.to_nat (m + 1))) = m + 1) by (unfold vlen; rewrite repeat_length; lia).
    assert (Lr' : vlen (repeat (n_zero O') (Z.to_nat (m + 1))) = m + 1) by (unfold vlen; rewrite repeat_length; lia).
    assert (B : (2 ^ 24 < two64)) by reflexivity.
    rewrite !lin_set_delay_ctl by (cbn [ld_memory]; rewrite ?Lr, ?Lr'; lia).
    cbn [ld_memory ld_output ld_read ld_write ld_delay ld_do_next_out ld_next_out ld_alpha ld_om_alpha]. rewrite Lr, Lr'.
    unfold K' at 2. rewrite (clip_cast cast' cast). fold K. set (d1 := clip_delay K d m).
    destruct (ctl_f32_range cast (m + 1) 0 d1 ltac:(lia) ltac:(lia)) as (dt & r & a & Ec & Hr).
    unfold K', K. rewrite (ctl_cast cast cast'), Ec. cbn [bind alike]. unfold prel.
    cbn [ld_memory ld_output ld_read ld_write ld_delay ld_do_next_out ld_next_out ld_alpha ld_om_alpha]. rewrite Lr.
    repeat match goal with |- _ /\ _ => split end; try reflexivity; try lia; try (apply mo, mz); [apply rep2|].
    refine (HW (m + 1) 0 d1 dt r a _ _ _ Ec); try lia. apply Hclip; [lia|exact Hd].
  Qed.
End Pair.
