(** Lemmas behind property C129.  The [@PROP] blocks are copied into [PropRack.v]. *)
(*@PROP
(** Property C129: delay lines in series with each other and with the processors.

    Vocabulary: [gear], [sound], [latency], [boxes], [late], [empty_line], [silent] ([RackSpec]); [same_sample]: equal
    bits, the sign of a zero left open ([PolSpec]). *)
From Coq Require Import ZArith Reals List Bool Lia Lra.
From Flocq Require Import Core.Core IEEE754.BinarySingleNaN.
From Verif Require Import Base Num NumF Witness FloatSpec DelayM DelaySpec DelayRun FilterM RbjM AnalysisM Device PolSpec RackSpec RackLemmas.
Import ListNotations.
Open Scope Z_scope.

Ltac sane := repeat constructor; unfold op_sane, is_usize, op_usize; repeat split;
  try discriminate; try (intros; discriminate); easy.
Ltac history := unfold dl_history, is_usize; split; [easy|];
  split; [easy|]; split; [discriminate|]; split; [sane|];
  eexists; vm_compute; reflexivity.
@*)
From Coq Require Import ZArith Reals List Bool Lia Lra.
From Flocq Require Import Core.Core IEEE754.BinarySingleNaN.
From Verif Require Import Base BaseLemmas Num NumF Witness FloatSpec FloatFacts FilterM RbjM AnalysisM Device DelayM DelaySpec DelayRun DelayProofs DelayFacts DelayLemmas
  AnaFacts PoisonLemmas PolFacts PolSpec PolLemmas RackSpec.
Import ListNotations.
Open Scope Z_scope.

Section Lines.
  Context {T : Type} (O : num_ops T) (p : profile) (Hs : 1 <= n_size_of O).
  Notation zero := (n_zero O).

  Lemma late_length n xs : length (late O n xs) = length xs.
  Proof. unfold late. rewrite firstn_length, app_length. lia. Qed.

  Lemma late_late a b xs : 0 <= a -> 0 <= b -> late O a (late O b xs) = late O (a + b) xs.
  Proof.
    intros Ha Hb. unfold late at 1. rewrite late_length. unfold late. replace (Z.to_nat (a + b)) with (Z.to_nat a + Z.to_nat b)%nat by lia.
    rewrite repeat_app, <- app_assoc. rewrite (firstn_app _ (repeat zero (Z.to_nat a)) (firstn _ _)), (firstn_app _ (repeat zero (Z.to_nat a)) (_ ++ _)), firstn_firstn.
    rewrite Nat.min_l by lia. reflexivity.
  Qed.

  Lemma late_nil n : late O n [] = [].
  Proof. reflexivity. Qed.

  Lemma late_0 xs : late O 0 xs = xs.
  Proof. unfold late. cbn [Z.to_nat repeat app]. apply firstn_all. Qed.

  (** A gear alone, fed a whole list. *)
  Fixpoint alone (u : gear T) (xs : list T) : outcome (gear T * list T) :=
    match xs with
    | [] => Ok (u, [])
    | x :: rest => let* (u', y) := feed p u x in let* (u'', ys) := alone u' rest in Ok (u'', y :: ys)
    end.

  Lemma play_cons xs : forall u us u' vs us' ys, alone u xs = Ok (u', vs) -> play p us vs = Ok (us', ys) -> play p (u :: us) xs = Ok (u' :: us', ys).
  Proof.
    induction xs as [|x xs IH]; intros u us u' vs us' ys H1 H2.
    - cbn in H1. injection H1 as <- <-. cbn in H2. injection H2 as <- <-. reflexivity.
    - cbn [alone] in H1. apply bind_Ok in H1. destruct H1 as [[u1 v] [E1 H1]]. apply bind_Ok in H1. destruct H1 as [[u2 vs'] [E2 H1]].
      injection H1 as <- <-. cbn [play] in H2. apply bind_Ok in H2. destruct H2 as [[us1 y] [E3 H2]].
      apply bind_Ok in H2. destruct H2 as [[us2 ys'] [E4 H2]]. injection H2 as <- <-.
      cbn [play through]. rewrite E1. cbn [bind]. rewrite E3. cbn [bind]. rewrite (IH u1 us1 u2 vs' us2 ys' E2 E4). reflexivity.
  Qed.

  Lemma alone_line xs : forall s s' ys, dl_run O p s (map DProcess xs) = Ok (s', map OSample ys) -> alone (GLine s) xs = Ok (GLine s', ys).
  Proof.
    induction xs as [|x xs IH]; intros s s' ys H.
    - cbn in H. destruct ys; [|discriminate]. injection H as <-. reflexivity.
    - cbn [map dl_run dl_step] in H. apply bind_Ok in H. destruct H as [[s1 o] [E1 H]]. apply bind_Ok in E1. destruct E1 as [[s1' y] [E1 E1']].
      injection E1' as <- <-. apply bind_Ok in H. destruct H as [[s2 os] [E2 H]]. destruct ys as [|y' ys]; [discriminate|].
      cbn [map] in H. injection H as <- <- ->. cbn [alone feed]. rewrite E1. cbn [bind]. rewrite (IH _ _ _ E2). reflexivity.
  Qed.

  Lemma rev_zeros a b : (a <= b)%nat -> rev (firstn a (repeat zero b)) = repeat zero a.
  Proof.
    intros Hab. transitivity (rev (repeat zero a)).
    - f_equal. revert b Hab. induction a; intros b Hb; [reflexivity|].
      destruct b; [lia|]. cbn [repeat firstn]. f_equal. apply IHa. lia.
    - clear. induction a; [reflexivity|]. cbn [repeat rev]. rewrite IHa, repeat_cons. reflexivity.
  Qed.

  Lemma empty_run s xs : empty_line O p s -> 0 <= delay_get_delay s /\ exists s', alone (GLine s) xs = Ok (GLine s', late O (delay_get_delay s) xs).
  Proof using Hs.
    intros H. destruct H as [d m s Hd Hm Hf E|d m ops s Hh Ht].
    - apply fits_iff in Hf; [|assumption]. unfold is_usize in *.
      destruct (refine_new O p Hs d m) as [s0 [E0 [Hi Hab]]]; [assumption|lia|assumption|].
      rewrite E in E0. injection E0 as <-. destruct (process_run O p Hs s xs Hi) as [s' [E' _]].
      assert (Hd' : delay_get_delay s = Z.min d m).
      { apply (f_equal l_delay) in Hab. unfold line_new, dl_abs in Hab. cbn [l_delay] in Hab. destruct Hi as [_ _ _ Hi]. unfold delay_get_delay. lia. }
      assert (Hl : Z.to_nat (dl_lag s) = Z.to_nat (Z.min d m)).
      { apply (f_equal l_lag) in Hab. unfold line_new, dl_abs in Hab. cbn [l_lag] in Hab. unfold dl_lag. lia. }
      split; [lia|]. exists s'. apply alone_line. rewrite E'. do 2 f_equal. unfold late. rewrite Hd', Hl, Hab. unfold line_new; cbn [l_hist].
      rewrite rev_zeros by lia. reflexivity.
    - destruct (history_trusted O p Hs d m ops s Hh Ht) as [Hi Hl]. destruct (refine_clear O s Hi) as [Hi' Hab].
      destruct (process_run O p Hs (delay_clear O s) xs Hi') as [s' [E' _]].
      assert (HL := lag_lt O s Hi).
      assert (Hl' : dl_lag (delay_clear O s) = dl_delay s).
      { rewrite <- Hl. unfold dl_lag, delay_clear, vlen; cbn [dl_memory dl_write dl_read]. rewrite map_length. reflexivity. }
      assert (D0 : 0 <= dl_delay s) by (destruct Hi; lia).
      split; [exact D0|]. exists s'. apply alone_line. rewrite E'. do 2 f_equal. unfold late. rewrite Hl', Hab. unfold line_clear; cbn [l_hist].
      rewrite rev_zeros; [reflexivity|]. rewrite dl_abs_slots. unfold vlen in *. lia.
  Qed.
End Lines.

(** C129: delay lines in series delay by the sum of their delays, exactly, whatever the number type. *)
Lemma C129_lines_thm :
  forall (T : Type) (O : num_ops T) (p : profile) (lines : list (delay T)) (xs : list T),
    1 <= n_size_of O -> Forall (empty_line O p) lines ->
    sound p (map GLine lines) xs = Ok (late O (latency (map GLine lines)) xs).
Proof.
  intros T O p lines xs Hs H.
  assert (G : 0 <= latency (map GLine lines) /\ exists us, play p (map GLine lines) xs = Ok (us, late O (latency (map GLine lines)) xs)).
  { revert xs. induction H as [|s l Hl _ IH]; intros xs.
    - split; [cbn; lia|]. exists []. cbn [map latency]. rewrite late_0. induction xs as [|x xs IH]; [reflexivity|]. cbn [play through bind]. cbn [map] in IH. rewrite IH. reflexivity.
    - destruct (empty_run O p Hs s xs Hl) as [H0 [s' E]]. destruct (IH (late O (delay_get_delay s) xs)) as [H1 [us E1]].
      cbn [map latency]. split; [lia|]. eexists. rewrite Z.add_comm, <- late_late by lia.
      eapply play_cons; [exact E|exact E1]. }
  destruct G as [_ [us E]]. unfold sound. rewrite E. reflexivity.
Qed.
(*@PROP
(** Three lines: a new one, one whose delay was clipped to its maximum, and one that was used and cleared. *)
Example C129_lines_hyps (a b : f64) :
  1 <= n_size_of O64 /\ exists s1 s2 s3, Forall (empty_line O64 Debug) [s1; s2; delay_clear O64 s3]
    /\ latency (map GLine [s1; s2; delay_clear O64 s3]) = 2 + 4 + 1.
Proof.
  split; [easy|]. do 3 eexists. split.
  - constructor; [apply (el_new _ _ 2 5); [easy|easy|easy|reflexivity]|].
    constructor; [apply (el_new _ _ 9 4); [easy|easy|easy|reflexivity]|].
    constructor; [|constructor]. apply (el_cleared _ _ 3 6 [DProcess a; DSetDelay 1; DProcess b]); [history|reflexivity].
  - vm_compute. reflexivity.
Qed.
@*)

(** ** Processors *)
Section Boxes.
  Context {S K T : Type} (O : num_ops T) (V : float_view T) (D : device S K T) (ok : K -> Prop)
          (Rw Rf : S -> S -> Prop) (calm rest : S -> Prop)
          (Hr : respects D (same_sample V) Rw Rf) (Hs : settles O V D ok Rw calm rest) (Hz : zero_sample V (n_zero O)).
  Notation same := (same_sample V).

  Lemma outs_rel xs : forall xs' s s', Rw s s' -> Forall2 same xs xs' -> Forall2 same (d_outputs D s xs) (d_outputs D s' xs').
  Proof using Hr.
    clear Hs Hz.
    induction xs as [|x xs IH]; intros xs' s s' HR H; inversion H as [|? x' ? xs1 H1 H2]; subst; cbn [d_outputs]; [constructor|].
    destruct (rs_process _ _ _ _ Hr s s' x x' HR H1) as [A B]. destruct (d_process D s x) as [s1 y], (d_process D s' x') as [s1' y'].
    constructor; [exact B|]. apply IH; [apply (rs_fw _ _ _ _ Hr); exact A|exact H2].
  Qed.

  Lemma same_refl x : same x x. Proof. left; reflexivity. Qed.
  Lemma sames_refl xs : Forall2 same xs xs.
  Proof. induction xs; constructor; [apply same_refl|assumption]. Qed.

  Lemma outs_quiet n xs : forall s s0, rest s -> rest s0 -> Rw s s0 ->
    Forall2 same (d_outputs D s (repeat (n_zero O) n ++ xs)) (repeat (n_zero O) n ++ d_outputs D s0 xs).
  Proof using Hr Hs Hz.
    induction n as [|n IH]; intros s s0 R1 R2 W; cbn [repeat app].
    - apply outs_rel; [exact W|apply sames_refl].
    - cbn [d_outputs]. destruct (st_quiet _ _ _ _ _ _ _ Hs s s0 _ R1 R2 W Hz) as (A & B & C).
      destruct (d_process D s (n_zero O)) as [s1 y]. constructor; [right; split; [exact B|exact Hz]|]. apply IH; assumption.
  Qed.

  Definition box_ok (s : S) : Prop :=
    (forall xs xs', Forall2 same xs xs' -> Forall2 same (d_outputs D s xs) (d_outputs D s xs'))
    /\ (forall n xs, Forall2 same (d_outputs D s (repeat (n_zero O) n ++ xs)) (repeat (n_zero O) n ++ d_outputs D s xs)).

  Lemma cleared_ok before : all_set ok before -> box_ok (after D (before ++ [CClear])).
  Proof using Hr Hs Hz.
    intros Ha. assert (C : calm (after D before)) by (apply (calm_run O V D ok Rw calm rest Hs); [apply (st_new _ _ _ _ _ _ _ Hs)|exact Ha]).
    assert (R1 := st_rest _ _ _ _ _ _ _ Hs _ C). rewrite after_snoc. cbn [d_step fst].
    assert (W := st_refl _ _ _ _ _ _ _ Hs _ R1). split.
    - intros xs xs' H. apply outs_rel; assumption.
    - intros n xs. apply outs_quiet; assumption.
  Qed.
End Boxes.

Lemma tame_ok T (O : num_ops T) V (HO : ieee O V) S K (D : device S K T) ok : tame O V D ok ->
  forall before, all_set ok before -> box_ok O V D (after D (before ++ [CClear])).
Proof.
  intros HD before.
  assert (L := ieee_same_laws T O V HO). assert (L0 := ieee_laws0 T O V HO). assert (Z := ieee_zl T O V HO).
  assert (Hz := z_0 _ _ Z).
  destruct HD.
  - apply (cleared_ok O V _ _ _ _ _ _ (rs_one_pole O V _ L) (se_one_pole O V L Z) Hz).
  - apply (cleared_ok O V _ _ _ _ _ _ (rs_one_zero O V _ L) (se_one_zero O V L Z) Hz).
  - apply (cleared_ok O V _ _ _ _ _ _ (rs_two_pole O V _ L) (se_two_pole O V L Z) Hz).
  - apply (cleared_ok O V _ _ _ _ _ _ (rs_two_zero O V _ L) (se_two_zero O V L Z) Hz).
  - apply (cleared_ok O V _ _ _ _ _ _ (rs_biquad1 O V _ L) (se_biquad1 O V L Z) Hz).
  - apply (cleared_ok O V _ _ _ _ _ _ (rs_biquad2 O V _ L) (se_biquad2 O V L Z) Hz).
  - apply (cleared_ok O V _ _ _ _ _ _ (rs_rbj O V _ L k) (se_rbj O V L Z k) Hz).
  - apply (cleared_ok O V _ _ _ _ _ _ (rs_leaky O V _ L) (se_leaky O V L Z) Hz).
  - apply (cleared_ok O V _ _ _ _ _ _ (rs_peak O V _ L L0) (se_peak O V L Z) Hz).
  - apply (cleared_ok O V _ _ _ _ _ _ (rs_rms O V _ L L0) (se_rms O V L Z) Hz).
Qed.

Section Rack.
  Context {T : Type} (O : num_ops T) (p : profile) (V : float_view T) (HO : ieee O V).
  Notation same := (same_sample V).
  Notation sames := (Forall2 same).

  Lemma same_trans x y z : same x y -> same y z -> same x z.
  Proof. intros [->|[A B]] [->|[C E]]; try (left; reflexivity); right; split; assumption. Qed.
  Lemma sames_trans xs : forall ys zs, sames xs ys -> sames ys zs -> sames xs zs.
  Proof.
    induction xs as [|x xs IH]; intros ys zs H1 H2; inversion H1; subst; inversion H2; subst; constructor;
      [eapply same_trans; eassumption|eapply IH; eassumption].
  Qed.
  Lemma same_sym x y : same x y -> same y x.
  Proof. intros [->|[A B]]; [left; reflexivity|right; split; assumption]. Qed.
  Lemma sames_sym xs : forall ys, sames xs ys -> sames ys xs.
  Proof. induction xs; intros ys H; inversion H; subst; constructor; [apply same_sym; assumption|auto]. Qed.

  Lemma f2_first (n : nat) xs : forall ys, sames xs ys -> sames (firstn n xs) (firstn n ys).
  Proof. revert xs. induction n; intros xs ys H; [constructor|]. inversion H; subst; cbn [firstn]; constructor; auto. Qed.

  Lemma late_same n xs ys : sames xs ys -> sames (late O n xs) (late O n ys).
  Proof.
    intros H. unfold late. replace (length ys) with (length xs) by (clear - H; induction H; cbn; congruence).
    apply f2_first. apply Forall2_app; [apply sames_refl|exact H].
  Qed.

  Lemma outs_len {S K} (D : device S K T) xs : forall s, length (d_outputs D s xs) = length xs.
  Proof. induction xs as [|x xs IH]; intros s; [reflexivity|]. cbn [d_outputs]. destruct (d_process D s x). cbn [length]. rewrite IH. reflexivity. Qed.
  Lemma outs_first {S K} (D : device S K T) n xs : forall s, d_outputs D s (firstn n xs) = firstn n (d_outputs D s xs).
  Proof.
    revert xs. induction n; intros xs s; [reflexivity|]. destruct xs as [|x xs]; [reflexivity|]. cbn [firstn d_outputs].
    destruct (d_process D s x). cbn [firstn]. rewrite IHn. reflexivity.
  Qed.

  Lemma outs_late {S K} (D : device S K T) s n xs : box_ok O V D s -> sames (d_outputs D s (late O n xs)) (late O n (d_outputs D s xs)).
  Proof. intros [_ H]. unfold late. rewrite outs_first, outs_len. apply f2_first. apply H. Qed.

  Lemma alone_box {S K} (D : device S K T) xs : forall s, exists s', alone p (GBox D s) xs = Ok (GBox D s', d_outputs D s xs).
  Proof.
    induction xs as [|x xs IH]; intros s; [exists s; reflexivity|]. cbn [alone feed d_outputs]. destruct (d_process D s x) as [s1 y].
    destruct (IH s1) as [s' E]. exists s'. cbn [bind]. rewrite E. reflexivity.
  Qed.

  Lemma play_nil xs : play p (@nil (gear T)) xs = Ok ([], xs).
  Proof. induction xs as [|x xs IH]; [reflexivity|]. cbn [play through bind]. rewrite IH. reflexivity. Qed.

  Lemma rack_gen us : Forall (silent O p V) us -> 0 <= latency us /\ forall n ws xs, 0 <= n -> sames xs (late O n ws) ->
    exists us1 us2 ys zs, play p us xs = Ok (us1, ys) /\ play p (boxes us) ws = Ok (us2, zs) /\ sames ys (late O (latency us + n) zs).
  Proof using HO.
    assert (Hs : 1 <= n_size_of O) by (destruct HO; cbn; lia).
    intros H. induction H as [|u us Hu _ [IH0 IH]].
    - split; [cbn; lia|]. intros n ws xs Hn H. do 4 eexists. split; [apply play_nil|]. split; [apply play_nil|]. exact H.
    - destruct Hu as [s Hl|S K D ok before HD Ha]; cbn [latency boxes].
      + destruct (empty_run O p Hs s [] Hl) as [H0 _]. split; [lia|]. intros n ws xs Hn H.
        destruct (empty_run O p Hs s xs Hl) as [_ [s' E]].
        destruct (IH (delay_get_delay s + n) ws (late O (delay_get_delay s) xs) ltac:(lia)) as [us1 [us2 [ys [zs [E1 [E2 H2]]]]]].
        { rewrite <- late_late by lia. apply late_same. exact H. }
        do 4 eexists. split; [eapply play_cons; [exact E|exact E1]|]. split; [exact E2|].
        replace (delay_get_delay s + latency us + n) with (latency us + (delay_get_delay s + n)) by lia. exact H2.
      + split; [exact IH0|]. intros n ws xs Hn H. assert (B := tame_ok T O V HO S K D ok HD before Ha).
        set (s := after D (before ++ [CClear])) in *. destruct (alone_box D xs s) as [s1 E1]. destruct (alone_box D ws s) as [s2 E2].
        destruct (IH n (d_outputs D s ws) (d_outputs D s xs) Hn) as [us1 [us2 [ys [zs [E3 [E4 H2]]]]]].
        { eapply sames_trans; [apply B; exact H|]. apply outs_late. exact B. }
        do 4 eexists. split; [eapply play_cons; [exact E1|exact E3]|]. split; [eapply play_cons; [exact E2|exact E4]|]. exact H2.
  Qed.
End Rack.

(** C129: a rack sounds like its processors without the delay lines, late by the sum of the delays, bit for bit. *)
Lemma C129_latency_thm :
  forall (T : Type) (O : num_ops T) (V : float_view T), ieee O V ->
  forall (p : profile) (rack : list (gear T)) (xs : list T), Forall (silent O p V) rack ->
    exists ys zs, sound p rack xs = Ok ys /\ sound p (boxes rack) xs = Ok zs
      /\ Forall2 (same_sample V) ys (late O (latency rack) zs).
Proof.
  intros T O V HO p rack xs H. destruct (rack_gen O p V HO rack H) as [_ G].
  destruct (G 0 xs xs ltac:(lia)) as [u1 [u2 [ys [zs [E1 [E2 H2]]]]]]; [rewrite late_0; apply sames_refl|].
  exists ys, zs. unfold sound. rewrite E1, E2. split; [reflexivity|]. split; [reflexivity|]. rewrite Z.add_0_r in H2. exact H2.
Qed.
(*@PROP
(** A biquad between two delay lines, and a detector at the end. *)
Example C129_latency_hyps :
  ieee O32 (ieee_view 24 128) /\ exists s1 s2,
    Forall (silent O32 Release (ieee_view 24 128))
      [GLine s1; GBox (dev_biquad2 O32) (after (dev_biquad2 O32) ([CSet (fl32 1 0, fl32 3 (-2), fl32 1 (-3), fl32 (-3) (-1), fl32 5 (-3))] ++ [CClear]));
       GLine s2; GBox (dev_peak O32) (after (dev_peak O32) ([] ++ [CClear]))]
    /\ delay_get_delay s1 = 2 /\ delay_get_delay s2 = 3.
Proof.
  split; [apply ieee_f32|]. do 2 eexists. split; [|split].
  - constructor; [apply si_line; apply (el_new _ _ 2 5); [easy|easy|easy|reflexivity]|].
    constructor; [eapply si_box; [apply tame_biquad2|]; intros k [E|[]]; injection E as <-; repeat split|].
    constructor; [apply si_line; apply (el_new _ _ 3 3); [easy|easy|easy|reflexivity]|].
    constructor; [eapply si_box; [apply tame_peak|]; intros k []|constructor].
  - reflexivity.
  - reflexivity.
Qed.
@*)

(** C129: it does not matter where in the rack the delay is inserted, nor in how many lines: two racks with the same
    processors and the same total delay sound the same, and wherever the samples are finite their difference is zero. *)
Lemma C129_placement_thm :
  forall (T : Type) (O : num_ops T) (V : float_view T), ieee O V ->
  forall (p : profile) (rack rack' : list (gear T)) (xs : list T),
    Forall (silent O p V) rack -> Forall (silent O p V) rack' ->
    boxes rack = boxes rack' -> latency rack = latency rack' ->
    exists ys ys', sound p rack xs = Ok ys /\ sound p rack' xs = Ok ys'
      /\ Forall2 (same_sample V) ys ys'
      /\ Forall2 (fun y y' => fin V y = true -> zero_sample V (n_sub O y y')) ys ys'.
Proof.
  intros T O V HO p rack rack' xs H H' Eb El.
  destruct (C129_latency_thm T O V HO p rack xs H) as [ys [zs [E1 [E2 F]]]].
  destruct (C129_latency_thm T O V HO p rack' xs H') as [ys' [zs' [E1' [E2' F']]]].
  rewrite <- Eb, E2 in E2'. injection E2' as <-. rewrite <- El in F'.
  assert (G : Forall2 (same_sample V) ys ys') by (eapply sames_trans; [exact F|apply sames_sym; exact F']).
  exists ys, ys'. split; [exact E1|]. split; [exact E1'|]. split; [exact G|].
  clear - G HO. induction G as [|y y' ys ys' Hy G IH]; constructor; [|exact IH].
  intros Hf. destruct Hy as [->|[A B]]; [|apply (z_sub _ _ (ieee_zl T O V HO)); assumption].
  destruct HO as [lm b|lm b]; unfold zero_sample; cbn [ieee_ops f32_ops f64_ops n_sub ieee_view val fin] in *.
  - destruct (sub_ok 24 128 y y 0 Hf Hf) as [A B]; [apply generic_format_0|apply bpow_gt_0|rewrite Rminus_diag_eq, Rabs_R0 by reflexivity; apply Rle_refl|].
    split; [exact A|]. rewrite B, Rminus_diag_eq by reflexivity. apply (RN_0 24 128).
  - destruct (sub_ok 53 1024 y y 0 Hf Hf) as [A B]; [apply generic_format_0|apply bpow_gt_0|rewrite Rminus_diag_eq, Rabs_R0 by reflexivity; apply Rle_refl|].
    split; [exact A|]. rewrite B, Rminus_diag_eq by reflexivity. apply (RN_0 53 1024).
Qed.
(*@PROP
(** A one-pole filter with a delay of 3 before it, or 1 before it and 2 after it. *)
Example C129_placement_hyps :
  let box := GBox (dev_one_pole O64) (after (dev_one_pole O64) ([CSet (fl64 1 (-1), fl64 (-1) (-1))] ++ [CClear])) in
  ieee O64 (ieee_view 53 1024) /\ exists a b c,
    Forall (silent O64 Debug (ieee_view 53 1024)) [GLine a; box] /\ Forall (silent O64 Debug (ieee_view 53 1024)) [GLine b; box; GLine c]
    /\ boxes [GLine a; box] = boxes [GLine b; box; GLine c] /\ latency [GLine a; box] = latency [GLine b; box; GLine c].
Proof.
  cbv zeta. split; [apply ieee_f64|]. do 3 eexists. split; [|split; [|split]].
  - constructor; [apply si_line; apply (el_new _ _ 3 3); [easy|easy|easy|reflexivity]|].
    constructor; [eapply si_box; [apply tame_one_pole|]; intros k [E|[]]; injection E as <-; repeat split|constructor].
  - constructor; [apply si_line; apply (el_new _ _ 1 3); [easy|easy|easy|reflexivity]|].
    constructor; [eapply si_box; [apply tame_one_pole|]; intros k [E|[]]; injection E as <-; repeat split|].
    constructor; [apply si_line; apply (el_new _ _ 2 3); [easy|easy|easy|reflexivity]|constructor].
  - reflexivity.
  - reflexivity.
Qed.
@*)

(** C129: the sign of a zero does depend on the order: a delay of one sample and a [OnePole] that inverts the signal
    start with -0 in one order and with +0 in the other. *)
Lemma C129_zero_sign_refuted_thm :
  forall (lm : libm f32) (b : bool) (p : profile),
    let O := f32_ops lm b in let V := ieee_view 24 128 in
    ~ (forall rack rack' xs ys ys', Forall (silent O p V) rack -> Forall (silent O p V) rack' ->
         boxes rack = boxes rack' -> latency rack = latency rack' ->
         sound p rack xs = Ok ys -> sound p rack' xs = Ok ys' -> ys = ys').
Proof.
  intros lm b p O V H.
  assert (E : exists s, delay_new O p 1 1 = Ok s) by (destruct p; eexists; reflexivity). destruct E as [s E].
  set (box := GBox (dev_one_pole O) (after (dev_one_pole O) ([CSet (fl32 (-1) 0, fl32 0 0)] ++ [CClear]))).
  assert (Sl : silent O p V (GLine s)) by (apply si_line; apply (el_new _ _ 1 1); [easy|easy|easy|exact E]).
  assert (Sb : silent O p V box).
  { eapply si_box; [apply tame_one_pole|]. intros k [Ek|[]]. injection Ek as <-. repeat split. }
  assert (Q := H [GLine s; box] [box; GLine s] [fl32 1 0] [B754_zero true] [B754_zero false]).
  assert (A : [B754_zero true : f32] = [B754_zero false : f32]); [|discriminate A].
  apply Q; try reflexivity.
  - constructor; [exact Sl|]. constructor; [exact Sb|constructor].
  - constructor; [exact Sb|]. constructor; [exact Sl|constructor].
  - destruct p; cbn in E; injection E as <-; vm_compute; reflexivity.
  - destruct p; cbn in E; injection E as <-; vm_compute; reflexivity.
Qed.
