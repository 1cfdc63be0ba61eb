(** Lemmas behind property C108.  The [@PROP] blocks are copied into [PropMod.v]. *)
(*@PROP
(** Property C108: delay lines whose delay changes with every sample.

    Vocabulary: [ModSpec] ([modulated], [heard], [earlier], [steps_within]);
    [dl_session O p d0 m ops] is [Delay::new(d0, m)] followed by the calls [ops] ([DelayRun]),
    [lin_session K O p d0 m ops] the same for [LinearDelay] ([LinRun]);
    [behind zero x k n] is the sample [k] before number [n], [zero] before the start;
    [fits O m]: a buffer for [m] samples of delay can be allocated. *)
From Coq Require Import ZArith Reals List Bool Lia Lra.
From Verif Require Import Base Num NumR NumF Witness DelayM LinDelayM DelaySpec DelayRun LinRun ModSpec ModLemmas.
Import ListNotations.
Open Scope R_scope.
@*)
From Coq Require Import ZArith Reals List Bool Lia Lra Arith.
From Flocq Require Import Core.Core.
From Verif Require Import Base BaseLemmas Num NumR NumF DelayM LinDelayM DelaySpec DelayRun DelayLemmas
  LinSpec LinRun LinLemmas2 Witness ModSpec.
Import ListNotations.
Open Scope R_scope.

(** ** The last samples, newest first *)
Lemma nth_removelast {T} (zero : T) (l : list T) k : (S k < length l)%nat -> nth k (removelast l) zero = nth k l zero.
Proof.
  revert k. induction l as [|a l IH]; intros k Hk; [cbn in Hk; lia|].
  destruct l as [|b l]; [cbn in Hk; lia|]. cbn [removelast]. destruct k as [|k]; [reflexivity|].
  cbn [nth]. apply IH. cbn in *. lia.
Qed.
Lemma removelast_len {T} (l : list T) : length (removelast l) = (length l - 1)%nat.
Proof. induction l as [|a [|b l] IH]; [reflexivity|reflexivity|]. cbn [removelast length] in *. lia. Qed.

Section Hist.
  Context {T : Type} (zero : T) (x : nat -> T) (N : nat).

  (** [h] holds [N] values, the samples before number [i]. *)
  Definition holds (h : list T) (i : nat) : Prop :=
    length h = N /\ forall j, (j < N)%nat -> nth j h zero = behind zero x (S j) i.

  Lemma holds_push h i : (1 <= N)%nat -> holds h i ->
    holds (push (x i) h) (S i) /\ forall j, (j < N)%nat -> nth j (push (x i) h) zero = behind zero x j i.
  Proof.
    intros HN [HL HH].
    assert (G : forall j, (j < N)%nat -> nth j (push (x i) h) zero = behind zero x j i).
    { intros [|j] Hj; unfold push; cbn [nth].
      - unfold behind. cbn [Nat.leb]. now rewrite Nat.sub_0_r.
      - rewrite nth_removelast by lia. apply HH. lia. }
    split; [|exact G]. split.
    - unfold push. cbn [length]. rewrite removelast_len. lia.
    - intros j Hj. rewrite (G j Hj). unfold behind. reflexivity.
  Qed.

  Lemma holds_new : holds (repeat zero N) 0.
  Proof. split; [apply repeat_length|]. intros j Hj. rewrite nth_repeat. reflexivity. Qed.
End Hist.

(** ** [Delay] *)
Section D.
  Context {T : Type} (zero : T) (add : T -> T -> T) (lim : Z) (m : Z) (Hm : (0 <= m)%Z) (d : nat -> Z) (x : nat -> T).

  Lemma line_mod n : (forall i, (0 <= d i)%Z) -> forall i l, holds zero x (Z.to_nat (m + 1)) (l_hist l) i ->
    exists l', line_run zero add lim l (flat_map (fun i => [DSetDelay (d i); DProcess (x i)]) (seq i n))
      = Some (l', flat_map (fun i => [ONone; OSample (behind zero x (Z.to_nat (Z.min (d i) m)) i)]) (seq i n)).
  Proof.
    intros Hd. induction n as [|n IH]; intros i l Hl; [exists l; reflexivity|].
    cbn [seq flat_map app line_run line_step]. unfold line_process.
    cbn [line_set_delay l_hist l_lag l_phase l_delay l_last].
    destruct (holds_push zero x (Z.to_nat (m + 1)) (l_hist l) i ltac:(lia) Hl) as [H1 H2].
    edestruct (IH (S i) (Line (push (x i) (l_hist l)) ((l_phase l + 1) mod slots (line_set_delay l (Z.to_nat (Z.min (d i) (Z.of_nat (slots l) - 1)))))
      (Z.to_nat (Z.min (d i) (Z.of_nat (slots l) - 1))) (Z.to_nat (Z.min (d i) (Z.of_nat (slots l) - 1)))
      (nth (Z.to_nat (Z.min (d i) (Z.of_nat (slots l) - 1))) (push (x i) (l_hist l)) zero))) as [l' E]; [exact H1|].
    rewrite E. exists l'. do 3 f_equal. f_equal.
    assert (HS : slots l = Z.to_nat (m + 1)) by apply Hl. rewrite HS.
    replace (Z.of_nat (Z.to_nat (m + 1)) - 1)%Z with m by lia.
    f_equal. apply H2. specialize (Hd i). lia.
  Qed.
End D.

Lemma op_usize_mod {T} (d : nat -> Z) (x : nat -> T) n : (forall i, is_usize (d i)) -> Forall op_usize (modulated d x n).
Proof.
  intros H. apply Forall_forall. intros op. unfold modulated. rewrite in_flat_map.
  intros [i [_ [<-|[<-|[]]]]]; [apply H|exact I].
Qed.
Lemma use_mod {T} (O : num_ops T) (m : Z) (d : nat -> Z) (x : nat -> T) l :
  normal_use O m (flat_map (fun i => [DSetDelay (d i); DProcess (x i)]) l).
Proof. induction l as [|a l IH]; [exact I|]. exact IH. Qed.

(*@PROP
(** C108: a [Delay] whose delay is set before every sample, to whatever values, returns at
    step [n] exactly the input sample min(d(n), m) earlier: in every arithmetic. *)
@*)
Lemma C108_modulated_delay_thm :
  forall (T : Type) (O : num_ops T) (p : profile) (d0 m : Z) (d : nat -> Z) (x : nat -> T) (n : nat),
    (1 <= n_size_of O)%Z -> is_usize d0 -> is_usize m -> fits O m -> (forall i, is_usize (d i)) ->
    exists s, dl_session O p d0 m (modulated d x n)
      = Ok (s, heard (fun i => behind (n_zero O) x (Z.to_nat (Z.min (d i) m)) i) n).
Proof.
  intros T O p d0 m d x n Hs Hd0 Hm Hf Hd.
  destruct (C08_delay_refines_line_thm T O p d0 m (modulated d x n) Hs Hd0 Hm Hf (op_usize_mod d x n Hd) (use_mod O m d x _))
    as [s [l [os [E1 E2]]]].
  exists s. rewrite E2. do 2 f_equal.
  destruct (line_mod (n_zero O) (n_add O) (isize_max / n_size_of O) m ltac:(unfold is_usize in Hm; lia) d x n) with
    (i := 0%nat) (l := line_new (n_zero O) (Z.to_nat d0) (Z.to_nat m)) as [l' E].
  - intros i. specialize (Hd i). unfold is_usize in Hd. lia.
  - cbn [line_new l_hist]. replace (Datatypes.S (Z.to_nat m)) with (Z.to_nat (m + 1)) by (unfold is_usize in Hm; lia). apply holds_new.
  - unfold modulated in E1. rewrite E in E1. injection E1 as _ <-. reflexivity.
Qed.

(*@PROP
Example C108_modulated_delay_hyps :
  (1 <= n_size_of O64)%Z /\ is_usize 2 /\ is_usize 3 /\ fits O64 3
  /\ forall i : nat, is_usize ((fun i => if Nat.even i then 1 else 7)%Z i).
Proof. repeat split; try easy; cbn beta; destruct (Nat.even i); easy. Qed.
@*)

(** ** [LinearDelay] *)
Section L.
  Context (lim : Z) (m : Z) (Hm : (0 <= m)%Z) (d x : nat -> R).
  Notation clip c := (Rmax 0 (Rmin c (IZR m))).

  Lemma clip_range c : 0 <= clip c <= IZR m.
  Proof.
    assert (0 <= IZR m) by (apply IZR_le; lia). split; [apply Rmax_l|]. apply Rmax_lub; [assumption|apply Rmin_r].
  Qed.

  Lemma blend_earlier h i c : 0 <= c <= IZR m ->
    length h = Z.to_nat (m + 1) -> (forall j, (j < Z.to_nat (m + 1))%nat -> nth j h 0 = behind 0 x j i) ->
    blend 0 Rplus Rmult h (Z.to_nat (Zceil c)) (IZR (Zceil c) - c) (1 - (IZR (Zceil c) - c)) = earlier x c i.
  Proof.
    intros Hc HL HH. unfold blend, earlier.
    assert (Hfl : (0 <= Zfloor c)%Z) by (apply Zfloor_lub; lra).
    assert (Hce : (Zceil c <= m)%Z) by (apply Zceil_glb; lra).
    destruct (ceil_floor c) as [[A B]|[A B]].
    - rewrite B, <- A. replace (c - c) with 0 by ring. rewrite HH by lia. ring.
    - rewrite B in *. rewrite Z2Nat.inj_add by lia. change (Z.to_nat 1) with 1%nat.
      assert (E : (match (Z.to_nat (Zfloor c) + 1)%nat with 0%nat => (length h - 1)%nat | S k => k end) = Z.to_nat (Zfloor c)).
      { rewrite Nat.add_1_r. reflexivity. }
      rewrite E, !HH by lia. rewrite plus_IZR. ring.
  Qed.

  Lemma ilin_mod n : forall i l, holds 0 x (Z.to_nat (m + 1)) (l_hist (i_line l)) i -> i_peek l = None ->
    exists l', ilin_run 0 Rplus Rmult lim ideal_aim l (flat_map (fun i => [DSetDelay (d i); DProcess (x i)]) (seq i n))
      = Some (l', flat_map (fun i => [ONone; OSample (earlier x (clip (d i)) i)]) (seq i n)).
  Proof.
    induction n as [|n IH]; intros i l Hl Hp; [exists l; reflexivity|].
    cbn [seq flat_map app ilin_run ilin_step]. unfold ilin_aim. set (aim := ideal_aim) in |- * at 2. unfold ideal_aim at 1. unfold aim. clear aim.
    assert (HS : slots (i_line l) = Z.to_nat (m + 1)) by apply Hl.
    assert (EI : INR (slots (i_line l)) - 1 = IZR m).
    { rewrite HS, INR_IZR_INZ, Z2Nat.id, plus_IZR by lia. ring. }
    rewrite EI. unfold ilin_process. cbn [i_line i_peek i_new i_old i_delay l_hist l_lag l_phase l_delay l_last].
    rewrite Hp. set (c := clip (d i)). assert (Hc := clip_range (d i)). fold c in Hc.
    destruct (holds_push 0 x (Z.to_nat (m + 1)) (l_hist (i_line l)) i ltac:(lia) Hl) as [H1 H2].
    rewrite (blend_earlier (push (x i) (l_hist (i_line l))) i c Hc (proj1 H1) H2).
    match goal with |- context [ilin_run _ _ _ _ _ ?L _] => destruct (IH (S i) L H1 eq_refl) as [l' E] end.
    rewrite E. exists l'. reflexivity.
  Qed.
End L.

Lemma lin_use_mod (lim m : Z) (d x : nat -> R) l :
  lin_use lim m (flat_map (fun i => [DSetDelay (d i); DProcess (x i)]) l).
Proof. induction l as [|a l IH]; [exact I|]. exact IH. Qed.

(*@PROP
(** C108, [LinearDelay] in exact arithmetic: with the delay set before every sample to any
    value, fractional or not, step [n] returns the input signal exactly d(n) samples earlier
    (with d(n) clipped to [0, m]), interpolated linearly between its samples. *)
@*)
Lemma C108_modulated_linear_thm :
  forall (p : profile) (d0 : R) (m : Z) (d x : nat -> R) (n : nat),
    is_usize m -> fits R_ops m ->
    exists s, lin_session R_ctl R_ops p d0 m (modulated d x n)
      = Ok (s, heard (fun i => earlier x (Rmax 0 (Rmin (d i) (IZR m))) i) n).
Proof.
  intros p d0 m d x n Hm Hf.
  destruct (C22_refines_ideal_thm p d0 m (modulated d x n) Hm Hf) as [s [os [i [E1 E2]]]].
  - apply Forall_forall. intros op. unfold modulated. rewrite in_flat_map. intros [i [_ [<-|[<-|[]]]]]; exact I.
  - apply lin_use_mod.
  - exists s. rewrite E1. do 2 f_equal.
    destruct (ilin_mod (max_slots R_ops) m ltac:(unfold is_usize in Hm; lia) d x n 0%nat (ilin_new 0 ideal_aim d0 (Z.to_nat m))) as [l' E].
    + unfold ilin_new, ilin_aim. destruct (ideal_aim _ _ _) as [[[? ?] ?] ?]. cbn [i_line l_hist line_new].
      replace (Datatypes.S (Z.to_nat m)) with (Z.to_nat (m + 1)) by (unfold is_usize in Hm; lia). apply holds_new.
    + unfold ilin_new, ilin_aim. destruct (ideal_aim _ _ _) as [[[? ?] ?] ?]. reflexivity.
    + unfold modulated in E2. rewrite E in E2. injection E2 as _ <-. reflexivity.
Qed.

(*@PROP
Example C108_modulated_linear_hyps : is_usize 7 /\ fits R_ops 7.
Proof. split; [easy|discriminate]. Qed.
@*)

(** ** How fast the output moves *)
Section Lip.
  Context (x : nat -> R) (L : R) (Hx : steps_within L x).

  (** The signal at integer times, and between them. *)
  Let z (a : Z) : R := if (a <? 0)%Z then 0 else x (Z.to_nat a).
  Let Xt (t : R) : R := (1 - (t - IZR (Zfloor t))) * z (Zfloor t) + (t - IZR (Zfloor t)) * z (Zfloor t + 1).

  Lemma L_pos : 0 <= L.
  Proof. destruct Hx as [H _]. assert (G := Rabs_pos (x 0%nat)). lra. Qed.

  Lemma z_step a : Rabs (z (a + 1) - z a) <= L.
  Proof.
    destruct Hx as [H0 H1]. unfold z. destruct (Z.ltb_spec a 0) as [A|A], (Z.ltb_spec (a + 1) 0) as [B|B]; try lia.
    - replace (0 - 0) with 0 by ring. rewrite Rabs_R0. apply L_pos.
    - replace (a + 1)%Z with 0%Z by lia. rewrite Rminus_0_r. exact H0.
    - replace (Z.to_nat (a + 1)) with (Datatypes.S (Z.to_nat a)) by lia. apply H1.
  Qed.

  Lemma z_lip a k : (0 <= k)%Z -> Rabs (z (a + k) - z a) <= L * IZR k.
  Proof.
    intros Hk. pattern k. apply natlike_ind; [| |exact Hk].
    - rewrite Z.add_0_r. replace (z a - z a) with 0 by ring. rewrite Rabs_R0. lra.
    - intros k0 Hk0 IH. unfold Z.succ. rewrite Z.add_assoc.
      replace (z (a + k0 + 1) - z a) with ((z (a + k0 + 1) - z (a + k0)) + (z (a + k0) - z a)) by ring.
      eapply Rle_trans; [apply Rabs_triang|]. rewrite plus_IZR. assert (G := z_step (a + k0)). lra.
  Qed.

  Lemma Xt_lip s t : s <= t -> Rabs (Xt t - Xt s) <= L * (t - s).
  Proof.
    intros Hst. unfold Xt.
    assert (A1 := Zfloor_lb s). assert (A2 := Zfloor_ub s). assert (B1 := Zfloor_lb t). assert (B2 := Zfloor_ub t).
    set (a := Zfloor s) in *. set (b := Zfloor t) in *.
    assert (Hab : (a <= b)%Z) by (apply Zfloor_le, Hst).
    assert (HL := L_pos).
    destruct (Z.eq_dec a b) as [E|E].
    - rewrite <- E in *. replace (_ - _) with ((t - s) * (z (a + 1) - z a)) by ring.
      rewrite Rabs_mult, (Rabs_pos_eq (t - s)), Rmult_comm by lra. apply Rmult_le_compat_r; [lra|apply z_step].
    - assert (G := z_lip (a + 1) (b - (a + 1)) ltac:(lia)). replace (a + 1 + (b - (a + 1)))%Z with b in G by ring.
      rewrite minus_IZR, plus_IZR in G.
      replace (_ - _) with ((t - IZR b) * (z (b + 1) - z b) + ((z b - z (a + 1)) + (1 - (s - IZR a)) * (z (a + 1) - z a))) by ring.
      eapply Rle_trans; [apply Rabs_triang|].
      assert (G1 : Rabs ((t - IZR b) * (z (b + 1) - z b)) <= (t - IZR b) * L).
      { rewrite Rabs_mult, (Rabs_pos_eq (t - IZR b)) by lra. apply Rmult_le_compat_l; [lra|apply z_step]. }
      assert (G2 : Rabs ((1 - (s - IZR a)) * (z (a + 1) - z a)) <= (1 - (s - IZR a)) * L).
      { rewrite Rabs_mult, (Rabs_pos_eq (1 - (s - IZR a))) by lra. apply Rmult_le_compat_l; [lra|apply z_step]. }
      assert (G3 := Rabs_triang (z b - z (a + 1)) ((1 - (s - IZR a)) * (z (a + 1) - z a))).
      replace (L * (t - s)) with ((t - IZR b) * L + (L * (IZR b - (IZR a + 1)) + (1 - (s - IZR a)) * L)) by ring. lra.
  Qed.

  Lemma behind_z j i : behind 0 x j i = z (Z.of_nat i - Z.of_nat j).
  Proof.
    unfold behind, z. destruct (Nat.leb_spec j i), (Z.ltb_spec (Z.of_nat i - Z.of_nat j) 0); try lia; try reflexivity. f_equal. lia.
  Qed.

  Lemma earlier_Xt c i : 0 <= c -> earlier x c i = Xt (INR i - c).
  Proof.
    intros Hc. unfold earlier, Xt. rewrite !behind_z.
    assert (Hfl : (0 <= Zfloor c)%Z) by (apply Zfloor_lub; lra).
    rewrite Nat2Z.inj_add, Z2Nat.id by exact Hfl. change (Z.of_nat 1) with 1%Z. rewrite INR_IZR_INZ.
    destruct (ceil_floor c) as [[A B]|[A B]].
    - assert (E : Zfloor (IZR (Z.of_nat i) - c) = (Z.of_nat i - Zfloor c)%Z).
      { apply Zfloor_imp. rewrite plus_IZR, minus_IZR. lra. }
      rewrite E, minus_IZR.
      replace (c - IZR (Zfloor c)) with 0 by lra.
      replace (IZR (Z.of_nat i) - c - (IZR (Z.of_nat i) - IZR (Zfloor c))) with 0 by lra. ring.
    - assert (A2 := Zfloor_ub c).
      assert (E : Zfloor (IZR (Z.of_nat i) - c) = (Z.of_nat i - (Zfloor c + 1))%Z).
      { apply Zfloor_imp. rewrite plus_IZR, minus_IZR, plus_IZR. split; lra. }
      rewrite E. replace (Z.of_nat i - (Zfloor c + 1) + 1)%Z with (Z.of_nat i - Zfloor c)%Z by ring.
      rewrite minus_IZR, plus_IZR. ring.
  Qed.

  Lemma earlier_moves c c' i : 0 <= c -> 0 <= c' ->
    Rabs (earlier x c' (Datatypes.S i) - earlier x c i) <= L * Rabs (1 - (c' - c)).
  Proof.
    intros Hc Hc'. rewrite !earlier_Xt by assumption. rewrite S_INR.
    destruct (Rle_or_lt (INR i - c) (INR i + 1 - c')) as [H|H].
    - rewrite (Rabs_pos_eq (1 - (c' - c))) by lra. replace (1 - (c' - c)) with (INR i + 1 - c' - (INR i - c)) by ring.
      now apply Xt_lip.
    - rewrite Rabs_minus_sym, (Rabs_minus_sym 1). rewrite (Rabs_pos_eq (c' - c - 1)) by lra.
      replace (c' - c - 1) with (INR i - c - (INR i + 1 - c')) by ring. apply Xt_lip. lra.
  Qed.
End Lip.

(*@PROP
(** C108, no clicks: if the input moves by at most [L] per sample, the output of a modulated
    [LinearDelay] moves by at most L * |1 - (d' - d)| between two samples whose (clipped)
    delays are [d] and [d']: sweeping the delay by at most [r] samples per sample at most
    multiplies the steps of the signal by 1 + r, and a delay that grows by one sample per
    sample freezes the output. *)
@*)
Lemma C108_no_clicks_thm :
  forall (p : profile) (d0 : R) (m : Z) (d x : nat -> R) (L : R) (n : nat),
    is_usize m -> fits R_ops m -> steps_within L x ->
    exists s y, lin_session R_ctl R_ops p d0 m (modulated d x n) = Ok (s, heard y n)
      /\ (forall i, Rabs (y (S i) - y i) <= L * Rabs (1 - (Rmax 0 (Rmin (d (S i)) (IZR m)) - Rmax 0 (Rmin (d i) (IZR m)))))
      /\ (forall r, (forall i, Rabs (d (S i) - d i) <= r) -> forall i, Rabs (y (S i) - y i) <= L * (1 + r)).
Proof.
  intros p d0 m d x L n Hm Hf Hx. destruct (C108_modulated_linear_thm p d0 m d x n Hm Hf) as [s E].
  exists s, (fun i => earlier x (Rmax 0 (Rmin (d i) (IZR m))) i). split; [exact E|].
  assert (Hm0 : 0 <= IZR m) by (apply IZR_le; unfold is_usize in Hm; lia).
  assert (G : forall i, Rabs (earlier x (Rmax 0 (Rmin (d (S i)) (IZR m))) (S i) - earlier x (Rmax 0 (Rmin (d i) (IZR m))) i)
     <= L * Rabs (1 - (Rmax 0 (Rmin (d (S i)) (IZR m)) - Rmax 0 (Rmin (d i) (IZR m))))).
  { intros i. apply earlier_moves; [exact Hx|apply Rmax_l|apply Rmax_l]. }
  split; [exact G|]. intros r Hr i. eapply Rle_trans; [apply G|].
  apply Rmult_le_compat_l; [exact (L_pos x L Hx)|].
  assert (Hi := Hr i). set (a := d (S i)) in *. set (b := d i) in *.
  assert (Q : Rabs (Rmax 0 (Rmin a (IZR m)) - Rmax 0 (Rmin b (IZR m))) <= r).
  { assert (Ab := Rabs_def2 (a - b) (r + 1)). revert Hi. unfold Rmax, Rmin.
    destruct (Rle_dec a (IZR m)), (Rle_dec b (IZR m)); repeat destruct (Rle_dec 0 _); unfold Rabs; repeat destruct (Rcase_abs _); lra. }
  set (q := Rmax 0 (Rmin a (IZR m)) - Rmax 0 (Rmin b (IZR m))) in *.
  replace (1 - q) with (1 + - q) by ring. eapply Rle_trans; [apply Rabs_triang|]. rewrite Rabs_Ropp, Rabs_R1. lra.
Qed.

(*@PROP
(** A staircase of height 1/2 per sample, and a delay swept down by 1/4 sample per sample. *)
Example C108_no_clicks_hyps :
  let x := fun i => if Nat.even i then 1 / 2 else 0 in let d := fun i => 5 - INR i / 4 in
  is_usize 7 /\ fits R_ops 7 /\ steps_within (1 / 2) x /\ forall i, Rabs (d (S i) - d i) <= 1 / 4.
Proof.
  intros x d. unfold x, d. split; [easy|]. split; [discriminate|]. split.
  - split; [cbn; rewrite Rabs_pos_eq; lra|]. intros i. rewrite Nat.even_succ, <- Nat.negb_even.
    destruct (Nat.even i); cbn; [rewrite Rabs_minus_sym|]; rewrite Rabs_pos_eq; lra.
  - intros i. rewrite S_INR. replace (_ - _) with (- (1 / 4)) by field. rewrite Rabs_Ropp, Rabs_pos_eq; lra.
Qed.
@*)
