(** Lemmas behind property C125.  The [@PROP] blocks are copied into [PropBoth.v]. *)
(*@PROP
(** Property C125: filtering a block forwards and backwards.

    Vocabulary: [both_ways], [play], [dot] ([BothSpec]); [filter_eq], [configured], [stable], [passes], [sinusoid] ([Signal]);
    [d_outputs D s xs]: what the samples [xs] give from the state [s], one by one ([Device]). *)
From Coq Require Import Reals List Lra Lia.
From Verif Require Import Base Num NumR FilterM RbjM Traits Device Signal SysSpec RbjSpec RbjLemmas BothSpec BothLemmas.
Import ListNotations.
Open Scope R_scope.
@*)
From Coq Require Import Reals List Lra Lia.
From Coquelicot Require Import Coquelicot.
From Verif Require Import Base Num NumR FilterM RbjM Traits Device Signal SignalFacts FilterFacts FilterLemmas SysSpec SysLemmas RbjSpec RbjLemmas CoreLemmas NetSpec NetLemmas BothSpec.
Import ListNotations.
Open Scope R_scope.

Section Outs.
  Context {S K : Type} (D : device S K R).
  Lemma outputs_length xs : forall s, length (d_outputs D s xs) = length xs.
  Proof. induction xs as [|x xs IH]; intros s; [reflexivity|]. cbn [d_outputs]. destruct (d_process D s x). cbn [length]. rewrite IH. reflexivity. Qed.

  Lemma outputs_nth xs : forall s (x : signal) n, (forall i, (i < length xs)%nat -> nth i xs 0 = x i) -> (n < length xs)%nat ->
    nth n (d_outputs D s xs) 0 = out D s x n.
  Proof.
    assert (SS : forall s x n, state_at D s x (Datatypes.S n) = state_at D (fst (d_process D s (x 0%nat))) (fun i => x (Datatypes.S i)) n).
    { intros s x n. induction n as [|n IH]; [reflexivity|]. cbn [state_at] in *. rewrite IH. reflexivity. }
    induction xs as [|a xs IH]; intros s x n Hx Hn; [cbn in Hn; lia|].
    cbn [d_outputs]. assert (E0 : a = x 0%nat) by (apply (Hx 0%nat); cbn; lia).
    destruct (d_process D s a) as [s1 y] eqn:E. destruct n as [|n].
    - cbn [nth]. unfold out. cbn [state_at]. rewrite <- E0, E. reflexivity.
    - cbn [nth]. rewrite (IH s1 (fun i => x (Datatypes.S i)) n).
      + unfold out. rewrite SS, <- E0, E. reflexivity.
      + intros i Hi. apply (Hx (Datatypes.S i)). cbn. lia.
      + cbn in Hn. lia.
  Qed.
End Outs.

Section Block.
  Context {S K : Type} (D : device S K R) (P : S -> Prop) (HP : forall s x, P s -> P (fst (d_process D s x))).

  Lemma each_ok xs : forall s, P s -> exists s', P s' /\ process_each (fun s x => Ok (d_process D s x)) s xs = Ok (s', d_outputs D s xs).
  Proof using HP.
    induction xs as [|x xs IH]; intros s Hs; [exists s; split; [exact Hs|reflexivity]|].
    cbn [process_each d_outputs bind]. assert (Q := HP s x Hs). destruct (d_process D s x) as [s1 y]. cbn [fst] in Q.
    destruct (IH s1 Q) as [s' [Ps E]]. exists s'. split; [exact Ps|]. cbn [bind]. rewrite E. reflexivity.
  Qed.

  Lemma play_ok xs s : P s -> xs <> [] -> exists s' y, P s' /\ play D s xs = Ok (s', d_outputs D s xs, y).
  Proof using HP.
    intros Hs Hx. destruct (each_ok xs s Hs) as [s' [Ps E]]. unfold play, process_block. rewrite E. cbn [bind].
    destruct (d_outputs D s xs) as [|y ys] eqn:Q; [|exists s', (last ys y); split; [exact Ps|reflexivity]].
    exfalso. apply Hx. apply length_zero_iff_nil. rewrite <- (outputs_length D xs s), Q. reflexivity.
  Qed.

End Block.

Lemma swap (f : nat -> nat -> R) a b : total (fun i => total (fun j => f i j) b) a = total (fun j => total (fun i => f i j) a) b.
Proof. induction a as [|a IH]; cbn [total]; [rewrite total_const; ring|rewrite IH, total_plus; reflexivity]. Qed.

Lemma total_first f n : total f (S n) = f 0%nat + total (fun i => f (S i)) n.
Proof. induction n as [|n IH]; [cbn; ring|]. change (total f (S (S n))) with (total f (S n) + f (S n)). rewrite IH. cbn [total]. ring. Qed.

Lemma total_back f n : total f n = total (fun i => f (n - 1 - i)%nat) n.
Proof.
  induction n as [|n IH]; [reflexivity|]. rewrite (total_first (fun i => f (S n - 1 - i)%nat)). cbn [total]. rewrite IH.
  replace (S n - 1 - 0)%nat with n by lia. rewrite Rplus_comm. f_equal. apply total_ext. intros i Hi. f_equal. lia.
Qed.

Lemma sum_total f n : sum_f_R0 f n = total f (S n).
Proof. induction n as [|n IH]; [cbn; ring|]. cbn [sum_f_R0]. rewrite IH. reflexivity. Qed.

Lemma total_more f a b : (a <= b)%nat -> (forall i, (a <= i < b)%nat -> f i = 0) -> total f b = total f a.
Proof.
  intros H. induction H as [|b H IH]; intros Z; [reflexivity|]. cbn [total]. rewrite IH by (intros i Hi; apply Z; lia). rewrite (Z b) by lia. ring.
Qed.

(** The kernel h[m - n] for n <= m. *)
Definition kern (h : signal) (m n : nat) : R := if (n <=? m)%nat then h (m - n)%nat else 0.

Lemma conv_kern h x N m : (m < N)%nat -> convolve h x m = total (fun n => kern h m n * x n) N.
Proof.
  intros H. unfold convolve. rewrite sum_total. rewrite (total_more _ (S m) N).
  - rewrite total_back. apply total_ext. intros i Hi. unfold kern. rewrite (proj2 (Nat.leb_le i m)) by lia. do 2 f_equal; lia.
  - lia.
  - intros i Hi. unfold kern. rewrite (proj2 (Nat.leb_gt i m)) by lia. ring.
Qed.

Lemma dot_total u : forall v, length u = length v -> dot u v = total (fun i => nth i u 0 * nth i v 0) (length u).
Proof.
  induction u as [|a u IH]; intros [|b v] H; try discriminate H; [reflexivity|].
  cbn [length]. rewrite total_first. cbn [dot nth]. rewrite IH by (cbn in H; lia). reflexivity.
Qed.

Lemma nth_rev_R (l : list R) i : (i < length l)%nat -> nth i (rev l) 0 = nth (length l - 1 - i) l 0.
Proof. intros H. rewrite rev_nth by exact H. f_equal. lia. Qed.

Section Both.
  Context {S K : Type} (D : device S K R) (k : K) (c : R * R * R * R * R) (HF : filter_eq D k c).
  Notation h := (response D k impulse).

  Section Run.
  Context (P : S -> Prop) (HS : sos D k c P).

  Lemma cleared_out s x n : P s -> out D (d_clear D s) x n = convolve h x n.
  Proof using HS HF.
    intros Hs. destruct HS as [H1 [H2 [H3 [H4 [H5 H6]]]]].
    rewrite <- (C82_convolution_thm S K D k c HF x n). unfold response.
    apply (obeys_unique c x x).
    - intros i. reflexivity.
    - apply H5, Hs.
    - apply (filter_obeys D k c HF).
  Qed.

  Lemma both_run s u : P s -> u <> [] -> exists s' zs, both_ways D s u = Ok (s', zs) /\ length zs = length u
    /\ forall n, (n < length u)%nat ->
       nth n zs 0 = total (fun m => kern h m n * convolve h (fun i => nth i u 0) m) (length u).
  Proof using HS HF.
    intros Hs Hu. assert (HS' := HS). destruct HS' as [H1 [H2 [H3 [H4 [H5 H6]]]]].
    destruct (play_ok D P H2 u (d_clear D s) (H3 s Hs) Hu) as [s1 [y1 [P1 E1]]].
    set (ys := d_outputs D (d_clear D s) u) in *.
    assert (Ly : length ys = length u) by apply outputs_length.
    assert (Hy : rev ys <> []).
    { intros Q. apply Hu. apply length_zero_iff_nil. rewrite <- Ly, <- rev_length, Q. reflexivity. }
    destruct (play_ok D P H2 (rev ys) (d_clear D s1) (H3 s1 P1) Hy) as [s2 [y2 [P2 E2]]].
    exists s2, (rev (d_outputs D (d_clear D s1) (rev ys))). split; [|split].
    - unfold both_ways. rewrite E1. cbn [bind]. rewrite E2. reflexivity.
    - rewrite rev_length, outputs_length, rev_length. exact Ly.
    - intros n Hn. rewrite nth_rev_R by (rewrite outputs_length, rev_length, Ly; exact Hn).
      rewrite outputs_length, rev_length, Ly.
      rewrite (outputs_nth D (rev ys) (d_clear D s1) (fun i => nth i (rev ys) 0)) by (intros; reflexivity || (rewrite rev_length, Ly; lia)).
      rewrite cleared_out by exact P1. rewrite (conv_kern h _ (length u)) by lia.
      rewrite total_back. apply total_ext. intros m Hm. cbv beta.
      rewrite nth_rev_R by lia. rewrite Ly.
      replace (length u - 1 - (length u - 1 - m))%nat with m by lia.
      f_equal.
      + unfold kern. destruct (Nat.leb_spec (length u - 1 - m) (length u - 1 - n)), (Nat.leb_spec n m); try lia; [f_equal; lia|reflexivity].
      + unfold ys. rewrite (outputs_nth D u (d_clear D s) (fun i => nth i u 0)) by (auto; lia). apply cleared_out, Hs.
  Qed.

  Lemma both_adjoint s u v : P s -> u <> [] -> length u = length v -> exists s' zs, both_ways D s u = Ok (s', zs) /\ length zs = length u
    /\ dot zs v = dot (d_outputs D (configured D k) u) (d_outputs D (configured D k) v).
  Proof using HS HF.
    intros Hs Hu L. destruct (both_run s u Hs Hu) as [s' [zs [E [Lz Hz]]]]. exists s', zs. split; [exact E|]. split; [exact Lz|].
    assert (OC : forall w n, (n < length w)%nat -> nth n (d_outputs D (configured D k) w) 0 = convolve h (fun i => nth i w 0) n).
    { intros w n Hn. rewrite (outputs_nth D w _ (fun i => nth i w 0)) by auto. apply (C82_convolution_thm S K D k c HF). }
    rewrite !dot_total by (rewrite ?outputs_length; congruence). rewrite outputs_length, Lz.
    rewrite (total_ext _ (fun n => total (fun m => convolve h (fun i => nth i u 0) m * (kern h m n * nth n v 0)) (length u))).
    - rewrite swap. apply total_ext. intros m Hm. rewrite !OC by lia. rewrite total_scal.
      rewrite <- (conv_kern h (fun i => nth i v 0)) by exact Hm. reflexivity.
    - intros n Hn. rewrite Hz by exact Hn. rewrite Rmult_comm, <- total_scal. apply total_ext. intros m Hm. ring.
  Qed.
  End Run.
End Both.

Lemma reached {S K} (D : device S K R) k c P : sos D k c P ->
  forall history cs, no_set cs -> P (after D (history ++ [CSet k] ++ cs)).
Proof.
  intros [H1 [H2 [H3 _]]] history cs Hcs. rewrite app_assoc, after_app, after_snoc. cbn [d_step fst].
  generalize (H1 (after D history)). generalize (d_set D (after D history) k).
  induction Hcs as [|c0 cs Hc Hcs IH]; intros s Hs; [exact Hs|].
  cbn [d_run]. destruct c0; try discriminate; cbn [d_step].
  - specialize (H2 s x Hs). destruct (d_process D s x) as [s' y]. cbn [fst] in H2.
    specialize (IH s' H2). destruct (d_run D s' cs). exact IH.
  - specialize (IH _ (H3 s Hs)). destruct (d_run D (d_clear D s) cs). exact IH.
  - specialize (IH _ Hs). destruct (d_run D s cs). exact IH.
Qed.

Lemma lim0 (e : nat -> R) : is_lim_seq e 0 -> forall eps, 0 < eps -> exists N, forall n, (N <= n)%nat -> Rabs (e n) <= eps.
Proof.
  intros H eps He. apply is_lim_seq_spec in H. destruct (H (mkposreal eps He)) as [N HN]. exists N. intros n Hn.
  specialize (HN n Hn). cbn [pos] in HN. rewrite Rminus_0_r in HN. lra.
Qed.

Lemma total_app f a b : total f (a + b) = total f a + total (fun j => f (a + j)%nat) b.
Proof. induction b as [|b IH]; [rewrite Nat.add_0_r; cbn; ring|]. rewrite Nat.add_succ_r. cbn [total]. rewrite IH. ring. Qed.

Lemma total_abs f n : Rabs (total f n) <= total (fun i => Rabs (f i)) n.
Proof. induction n as [|n IH]; [cbn; rewrite Rabs_R0; lra|]. cbn [total]. eapply Rle_trans; [apply Rabs_triang|]. lra. Qed.

(** The second pass, seen from sample [n] with [p + 1] samples to go. *)
Lemma kern_ahead (h Y : signal) n p : total (fun m => kern h m n * Y m) (n + S p) = total (fun j => h j * Y (n + j)%nat) (S p).
Proof.
  rewrite total_app. rewrite (total_ext (fun m => kern h m n * Y m) (fun _ => 0) n).
  - rewrite total_const, Rmult_0_r, Rplus_0_l. apply total_ext. intros j Hj. unfold kern. rewrite (proj2 (Nat.leb_le n (n + j))) by lia. f_equal. f_equal. lia.
  - intros m Hm. unfold kern. rewrite (proj2 (Nat.leb_gt n m)) by lia. ring.
Qed.

Section Phase.
  Context {S K : Type} (D : device S K R) (k : K) (b0 b1 b2 a1 a2 : R) (HF : filter_eq D k (b0, b1, b2, a1, a2)) (Hst : stable a1 a2).
  Notation h := (response D k impulse).
  Context (w g theta : R) (HP : passes D (configured D k) w g theta).

  Lemma h_sum : exists G, 0 <= G /\ forall n, total (fun j => Rabs (h j)) n <= G.
  Proof using HF Hst.
    destruct (C82_summable_thm S K D k b0 b1 b2 a1 a2 HF Hst) as [G [HG _]]. exists G.
    assert (Q : forall n, total (fun j => Rabs (h j)) (Datatypes.S n) <= G).
    { intros n. rewrite <- sum_total.
      apply (is_lim_seq_incr_compare _ _ HG). intros m. cbn [sum_f_R0]. assert (A := Rabs_pos (h (Datatypes.S m))). lra. }
    assert (P0 : 0 <= G) by (eapply Rle_trans; [|apply (Q 0%nat)]; cbn [total]; assert (A := Rabs_pos (h 0%nat)); lra).
    split; [exact P0|]. intros [|n]; [exact P0|apply Q].
  Qed.

  Definition miss (chi : R) (p : nat) : R := convolve h (sinusoid 1 w chi) p - sinusoid (g * 1) w (chi + theta) p.

  Lemma miss_lim chi : is_lim_seq (miss chi) 0.
  Proof using HF HP.
    assert (Q := HP 1 chi). unfold approaches in Q. eapply is_lim_seq_ext; [|exact Q].
    intros n. cbv beta. unfold miss. rewrite <- (C82_convolution_thm S K D k _ HF). reflexivity.
  Qed.

  Lemma conv_lin (a b : R) (u v : signal) p : convolve h (fun m => a * u m + b * v m) p = a * convolve h u p + b * convolve h v p.
  Proof. unfold convolve. rewrite !sum_total, <- !total_scal, <- total_plus. apply total_ext. intros i Hi. ring. Qed.

  Lemma conv_ext (u v : signal) p : (forall i, (i <= p)%nat -> u i = v i) -> convolve h u p = convolve h v p.
  Proof. intros H. unfold convolve. rewrite !sum_total. apply total_ext. intros i Hi. rewrite H by lia. reflexivity. Qed.

  Lemma miss_mix chi p : miss chi p = cos chi * miss 0 p - sin chi * miss (- (PI / 2)) p.
  Proof using.
    unfold miss.
    assert (E : convolve h (sinusoid 1 w chi) p = cos chi * convolve h (sinusoid 1 w 0) p + - sin chi * convolve h (sinusoid 1 w (- (PI / 2))) p).
    { rewrite <- conv_lin. apply conv_ext. intros i _. unfold sinusoid. rewrite !cos_plus, cos_neg, sin_neg, cos_PI2, sin_PI2, cos_0, sin_0. ring. }
    rewrite E. unfold sinusoid.
    replace (INR p * w + (chi + theta)) with (chi + (INR p * w + theta)) by ring.
    replace (INR p * w + (- (PI / 2) + theta)) with (INR p * w + theta + - (PI / 2)) by ring.
    rewrite Rplus_0_l. rewrite !cos_plus, !sin_plus, !cos_neg, !sin_neg, cos_PI2, sin_PI2. ring.
  Qed.

  Lemma miss_unif eps : 0 < eps -> exists M, forall chi p, (M <= p)%nat -> Rabs (miss chi p) <= eps.
  Proof using HF HP.
    intros He. destruct (lim0 _ (miss_lim 0) (eps / 2) ltac:(lra)) as [M1 H1].
    destruct (lim0 _ (miss_lim (- (PI / 2))) (eps / 2) ltac:(lra)) as [M2 H2].
    exists (M1 + M2)%nat. intros chi p Hp. rewrite miss_mix.
    specialize (H1 p ltac:(lia)). specialize (H2 p ltac:(lia)).
    assert (C1 : Rabs (cos chi) <= 1) by (apply Rabs_le, COS_bound). assert (C2 : Rabs (sin chi) <= 1) by (apply Rabs_le, SIN_bound).
    unfold Rminus. eapply Rle_trans; [apply Rabs_triang|]. rewrite Rabs_Ropp, !Rabs_mult.
    assert (X1 := Rabs_pos (miss 0 p)). assert (X2 := Rabs_pos (miss (- (PI / 2)) p)). nra.
  Qed.

  Lemma zero_phase A phi eps : 0 < eps -> exists M, forall P s N, sos D k (b0, b1, b2, a1, a2) P -> P s -> (0 < N)%nat ->
    exists s' zs, both_ways D s (map (sinusoid A w phi) (seq 0 N)) = Ok (s', zs) /\ length zs = N
      /\ forall n, (M <= n)%nat -> (n + M < N)%nat -> Rabs (nth n zs 0 - sinusoid (g * g * A) w phi n) <= eps.
  Proof using HF Hst HP.
    intros He. destruct h_sum as [G [PG HG]].
    set (e := fun n => convolve h (sinusoid A w phi) n - sinusoid (g * A) w (phi + theta) n).
    assert (Le : is_lim_seq e 0).
    { assert (Q := HP A phi). unfold approaches in Q. eapply is_lim_seq_ext; [|exact Q].
      intros n. cbv beta. unfold e. rewrite <- (C82_convolution_thm S K D k _ HF). reflexivity. }
    set (B := Rabs (g * A)). assert (PB : 0 <= B) by apply Rabs_pos.
    destruct (lim0 e Le (eps / (2 * (G + 1)))) as [M1 H1]; [apply Rdiv_lt_0_compat; lra|].
    destruct (miss_unif (eps / (2 * (B + 1)))) as [M2 H2]; [apply Rdiv_lt_0_compat; lra|].
    exists (M1 + M2)%nat. intros P s N HS Hs HN.
    assert (Lb : length (map (sinusoid A w phi) (seq 0 N)) = N) by (rewrite map_length, seq_length; reflexivity).
    destruct (both_run D k _ HF P HS s (map (sinusoid A w phi) (seq 0 N)) Hs) as [s' [zs [E [Lz Hz]]]].
    { intros Q. rewrite Q in Lb. cbn in Lb. lia. }
    rewrite Lb in *. exists s', zs. split; [exact E|]. split; [exact Lz|].
    intros n Hn HnN. rewrite Hz by lia. set (p := (N - 1 - n)%nat).
    rewrite (total_ext _ (fun m => kern h m n * (sinusoid (g * A) w (phi + theta) m + e m)) N).
    2:{ intros m Hm. f_equal. unfold e. rewrite (conv_ext _ (sinusoid A w phi)); [ring|].
        intros i Hi. rewrite (nth_indep _ 0 (sinusoid A w phi 0%nat)) by (rewrite Lb; lia). rewrite map_nth, seq_nth by lia. reflexivity. }
    replace N with (n + Datatypes.S p)%nat by (unfold p; lia). rewrite kern_ahead.
    set (chi := - (INR (n + p) * w + (phi + theta))).
    assert (E1 : total (fun j => h j * (sinusoid (g * A) w (phi + theta) (n + j)%nat + e (n + j)%nat)) (Datatypes.S p)
                 = g * A * convolve h (sinusoid 1 w chi) p + total (fun j => h j * e (n + j)%nat) (Datatypes.S p)).
    { unfold convolve. rewrite sum_total, <- total_scal, <- total_plus. apply total_ext. intros j Hj.
      enough (Q : cos (INR (n + j) * w + (phi + theta)) = cos (INR (p - j) * w + chi)) by (unfold sinusoid; rewrite Q; ring).
      rewrite <- cos_neg. f_equal. unfold chi. rewrite !plus_INR, minus_INR by lia. ring. }
    assert (E2 : sinusoid (g * g * A) w phi n = g * A * sinusoid (g * 1) w (chi + theta) p).
    { unfold sinusoid. enough (Q : cos (INR n * w + phi) = cos (INR p * w + (chi + theta))) by (rewrite Q; ring).
      rewrite <- cos_neg. f_equal. unfold chi. rewrite plus_INR. ring. }
    rewrite E1, E2.
    replace (g * A * convolve h (sinusoid 1 w chi) p + total (fun j => h j * e (n + j)%nat) (Datatypes.S p) - g * A * sinusoid (g * 1) w (chi + theta) p)
      with (g * A * miss chi p + total (fun j => h j * e (n + j)%nat) (Datatypes.S p)) by (unfold miss; ring).
    assert (T1 : Rabs (g * A * miss chi p) <= eps / 2).
    { rewrite Rabs_mult. fold B. specialize (H2 chi p ltac:(unfold p; lia)).
      apply Rle_trans with (B * (eps / (2 * (B + 1)))); [apply Rmult_le_compat_l; [exact PB|exact H2]|].
      apply Rle_trans with ((B + 1) * (eps / (2 * (B + 1)))); [apply Rmult_le_compat_r; [apply Rlt_le, Rdiv_lt_0_compat; lra|lra]|].
      apply Req_le. field. lra. }
    assert (T2 : Rabs (total (fun j => h j * e (n + j)%nat) (Datatypes.S p)) <= eps / 2).
    { eapply Rle_trans; [apply total_abs|].
      apply Rle_trans with (total (fun j => eps / (2 * (G + 1)) * Rabs (h j)) (Datatypes.S p)).
      - apply total_le. intros j Hj. rewrite Rabs_mult, Rmult_comm. apply Rmult_le_compat_r; [apply Rabs_pos|]. apply H1. lia.
      - rewrite total_scal. apply Rle_trans with (eps / (2 * (G + 1)) * G).
        + apply Rmult_le_compat_l; [apply Rlt_le, Rdiv_lt_0_compat; lra|apply HG].
        + apply Rle_trans with (eps / (2 * (G + 1)) * (G + 1)); [apply Rmult_le_compat_l; [apply Rlt_le, Rdiv_lt_0_compat; lra|lra]|].
          apply Req_le. field. lra. }
    eapply Rle_trans; [apply Rabs_triang|]. lra.
  Qed.
End Phase.

(** C125: forwards and backwards never fails on a block that is not empty, keeps its length and forgets
    everything before.  It treats the two directions of time alike: the output for [u] compared with [v] is
    the output for [v] compared with [u], namely the comparison of the two filtered once.  In particular the
    output for [u] never opposes [u]. *)
Lemma C125_symmetric_thm :
  forall (S K : Type) (D : device S K R) (k : K) (c : R * R * R * R * R),
    filter_eq D k c ->
  forall (history rest : list (call K R)) (u v : list R), no_set rest -> u <> [] -> length u = length v ->
    let filter := after D (history ++ [CSet k] ++ rest) in
    let once := d_outputs D (configured D k) in
    exists filter_u filter_v uu vv,
      both_ways D filter u = Ok (filter_u, uu) /\ both_ways D filter v = Ok (filter_v, vv)
      /\ length uu = length u
      /\ dot uu v = dot (once u) (once v) /\ dot vv u = dot (once u) (once v)
      /\ dot uu u = dot (once u) (once u) /\ 0 <= dot uu u.
Proof.
  intros S K D k c HF history rest u v Hr Hu L filter once. destruct (filter_sos D k c HF) as [P HS].
  assert (Pf : P filter) by (apply (reached D k c P HS); exact Hr).
  assert (Hv : v <> []) by (intros Q; apply Hu; rewrite Q in L; apply length_zero_iff_nil; exact L).
  destruct (both_adjoint D k c HF P HS filter u v Pf Hu L) as [s1 [z1 [E1 [L1 D1]]]].
  destruct (both_adjoint D k c HF P HS filter v u Pf Hv (eq_sym L)) as [s2 [z2 [E2 [L2 D2]]]].
  destruct (both_adjoint D k c HF P HS filter u u Pf Hu eq_refl) as [s3 [z3 [E3 [L3 D3]]]].
  rewrite E1 in E3. injection E3 as <- <-.
  assert (Com : forall a b, dot a b = dot b a).
  { induction a as [|x a IH]; intros [|y b]; try reflexivity. cbn [dot]. rewrite IH. ring. }
  assert (Pos : forall a, 0 <= dot a a) by (induction a as [|x a IH]; cbn [dot]; [lra|assert (Q := Rle_0_sqr x); unfold Rsqr in Q; lra]).
  exists s1, s2, z1, z2. split; [exact E1|]. split; [exact E2|]. split; [exact L1|]. split; [exact D1|].
  split; [rewrite D2; apply Com|]. split; [exact D3|]. rewrite D3. apply Pos.
Qed.

(*@PROP
Example C125_symmetric_hyps :
  filter_eq (dev_one_pole R_ops) (/ 2, - / 2) (/ 2, 0, 0, - / 2, 0)
  /\ no_set (K := R * R) [CProcess 3; CClear; CLastOut] /\ [1; 2; -3] <> [] /\ length [1; 2; -3] = length [0; 5; 1].
Proof. split; [constructor|]. split; [repeat constructor|]. split; [discriminate|reflexivity]. Qed.
@*)

(** C125: a sinusoid that a stable filter passes with gain [g] and any phase shift comes out, forwards and
    backwards, with gain g^2 and no phase shift, as closely as wished once [n] is far enough from both ends of
    the block. *)
Lemma C125_zero_phase_thm :
  forall (S K : Type) (D : device S K R) (k : K) (b0 b1 b2 a1 a2 : R),
    filter_eq D k (b0, b1, b2, a1, a2) -> stable a1 a2 ->
  forall w g theta : R, passes D (configured D k) w g theta ->
  forall A phi eps : R, 0 < eps ->
    exists margin : nat, forall (history rest : list (call K R)) (N : nat), no_set rest -> (0 < N)%nat ->
      exists filter zs,
        both_ways D (after D (history ++ [CSet k] ++ rest)) (map (sinusoid A w phi) (seq 0 N)) = Ok (filter, zs)
        /\ length zs = N
        /\ forall n, (margin <= n)%nat -> (n + margin < N)%nat ->
           Rabs (nth n zs 0 - sinusoid (g * g * A) w phi n) <= eps.
Proof.
  intros S K D k b0 b1 b2 a1 a2 HF Hst w g theta HP A phi eps He.
  destruct (filter_sos D k _ HF) as [P HS].
  destruct (zero_phase D k b0 b1 b2 a1 a2 HF Hst w g theta HP A phi eps He) as [M HM].
  exists M. intros history rest N Hr HN. apply (HM P _ N HS); [|exact HN]. apply (reached D k _ P HS). exact Hr.
Qed.

(*@PROP
(* a LowPass at 1 kHz, and any frequency *)
Example C125_zero_phase_hyps : forall w, exists b0 b1 b2 a1 a2 g theta,
  filter_eq (dev_rbj R_ops LowPass) (RbjQ 48000 1000 0.7) (b0, b1, b2, a1, a2) /\ stable a1 a2
  /\ passes (dev_rbj R_ops LowPass) (configured (dev_rbj R_ops LowPass) (RbjQ 48000 1000 0.7)) w g theta.
Proof.
  intros w. assert (Hv : valid LowPass (RbjQ 48000 1000 0.7)) by (split; [unfold valid_band; lra|lra]).
  destruct (C37_rbj_stable_thm _ _ Hv) as [b0 [b1 [b2 [a1 [a2 [E Hs]]]]]].
  destruct (C37_rbj_sinusoid_thm _ _ w Hv) as [g [theta [_ Hp]]].
  exists b0, b1, b2, a1, a2, g, theta. split; [constructor; exact E|]. split; [exact Hs|exact Hp].
Qed.
@*)
