(** Proofs of C57-C59 and, in exact arithmetic, C60-C63, C72, C73. *)
From Coq Require Import ZArith Reals List Bool Lra Lia.
From Verif Require Import Base Num NumR WindowM WinSpec WinFacts.
Import ListNotations.
Open Scope R_scope.

(*@PROP
(** Properties C57-C63, C72, C73: windows.

    Vocabulary ([WinSpec]): [nexts O k p it m] makes [m] calls of [next] on the
    iterator [it] of kind [k]; [yields O k p n i g] says that the iterator made by
    [new(n)] yields [g] as sample number [i]; [R_ops] is exact arithmetic. *)
From Coq Require Import ZArith Reals List Bool Lra Lia.
From Verif Require Import Base Num NumR NumF Witness WindowM WinSpec WinLemmas.
Import ListNotations.
Open Scope R_scope.

@*)

(** C57: whatever the arithmetic, the build profile and the size [n], [m] calls of
    [next] on a new iterator complete, and the i-th (from 0) yields a sample
    exactly when i < n. *)
Lemma C57_count_thm :
  forall (T : Type) (O : num_ops T) (k : win_kind) (p : profile) (n : Z) (m : nat),
    is_size n ->
    exists it rs, nexts O k p (win_new k n) m = Ok (it, rs) /\ length rs = m
      /\ forall i r, nth_error rs i = Some r -> (r <> None <-> (Z.of_nat i < n)%Z).
Proof.
  intros T O k p n m Hn. eexists. eexists. split; [apply nexts_new, Hn|].
  split; [rewrite map_length, seq_length; reflexivity|]. intros i r H.
  assert (Hi : (i < m)%nat).
  { apply nth_error_Some_bound in H || (assert (K : nth_error (map (fun t => item O k n (Z.of_nat t)) (seq 0 m)) i <> None) by congruence;
      apply nth_error_Some in K; rewrite map_length, seq_length in K; exact K). }
  rewrite nth_items in H by exact Hi. injection H as <-. unfold item.
  destruct (Z.ltb_spec (Z.of_nat i) n); split; intros; try discriminate; try lia; congruence.
Qed.

(** C57: the i-th sample depends only on the kind of window, i and n: not on the
    build profile, nor on how many samples are drawn. *)
Lemma C57_same_samples_thm :
  forall (T : Type) (O : num_ops T) (k : win_kind) (p p' : profile) (n : Z) (i m : nat) (g : T)
         (it : win_iter) (rs : list (option T)),
    is_size n -> yields O k p n i g ->
    nexts O k p' (win_new k n) m = Ok (it, rs) -> (i < m)%nat ->
    nth_error rs i = Some (Some g).
Proof.
  intros T O k p p' n i m g it rs Hn Hy H Hi. apply yields_iff in Hy; [|exact Hn]. destruct Hy as [H1 ->].
  rewrite nexts_new in H by exact Hn. injection H as <- <-. rewrite nth_items by exact Hi.
  unfold item. replace (Z.of_nat i <? n)%Z with true by lia. reflexivity.
Qed.

(*@PROP
Example C57_hyps : is_size 0 /\ is_size 1 /\ is_size usize_max
  /\ exists g, yields O32 WTriangular Debug 4 1 g.
Proof.
  unfold is_size, usize_max. repeat split; try (vm_compute; discriminate).
  eexists. eexists. eexists. split; reflexivity.
Qed.
@*)

(** C58: after any number of calls of [next], [len()] is still [n]; so it is the
    number of samples still to come ([rs']) only if none has been yielded yet. *)
Lemma C58_len_thm :
  forall (T : Type) (O : num_ops T) (k : win_kind) (p : profile) (n : Z) (m m' : nat)
         (it it' : win_iter) (rs rs' : list (option T)),
    is_size n ->
    nexts O k p (win_new k n) m = Ok (it, rs) ->
    nexts O k p it m' = Ok (it', rs') -> (n <= Z.of_nat m')%Z ->
    win_len k it = n
    /\ (yielded rs + yielded rs' = n)%Z
    /\ (win_len k it = yielded rs' <-> yielded rs = 0%Z).
Proof.
  intros T O k p n m m' it it' rs rs' Hn H1 H2 Hm.
  assert (Cnt : forall M j, (0 <= j)%Z -> yielded (map (fun t => item O k n (j + Z.of_nat t)) (seq 0 M)) = Z.max 0 (Z.min (n - j) (Z.of_nat M))).
  { induction M as [|M IH]; intros j Hj; [unfold yielded; cbn; lia|].
    rewrite seq_S, map_app. unfold yielded in *. rewrite filter_app, app_length, Nat2Z.inj_add, IH by exact Hj.
    cbn [map filter]. rewrite Nat.add_0_l. unfold item. destruct (Z.ltb_spec (j + Z.of_nat M) n); cbn [length]; lia. }
  rewrite nexts_new in H1 by exact Hn. injection H1 as <- <-. unfold is_size in Hn.
  rewrite nexts_eq in H2 by lia. injection H2 as <- <-.
  assert (C1 := Cnt m 0%Z ltac:(lia)). cbn [Z.add] in C1.
  assert (C2 := Cnt m' (Z.min n (Z.of_nat m)) ltac:(lia)).
  assert (E1 : yielded (map (fun t : nat => item O k n (Z.of_nat t)) (seq 0 m)) = Z.max 0 (Z.min (n - 0) (Z.of_nat m))).
  { rewrite <- C1. reflexivity. }
  rewrite E1, C2. unfold win_len. cbn [wi_size]. lia.
Qed.

(** C58: the contract of [ExactSizeIterator] (len() is the number of samples to
    come) fails after the first sample, for every non-empty window. *)
Lemma C58_exact_size_refuted_thm :
  forall (T : Type) (O : num_ops T) (k : win_kind) (p : profile) (n : Z),
    is_size n -> (1 <= n)%Z ->
    exists it g, win_next O k p (win_new k n) = Ok (it, Some g)
      /\ forall m' it' rs', (n <= Z.of_nat m')%Z -> nexts O k p it m' = Ok (it', rs') ->
         win_len k it <> yielded rs'.
Proof.
  intros T O k p n Hn H1. assert (E := next_lt O k p 0 n ltac:(lia) (proj2 Hn)).
  eexists. eexists. split; [exact E|]. intros m' it' rs' Hm H.
  assert (E1 : nexts O k p (win_new k n) 1 = Ok (WinIter (0 + 1) n, [Some (win_val O k n 0)])).
  { cbn [nexts]. unfold win_new. rewrite E. reflexivity. }
  destruct (C58_len_thm T O k p n 1 m' _ _ _ _ Hn E1 H Hm) as [L1 [L2 L3]]. rewrite L3. unfold yielded. cbn. lia.
Qed.

(** C59: [apply_window] never panics and keeps the length of the slice; [Rectangular]
    leaves it alone, every other window replaces sample [x] number i by [g * x],
    [g] being sample i of the window of the slice's size. *)
Lemma C59_apply_window_thm :
  forall (T : Type) (O : num_ops T) (p : profile) (samples : list T) (w : window),
    is_size (vlen samples) ->
    exists samples', apply_window O p samples w = Ok samples' /\ length samples' = length samples
      /\ match window_iter w with
         | None => samples' = samples
         | Some k => forall i x, nth_error samples i = Some x ->
             exists g, yields O k p (vlen samples) i g /\ nth_error samples' i = Some (n_mul O g x)
         end.
Proof.
  intros T O p samples w Hn.
  assert (Z : forall k, exists samples', zip_apply O k p (win_new k (vlen samples)) samples = Ok samples'
     /\ length samples' = length samples /\ forall i x, nth_error samples i = Some x ->
             exists g, yields O k p (vlen samples) i g /\ nth_error samples' i = Some (n_mul O g x)).
  { intros k. unfold win_new. rewrite (zip_eq O k p (vlen samples) samples (proj2 Hn) 0) by lia.
    eexists. split; [reflexivity|]. split.
    - rewrite map_length, combine_length, seq_length. lia.
    - intros i x Hx. assert (Hi : (i < length samples)%nat) by (apply nth_error_Some; congruence).
      exists (win_val O k (vlen samples) (Z.of_nat i)). split.
      + apply yields_iff; [exact Hn|]. unfold vlen. split; [lia|reflexivity].
      + rewrite nth_error_map.
        assert (E : nth_error (combine (seq 0 (length samples)) samples) i = Some (i, x)).
        { rewrite (nth_error_nth' _ (0%nat, x)) by (rewrite combine_length, seq_length; lia).
          rewrite combine_nth by apply seq_length. rewrite seq_nth by exact Hi.
          rewrite (nth_error_nth _ _ _ Hx). reflexivity. }
        rewrite E. reflexivity. }
  destruct w; [eexists; split; [reflexivity|]; split; reflexivity| | | | | |]; apply Z.
Qed.

(*@PROP
Example C59_hyps : is_size (vlen [fl32 1 0; fl32 3 (-1); fl32 (-2) 0]).
Proof. split; discriminate. Qed.
@*)

(** *** Exact arithmetic *)

Lemma cos_3 x : cos (3 * x) = 4 * cos x ^ 3 - 3 * cos x.
Proof.
  replace (3 * x) with (2 * x + x) by ring. rewrite cos_plus, cos_2a_cos, sin_2a.
  assert (H := sin2_cos2 x). unfold Rsqr in H. replace (2 * sin x * cos x * sin x) with (2 * (sin x * sin x) * cos x) by ring.
  replace (sin x * sin x) with (1 - cos x * cos x) by lra. ring.
Qed.

(** A cosine window as a polynomial in the cosine. *)
Definition poly (k : win_kind) (c : R) : R :=
  match k with
  | WHann => 0.5 - 0.5 * c
  | WHamming => 0.54 - 0.46 * c
  | WBlackman => 0.34 - 0.5 * c + 0.16 * c ^ 2
  | WBlackmanHarris => 0.21747 - 0.45325 * c + 0.28256 * c ^ 2 - 0.04672 * c ^ 3
  | _ => 0
  end.
Definition is_cos (k : win_kind) : Prop := match k with WTriangular | WBartlett => False | _ => True end.

Lemma textbook_poly k n i : is_cos k -> textbook k n i = poly k (cos (2 * PI * i / (n - 1))).
Proof.
  intros H. destruct k; try contradiction; cbn [textbook poly]; rewrite ?cos_3, ?cos_2a_cos; lra.
Qed.

Lemma poly_decr k c d : is_cos k -> -1 <= d -> d < c -> c <= 1 -> poly k c < poly k d.
Proof.
  intros H Hd Hdc Hc. destruct k; try contradiction; cbn [poly].
  - lra.
  - lra.
  - assert (B : -0.5 + 0.16 * (c + d) < 0) by lra.
    assert (E : 0.34 - 0.5 * c + 0.16 * c ^ 2 - (0.34 - 0.5 * d + 0.16 * d ^ 2) = (c - d) * (-0.5 + 0.16 * (c + d))) by (cbn; lra).
    assert ((c - d) * (-0.5 + 0.16 * (c + d)) < 0) by nra. lra.
  - set (s := c + d). assert (Hs : s <= 2) by (unfold s; lra).
    assert (B0 : -0.45325 + 0.28256 * s - 0.03504 * (s * s) < 0) by nra.
    assert (B : -0.45325 + 0.28256 * s - 0.04672 * (c * c + c * d + d * d) < 0).
    { assert (c * c + c * d + d * d = 0.75 * (s * s) + 0.25 * ((c - d) * (c - d))) by (unfold s; lra).
      assert (0 <= (c - d) * (c - d)) by nra. lra. }
    assert (E : 0.21747 - 0.45325 * c + 0.28256 * c ^ 2 - 0.04672 * c ^ 3
                - (0.21747 - 0.45325 * d + 0.28256 * d ^ 2 - 0.04672 * d ^ 3)
                = (c - d) * (-0.45325 + 0.28256 * s - 0.04672 * (c * c + c * d + d * d))) by (unfold s; cbn; lra).
    assert ((c - d) * (-0.45325 + 0.28256 * s - 0.04672 * (c * c + c * d + d * d)) < 0).
    { clear E B0. apply Ropp_lt_cancel. rewrite Ropp_0, <- Ropp_mult_distr_r_reverse || rewrite Ropp_0, Ropp_mult_distr_r.
      apply Rmult_lt_0_compat; lra. }
    lra.
Qed.

Lemma poly_range k c : is_cos k -> -1 <= c <= 1 -> 0 <= poly k c <= 1.
Proof.
  intros H Hc.
  assert (E1 : 0 <= poly k 1 <= 1) by (destruct k; try contradiction; cbn; lra).
  assert (E2 : 0 <= poly k (-1) <= 1) by (destruct k; try contradiction; cbn; lra).
  assert (A : poly k 1 <= poly k c).
  { destruct (Req_dec c 1) as [->|Hn]; [lra|]. apply Rlt_le, poly_decr; auto; lra. }
  assert (B : poly k c <= poly k (-1)).
  { destruct (Req_dec c (-1)) as [->|Hn]; [lra|]. apply Rlt_le, poly_decr; auto; lra. }
  lra.
Qed.

Lemma win_val_textbook k n i : (min_size k <= n)%Z ->
  win_val R_ops k n i = textbook k (IZR n) (IZR i).
Proof.
  intros H. unfold win_val, textbook.
  cbn [n_one n_two n_pi n_add n_sub n_mul n_div n_abs n_cos n_of_usize n_of_f64 R_ops f64_const_R].
  rewrite minus_IZR. destruct k; cbn [min_size] in H; try reflexivity; try lra.
  - replace (3 / 1) with 3 by field. lra.
Qed.

(** C72: in exact arithmetic, from the smallest size for which it is defined, every
    window is the textbook one. *)
Lemma C72_textbook_thm :
  forall (k : win_kind) (p : profile) (n : Z) (i : nat) (g : R),
    (min_size k <= n <= usize_max)%Z -> yields R_ops k p n i g ->
    g = textbook k (IZR n) (INR i).
Proof.
  intros k p n i g Hn Hy. assert (Hs : is_size n) by (unfold is_size; destruct k; cbn [min_size] in Hn; lia).
  apply yields_iff in Hy; [|exact Hs]. destruct Hy as [_ ->]. rewrite win_val_textbook by apply Hn.
  rewrite <- INR_IZR_INZ. reflexivity.
Qed.

(*@PROP
Example C72_hyps : (min_size WBlackman <= 512 <= usize_max)%Z /\ exists g, yields R_ops WBlackman Debug 512 1 g.
Proof.
  split; [vm_compute; split; discriminate|]. eexists. eexists. eexists. split; reflexivity.
Qed.
@*)

Lemma yieldsR k p n i g : (min_size k <= n <= usize_max)%Z -> yields R_ops k p n i g ->
  (1 <= n)%Z /\ (Z.of_nat i < n)%Z /\ INR i <= IZR n - 1 /\ 0 <= INR i /\ 1 <= IZR n /\ (k <> WTriangular -> 2 <= IZR n) /\ g = textbook k (IZR n) (INR i).
Proof.
  intros Hn Hy. assert (Hs : is_size n) by (unfold is_size; destruct k; cbn [min_size] in Hn; lia).
  assert (Hy' := Hy). apply yields_iff in Hy'; [|exact Hs]. destruct Hy' as [H _].
  split; [destruct k; cbn [min_size] in Hn; lia|]. split; [exact H|].
  split; [rewrite INR_IZR_INZ, <- minus_IZR; apply IZR_le; lia|]. split; [apply pos_INR|].
  split; [apply IZR_le; destruct k; cbn [min_size] in Hn; lia|]. split; [|exact (C72_textbook_thm k p n i g Hn Hy)].
  intros Hk. apply IZR_le. destruct k; cbn [min_size] in Hn; try lia. contradiction.
Qed.

(** C60: windows are symmetric: samples i and n-1-i are equal. *)
Lemma C60_symmetric_thm :
  forall (k : win_kind) (p : profile) (n : Z) (i i' : nat) (g g' : R),
    (min_size k <= n <= usize_max)%Z ->
    yields R_ops k p n i g -> yields R_ops k p n i' g' -> (Z.of_nat i + Z.of_nat i' = n - 1)%Z ->
    g = g'.
Proof.
  intros k p n i i' g g' Hn H1 H2 Hi.
  destruct (yieldsR k p n i g Hn H1) as [_ [_ [_ [_ [N1 [N2 ->]]]]]].
  destruct (yieldsR k p n i' g' Hn H2) as [_ [_ [_ [_ [_ [_ ->]]]]]].
  assert (E : INR i = IZR n - 1 - INR i').
  { rewrite !INR_IZR_INZ, <- (minus_IZR n 1), <- minus_IZR. f_equal. lia. }
  rewrite E. set (N := IZR n) in *. set (x := INR i').
  destruct (match k as k return (is_cos k \/ ~ is_cos k) with WTriangular | WBartlett => or_intror (fun H => H) | _ => or_introl I end) as [Hc|Hc].
  - rewrite !textbook_poly by exact Hc. f_equal.
    assert (2 <= N) by (apply N2; destruct k; try contradiction; discriminate).
    replace (2 * PI * (N - 1 - x) / (N - 1)) with (- (2 * PI * x / (N - 1)) + 2 * INR 1 * PI) by (cbn; field; lra).
    rewrite cos_period, cos_neg. reflexivity.
  - destruct k; try (exfalso; apply Hc; exact I); cbn [textbook]; f_equal.
    + replace ((N - 1 - x - (N - 1) / 2) / (N / 2)) with (- ((x - (N - 1) / 2) / (N / 2))) by (field; lra).
      apply Rabs_Ropp.
    + assert (2 <= N) by (apply N2; discriminate).
      replace ((N - 1 - x - (N - 1) / 2) / ((N - 1) / 2)) with (- ((x - (N - 1) / 2) / ((N - 1) / 2))) by (field; lra).
      apply Rabs_Ropp.
Qed.

(** C61: every sample is in [0, 1]; the ends are as documented; the middle of an
    odd-sized window is 1. *)
Lemma C61_range_thm :
  forall (k : win_kind) (p : profile) (n : Z) (i : nat) (g : R),
    (min_size k <= n <= usize_max)%Z -> yields R_ops k p n i g ->
    0 <= g <= 1
    /\ (i = 0%nat \/ (Z.of_nat i = n - 1)%Z -> g = end_value k (IZR n))
    /\ ((2 * Z.of_nat i = n - 1)%Z -> g = 1).
Proof.
  intros k p n i g Hn Hy.
  destruct (yieldsR k p n i g Hn Hy) as [_ [_ [I1 [I2 [N1 [N2 ->]]]]]].
  assert (Hend : i = 0%nat \/ (Z.of_nat i = n - 1)%Z -> INR i = 0 \/ INR i = IZR n - 1).
  { intros [->|H]; [left; reflexivity|right]. rewrite INR_IZR_INZ, H, minus_IZR. reflexivity. }
  assert (Hmid : (2 * Z.of_nat i = n - 1)%Z -> INR i = (IZR n - 1) / 2).
  { intros H. apply (f_equal IZR) in H. rewrite mult_IZR, minus_IZR in H. rewrite INR_IZR_INZ. lra. }
  set (N := IZR n) in *. set (x := INR i) in *. clearbody N x.
  assert (AbsLe : forall a b, - b <= a <= b -> 0 < b -> 0 <= 1 - Rabs (a / b) <= 1).
  { intros a b H Hb. unfold Rdiv. rewrite Rabs_mult, (Rabs_pos_eq (/ b)) by (apply Rlt_le, Rinv_0_lt_compat, Hb).
    assert (0 <= Rabs a <= b) by (split; [apply Rabs_pos|apply Rabs_le, H]).
    assert (0 < / b) by (apply Rinv_0_lt_compat, Hb). assert (b * / b = 1) by (apply Rinv_r; lra). nra. }
  destruct k; cbn [textbook end_value].
  - (* triangular *)
    split; [apply AbsLe; lra|]. split.
    + intros He. destruct (Hend He) as [-> | ->].
      * rewrite Rabs_left1; [field; lra|]. replace ((0 - (N - 1) / 2) / (N / 2)) with (- ((N - 1) * / N)) by (field; lra).
        assert (0 < / N) by (apply Rinv_0_lt_compat; lra). nra.
      * rewrite Rabs_pos_eq; [field; lra|]. replace ((N - 1 - (N - 1) / 2) / (N / 2)) with ((N - 1) * / N) by (field; lra).
        assert (0 < / N) by (apply Rinv_0_lt_compat; lra). nra.
    + intros Hm. rewrite (Hmid Hm). replace (((N - 1) / 2 - (N - 1) / 2) / (N / 2)) with 0 by (field; lra).
      rewrite Rabs_R0. lra.
  - (* bartlett *)
    assert (2 <= N) by (apply N2; discriminate).
    split; [apply AbsLe; lra|]. split.
    + intros He. destruct (Hend He) as [-> | ->].
      * replace ((0 - (N - 1) / 2) / ((N - 1) / 2)) with (-1) by (field; lra). rewrite Rabs_left; lra.
      * replace ((N - 1 - (N - 1) / 2) / ((N - 1) / 2)) with 1 by (field; lra). rewrite Rabs_R1. lra.
    + intros Hm. rewrite (Hmid Hm). replace (((N - 1) / 2 - (N - 1) / 2) / ((N - 1) / 2)) with 0 by (field; lra).
      rewrite Rabs_R0. lra.
  - assert (2 <= N) by (apply N2; discriminate).
    change (0.5 - 0.5 * cos (2 * PI * x / (N - 1))) with (textbook WHann N x). rewrite textbook_poly by exact I.
    split; [apply poly_range; [exact I|apply COS_bound]|]. split.
    + intros He. assert (C : cos (2 * PI * x / (N - 1)) = 1).
      { destruct (Hend He) as [-> | ->]; [replace (2 * PI * 0 / (N - 1)) with 0 by (field; lra); apply cos_0|].
        replace (2 * PI * (N - 1) / (N - 1)) with (2 * PI) by (field; lra). apply cos_2PI. }
      rewrite C. cbn. lra.
    + intros Hm. rewrite (Hmid Hm). replace (2 * PI * ((N - 1) / 2) / (N - 1)) with PI by (field; lra). rewrite cos_PI. cbn. lra.
  - assert (2 <= N) by (apply N2; discriminate).
    change (0.54 - 0.46 * cos (2 * PI * x / (N - 1))) with (textbook WHamming N x). rewrite textbook_poly by exact I.
    split; [apply poly_range; [exact I|apply COS_bound]|]. split.
    + intros He. assert (C : cos (2 * PI * x / (N - 1)) = 1).
      { destruct (Hend He) as [-> | ->]; [replace (2 * PI * 0 / (N - 1)) with 0 by (field; lra); apply cos_0|].
        replace (2 * PI * (N - 1) / (N - 1)) with (2 * PI) by (field; lra). apply cos_2PI. }
      rewrite C. cbn. lra.
    + intros Hm. rewrite (Hmid Hm). replace (2 * PI * ((N - 1) / 2) / (N - 1)) with PI by (field; lra). rewrite cos_PI. cbn. lra.
  - assert (2 <= N) by (apply N2; discriminate).
    change (0.42 - 0.5 * cos (2 * PI * x / (N - 1)) + 0.08 * cos (2 * (2 * PI * x / (N - 1)))) with (textbook WBlackman N x). rewrite textbook_poly by exact I.
    split; [apply poly_range; [exact I|apply COS_bound]|]. split.
    + intros He. assert (C : cos (2 * PI * x / (N - 1)) = 1).
      { destruct (Hend He) as [-> | ->]; [replace (2 * PI * 0 / (N - 1)) with 0 by (field; lra); apply cos_0|].
        replace (2 * PI * (N - 1) / (N - 1)) with (2 * PI) by (field; lra). apply cos_2PI. }
      rewrite C. cbn. lra.
    + intros Hm. rewrite (Hmid Hm). replace (2 * PI * ((N - 1) / 2) / (N - 1)) with PI by (field; lra). rewrite cos_PI. cbn. lra.
  - assert (2 <= N) by (apply N2; discriminate).
    change (0.35875 - 0.48829 * cos (2 * PI * x / (N - 1)) + 0.14128 * cos (2 * (2 * PI * x / (N - 1))) - 0.01168 * cos (3 * (2 * PI * x / (N - 1)))) with (textbook WBlackmanHarris N x). rewrite textbook_poly by exact I.
    split; [apply poly_range; [exact I|apply COS_bound]|]. split.
    + intros He. assert (C : cos (2 * PI * x / (N - 1)) = 1).
      { destruct (Hend He) as [-> | ->]; [replace (2 * PI * 0 / (N - 1)) with 0 by (field; lra); apply cos_0|].
        replace (2 * PI * (N - 1) / (N - 1)) with (2 * PI) by (field; lra). apply cos_2PI. }
      rewrite C. cbn. lra.
    + intros Hm. rewrite (Hmid Hm). replace (2 * PI * ((N - 1) / 2) / (N - 1)) with PI by (field; lra). rewrite cos_PI. cbn. lra.
Qed.

Lemma Rabs_div_pos a b : 0 < b -> Rabs (a / b) = Rabs a * / b.
Proof.
  intros H. unfold Rdiv. rewrite Rabs_mult, (Rabs_pos_eq (/ b)); [reflexivity|]. apply Rlt_le, Rinv_0_lt_compat, H.
Qed.

(** C62: each window rises, strictly, up to its middle. *)
Lemma C62_rising_thm :
  forall (k : win_kind) (p : profile) (n : Z) (i : nat) (g g' : R),
    (min_size k <= n <= usize_max)%Z ->
    yields R_ops k p n i g -> yields R_ops k p n (i + 1) g' -> (2 * Z.of_nat (i + 1) <= n - 1)%Z ->
    g < g'.
Proof.
  intros k p n i g g' Hn H1 H2 Hi.
  destruct (yieldsR k p n i g Hn H1) as [_ [_ [_ [I2 [N1 [N2 ->]]]]]].
  destruct (yieldsR k p n (i + 1) g' Hn H2) as [_ [_ [_ [_ [_ [_ ->]]]]]].
  assert (E : 2 * (INR i + 1) <= IZR n - 1).
  { rewrite <- S_INR, INR_IZR_INZ, <- (minus_IZR n 1), <- mult_IZR. apply IZR_le. lia. }
  rewrite plus_INR. change (INR 1) with 1.
  set (N := IZR n) in *. set (x := INR i) in *. clearbody N x.
  destruct (match k as k return (is_cos k \/ ~ is_cos k) with WTriangular | WBartlett => or_intror (fun H => H) | _ => or_introl I end) as [Hc|Hc].
  - rewrite !textbook_poly by exact Hc.
    assert (2 <= N) by (apply N2; destruct k; try contradiction; discriminate).
    assert (P := PI_RGT_0). assert (Q : 0 < / (N - 1)) by (apply Rinv_0_lt_compat; lra).
    assert (Q2 : (N - 1) * / (N - 1) = 1) by (apply Rinv_r; lra).
    assert (B : 2 * PI * (x + 1) / (N - 1) <= PI).
    { replace (2 * PI * (x + 1) / (N - 1)) with (PI * (2 * (x + 1) * / (N - 1))) by (field; lra).
      assert (2 * (x + 1) * / (N - 1) <= 1) by nra. nra. }
    assert (A0 : 0 <= 2 * PI * x / (N - 1)).
    { unfold Rdiv. apply Rmult_le_pos; [nra|lra]. }
    assert (A : 2 * PI * x / (N - 1) < 2 * PI * (x + 1) / (N - 1)).
    { unfold Rdiv. apply Rmult_lt_compat_r; [exact Q|]. nra. }
    apply poly_decr; [exact Hc|apply COS_bound| |apply COS_bound].
    apply cos_decreasing_1; lra.
  - destruct k; try (exfalso; apply Hc; exact I); cbn [textbook].
    + assert (Q : 0 < / (N / 2)) by (apply Rinv_0_lt_compat; lra).
      rewrite !(Rabs_div_pos _ (N / 2)) by lra.
      rewrite (Rabs_left1 (x - (N - 1) / 2)) by lra. rewrite (Rabs_left1 (x + 1 - (N - 1) / 2)) by lra. nra.
    + assert (2 <= N) by (apply N2; discriminate).
      assert (Q : 0 < / ((N - 1) / 2)) by (apply Rinv_0_lt_compat; lra).
      rewrite !(Rabs_div_pos _ ((N - 1) / 2)) by lra.
      rewrite (Rabs_left1 (x - (N - 1) / 2)) by lra. rewrite (Rabs_left1 (x + 1 - (N - 1) / 2)) by lra. nra.
Qed.

(*@PROP
Example C60_C62_hyps :
  (min_size WHann <= 6 <= usize_max)%Z
  /\ (exists g, yields R_ops WHann Debug 6 1 g) /\ (exists g, yields R_ops WHann Debug 6 (1 + 1) g)
  /\ (exists g, yields R_ops WHann Debug 6 4 g) /\ (2 * Z.of_nat (1 + 1) <= 6 - 1)%Z /\ (Z.of_nat 1 + Z.of_nat 4 = 6 - 1)%Z.
Proof.
  split; [vm_compute; split; discriminate|].
  repeat split; try discriminate; eexists; eexists; eexists; split; reflexivity.
Qed.
@*)

(** C63: with 50% overlap, Triangular (even size 2h, hop h) and Bartlett and Hann (odd
    size 2h+1, hop h) sum to exactly 1, Hamming (odd size) to 1.08. *)
Lemma C63_overlap_thm :
  forall (p : profile) (h i : nat) (g g' : R),
    (1 <= h)%nat -> (2 * Z.of_nat h + 1 <= usize_max)%Z ->
    let even := (2 * Z.of_nat h)%Z in let odd := (2 * Z.of_nat h + 1)%Z in
    (yields R_ops WTriangular p even i g -> yields R_ops WTriangular p even (i + h) g' -> g + g' = 1)
    /\ (yields R_ops WBartlett p odd i g -> yields R_ops WBartlett p odd (i + h) g' -> g + g' = 1)
    /\ (yields R_ops WHann p odd i g -> yields R_ops WHann p odd (i + h) g' -> g + g' = 1)
    /\ (yields R_ops WHamming p odd i g -> yields R_ops WHamming p odd (i + h) g' -> g + g' = 1.08).
Proof.
  intros p h i g g' Hh Hu even odd.
  assert (Se : forall k, (min_size k <= even <= usize_max)%Z) by (intros []; unfold even; cbn [min_size]; lia).
  assert (So : forall k, (min_size k <= odd <= usize_max)%Z) by (intros []; unfold odd; cbn [min_size]; lia).
  assert (Ee : IZR even = 2 * INR h) by (unfold even; rewrite mult_IZR, INR_IZR_INZ; reflexivity).
  assert (Eo : IZR odd = 2 * INR h + 1) by (unfold odd; rewrite plus_IZR, mult_IZR, INR_IZR_INZ; reflexivity).
  assert (H1 : 1 <= INR h) by (change 1 with (INR 1); apply le_INR, Hh).
  split; [|split; [|split]]; intros Y1 Y2.
  - destruct (yieldsR _ _ _ _ _ (Se _) Y1) as [_ [_ [_ [A2 [_ [_ ->]]]]]].
    destruct (yieldsR _ _ _ _ _ (Se _) Y2) as [_ [_ [B1 [_ [_ [_ ->]]]]]].
    rewrite Ee in *. rewrite plus_INR in *. cbn [textbook].
    set (H := INR h) in *. set (x := INR i) in *.
    rewrite (Rabs_left1 ((x - (2 * H - 1) / 2) / (2 * H / 2))), (Rabs_pos_eq ((x + H - (2 * H - 1) / 2) / (2 * H / 2))).
    + field. lra.
    + apply Rmult_le_pos; [lra|]. apply Rlt_le, Rinv_0_lt_compat. lra.
    + assert (0 < / (2 * H / 2)) by (apply Rinv_0_lt_compat; lra). unfold Rdiv at 1. nra.
  - destruct (yieldsR _ _ _ _ _ (So _) Y1) as [_ [_ [_ [A2 [_ [_ ->]]]]]].
    destruct (yieldsR _ _ _ _ _ (So _) Y2) as [_ [_ [B1 [_ [_ [_ ->]]]]]].
    rewrite Eo in *. rewrite plus_INR in *. cbn [textbook].
    set (H := INR h) in *. set (x := INR i) in *.
    rewrite (Rabs_left1 ((x - (2 * H + 1 - 1) / 2) / ((2 * H + 1 - 1) / 2))), (Rabs_pos_eq ((x + H - (2 * H + 1 - 1) / 2) / ((2 * H + 1 - 1) / 2))).
    + field. lra.
    + apply Rmult_le_pos; [lra|]. apply Rlt_le, Rinv_0_lt_compat. lra.
    + assert (0 < / ((2 * H + 1 - 1) / 2)) by (apply Rinv_0_lt_compat; lra). unfold Rdiv at 1. nra.
  - destruct (yieldsR _ _ _ _ _ (So _) Y1) as [_ [_ [_ [A2 [_ [_ ->]]]]]].
    destruct (yieldsR _ _ _ _ _ (So _) Y2) as [_ [_ [B1 [_ [_ [_ ->]]]]]].
    rewrite Eo in *. rewrite plus_INR in *. cbn [textbook].
    set (H := INR h) in *. set (x := INR i) in *.
    replace (2 * PI * (x + H) / (2 * H + 1 - 1)) with (2 * PI * x / (2 * H + 1 - 1) + PI) by (field; lra).
    rewrite neg_cos. lra.
  - destruct (yieldsR _ _ _ _ _ (So _) Y1) as [_ [_ [_ [A2 [_ [_ ->]]]]]].
    destruct (yieldsR _ _ _ _ _ (So _) Y2) as [_ [_ [B1 [_ [_ [_ ->]]]]]].
    rewrite Eo in *. rewrite plus_INR in *. cbn [textbook].
    set (H := INR h) in *. set (x := INR i) in *.
    replace (2 * PI * (x + H) / (2 * H + 1 - 1)) with (2 * PI * x / (2 * H + 1 - 1) + PI) by (field; lra).
    rewrite neg_cos. lra.
Qed.

(*@PROP
Example C63_overlap_hyps :
  (exists g, yields R_ops WTriangular Debug (2 * Z.of_nat 4) 1 g)
  /\ (exists g, yields R_ops WTriangular Debug (2 * Z.of_nat 4) (1 + 4) g)
  /\ (exists g, yields R_ops WHann Debug (2 * Z.of_nat 4 + 1) 1 g)
  /\ (exists g, yields R_ops WHann Debug (2 * Z.of_nat 4 + 1) (1 + 4) g).
Proof. repeat split; eexists; eexists; eexists; split; reflexivity. Qed.
@*)

(** C63: the source note says that 50%-overlapped Bartlett, Hann and Hamming windows
    sum to 1.  For Bartlett and Hann of every even size 2h, overlapped by h, the first
    sum differs from 1; for Hamming of every odd size 2h+1, overlapped by h, every
    sum does. *)
Lemma C63_note_refuted_thm :
  forall (p : profile) (k : win_kind) (h i : nat) (g g' : R),
    (1 <= h)%nat -> (2 * Z.of_nat h + 1 <= usize_max)%Z ->
    let even := (2 * Z.of_nat h)%Z in let odd := (2 * Z.of_nat h + 1)%Z in
    (k = WBartlett \/ k = WHann ->
     yields R_ops k p even 0 g -> yields R_ops k p even h g' -> g + g' <> 1)
    /\ (yields R_ops WHamming p odd i g -> yields R_ops WHamming p odd (i + h) g' -> g + g' <> 1).
Proof.
  intros p k h i g g' Hh Hu even odd. split.
  2:{ intros Y1 Y2. destruct (C63_overlap_thm p h i g g' Hh Hu) as [_ [_ [_ H]]]. rewrite (H Y1 Y2). intros Hs. lra. }
  intros Hk Y1 Y2.
  assert (Se : (min_size k <= even <= usize_max)%Z) by (destruct k; unfold even; cbn [min_size]; lia).
  assert (Ee : IZR even = 2 * INR h) by (unfold even; rewrite mult_IZR, INR_IZR_INZ; reflexivity).
  assert (H1 : 1 <= INR h) by (change 1 with (INR 1); apply le_INR, Hh).
  destruct (yieldsR _ _ _ _ _ Se Y1) as [_ [_ [_ [_ [_ [_ E1]]]]]].
  destruct (yieldsR _ _ _ _ _ Se Y2) as [_ [_ [_ [_ [_ [_ E2]]]]]].
  rewrite Ee in *. cbn [INR] in E1.
  assert (End := proj1 (proj2 (C61_range_thm k p even 0 g Se Y1)) (or_introl eq_refl)).
  set (H := INR h) in *. clearbody H.
  assert (Cs : 2 * PI * H / (2 * H - 1) = PI / (2 * H - 1) + PI) by (field; lra).
  assert (P := PI_RGT_0). assert (Q : 0 < / (2 * H - 1)) by (apply Rinv_0_lt_compat; lra).
  assert (Qm : (2 * H - 1) * / (2 * H - 1) = 1) by (apply Rinv_r; lra).
  assert (C1 : cos (PI / (2 * H - 1)) < 1).
  { assert (Ql : / (2 * H - 1) <= 1) by (rewrite <- Rinv_1; apply Rinv_le_contravar; lra).
    assert (0 < PI / (2 * H - 1)) by (apply Rmult_lt_0_compat; lra).
    assert (PI / (2 * H - 1) <= PI) by (unfold Rdiv; rewrite <- (Rmult_1_r PI) at 2; apply Rmult_le_compat_l; lra).
    assert (K : cos (PI / (2 * H - 1)) < cos 0) by (apply cos_decreasing_1; lra).
    rewrite cos_0 in K. exact K. }
  destruct Hk as [-> | ->]; cbn [textbook end_value] in *.
  - rewrite End. assert (E3 : (H - (2 * H - 1) / 2) / ((2 * H - 1) / 2) = / (2 * H - 1)) by (field; lra).
    rewrite E3 in E2. rewrite Rabs_pos_eq in E2 by lra. intros Hs; lra.
  - rewrite Cs, neg_cos in E2. intros Hs; lra.
Qed.

(*@PROP
Example C63_note_refuted_hyps :
  (exists g, yields R_ops WHann Debug (2 * Z.of_nat 4) 0 g)
  /\ (exists g, yields R_ops WHann Debug (2 * Z.of_nat 4) 4 g)
  /\ (exists g, yields R_ops WHamming Debug (2 * Z.of_nat 4 + 1) 2 g)
  /\ (exists g, yields R_ops WHamming Debug (2 * Z.of_nat 4 + 1) (2 + 4) g).
Proof. repeat split; eexists; eexists; eexists; split; reflexivity. Qed.
@*)

(** *** Overlap-add *)
Lemma total_ext f f' m : (forall j, (j < m)%nat -> f j = f' j) -> total f m = total f' m.
Proof. induction m as [|m IH]; intros H; cbn; [reflexivity|]. rewrite IH, H; auto. Qed.
Lemma total_plus f f' m : total (fun j => f j + f' j) m = total f m + total f' m.
Proof. induction m as [|m IH]; cbn; [ring|]. rewrite IH. ring. Qed.
Lemma total_scal a f m : total (fun j => a * f j) m = a * total f m.
Proof. induction m as [|m IH]; cbn; [ring|]. rewrite IH. ring. Qed.
Lemma total_const a m : total (fun _ => a) m = INR m * a.
Proof. induction m as [|m IH]; cbn [total]; [cbn; ring|]. rewrite IH, S_INR. ring. Qed.

Lemma sum_cos a d m : 2 * sin (d / 2) * total (fun j => cos (a + INR j * d)) m
  = sin (a + (INR m - / 2) * d) - sin (a - / 2 * d).
Proof.
  induction m as [|m IH].
  - cbn [total INR]. replace (a + (0 - / 2) * d) with (a - / 2 * d) by ring. ring.
  - cbn [total]. rewrite Rmult_plus_distr_l, IH, S_INR.
    replace (a + (INR m + 1 - / 2) * d) with (a + INR m * d + d / 2) by field.
    replace (a + (INR m - / 2) * d) with (a + INR m * d - d / 2) by field.
    rewrite sin_plus, sin_minus. ring.
Qed.

Lemma sum_cos_zero a (r m : nat) : (1 <= r < m)%nat ->
  total (fun j => cos (a + INR j * (2 * PI * INR r / INR m))) m = 0.
Proof.
  intros H. set (d := 2 * PI * INR r / INR m). assert (E := sum_cos a d m).
  assert (Hr : 1 <= INR r) by (change 1 with (INR 1); apply le_INR; lia).
  assert (Hm : INR r < INR m) by (apply lt_INR; lia).
  assert (P := PI_RGT_0). assert (Q : 0 < / INR m) by (apply Rinv_0_lt_compat; lra).
  assert (Qm : INR m * / INR m = 1) by (apply Rinv_r; lra).
  assert (S : 0 < sin (d / 2)).
  { apply sin_gt_0; unfold d.
    - replace (2 * PI * INR r / INR m / 2) with (PI * (INR r * / INR m)) by (field; lra).
      apply Rmult_lt_0_compat; [lra|]. apply Rmult_lt_0_compat; lra.
    - replace (2 * PI * INR r / INR m / 2) with (PI * (INR r * / INR m)) by (field; lra).
      assert (INR r * / INR m < 1) by (rewrite <- Qm; apply Rmult_lt_compat_r; lra).
      rewrite <- (Rmult_1_r PI) at 2. apply Rmult_lt_compat_l; lra. }
  assert (E2 : sin (a + (INR m - / 2) * d) = sin (a - / 2 * d)).
  { replace (a + (INR m - / 2) * d) with (a - / 2 * d + 2 * INR r * PI) by (unfold d; field; lra). apply sin_period. }
  rewrite E2 in E. replace (sin (a - / 2 * d) - sin (a - / 2 * d)) with 0 in E by ring.
  apply Rmult_integral in E. destruct E as [E|E]; [nra|exact E].
Qed.

(** C73: overlap-add: for a window of m*h + 1 samples moved by hops of h samples, the
    sum of the m overlapping samples is the constant m times the mean of the
    window, for Hann and Hamming (m >= 2), Blackman (m >= 3) and Blackman-Harris
    (m >= 4). *)
Lemma C73_overlap_add_thm :
  forall (k : win_kind) (p : profile) (m h i : nat) (g : nat -> R),
    k <> WTriangular -> k <> WBartlett -> (1 <= h)%nat -> (terms k < m)%nat ->
    let n := (Z.of_nat m * Z.of_nat h + 1)%Z in
    (n <= usize_max)%Z ->
    (forall j, (j < m)%nat -> yields R_ops k p n (i + j * h) (g j)) ->
    total g m = INR m * mean k.
Proof.
  intros k p m h i g Kt Kb Hh Hm n Hn Hg.
  assert (H1 : 1 <= INR h) by (change 1 with (INR 1); apply le_INR, Hh).
  assert (Tm : (1 <= terms k)%nat) by (destruct k; try contradiction; cbn; lia).
  assert (M1 : 2 <= INR m) by (change 2 with (INR 2); apply le_INR; lia).
  assert (Sn : (min_size k <= n <= usize_max)%Z).
  { assert (2 <= Z.of_nat m * Z.of_nat h + 1)%Z by nia. destruct k; unfold n in *; cbn [min_size]; lia. }
  assert (En : IZR n - 1 = INR m * INR h) by (unfold n; rewrite plus_IZR, mult_IZR, !INR_IZR_INZ; ring).
  set (a := 2 * PI * INR i / (INR m * INR h)).
  assert (Eg : forall j, (j < m)%nat -> g j = textbook k (IZR n) (INR (i + j * h))).
  { intros j Hj. destruct (yieldsR _ _ _ _ _ Sn (Hg j Hj)) as [_ [_ [_ [_ [_ [_ E]]]]]]. exact E. }
  assert (Ea : forall j, 2 * PI * INR (i + j * h) / (IZR n - 1) = a + INR j * (2 * PI * INR 1 / INR m)).
  { intros j. rewrite En, plus_INR, mult_INR. unfold a. cbn [INR]. field. lra. }
  assert (E2 : forall j, 2 * (2 * PI * INR (i + j * h) / (IZR n - 1)) = 2 * a + INR j * (2 * PI * INR 2 / INR m)).
  { intros j. rewrite Ea. cbn [INR]. field. lra. }
  assert (E3 : forall j, 3 * (2 * PI * INR (i + j * h) / (IZR n - 1)) = 3 * a + INR j * (2 * PI * INR 3 / INR m)).
  { intros j. rewrite Ea. cbn [INR]. field. lra. }
  rewrite (total_ext g (fun j => textbook k (IZR n) (INR (i + j * h))) m Eg).
  destruct k; try contradiction; cbn [terms mean] in *.
  - rewrite (total_ext _ (fun j => 0.5 + - 0.5 * cos (a + INR j * (2 * PI * INR 1 / INR m)))).
    2:{ intros j _. cbn [textbook]. rewrite Ea. lra. }
    rewrite total_plus, total_scal, total_const, sum_cos_zero by lia. lra.
  - rewrite (total_ext _ (fun j => 0.54 + - 0.46 * cos (a + INR j * (2 * PI * INR 1 / INR m)))).
    2:{ intros j _. cbn [textbook]. rewrite Ea. lra. }
    rewrite total_plus, total_scal, total_const, sum_cos_zero by lia. lra.
  - rewrite (total_ext _ (fun j => (0.42 + - 0.5 * cos (a + INR j * (2 * PI * INR 1 / INR m)))
                                   + 0.08 * cos (2 * a + INR j * (2 * PI * INR 2 / INR m)))).
    2:{ intros j _. cbn [textbook]. rewrite E2, Ea. lra. }
    rewrite total_plus, total_scal, total_plus, total_scal, total_const, !sum_cos_zero by lia. lra.
  - rewrite (total_ext _ (fun j => (0.35875 + - 0.48829 * cos (a + INR j * (2 * PI * INR 1 / INR m)))
                                   + 0.14128 * cos (2 * a + INR j * (2 * PI * INR 2 / INR m))
                                   + - 0.01168 * cos (3 * a + INR j * (2 * PI * INR 3 / INR m)))).
    2:{ intros j _. cbn [textbook]. rewrite E3, E2, Ea. lra. }
    rewrite total_plus, total_scal, total_plus, total_scal, total_plus, total_scal, total_const, !sum_cos_zero by lia. lra.
Qed.

(*@PROP
(* Blackman, 13 samples, hop 4 *)
Example C73_overlap_add_hyps :
  exists g, forall j, (j < 3)%nat -> yields R_ops WBlackman Release (Z.of_nat 3 * Z.of_nat 4 + 1) (2 + j * 4) (g j).
Proof.
  exists (fun j => match nexts R_ops WBlackman Release (win_new WBlackman 13) (2 + j * 4 + 1) with
                   | Ok (_, rs) => match nth_error rs (2 + j * 4) with Some (Some g) => g | _ => 0 end | _ => 0 end).
  intros j Hj. destruct j as [|[|[|j]]]; [| | |lia]; eexists; eexists; split; reflexivity.
Qed.
@*)
