(** Proofs of C101. *)
From Coq Require Import ZArith Reals List Bool Lra Lia Psatz.
From Flocq Require Import Core.Core IEEE754.BinarySingleNaN.
From Verif Require Import Base Num NumR NumF FloatSpec FloatFacts FltFilterFacts CrLibm Witness ConstLemmas
  WindowM WinSpec WinFacts WinLemmas WinAccSpec WinAccLemmas TrackSpec SpectrumSpec SpectrumLemmas.
Import ListNotations.
Open Scope R_scope.

(*@PROP
(** Property C101: [apply_window] and the leakage of tones in [f32] and [f64].

    Vocabulary: [ieee O V] says that [O] is the arithmetic of [f32] or [f64], which
    [V] reads as numbers ([FloatSpec]); [apply_window O p xs w] is the slice after
    the call ([WindowM]); [textbook], [terms], [end_value] are in [WinSpec];
    [cos_close] and [window_error] in [WinAccSpec]; [half_ulp] and [half_tiny] in
    [TrackSpec]; [bin_phase], [correlate] in [SpectrumSpec]. *)
From Coq Require Import ZArith Reals List Bool Lra Lia.
From Flocq Require Import Core.Core IEEE754.BinarySingleNaN.
From Verif Require Import Base Num NumF FloatSpec CrLibm Witness WindowM WinSpec WinAccSpec TrackSpec SpectrumSpec SpectrumFlt.
Import ListNotations.
Open Scope R_scope.

@*)

(** *** Floating point *)
Section Mul.
  Context (prec emax : Z) {Hp : Prec_gt_0 prec} {Hm : Prec_lt_emax prec emax}
    (Hp24 : (24 <= prec)%Z) (Hbig : (prec + 100 <= emax)%Z).
  Notation F := (binary_float prec emax).
  Lemma window_mul (g x : F) t E : is_finite g = true -> is_finite x = true ->
    Rabs t <= 1 -> 0 <= E <= 40 -> Rabs (B2R g - t) <= E * bpow radix2 (- prec) ->
    Rabs (B2R x) <= (1 - bpow radix2 (- prec)) * bpow radix2 emax / 4 ->
    is_finite (f_mul prec emax g x) = true
    /\ Rabs (B2R (f_mul prec emax g x) - t * B2R x)
       <= (E + 2) * bpow radix2 (- prec) * Rabs (B2R x) + bpow radix2 (- prec) * bpow radix2 (2 - emax).
  Proof.
    intros Fg Fx Ht HE Hg Hx.
    assert (U0 : 0 < bpow radix2 (- prec)) by apply bpow_gt_0.
    assert (U1 : bpow radix2 (- prec) <= / 1000000).
    { apply Rle_trans with (bpow radix2 (-24)); [apply bpow_le; lia|cbn; lra]. }
    set (u := bpow radix2 (- prec)) in *.
    assert (B4 : bpow radix2 emax = 2 * bpow radix2 (emax - 1)).
    { replace emax with (emax - 1 + 1)%Z at 1 by lia. rewrite bpow_plus. cbn. lra. }
    assert (B0 : 0 < bpow radix2 (emax - 1)) by apply bpow_gt_0.
    assert (Gs : Rabs (B2R g) <= 1 + E * u).
    { replace (B2R g) with (t + (B2R g - t)) by ring. eapply Rle_trans; [apply Rabs_triang|]. lra. }
    assert (A := Rabs_pos (B2R x)).
    assert (P : Rabs (B2R g * B2R x) <= (1 + E * u) * Rabs (B2R x)).
    { rewrite Rabs_mult. apply Rmult_le_compat_r; assumption. }
    assert (Eu : 0 <= E * u <= 40 * u) by (split; [apply Rmult_le_pos; lra|apply Rmult_le_compat_r; lra]).
    destruct (mul_ok prec emax g x (bpow radix2 (emax - 1)) Fg Fx) as [H1 H2].
    { apply generic_format_bpow. unfold SpecFloat.fexp, SpecFloat.emin. unfold Prec_gt_0, Prec_lt_emax in *. lia. }
    { apply bpow_lt. lia. }
    { eapply Rle_trans; [exact P|]. rewrite B4 in Hx.
      apply Rle_trans with (2 * Rabs (B2R x)); [apply Rmult_le_compat_r; lra|]. nra. }
    split; [exact H1|]. rewrite H2.
    assert (R := RN_err prec emax (B2R g * B2R x)). unfold eta, uro in R. fold u in R.
    replace (round radix2 (SpecFloat.fexp prec emax) (round_mode mode_NE) (B2R g * B2R x) - t * B2R x)
      with ((round radix2 (SpecFloat.fexp prec emax) (round_mode mode_NE) (B2R g * B2R x) - B2R g * B2R x) + (B2R g - t) * B2R x) by ring.
    eapply Rle_trans; [apply Rabs_triang|]. rewrite (Rabs_mult (B2R g - t)).
    assert (Q : Rabs (B2R g - t) * Rabs (B2R x) <= E * u * Rabs (B2R x)) by (apply Rmult_le_compat_r; assumption).
    assert (W : u * Rabs (B2R g * B2R x) <= 2 * u * Rabs (B2R x)).
    { apply Rle_trans with (u * ((1 + E * u) * Rabs (B2R x))); [apply Rmult_le_compat_l; lra|].
      rewrite (Rmult_comm 2 u), Rmult_assoc. apply Rmult_le_compat_l; [lra|]. apply Rmult_le_compat_r; lra. }
    lra.
  Qed.
End Mul.

(** C101: in [f32] and [f64], [apply_window] completes, keeps the length, and every
    sample of the slice becomes the textbook gain times the sample up to
    (window_error + 2) 2^-p times the sample (plus underflow). *)
Lemma C101_apply_accurate_thm :
  forall (T : Type) (O : num_ops T) (V : float_view T) (w : window) (k : win_kind) (p : profile) (xs : list T),
    ieee O V -> window_iter w = Some k ->
    match k with WTriangular | WBartlett => True | _ => cos_close O V end ->
    (min_size k <= vlen xs <= usize_max)%Z ->
    Forall (fun x => fin V x = true /\ Rabs (val V x) <= fmax V / 4) xs ->
    exists ys, apply_window O p xs w = Ok ys /\ length ys = length xs
      /\ forall i x, nth_error xs i = Some x -> exists y, nth_error ys i = Some y /\ fin V y = true
           /\ Rabs (val V y - textbook k (IZR (vlen xs)) (INR i) * val V x)
              <= (window_error k + 2) * half_ulp V * Rabs (val V x) + half_tiny V.
Proof.
  intros T O V w k p xs HO Hw Hc Hn Hx.
  assert (Hs : is_size (vlen xs)) by (unfold is_size; destruct k; cbn [min_size] in Hn; lia).
  destruct (C59_apply_window_thm T O p xs w Hs) as [ys [E [L H]]]. rewrite Hw in H.
  exists ys. split; [exact E|]. split; [exact L|]. intros i x Hi.
  destruct (H i x Hi) as [g [Hg Hy]]. exists (n_mul O g x). split; [exact Hy|].
  destruct (C91_window_accurate_thm T O V k p (vlen xs) i g HO Hc Hn Hg) as [Fg Eg].
  assert (Ht : Rabs (textbook k (IZR (vlen xs)) (INR i)) <= 1).
  { assert (Y' : yields R_ops k p (vlen xs) i (textbook k (IZR (vlen xs)) (INR i))).
    { apply (yields_iff R_ops k p _ i _ Hs). apply (yields_iff O k p _ i g Hs) in Hg. destruct Hg as [Y _]. split; [exact Y|].
      rewrite win_val_textbook by lia. rewrite <- INR_IZR_INZ. reflexivity. }
    destruct (C61_range_thm k p _ i _ Hn Y') as [R _]. apply Rabs_le. lra. }
  assert (HE : 0 <= window_error k <= 40) by (destruct k; cbn; lra).
  rewrite Forall_forall in Hx. destruct (Hx x (nth_error_In _ _ Hi)) as [Fx Bx].
  destruct HO.
  - exact (window_mul 24 128 ltac:(lia) ltac:(lia) g x _ _ Fg Fx Ht HE Eg Bx).
  - exact (window_mul 53 1024 ltac:(lia) ltac:(lia) g x _ _ Fg Fx Ht HE Eg Bx).
Qed.

Lemma total_abs f g m e : (forall i, (i < m)%nat -> Rabs (f i - g i) <= e) -> Rabs (total f m - total g m) <= INR m * e.
Proof.
  induction m as [|m IH]; intros H.
  - cbn. rewrite Rminus_0_r, Rabs_R0. lra.
  - cbn [total]. rewrite S_INR. replace (total f m + f m - (total g m + g m)) with ((total f m - total g m) + (f m - g m)) by ring.
    eapply Rle_trans; [apply Rabs_triang|]. specialize (IH (fun i Hi => H i (Nat.lt_lt_succ_r _ _ Hi))).
    specialize (H m (Nat.lt_succ_diag_r m)). lra.
Qed.

(** C101: so the leakage statement C100 holds in [f32] and [f64] up to rounding: with a
    slice that is a tone of amplitude [A] up to [e] per sample, bins further away
    than [terms] see at most the end samples and the rounding noise. *)
Lemma C101_leakage_thm :
  forall (T : Type) (O : num_ops T) (V : float_view T) (w : window) (k : win_kind) (p : profile) (N m j : nat) (A phi psi e : R) (xs : list T),
    ieee O V -> cosine_window w k -> cos_close O V -> (Z.of_nat (N + 1) <= usize_max)%Z ->
    (terms k < m + j)%nat -> (m + j + terms k < N)%nat -> (terms k < distance m j)%nat ->
    0 <= A -> A + e <= fmax V / 4 -> length xs = (N + 1)%nat ->
    (forall i x, nth_error xs i = Some x -> fin V x = true /\ Rabs (val V x - A * cos (bin_phase N m i + phi)) <= e) ->
    exists ys, apply_window O p xs w = Ok ys
      /\ Rabs (correlate N j psi (map (val V) ys))
         <= end_value k (INR (N + 1)) * A + INR (N + 1) * ((window_error k + 2) * half_ulp V * (A + e) + half_tiny V + e).
Proof.
  intros T O V w k p N m j A phi psi e xs HO Hw Hc Hs H1 H2 H3 HA He Lx Hx.
  assert (Hk := cosine_is_cos w k Hw). assert (HN : (0 < N)%nat) by lia.
  assert (Vx : vlen xs = Z.of_nat (N + 1)) by (unfold vlen; rewrite Lx; reflexivity).
  assert (Ac : forall a, Rabs (A * cos a) <= A).
  { intros a. rewrite Rabs_mult, (Rabs_pos_eq A) by exact HA. assert (Rabs (cos a) <= 1) by (apply Rabs_le, COS_bound).
    assert (Q := Rabs_pos (cos a)). nra. }
  assert (Bx : forall i x, nth_error xs i = Some x -> Rabs (val V x) <= A + e).
  { intros i x Hi. destruct (Hx i x Hi) as [_ E]. replace (val V x) with (A * cos (bin_phase N m i + phi) + (val V x - A * cos (bin_phase N m i + phi))) by ring.
    eapply Rle_trans; [apply Rabs_triang|]. specialize (Ac (bin_phase N m i + phi)). lra. }
  destruct (C101_apply_accurate_thm T O V w k p xs HO) as [ys [E [L H]]].
  { apply Hw. } { destruct k; auto. } { rewrite Vx. destruct k; cbn [min_size]; lia. }
  { apply Forall_forall. intros x Hi. apply In_nth_error in Hi. destruct Hi as [i Hi]. split; [apply (Hx i x Hi)|].
    specialize (Bx i x Hi). lra. }
  exists ys. split; [exact E|].
  destruct (apply_tone w k p N m A phi Hw HN Hs) as [zs [Ez [Lz Hz]]].
  destruct (C100_leakage_thm w k p N m j A phi psi Hw Hs H1 H2 H3) as [zs' [Ez' Cz]].
  assert (zs' = zs) by congruence. subst zs'. clear Ez'.
  assert (En : 0 <= end_value k (INR (N + 1))) by (destruct k; try contradiction; cbn; lra).
  assert (Cb : forall a, Rabs (cos a) <= 1) by (intros a; apply Rabs_le, COS_bound).
  assert (B1 : Rabs (correlate N j psi zs) <= end_value k (INR (N + 1)) * A).
  { rewrite Cz, !Rabs_mult, (Rabs_pos_eq (end_value _ _)), (Rabs_pos_eq A) by assumption.
    assert (C1 := Cb phi). assert (C2 := Cb psi). assert (P1 := Rabs_pos (cos phi)). assert (P2 := Rabs_pos (cos psi)).
    rewrite <- (Rmult_1_r (end_value k (INR (N + 1)) * A)), <- Rmult_assoc, Rmult_assoc.
    apply Rmult_le_compat_l; [apply Rmult_le_pos; assumption|]. nra. }
  set (eps := (window_error k + 2) * half_ulp V * (A + e) + half_tiny V + e).
  assert (Hu : 0 < half_ulp V) by apply bpow_gt_0.
  assert (We : 0 <= window_error k) by (destruct k; cbn; lra).
  assert (B2 : Rabs (correlate N j psi (map (val V) ys) - correlate N j psi zs) <= INR (N + 1) * eps).
  { unfold correlate. rewrite map_length, L, Lx, Lz. apply total_abs. intros i Hi.
    rewrite <- Rmult_minus_distr_r, Rabs_mult.
    destruct (nth_error xs i) as [x|] eqn:Ex; [|apply nth_error_None in Ex; lia].
    destruct (H i x Ex) as [y [Ey [_ Dy]]].
    assert (Ny : nth i (map (val V) ys) 0 = val V y).
    { apply nth_error_nth. rewrite nth_error_map, Ey. reflexivity. }
    rewrite Ny, Hz by exact Hi. rewrite Vx, <- INR_IZR_INZ in Dy.
    set (t := textbook k (INR (N + 1)) (INR i)) in *. destruct (Hx i x Ex) as [_ Dx]. specialize (Bx i x Ex).
    assert (Ht : Rabs t <= 1).
    { assert (Y' : yields R_ops k p (Z.of_nat (N + 1)) i t).
      { apply yields_iff; [unfold is_size; lia|]. split; [lia|]. rewrite win_val_textbook by (destruct k; cbn [min_size]; lia).
        rewrite <- !INR_IZR_INZ. reflexivity. }
      destruct (C61_range_thm k p (Z.of_nat (N + 1)) i t) as [R _]; [destruct k; cbn [min_size]; lia|exact Y'|]. apply Rabs_le. lra. }
    assert (Dt : Rabs (val V y - t * (A * cos (bin_phase N m i + phi))) <= eps).
    { replace (val V y - t * (A * cos (bin_phase N m i + phi)))
        with ((val V y - t * val V x) + t * (val V x - A * cos (bin_phase N m i + phi))) by ring.
      eapply Rle_trans; [apply Rabs_triang|]. rewrite (Rabs_mult t).
      assert (Rabs t * Rabs (val V x - A * cos (bin_phase N m i + phi)) <= 1 * e) by (apply Rmult_le_compat; auto using Rabs_pos).
      assert ((window_error k + 2) * half_ulp V * Rabs (val V x) <= (window_error k + 2) * half_ulp V * (A + e)).
      { apply Rmult_le_compat_l; [apply Rmult_le_pos; lra|exact Bx]. }
      unfold eps. lra. }
    specialize (Cb (bin_phase N j i + psi)). assert (P := Rabs_pos (cos (bin_phase N j i + psi))).
    assert (P' := Rabs_pos (val V y - t * (A * cos (bin_phase N m i + phi)))). nra. }
  replace (correlate N j psi (map (val V) ys)) with (correlate N j psi zs + (correlate N j psi (map (val V) ys) - correlate N j psi zs)) by ring.
  eapply Rle_trans; [apply Rabs_triang|]. lra.
Qed.

(*@PROP
(** The hypotheses are met by a correctly rounded cosine and the slice
    [slice101]: one cycle of a cosine, whose values are exact in [f32]. *)
Example C101_hyps :
  cosine_window Hann WHann /\ cos_close O90 V90
  /\ (min_size WHann <= vlen slice101 <= usize_max)%Z
  /\ Forall (fun x => fin V90 x = true /\ Rabs (val V90 x) <= fmax V90 / 4) slice101
  /\ (Z.of_nat (6 + 1) <= usize_max)%Z
  /\ (terms WHann < 1 + 3)%nat /\ (1 + 3 + terms WHann < 6)%nat /\ (terms WHann < distance 1 3)%nat
  /\ 1 + 0 <= fmax V90 / 4 /\ length slice101 = (6 + 1)%nat
  /\ (forall i x, nth_error slice101 i = Some x ->
        fin V90 x = true /\ Rabs (val V90 x - 1 * cos (bin_phase 6 1 i + 0)) <= 0).
Proof. exact C101_wit. Qed.
@*)
Lemma C101_wit :
  cosine_window Hann WHann /\ cos_close O90 V90
  /\ (min_size WHann <= vlen slice101 <= usize_max)%Z
  /\ Forall (fun x => fin V90 x = true /\ Rabs (val V90 x) <= fmax V90 / 4) slice101
  /\ (Z.of_nat (6 + 1) <= usize_max)%Z
  /\ (terms WHann < 1 + 3)%nat /\ (1 + 3 + terms WHann < 6)%nat /\ (terms WHann < distance 1 3)%nat
  /\ 1 + 0 <= fmax V90 / 4 /\ length slice101 = (6 + 1)%nat
  /\ (forall i x, nth_error slice101 i = Some x ->
        fin V90 x = true /\ Rabs (val V90 x - 1 * cos (bin_phase 6 1 i + 0)) <= 0).
Proof.
  assert (Fm : 1 <= fmax V90 / 4).
  { cbn [fmax V90 ieee_view]. apply Rle_trans with ((1 - / 2) * bpow radix2 3 / 4); [cbn; lra|].
    apply Rmult_le_compat_r; [lra|]. apply Rmult_le_compat; [lra|left; apply bpow_gt_0| |apply bpow_le; lia].
    cbn. lra. }
  assert (E1 : val V90 (fl32 1 0) = 1) by (change (B2R (fl32 1 0) = 1); lit; lra).
  assert (E2 : val V90 (fl32 1 (-1)) = / 2) by (change (B2R (fl32 1 (-1)) = / 2); lit; lra).
  assert (E3 : val V90 (fl32 (-1) (-1)) = - / 2) by (change (B2R (fl32 (-1) (-1)) = - / 2); lit; lra).
  assert (E4 : val V90 (fl32 (-1) 0) = -1) by (change (B2R (fl32 (-1) 0) = -1); lit; lra).
  split; [split; [reflexivity|split; discriminate]|]. split; [exact (cr_cos_close_32 false)|].
  split; [vm_compute; split; discriminate|].
  split.
  { apply List.Forall_forall. intros x Hx. unfold slice101 in Hx. cbn [In] in Hx.
    destruct Hx as [H|[H|[H|[H|[H|[H|[H|[]]]]]]]]; subst x; (split; [reflexivity|]); rewrite ?E1, ?E2, ?E3, ?E4; apply Rabs_le; lra. }
  split; [vm_compute; discriminate|]. split; [cbn; lia|]. split; [cbn; lia|]. split; [cbn; lia|].
  split; [lra|]. split; [reflexivity|].
  assert (C : forall i c, cos (INR i * (PI / 3)) = c -> cos (bin_phase 6 1 i + 0) = c).
  { intros i c <-. f_equal. unfold bin_phase. rewrite Rplus_0_r. replace (INR 6) with 6 by (cbn; ring). cbn [INR]. field. }
  assert (C1 : cos (INR 0 * (PI / 3)) = 1) by (cbn [INR]; rewrite Rmult_0_l; apply cos_0).
  assert (C2 : cos (INR 1 * (PI / 3)) = / 2) by (cbn [INR]; rewrite Rmult_1_l, cos_PI3; lra).
  assert (C3 : cos (INR 2 * (PI / 3)) = - / 2).
  { replace (INR 2 * (PI / 3)) with (PI - PI / 3) by (cbn; field). rewrite Rtrigo_facts.cos_pi_minus, cos_PI3. lra. }
  assert (C4 : cos (INR 3 * (PI / 3)) = -1).
  { replace (INR 3 * (PI / 3)) with PI by (cbn; field). apply cos_PI. }
  assert (C5 : cos (INR 4 * (PI / 3)) = - / 2).
  { replace (INR 4 * (PI / 3)) with (PI / 3 + PI) by (cbn; field). rewrite neg_cos, cos_PI3. lra. }
  assert (C6 : cos (INR 5 * (PI / 3)) = / 2).
  { replace (INR 5 * (PI / 3)) with (- (PI / 3) + 2 * INR 1 * PI) by (cbn; field). rewrite cos_period, cos_neg, cos_PI3. lra. }
  assert (C7 : cos (INR 6 * (PI / 3)) = 1).
  { replace (INR 6 * (PI / 3)) with (0 + 2 * INR 1 * PI) by (cbn; field). rewrite cos_period. apply cos_0. }
  intros i x Hi.
  do 7 (destruct i as [|i]; [assert (Hx := f_equal (fun o => match o with Some y => y | None => x end) Hi); cbv beta iota delta [slice101 nth_error] in Hx; subst x; clear Hi; split; [reflexivity|];
    rewrite ?E1, ?E2, ?E3, ?E4;
    first [rewrite (C _ _ C1)|rewrite (C _ _ C2)|rewrite (C _ _ C3)|rewrite (C _ _ C4)|rewrite (C _ _ C5)|rewrite (C _ _ C6)|rewrite (C _ _ C7)];
    apply Rabs_le; lra|]).
  destruct i; discriminate.
Qed.
