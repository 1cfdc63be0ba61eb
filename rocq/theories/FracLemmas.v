(** Lemmas behind property C128.  The [@PROP] blocks are copied into [PropFrac.v]. *)
(*@PROP
(** Property C128: sections with a fractional delay, built on [LinearDelay], in exact arithmetic.

    Vocabulary: [lin_diffuser], [frac_behind], [on_line], [steps] ([FracSpec]); [lin_echo], [feedback]
    ([EchoSpec]); [energy x n]: the sum of the squares of the first [n] samples ([EqSpec]). *)
From Coq Require Import ZArith Reals List Bool Lia Lra.
From Flocq Require Import Core.Core.
From Verif Require Import Base Num NumR DelayM DelaySpec DelayRun LinDelayM LinRun EchoSpec EqSpec FracSpec FracLemmas.
Import ListNotations.
Open Scope R_scope.
@*)
From Coq Require Import ZArith Reals List Bool Lia Lra Arith.
From Flocq Require Import Core.Core.
From Verif Require Import Base BaseLemmas Num NumR DelayM LinDelayM DelaySpec DelayRun LinSpec LinRun LinCtlR LinFacts LinLemmas LinLemmas2 EchoSpec EchoLemmas EqSpec SchroederLemmas FracSpec.
Import ListNotations.
Open Scope R_scope.

Section G.
  Context (p : profile) (g d : R) (m : Z) (Hm : is_usize m) (Hf : fits R_ops m) (Hd : 1 <= d <= IZR m).

  Lemma lin_diffuse_gen xs : forall s ws0, past_lin p d m s ws0 ->
    exists s' ws ys, lin_diffuse R_ops p g s xs = Ok (s', ys) /\ length ws = length xs /\ length ys = length xs
      /\ forall n, (n < length xs)%nat ->
           nth n ws 0 = nth n xs 0 + g * lin_read d (ws0 ++ firstn n ws)
           /\ nth n ys 0 = lin_read d (ws0 ++ firstn n ws) - g * nth n ws 0.
  Proof using Hm Hf Hd.
    induction xs as [|x xs IH]; intros s ws0 H.
    - exists s, [], []. cbn. repeat split; auto; lia.
    - cbn [lin_diffuse]. destruct (past_lin_step p d m Hm Hf Hd s ws0 H) as [s1 [E1 H1]]. rewrite E1. cbn [bind].
      change (n_add R_ops x (n_mul R_ops g (lin_read d ws0))) with (x + g * lin_read d ws0). set (w := x + g * lin_read d ws0).
      destruct (H1 w) as [s2 [o [E2 H2]]]. rewrite E2. cbn [bind].
      destruct (IH s2 _ H2) as [s' [ws [ys [E [HW [HY Hn]]]]]]. rewrite E. cbn [bind].
      exists s', (w :: ws), (lin_read d ws0 - g * w :: ys). split; [reflexivity|].
      split; [cbn; lia|]. split; [cbn; lia|]. intros [|n] L; cbn [nth firstn].
      + rewrite app_nil_r. split; reflexivity.
      + cbn [length] in L. replace (ws0 ++ w :: firstn n ws) with ((ws0 ++ [w]) ++ firstn n ws) by (rewrite <- app_assoc; reflexivity).
        apply Hn. lia.
  Qed.

  Lemma past_lin_new : exists s, lin_new R_ctl R_ops p d m = Ok s /\ past_lin p d m s [].
  Proof using Hm Hf Hd.
    destruct (C22_interpolates_thm p d m (fun _ => 0) 0 Hm Hf ltac:(lra)) as [s E]. cbn [seq map] in E.
    exists s. split; [|exists []; exact E]. unfold lin_session in E. apply bind_Ok in E. destruct E as [s0 [En E]]. cbn [lin_run] in E.
    injection E as <-. exact En.
  Qed.
End G.

(** C128: on [LinearDelay::new(d, m)] with d = k + f at least one sample, the section never panics and
    obeys w[n] = x[n] + g v[n], y[n] = v[n] - g w[n], where v is w delayed by k + f samples. *)
Lemma C128_section_thm :
  forall (p : profile) (g d : R) (m : Z) (xs : list R),
    is_usize m -> fits R_ops m -> 1 <= d <= IZR m ->
    let k := Z.to_nat (Zfloor d) in let f := d - IZR (Zfloor d) in
    exists s ws ys, lin_diffuser R_ctl R_ops p g d m xs = Ok (s, ys) /\ length ws = length xs /\ length ys = length xs
      /\ forall n, (n < length xs)%nat ->
           let v := frac_behind k f (at_ 0 ws) n in
           at_ 0 ws n = at_ 0 xs n + g * v /\ at_ 0 ys n = v - g * at_ 0 ws n.
Proof.
  intros p g d m xs Hm Hf Hd k f. destruct (past_lin_new p d m Hm Hf Hd) as [s0 [E0 H0]].
  destruct (lin_diffuse_gen p g d m Hm Hf Hd xs s0 [] H0) as [s [ws [ys [E [HW [HY Hn]]]]]].
  exists s, ws, ys. unfold lin_diffuser. rewrite E0. cbn [bind]. split; [exact E|]. split; [exact HW|]. split; [exact HY|].
  assert (K : (1 <= k)%nat).
  { assert (1 <= Zfloor d)%Z by (apply Zfloor_lub; lra). unfold k. lia. }
  assert (V : forall n, (n < length xs)%nat -> lin_read d (firstn n ws) = frac_behind k f (at_ 0 ws) n).
  { intros n L. unfold lin_read, frac_behind. fold k f. rewrite !read_behind by lia. rewrite Nat.add_1_r. reflexivity. }
  intros n L. destruct (Hn n L) as [A B]. cbn [app] in A, B. rewrite V in A, B by exact L. split; [exact A|exact B].
Qed.
(*@PROP
(* two and a half samples on a line of seven *)
Example C128_section_hyps : is_usize 7 /\ fits R_ops 7 /\ 1 <= 5 / 2 <= IZR 7.
Proof. split; [easy|]. split; [discriminate|]. lra. Qed.
@*)

Lemma energy_frac k f w n :
  energy (frac_behind k f w) n = (1 - f) * energy w (n - k) + f * energy w (n - (k + 1)) - f * (1 - f) * energy (steps k w) n.
Proof.
  rewrite <- !energy_behind. induction n as [|n IH]; [cbn; ring|]. cbn [energy]. rewrite IH. unfold frac_behind, steps. ring.
Qed.

Lemma on_line_pos k f w n : 0 <= f <= 1 -> 0 <= on_line k f w n.
Proof.
  intros Hf. unfold on_line.
  assert (G : forall j, energy w (n - j) <= energy w n).
  { intros j. destruct (Nat.le_gt_cases j n) as [L|L].
    - assert (Q := energy_mono w (n - j) j). replace (n - j + j)%nat with n in Q by lia. exact Q.
    - replace (n - j)%nat with 0%nat by lia. apply (energy_pos w n). }
  assert (A := Rmult_le_compat_l (1 - f) _ _ ltac:(lra) (G k)). assert (B := Rmult_le_compat_l f _ _ ltac:(lra) (G (k + 1)%nat)). lra.
Qed.

(** C128: where the energy goes: what has come in is what has come out plus (1 - g^2) times what is still
    on the line and f (1 - f) times the energy of the steps that the interpolation smoothed away.  So for
    |g| <= 1 the section is passive at every delay. *)
Lemma C128_balance_thm :
  forall (p : profile) (g d : R) (m : Z) (xs : list R),
    is_usize m -> fits R_ops m -> 1 <= d <= IZR m ->
    let k := Z.to_nat (Zfloor d) in let f := d - IZR (Zfloor d) in
    exists s ws ys, lin_diffuser R_ctl R_ops p g d m xs = Ok (s, ys) /\ length ys = length xs
      /\ (forall n, (n < length xs)%nat -> at_ 0 ws n = at_ 0 xs n + g * frac_behind k f (at_ 0 ws) n)
      /\ (forall n, (n <= length xs)%nat ->
           energy (at_ 0 xs) n
           = energy (at_ 0 ys) n + (1 - g * g) * (on_line k f (at_ 0 ws) n + f * (1 - f) * energy (steps k (at_ 0 ws)) n)
           /\ 0 <= on_line k f (at_ 0 ws) n)
      /\ (Rabs g <= 1 -> forall n, (n <= length xs)%nat -> energy (at_ 0 ys) n <= energy (at_ 0 xs) n).
Proof.
  intros p g d m xs Hm Hf Hd k f. destruct (C128_section_thm p g d m xs Hm Hf Hd) as [s [ws [ys [E [HW [HY H]]]]]].
  fold k f in H. exists s, ws, ys. split; [exact E|]. split; [exact HY|]. split; [intros n L; apply H, L|].
  assert (F : 0 <= f <= 1).
  { unfold f. assert (A := Zfloor_lb d). assert (B := Zfloor_ub d). lra. }
  assert (Bal : forall n, (n <= length xs)%nat -> energy (at_ 0 xs) n
           = energy (at_ 0 ys) n + (1 - g * g) * (on_line k f (at_ 0 ws) n + f * (1 - f) * energy (steps k (at_ 0 ws)) n)).
  { intros n Hn. transitivity (energy (at_ 0 ys) n + (1 - g * g) * (energy (at_ 0 ws) n - energy (frac_behind k f (at_ 0 ws)) n)).
    - induction n as [|n IH]; [cbn; ring|]. cbn [energy]. rewrite IH by lia. destruct (H n ltac:(lia)) as [A B].
      set (v := frac_behind k f (at_ 0 ws) n) in *. rewrite B. replace (at_ 0 xs n) with (at_ 0 ws n - g * v) by lra. ring.
    - rewrite energy_frac. unfold on_line. ring. }
  split; [intros n Hn; split; [apply Bal, Hn|apply on_line_pos, F]|].
  intros Hg n Hn. rewrite (Bal n Hn). assert (A := on_line_pos k f (at_ 0 ws) n F). assert (B := energy_pos (steps k (at_ 0 ws)) n).
  assert (G : g * g <= 1) by (apply Rabs_le_inv in Hg; nra).
  assert (C : 0 <= f * (1 - f) * energy (steps k (at_ 0 ws)) n) by (apply Rmult_le_pos; [apply Rmult_le_pos; lra|exact B]).
  assert (D : 0 <= (1 - g * g) * (on_line k f (at_ 0 ws) n + f * (1 - f) * energy (steps k (at_ 0 ws)) n)) by (apply Rmult_le_pos; lra). lra.
Qed.
(*@PROP
Example C128_balance_hyps : is_usize 7 /\ fits R_ops 7 /\ 1 <= 5 / 2 <= IZR 7 /\ Rabs (7 / 10) <= 1.
Proof. split; [easy|]. split; [discriminate|]. split; [lra|]. apply Rabs_le. lra. Qed.
@*)

(** C128: the feedback comb y[n] = x[n] + g v[n] on a fractional delay amplifies energy by at most
    1 / (1 - |g|)^2. *)
Lemma C128_comb_energy_thm :
  forall (p : profile) (g d : R) (m : Z) (xs : list R),
    is_usize m -> fits R_ops m -> 1 <= d <= IZR m -> Rabs g < 1 ->
    exists s ys, lin_echo R_ctl R_ops p (feedback R_ops g) d m xs = Ok (s, ys) /\ length ys = length xs
      /\ forall n, (n <= length xs)%nat -> (1 - Rabs g) * (1 - Rabs g) * energy (at_ 0 ys) n <= energy (at_ 0 xs) n.
Proof.
  intros p g d m xs Hm Hf Hd Hg.
  destruct (C106_linear_echo_thm p (feedback R_ops g) d m xs Hm Hf Hd) as [s [ys [E [L [H _]]]]].
  exists s, ys. split; [exact E|]. split; [exact L|]. set (k := Z.to_nat (Zfloor d)) in *. set (f := d - IZR (Zfloor d)) in *.
  assert (F : 0 <= f <= 1).
  { unfold f. assert (A := Zfloor_lb d). assert (B := Zfloor_ub d). lra. }
  intros n Hn. set (y := at_ 0 ys) in *. set (x := at_ 0 xs) in *. set (a := Rabs g) in *. assert (A0 : 0 <= a) by apply Rabs_pos.
  assert (G : (1 - a) * energy y n <= energy x n + a * (1 - a) * energy (frac_behind k f y) n).
  { clear L E. induction n as [|n IH]; [cbn; lra|]. cbn [energy]. specialize (IH ltac:(lia)).
    assert (Q := H n ltac:(lia)). fold y x in Q. unfold feedback in Q. cbn [n_add n_mul R_ops] in Q.
    change ((1 - f) * behind 0 y k n + f * behind 0 y (k + 1) n) with (frac_behind k f y n) in Q.
    set (v := frac_behind k f y n) in *. set (xn := x n) in *. rewrite Q.
    assert (P : (1 - a) * ((xn + g * v) * (xn + g * v)) <= xn * xn + a * (1 - a) * (v * v)).
    { assert (Sg : g = a \/ g = - a) by (unfold a, Rabs; destruct (Rcase_abs g); lra).
      clearbody a. destruct Sg as [-> | ->].
      - assert (W : 0 <= a * ((xn - (1 - a) * v) * (xn - (1 - a) * v))) by (apply Rmult_le_pos; [exact A0|apply Rle_0_sqr]). nra.
      - assert (W : 0 <= a * ((xn + (1 - a) * v) * (xn + (1 - a) * v))) by (apply Rmult_le_pos; [exact A0|apply Rle_0_sqr]). nra. }
    lra. }
  assert (P := on_line_pos k f y n F). assert (Q := energy_pos (steps k y) n).
  assert (W : energy (frac_behind k f y) n <= energy y n).
  { rewrite energy_frac. unfold on_line in P. assert (0 <= f * (1 - f) * energy (steps k y) n) by (apply Rmult_le_pos; [apply Rmult_le_pos; lra|exact Q]). lra. }
  assert (Z := Rmult_le_compat_l (a * (1 - a)) _ _ ltac:(apply Rmult_le_pos; lra) W). lra.
Qed.
(*@PROP
Example C128_comb_energy_hyps : is_usize 7 /\ fits R_ops 7 /\ 1 <= 5 / 2 <= IZR 7 /\ Rabs (7 / 10) < 1.
Proof. split; [easy|]. split; [discriminate|]. split; [lra|]. rewrite Rabs_pos_eq; lra. Qed.
@*)
