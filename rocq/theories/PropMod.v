(** Property C108: delay lines whose delay changes with every sample.

    Vocabulary: [ModSpec] ([modulated], [heard], [earlier], [steps_within]);
    [dl_session O p d0 m ops] is [Delay::new(d0, m)] followed by the calls [ops] ([DelayRun]),
    [lin_session K O p d0 m ops] the same for [LinearDelay] ([LinRun]);
    [behind zero x k n] is the sample [k] before number [n], [zero] before the start;
    [fits O m]: a buffer for [m] samples of delay can be allocated. *)
From Coq Require Import ZArith Reals List Bool Lia Lra.
From Verif Require Import Base Num NumR NumF Witness DelayM LinDelayM DelaySpec DelayRun LinRun ModSpec ModLemmas.
Import ListNotations.
Open Scope R_scope.

(** C108: a [Delay] whose delay is set before every sample, to whatever values, returns at
    step [n] exactly the input sample min(d(n), m) earlier: in every arithmetic. *)

Theorem C108_modulated_delay :
  forall (T : Type) (O : num_ops T) (p : profile) (d0 m : Z) (d : nat -> Z) (x : nat -> T) (n : nat),
    (1 <= n_size_of O)%Z -> is_usize d0 -> is_usize m -> fits O m -> (forall i, is_usize (d i)) ->
    exists s, dl_session O p d0 m (modulated d x n)
      = Ok (s, heard (fun i => behind (n_zero O) x (Z.to_nat (Z.min (d i) m)) i) n).
Proof. exact C108_modulated_delay_thm. Qed.
Print Assumptions C108_modulated_delay.

Example C108_modulated_delay_hyps :
  (1 <= n_size_of O64)%Z /\ is_usize 2 /\ is_usize 3 /\ fits O64 3
  /\ forall i : nat, is_usize ((fun i => if Nat.even i then 1 else 7)%Z i).
Proof. repeat split; try easy; cbn beta; destruct (Nat.even i); easy. Qed.

(** C108, [LinearDelay] in exact arithmetic: with the delay set before every sample to any
    value, fractional or not, step [n] returns the input signal exactly d(n) samples earlier
    (with d(n) clipped to [0, m]), interpolated linearly between its samples. *)

Theorem C108_modulated_linear :
  forall (p : profile) (d0 : R) (m : Z) (d x : nat -> R) (n : nat),
    is_usize m -> fits R_ops m ->
    exists s, lin_session R_ctl R_ops p d0 m (modulated d x n)
      = Ok (s, heard (fun i => earlier x (Rmax 0 (Rmin (d i) (IZR m))) i) n).
Proof. exact C108_modulated_linear_thm. Qed.
Print Assumptions C108_modulated_linear.

Example C108_modulated_linear_hyps : is_usize 7 /\ fits R_ops 7.
Proof. split; [easy|discriminate]. Qed.

(** C108, no clicks: if the input moves by at most [L] per sample, the output of a modulated
    [LinearDelay] moves by at most L * |1 - (d' - d)| between two samples whose (clipped)
    delays are [d] and [d']: sweeping the delay by at most [r] samples per sample at most
    multiplies the steps of the signal by 1 + r, and a delay that grows by one sample per
    sample freezes the output. *)

Theorem C108_no_clicks :
  forall (p : profile) (d0 : R) (m : Z) (d x : nat -> R) (L : R) (n : nat),
    is_usize m -> fits R_ops m -> steps_within L x ->
    exists s y, lin_session R_ctl R_ops p d0 m (modulated d x n) = Ok (s, heard y n)
      /\ (forall i, Rabs (y (S i) - y i) <= L * Rabs (1 - (Rmax 0 (Rmin (d (S i)) (IZR m)) - Rmax 0 (Rmin (d i) (IZR m)))))
      /\ (forall r, (forall i, Rabs (d (S i) - d i) <= r) -> forall i, Rabs (y (S i) - y i) <= L * (1 + r)).
Proof. exact C108_no_clicks_thm. Qed.
Print Assumptions C108_no_clicks.

(** A staircase of height 1/2 per sample, and a delay swept down by 1/4 sample per sample. *)
Example C108_no_clicks_hyps :
  let x := fun i => if Nat.even i then 1 / 2 else 0 in let d := fun i => 5 - INR i / 4 in
  is_usize 7 /\ fits R_ops 7 /\ steps_within (1 / 2) x /\ forall i, Rabs (d (S i) - d i) <= 1 / 4.
Proof.
  intros x d. unfold x, d. split; [easy|]. split; [discriminate|]. split.
  - split; [cbn; rewrite Rabs_pos_eq; lra|]. intros i. rewrite Nat.even_succ, <- Nat.negb_even.
    destruct (Nat.even i); cbn; [rewrite Rabs_minus_sym|]; rewrite Rabs_pos_eq; lra.
  - intros i. rewrite S_INR. replace (_ - _) with (- (1 / 4)) by field. rewrite Rabs_Ropp, Rabs_pos_eq; lra.
Qed.
