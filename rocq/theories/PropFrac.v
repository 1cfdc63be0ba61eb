(** Property C128: sections with a fractional delay, built on [LinearDelay], in exact arithmetic.

    Vocabulary: [lin_diffuser], [frac_behind], [on_line], [steps] ([FracSpec]); [lin_echo], [feedback]
    ([EchoSpec]); [energy x n]: the sum of the squares of the first [n] samples ([EqSpec]). *)
From Coq Require Import ZArith Reals List Bool Lia Lra.
From Flocq Require Import Core.Core.
From Verif Require Import Base Num NumR DelayM DelaySpec DelayRun LinDelayM LinRun EchoSpec EqSpec FracSpec FracLemmas.
Import ListNotations.
Open Scope R_scope.

(** C128: on [LinearDelay::new(d, m)] with d = k + f at least one sample, the section never panics and
    obeys w[n] = x[n] + g v[n], y[n] = v[n] - g w[n], where v is w delayed by k + f samples. *)
Theorem C128_section :
  forall (p : profile) (g d : R) (m : Z) (xs : list R),
    is_usize m -> fits R_ops m -> 1 <= d <= IZR m ->
    let k := Z.to_nat (Zfloor d) in let f := d - IZR (Zfloor d) in
    exists s ws ys, lin_diffuser R_ctl R_ops p g d m xs = Ok (s, ys) /\ length ws = length xs /\ length ys = length xs
      /\ forall n, (n < length xs)%nat ->
           let v := frac_behind k f (at_ 0 ws) n in
           at_ 0 ws n = at_ 0 xs n + g * v /\ at_ 0 ys n = v - g * at_ 0 ws n.
Proof. exact C128_section_thm. Qed.
Print Assumptions C128_section.

(* two and a half samples on a line of seven *)
Example C128_section_hyps : is_usize 7 /\ fits R_ops 7 /\ 1 <= 5 / 2 <= IZR 7.
Proof. split; [easy|]. split; [discriminate|]. lra. Qed.

(** C128: where the energy goes: what has come in is what has come out plus (1 - g^2) times what is still
    on the line and f (1 - f) times the energy of the steps that the interpolation smoothed away.  So for
    |g| <= 1 the section is passive at every delay. *)
Theorem C128_balance :
  forall (p : profile) (g d : R) (m : Z) (xs : list R),
    is_usize m -> fits R_ops m -> 1 <= d <= IZR m ->
    let k := Z.to_nat (Zfloor d) in let f := d - IZR (Zfloor d) in
    exists s ws ys, lin_diffuser R_ctl R_ops p g d m xs = Ok (s, ys) /\ length ys = length xs
      /\ (forall n, (n < length xs)%nat -> at_ 0 ws n = at_ 0 xs n + g * frac_behind k f (at_ 0 ws) n)
      /\ (forall n, (n <= length xs)%nat ->
           energy (at_ 0 xs) n
           = energy (at_ 0 ys) n + (1 - g * g) * (on_line k f (at_ 0 ws) n + f * (1 - f) * energy (steps k (at_ 0 ws)) n)
           /\ 0 <= on_line k f (at_ 0 ws) n)
      /\ (Rabs g <= 1 -> forall n, (n <= length xs)%nat -> energy (at_ 0 ys) n <= energy (at_ 0 xs) n).
Proof. exact C128_balance_thm. Qed.
Print Assumptions C128_balance.

Example C128_balance_hyps : is_usize 7 /\ fits R_ops 7 /\ 1 <= 5 / 2 <= IZR 7 /\ Rabs (7 / 10) <= 1.
Proof. split; [easy|]. split; [discriminate|]. split; [lra|]. apply Rabs_le. lra. Qed.

(** C128: the feedback comb y[n] = x[n] + g v[n] on a fractional delay amplifies energy by at most
    1 / (1 - |g|)^2. *)
Theorem C128_comb_energy :
  forall (p : profile) (g d : R) (m : Z) (xs : list R),
    is_usize m -> fits R_ops m -> 1 <= d <= IZR m -> Rabs g < 1 ->
    exists s ys, lin_echo R_ctl R_ops p (feedback R_ops g) d m xs = Ok (s, ys) /\ length ys = length xs
      /\ forall n, (n <= length xs)%nat -> (1 - Rabs g) * (1 - Rabs g) * energy (at_ 0 ys) n <= energy (at_ 0 xs) n.
Proof. exact C128_comb_energy_thm. Qed.
Print Assumptions C128_comb_energy.

Example C128_comb_energy_hyps : is_usize 7 /\ fits R_ops 7 /\ 1 <= 5 / 2 <= IZR 7 /\ Rabs (7 / 10) < 1.
Proof. split; [easy|]. split; [discriminate|]. split; [lra|]. rewrite Rabs_pos_eq; lra. Qed.
