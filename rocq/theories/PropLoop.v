(** Property C126: a looper built on [Delay].

    Vocabulary: [looper], [overdub] ([LoopSpec]); [dl_history O p d m ops s]: [s] is the state after [Delay::new(d, m)] and
    the calls [ops]; [timing_trusted ops]: no [set_max_delay] since the last [set_delay] ([DelayRun]). *)
From Coq Require Import ZArith Reals List Bool Lia Lra.
From Verif Require Import Base Num NumR NumF Witness DelayM DelaySpec DelayRun DelayLemmas LoopSpec LoopLemmas.
Import ListNotations.
Open Scope Z_scope.

Ltac sane := repeat constructor; unfold op_sane, is_usize, op_usize; repeat split;
  try discriminate; try (intros; discriminate); easy.
Ltac history := unfold dl_history, is_usize; split; [easy|];
  split; [easy|]; split; [discriminate|]; split; [sane|];
  eexists; vm_compute; reflexivity.

(** C126: whatever happened to a [Delay] before, playing its last [get_delay()] samples back with
    [process(next_out())] never panics and repeats them bit for bit, for ever: after [n] samples the loop
    is the same as before, only turned by [n] positions. *)
Theorem C126_looper :
  forall (T : Type) (O : num_ops T) (p : profile) (d m : Z) (ops : list (dl_op Z T)) (s : delay T) (n : nat),
    1 <= n_size_of O -> dl_history O p d m ops s -> timing_trusted ops -> 1 <= delay_get_delay s ->
    let D := delay_get_delay s in
    exists s' ys, looper p s n = Ok (s', ys) /\ length ys = n
      /\ (forall i, (i < n)%nat -> delay_tap_out p s ((- 1 - Z.of_nat i) mod D) = Ok (nth i ys (n_zero O)))
      /\ (forall t, 0 <= t < D -> delay_tap_out p s' t = delay_tap_out p s ((t - Z.of_nat n) mod D))
      /\ delay_get_delay s' = D.
Proof. exact C126_looper_thm. Qed.
Print Assumptions C126_looper.

(* three recorded samples a, b, c, played back for seven samples: a, b, c, a, b, c, a *)
Example C126_looper_hyps (a b c : f64) :
  exists s s', dl_history O64 Debug 3 7 [DProcess a; DProcess b; DProcess c] s
    /\ timing_trusted (T := f64) [DProcess a; DProcess b; DProcess c] /\ delay_get_delay s = 3
    /\ looper Debug s 7 = Ok (s', [a; b; c; a; b; c; a]).
Proof.
  eexists. eexists. split; [history|]. split; [reflexivity|]. split; [reflexivity|vm_compute; reflexivity].
Qed.

(** C126: overdubbing mixes every new sample with the sample one loop earlier: first with the recording,
    then with the loop's own output, exactly, in every arithmetic and for every mixing function. *)
Theorem C126_overdub :
  forall (T : Type) (O : num_ops T) (p : profile) (mix : T -> T -> T) (d m : Z) (ops : list (dl_op Z T)) (s : delay T) (xs : list T),
    1 <= n_size_of O -> dl_history O p d m ops s -> timing_trusted ops -> 1 <= delay_get_delay s ->
    let D := delay_get_delay s in
    exists s' ys, overdub p mix s xs = Ok (s', ys) /\ length ys = length xs
      /\ forall n, (n < length xs)%nat -> exists v,
           nth n ys (n_zero O) = mix (nth n xs (n_zero O)) v
           /\ (Z.of_nat n < D -> delay_tap_out p s (D - 1 - Z.of_nat n) = Ok v)
           /\ (D <= Z.of_nat n -> v = nth (n - Z.to_nat D) ys (n_zero O)).
Proof. exact C126_overdub_thm. Qed.
Print Assumptions C126_overdub.

(* a recording a, b, overdubbed with u, v, w *)
Example C126_overdub_hyps (mix : f64 -> f64 -> f64) (a b u v w : f64) :
  exists s s', dl_history O64 Debug 2 7 [DProcess a; DProcess b] s
    /\ timing_trusted (T := f64) [DProcess a; DProcess b] /\ delay_get_delay s = 2
    /\ overdub Debug mix s [u; v; w] = Ok (s', [mix u a; mix v b; mix w (mix u a)]).
Proof.
  eexists. eexists. split; [history|]. split; [reflexivity|]. split; [reflexivity|vm_compute; reflexivity].
Qed.

(** C126: in exact arithmetic, overdubbing with a plain sum stacks the layers: after k loops a position
    holds the recording plus everything played there. *)
Theorem C126_layers :
  forall (p : profile) (d m : Z) (ops : list (dl_op Z R)) (s : delay R) (xs : list R),
    dl_history R_ops p d m ops s -> timing_trusted ops -> 1 <= delay_get_delay s ->
    let D := delay_get_delay s in
    exists s' ys, overdub p Rplus s xs = Ok (s', ys) /\ length ys = length xs
      /\ forall i k : nat, Z.of_nat i < D -> (i + k * Z.to_nat D < length xs)%nat -> exists v,
           delay_tap_out p s (D - 1 - Z.of_nat i) = Ok v
           /\ nth (i + k * Z.to_nat D) ys 0%R = (v + sum_f_R0 (fun j => nth (i + j * Z.to_nat D) xs 0%R) k)%R.
Proof. exact C126_layers_thm. Qed.
Print Assumptions C126_layers.

(* a recording a, b, overdubbed with u, v, w *)
Example C126_layers_hyps (a b u v w : R) :
  exists s s', dl_history R_ops Debug 2 7 [DProcess a; DProcess b] s
    /\ timing_trusted (T := R) [DProcess a; DProcess b] /\ delay_get_delay s = 2
    /\ overdub Debug Rplus s [u; v; w] = Ok (s', [u + a; v + b; w + (u + a)]%R).
Proof.
  eexists. eexists. split; [history|]. split; [reflexivity|]. split; [reflexivity|vm_compute; reflexivity].
Qed.
