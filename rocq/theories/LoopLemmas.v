(** Lemmas behind property C126.  The [@PROP] blocks are copied into [PropLoop.v]. *)
(*@PROP
(** Property C126: a looper built on [Delay].

    Vocabulary: [looper], [overdub] ([LoopSpec]); [dl_history O p d m ops s]: [s] is the state after [Delay::new(d, m)] and
    the calls [ops]; [timing_trusted ops]: no [set_max_delay] since the last [set_delay] ([DelayRun]). *)
From Coq Require Import ZArith Reals List Bool Lia Lra.
From Verif Require Import Base Num NumR NumF Witness DelayM DelaySpec DelayRun DelayLemmas LoopSpec LoopLemmas.
Import ListNotations.
Open Scope Z_scope.

Ltac sane := repeat constructor; unfold op_sane, is_usize, op_usize; repeat split;
  try discriminate; try (intros; discriminate); easy.
Ltac history := unfold dl_history, is_usize; split; [easy|];
  split; [easy|]; split; [discriminate|]; split; [sane|];
  eexists; vm_compute; reflexivity.
@*)
From Coq Require Import ZArith Reals List Bool Lia Lra.
From Verif Require Import Base BaseLemmas Num NumR NumF Witness DelayM DelaySpec DelayRun DelayFacts DelayLemmas EchoSpec LoopSpec.
Import ListNotations.
Open Scope Z_scope.

Section L.
  Context {T : Type} (O : num_ops T) (p : profile) (Hs : 1 <= n_size_of O).

  Definition good (d m : Z) (s : delay T) (D : Z) : Prop :=
    delay_get_delay s = D /\ exists ops, dl_history O p d m ops s /\ timing_trusted ops.

  Lemma dl_snoc d m ops (s s' : delay T) x y : dl_history O p d m ops s -> timing_trusted ops -> delay_process p s x = Ok (s', y) ->
    dl_history O p d m (ops ++ [DProcess x]) s' /\ timing_trusted (ops ++ [DProcess x]).
  Proof.
    intros [H1 [H2 [H3 [H4 [os H5]]]]] Ht E. split.
    - split; [exact H1|]. split; [exact H2|]. split; [exact H3|]. split.
      + apply Forall_app. split; [exact H4|]. repeat constructor. discriminate.
      + unfold dl_session in *. apply bind_Ok in H5. destruct H5 as [s0 [En H5]]. exists (os ++ [OSample y]). rewrite En. cbn [bind].
        clear - H5 E. revert s0 os H5. induction ops as [|op ops IH]; intros s0 os H5.
        * cbn in H5. injection H5 as <- <-. cbn [app dl_run dl_step]. rewrite E. reflexivity.
        * cbn [app dl_run] in *. apply bind_Ok in H5. destruct H5 as [[s1 o] [E1 H5]]. rewrite E1. cbn [bind].
          apply bind_Ok in H5. destruct H5 as [[s2 os'] [E2 H5]]. injection H5 as <- <-. rewrite (IH s1 os' E2). reflexivity.
    - unfold timing_trusted in *. rewrite fold_left_app. cbn [fold_left]. exact Ht.
  Qed.

  Lemma process_keeps_delay (s s' : delay T) x y : delay_process p s x = Ok (s', y) -> delay_get_delay s' = delay_get_delay s.
  Proof.
    unfold delay_process. intros E. repeat (apply bind_Ok in E; destruct E as [? [? E]]). injection E as <- <-. reflexivity.
  Qed.

  Lemma delay_le_max d m s D mx : good d m s D -> delay_get_max_delay p s = Ok mx -> 1 <= D -> D <= mx.
  Proof using Hs.
    intros [HD [ops [Hh Ht]]] Hmx H1. destruct (history_trusted O p Hs d m ops s Hh Ht) as [Hi Hl].
    assert (Q := lag_lt O s Hi). unfold delay_get_delay in HD. rewrite Hl, HD in Q.
    rewrite (get_max_ok O p s Hs Hi) in Hmx. injection Hmx as <-. lia.
  Qed.

  (** One round: peek, then process any [y]. *)
  Lemma round d m s D y : good d m s D -> 1 <= D ->
    exists v s', delay_next_out s = Ok v /\ delay_tap_out p s (D - 1) = Ok v
      /\ (exists o, delay_process p s y = Ok (s', o)) /\ good d m s' D /\ delay_tap_out p s' 0 = Ok y
      /\ forall t, 0 <= t < D -> delay_tap_out p s' (t + 1) = delay_tap_out p s t.
  Proof using Hs.
    intros HG HD. assert (HG' := HG). destruct HG' as [Hd [ops [Hh Ht]]].
    destruct (C12_next_out_predicts_thm T O p d m ops s Hs Hh) as [v [Ev Hv]]; [lia|].
    destruct (C08_delay_outputs_tap_thm T O p d m ops s y Hs Hh Ht) as [s1 [o [E1 [_ Et]]]].
    destruct (Hv y) as [s' E']. rewrite E' in E1. injection E1 as <- <-.
    exists v, s'. split; [exact Ev|]. split; [rewrite <- Hd; apply Et; lia|]. split; [exists v; exact E'|].
    destruct (dl_snoc d m ops s s' y v Hh Ht E') as [Hh' Ht'].
    split; [split; [rewrite (process_keeps_delay _ _ _ _ E'); exact Hd|eexists; split; eassumption]|].
    destruct (C13_process_shifts_taps_thm T O p d m ops s s' y v Hs Hh E') as [A [mx [Emx B]]].
    split; [exact A|]. intros t Ht0. apply B. assert (Q := delay_le_max d m s D mx HG Emx HD). lia.
  Qed.

  Lemma loop_run d m D n : 1 <= D -> forall s, good d m s D -> exists s' ys, looper p s n = Ok (s', ys) /\ length ys = n
    /\ (forall i, (i < n)%nat -> delay_tap_out p s ((- 1 - Z.of_nat i) mod D) = Ok (nth i ys (n_zero O)))
    /\ (forall t, 0 <= t < D -> delay_tap_out p s' t = delay_tap_out p s ((t - Z.of_nat n) mod D))
    /\ good d m s' D.
  Proof using Hs.
    intros HD. induction n as [|n IH]; intros s HG.
    - exists s, []. split; [reflexivity|]. split; [reflexivity|]. split; [intros i Hi; lia|]. split; [|exact HG].
      intros t Ht. rewrite Z.mod_small by lia. f_equal. lia.
    - assert (W : exists v, delay_next_out s = Ok v).
      { destruct (round d m s D (n_zero O) HG HD) as [v [_ [E _]]]. exists v. exact E. }
      destruct W as [v Ev]. destruct (round d m s D v HG HD) as [v' [s1 [E1 [Et [[o E2] [HG1 [T0 TS]]]]]]].
      rewrite Ev in E1. injection E1 as <-.
      destruct (IH s1 HG1) as [s' [ys [EL [LL [Hy [Ht HG']]]]]].
      assert (Rot : forall a, 0 <= a < D -> delay_tap_out p s1 a = delay_tap_out p s ((a - 1) mod D)).
      { intros a Ha. destruct (Z.eq_dec a 0) as [->|Ha0].
        - replace ((0 - 1) mod D) with (D - 1) by (apply Z.mod_unique with (-1); lia). rewrite T0. symmetry. exact Et.
        - rewrite Z.mod_small by lia. rewrite <- (TS (a - 1)) by lia. f_equal. lia. }
      exists s', (v :: ys). split; [cbn [looper]; rewrite Ev; cbn [bind]; rewrite E2; cbn [bind]; rewrite EL; reflexivity|].
      split; [cbn [length]; lia|]. split; [|split; [|exact HG']].
      + intros [|i] Hi.
        * cbn [nth]. replace ((-1 - Z.of_nat 0) mod D) with (D - 1) by (apply Z.mod_unique with (-1); cbn; lia). exact Et.
        * cbn [nth]. rewrite <- (Hy i) by lia. rewrite Rot by (apply Z.mod_pos_bound; lia). f_equal.
          rewrite Zminus_mod_idemp_l. f_equal. lia.
      + intros t Htt. rewrite (Ht t Htt). rewrite Rot by (apply Z.mod_pos_bound; lia). f_equal.
        rewrite Zminus_mod_idemp_l. f_equal. lia.
  Qed.

  Lemma dub_run d m D mix xs : 1 <= D -> forall s, good d m s D -> exists s' ys, overdub p mix s xs = Ok (s', ys) /\ length ys = length xs
    /\ forall n, (n < length xs)%nat -> exists v,
         nth n ys (n_zero O) = mix (nth n xs (n_zero O)) v
         /\ (Z.of_nat n < D -> delay_tap_out p s (D - 1 - Z.of_nat n) = Ok v)
         /\ (D <= Z.of_nat n -> v = nth (n - Z.to_nat D) ys (n_zero O)).
  Proof using Hs.
    intros HD. induction xs as [|x xs IH]; intros s HG.
    - exists s, []. split; [reflexivity|]. split; [reflexivity|]. intros n Hn. cbn in Hn. lia.
    - assert (W : exists v, delay_next_out s = Ok v).
      { destruct (round d m s D (n_zero O) HG HD) as [v [_ [E _]]]. exists v. exact E. }
      destruct W as [v Ev]. destruct (round d m s D (mix x v) HG HD) as [v' [s1 [E1 [Et [[o E2] [HG1 [T0 TS]]]]]]].
      rewrite Ev in E1. injection E1 as <-.
      destruct (IH s1 HG1) as [s' [ys [EL [LL Hy]]]]. exists s', (mix x v :: ys).
      split; [unfold overdub in *; cbn [echo]; rewrite Ev; cbn [bind]; rewrite E2; cbn [bind]; rewrite EL; reflexivity|].
      split; [cbn [length]; lia|]. intros [|n] Hn.
      + exists v. cbn [nth]. split; [reflexivity|]. split; [intros _; rewrite <- Et; f_equal; cbn; lia|]. cbn. lia.
      + cbn [length] in Hn. destruct (Hy n ltac:(lia)) as [u [Hu [A B]]].
        destruct (Z.lt_trichotomy (Z.of_nat (S n)) D) as [Lt|[Eq|Gt]].
        * exists u. cbn [nth]. split; [exact Hu|]. split; [|lia]. intros _.
          rewrite <- (TS (D - 1 - Z.of_nat (S n))) by lia. rewrite <- A by lia. f_equal. lia.
        * exists u. cbn [nth]. split; [exact Hu|]. split; [lia|]. intros _.
          replace (S n - Z.to_nat D)%nat with 0%nat by lia. cbn [nth].
          assert (Q := A ltac:(lia)). replace (D - 1 - Z.of_nat n) with 0 in Q by lia. rewrite T0 in Q. congruence.
        * exists u. cbn [nth]. split; [exact Hu|]. split; [lia|]. intros _. rewrite (B ltac:(lia)).
          replace (S n - Z.to_nat D)%nat with (S (n - Z.to_nat D)) by lia. reflexivity.
  Qed.
End L.

(** C126: whatever happened to a [Delay] before, playing its last [get_delay()] samples back with
    [process(next_out())] never panics and repeats them bit for bit, for ever: after [n] samples the loop
    is the same as before, only turned by [n] positions. *)
Lemma C126_looper_thm :
  forall (T : Type) (O : num_ops T) (p : profile) (d m : Z) (ops : list (dl_op Z T)) (s : delay T) (n : nat),
    1 <= n_size_of O -> dl_history O p d m ops s -> timing_trusted ops -> 1 <= delay_get_delay s ->
    let D := delay_get_delay s in
    exists s' ys, looper p s n = Ok (s', ys) /\ length ys = n
      /\ (forall i, (i < n)%nat -> delay_tap_out p s ((- 1 - Z.of_nat i) mod D) = Ok (nth i ys (n_zero O)))
      /\ (forall t, 0 <= t < D -> delay_tap_out p s' t = delay_tap_out p s ((t - Z.of_nat n) mod D))
      /\ delay_get_delay s' = D.
Proof.
  intros T O p d m ops s n Hs Hh Ht HD D.
  destruct (loop_run O p Hs d m D n HD s) as [s' [ys [E [L [A [B [G _]]]]]]]; [split; [reflexivity|exists ops; split; assumption]|].
  exists s', ys. repeat (split; [assumption|]). exact G.
Qed.

(*@PROP
(* three recorded samples a, b, c, played back for seven samples: a, b, c, a, b, c, a *)
Example C126_looper_hyps (a b c : f64) :
  exists s s', dl_history O64 Debug 3 7 [DProcess a; DProcess b; DProcess c] s
    /\ timing_trusted (T := f64) [DProcess a; DProcess b; DProcess c] /\ delay_get_delay s = 3
    /\ looper Debug s 7 = Ok (s', [a; b; c; a; b; c; a]).
Proof.
  eexists. eexists. split; [history|]. split; [reflexivity|]. split; [reflexivity|vm_compute; reflexivity].
Qed.
@*)

(** C126: overdubbing mixes every new sample with the sample one loop earlier: first with the recording,
    then with the loop's own output, exactly, in every arithmetic and for every mixing function. *)
Lemma C126_overdub_thm :
  forall (T : Type) (O : num_ops T) (p : profile) (mix : T -> T -> T) (d m : Z) (ops : list (dl_op Z T)) (s : delay T) (xs : list T),
    1 <= n_size_of O -> dl_history O p d m ops s -> timing_trusted ops -> 1 <= delay_get_delay s ->
    let D := delay_get_delay s in
    exists s' ys, overdub p mix s xs = Ok (s', ys) /\ length ys = length xs
      /\ forall n, (n < length xs)%nat -> exists v,
           nth n ys (n_zero O) = mix (nth n xs (n_zero O)) v
           /\ (Z.of_nat n < D -> delay_tap_out p s (D - 1 - Z.of_nat n) = Ok v)
           /\ (D <= Z.of_nat n -> v = nth (n - Z.to_nat D) ys (n_zero O)).
Proof.
  intros T O p mix d m ops s xs Hs Hh Ht HD D.
  apply (dub_run O p Hs d m D mix xs HD s). split; [reflexivity|exists ops; split; assumption].
Qed.

(*@PROP
(* a recording a, b, overdubbed with u, v, w *)
Example C126_overdub_hyps (mix : f64 -> f64 -> f64) (a b u v w : f64) :
  exists s s', dl_history O64 Debug 2 7 [DProcess a; DProcess b] s
    /\ timing_trusted (T := f64) [DProcess a; DProcess b] /\ delay_get_delay s = 2
    /\ overdub Debug mix s [u; v; w] = Ok (s', [mix u a; mix v b; mix w (mix u a)]).
Proof.
  eexists. eexists. split; [history|]. split; [reflexivity|]. split; [reflexivity|vm_compute; reflexivity].
Qed.
@*)

(** C126: in exact arithmetic, overdubbing with a plain sum stacks the layers: after k loops a position
    holds the recording plus everything played there. *)
Lemma C126_layers_thm :
  forall (p : profile) (d m : Z) (ops : list (dl_op Z R)) (s : delay R) (xs : list R),
    dl_history R_ops p d m ops s -> timing_trusted ops -> 1 <= delay_get_delay s ->
    let D := delay_get_delay s in
    exists s' ys, overdub p Rplus s xs = Ok (s', ys) /\ length ys = length xs
      /\ forall i k : nat, Z.of_nat i < D -> (i + k * Z.to_nat D < length xs)%nat -> exists v,
           delay_tap_out p s (D - 1 - Z.of_nat i) = Ok v
           /\ nth (i + k * Z.to_nat D) ys 0%R = (v + sum_f_R0 (fun j => nth (i + j * Z.to_nat D) xs 0%R) k)%R.
Proof.
  intros p d m ops s xs Hh Ht HD D.
  destruct (C126_overdub_thm R R_ops p Rplus d m ops s xs ltac:(cbn; lia) Hh Ht HD) as [s' [ys [E [L H]]]].
  fold D in H. exists s', ys. split; [exact E|]. split; [exact L|]. intros i k Hi. induction k as [|k IH]; intros Hk.
  - rewrite Nat.mul_0_l, Nat.add_0_r in *. destruct (H i Hk) as [v [A [B _]]]. exists v. split; [apply B, Hi|].
    cbn [sum_f_R0]. rewrite Nat.mul_0_l, Nat.add_0_r. change (n_zero R_ops) with 0%R in A. rewrite A. ring.
  - assert (W : (i + S k * Z.to_nat D)%nat = (i + k * Z.to_nat D + Z.to_nat D)%nat) by (cbn; lia).
    destruct (IH ltac:(lia)) as [v [A B]]. exists v. split; [exact A|].
    destruct (H _ Hk) as [u [C [_ F]]]. change (n_zero R_ops) with 0%R in C, F. rewrite C, F by nia.
    replace (i + S k * Z.to_nat D - Z.to_nat D)%nat with (i + k * Z.to_nat D)%nat by lia. rewrite B. cbn [sum_f_R0]. ring.
Qed.

(*@PROP
(* a recording a, b, overdubbed with u, v, w *)
Example C126_layers_hyps (a b u v w : R) :
  exists s s', dl_history R_ops Debug 2 7 [DProcess a; DProcess b] s
    /\ timing_trusted (T := R) [DProcess a; DProcess b] /\ delay_get_delay s = 2
    /\ overdub Debug Rplus s [u; v; w] = Ok (s', [u + a; v + b; w + (u + a)]%R).
Proof.
  eexists. eexists. split; [history|]. split; [reflexivity|]. split; [reflexivity|vm_compute; reflexivity].
Qed.
@*)
