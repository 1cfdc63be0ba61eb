(** Proofs of C148.  The [@PROP] blocks are copied into [PropFltPlat.v]. *)
(*@PROP
(** Property C148: the same filters on another platform or with another sample type.

    Vocabulary: [rated], [chain_ok], [chain_error], [flt_chain], [ideal_args] ([FltChainSpec], as in
    C142); [flt_bank], [bank_level], [bank_error] ([FltBankSpec], as in C147).  [O] and [O'] are two arithmetics, [V] and [V'] their formats: [f32] or [f64], each with
    a math library of its own. *)
From Coq Require Import ZArith Reals List Bool Lra Lia.
From Flocq Require Import Core.Core IEEE754.BinarySingleNaN.
From Verif Require Import Base Num NumR NumF FloatSpec FloatFacts Witness CrLibm FilterM RbjM Device Signal FltFilterSpec
  RbjSpec RbjFltSpec RbjAccSpec DbSpec GainAccSpec FltChainSpec FltChainLemmas FltToneLemmas FltBankSpec FltPlatLemmas.
Import ListNotations.
Open Scope R_scope.
@*)
From Coq Require Import ZArith Reals List Bool Lra Lia.
From Coquelicot Require Import Coquelicot.
From Flocq Require Import Core.Core IEEE754.BinarySingleNaN.
From Verif Require Import Base Num NumR NumF FloatSpec FloatFacts Witness CrLibm FilterM RbjM Device Signal SignalFacts
  FltFilterSpec FltFilterLemmas RbjSpec RbjFltSpec RbjFltLemmas RbjAccSpec RbjAccLemmas DbSpec DbLemmas GainAccSpec GainAccLemmas
  FltChainSpec FltChainLemmas FltToneLemmas FltBankSpec FltBankLemmas.
Import ListNotations.
Open Scope R_scope.

(** The settings of a chain as real numbers. *)
Lemma same_ideal {T T'} (V : float_view T) (V' : float_view T') (l : list (rated T)) : forall (l' : list (rated T')),
  map (fun r => let (kind, args) := r_set r in (kind, ideal_args V args)) l
  = map (fun r => let (kind, args) := r_set r in (kind, ideal_args V' args)) l' ->
  forall z, ideal_chain V (map r_set l) z = ideal_chain V' (map r_set l') z.
Proof.
  induction l as [|r l IH]; intros [|r' l'] E z; try discriminate; [reflexivity|].
  cbn [map] in E. injection E as E1 E2. cbn [map ideal_chain fold_left].
  destruct (r_set r) as [kind args], (r_set r') as [kind' args']. injection E1 as -> E1. cbn [fst snd]. rewrite E1. apply (IH l' E2).
Qed.

(*@PROP
(** C148: two programs that run the same chain of filters, with settings of the same values, on
    inputs that differ by at most [D], in [f32] or [f64] and with any two accurate math libraries,
    stay for ever within the sum of their error bounds of each other. *)
@*)
Lemma C148_agree_thm :
  forall (T T' : Type) (O : num_ops T) (V : float_view T) (O' : num_ops T') (V' : float_view T'),
    ieee O V -> trig_close O V -> pow10_close O V -> ieee O' V' -> trig_close O' V' -> pow10_close O' V' ->
  forall (l : list (rated T)) (l' : list (rated T')) (M M' D : R) (x : nat -> T) (x' : nat -> T'),
    map (fun r => let (kind, args) := r_set r in (kind, ideal_args V args)) l
    = map (fun r => let (kind, args) := r_set r in (kind, ideal_args V' args)) l' ->
    chain_ok V l M -> chain_ok V' l' M' ->
    (forall n, fin V (x n) = true /\ Rabs (val V (x n)) <= M) -> (forall n, fin V' (x' n) = true /\ Rabs (val V' (x' n)) <= M') ->
    (forall n, Rabs (val V' (x' n) - val V (x n)) <= D) ->
    forall n, Rabs (val V' (flt_chain O' (map r_set l') x' n) - val V (flt_chain O (map r_set l) x n))
      <= chain_error V l M 0 + chain_error V' l' M' D.
Proof.
  intros T T' O V O' V' HO HT HP HO' HT' HP' l l' M M' D x x' El Hl Hl' Hx Hx' Hd n.
  assert (B := chain_tracks T O V HO HT HP l M 0 x (fun n => val V (x n)) Hl Hx
    ltac:(intros m; cbv beta; rewrite Rminus_eq_0, Rabs_R0; lra) n).
  assert (B' := chain_tracks T' O' V' HO' HT' HP' l' M' D x' (fun n => val V (x n)) Hl' Hx' Hd n).
  rewrite <- (same_ideal V V' l l' El) in B'. apply Rabs_le_inv in B, B'. apply Rabs_le. lra.
Qed.

(*@PROP
(** C148: the same for banks of chains side by side, on inputs of the same values. *)
@*)
Lemma C148_banks_thm :
  forall (T T' : Type) (O : num_ops T) (V : float_view T) (O' : num_ops T') (V' : float_view T'),
    ieee O V -> trig_close O V -> pow10_close O V -> ieee O' V' -> trig_close O' V' -> pow10_close O' V' ->
  forall (ls : list (list (rated T))) (ls' : list (list (rated T'))) (M M' : R) (x : nat -> T) (x' : nat -> T'),
    map (map (fun r => let (kind, args) := r_set r in (kind, ideal_args V args))) ls
    = map (map (fun r => let (kind, args) := r_set r in (kind, ideal_args V' args))) ls' ->
    List.Forall (fun l => chain_ok V l M) ls -> List.Forall (fun l => chain_ok V' l M') ls' ->
    2 * bank_level V ls M 0 <= fmax V -> 2 * bank_level V' ls' M' 0 <= fmax V' ->
    (forall n, fin V (x n) = true /\ Rabs (val V (x n)) <= M) -> (forall n, fin V' (x' n) = true /\ Rabs (val V' (x' n)) <= M') ->
    (forall n, val V' (x' n) = val V (x n)) ->
    forall n, Rabs (val V' (flt_bank O' (map (map r_set) ls') x' n) - val V (flt_bank O (map (map r_set) ls) x n))
      <= bank_error V ls M 0 + bank_error V' ls' M' 0.
Proof.
  intros T T' O V O' V' HO HT HP HO' HT' HP' ls ls' M M' x x' El Hl Hl' Hm Hm' Hx Hx' Hd n.
  destruct (C147_bank_thm T O V HO HT HP ls M x Hl Hm Hx n) as [_ B].
  destruct (C147_bank_thm T' O' V' HO' HT' HP' ls' M' x' Hl' Hm' Hx' n) as [_ B'].
  assert (E : ideal_bank V' (map (map r_set) ls') (fun n => val V' (x' n)) n = ideal_bank V (map (map r_set) ls) (fun n => val V (x n)) n).
  { replace (fun n => val V' (x' n)) with (fun n => val V (x n)) by (apply FunctionalExtensionality.functional_extensionality; intros m; symmetry; apply Hd).
    clear - El. revert ls' El. induction ls as [|l ls IH]; intros [|l' ls'] El; try discriminate; [reflexivity|].
    cbn [map] in El. assert (E1 := f_equal (hd []) El). assert (E2 := f_equal (@tl _) El). cbn [hd tl] in E1, E2.
    cbn [map ideal_bank fold_right]. rewrite <- (same_ideal V V' l l' E1). f_equal. exact (IH ls' E2). }
  rewrite E in B'. apply Rabs_le_inv in B, B'. apply Rabs_le. lra.
Qed.

(** ** Example *)
Definition demo_wide (kind : rbj_kind) : rated f64 :=
  {| r_set := (kind, RbjQ (fl64 44100 0) (fl64 1000 0) (fl64 11 (-4))); r_G := 300; r_H := 1200 |}.

Lemma C148_hyps_aux : let O := f32_ops (cr_libm 24 128) false in let V := ieee_view 24 128 in
  let O' := f64_ops (cr_libm 53 1024) false in let V' := ieee_view 53 1024 in
  let l := [demo_q LowPass; demo_q HighPass] in let l' := [demo_wide LowPass; demo_wide HighPass] in
  ieee O V /\ trig_close O V /\ pow10_close O V /\ ieee O' V' /\ trig_close O' V' /\ pow10_close O' V'
  /\ map (fun r => let (kind, args) := r_set r in (kind, ideal_args V args)) l
     = map (fun r => let (kind, args) := r_set r in (kind, ideal_args V' args)) l'
  /\ chain_ok V l 1 /\ chain_ok V' l' 1
  /\ (forall n : nat, fin V ((fun _ => fl32 1 0) n) = true /\ Rabs (val V ((fun _ => fl32 1 0) n)) <= 1)
  /\ (forall n : nat, fin V' ((fun _ => fl64 1 0) n) = true /\ Rabs (val V' ((fun _ => fl64 1 0) n)) <= 1)
  /\ Rabs (val V' (fl64 1 0) - val V (fl32 1 0)) <= 0.
Proof.
  intros O V O' V' l l'. destruct C142_hyps_aux as [HO [HT [HP [Hl [_ [_ Hx]]]]]].
  destruct C97_hyps_aux as [HO' [HT' [HP' [Ha' [_ [_ [_ [_ [_ [_ [_ [Hx' _]]]]]]]]]]]].
  assert (E1 : val V (fl32 44100 0) = 44100) by (unfold V; cbn [val ieee_view]; lit; lra).
  assert (E2 : val V (fl32 1000 0) = 1000) by (unfold V; cbn [val ieee_view]; lit; lra).
  assert (E3 : val V (fl32 11 (-4)) = 11 / 16) by (unfold V; cbn [val ieee_view]; lit; lra).
  assert (E4 : val V (fl32 1 0) = 1) by (unfold V; cbn [val ieee_view]; lit; lra).
  assert (D1 : val V' (fl64 44100 0) = 44100) by (unfold V'; cbn [val ieee_view]; lit; lra).
  assert (D2 : val V' (fl64 1000 0) = 1000) by (unfold V'; cbn [val ieee_view]; lit; lra).
  assert (D3 : val V' (fl64 11 (-4)) = 11 / 16) by (unfold V'; cbn [val ieee_view]; lit; lra).
  assert (D4 : val V' (fl64 1 0) = 1) by (unfold V'; cbn [val ieee_view]; lit; lra).
  assert (Ei : forall kind, ideal_args V' (snd (r_set (demo_wide kind))) = ideal_args V (snd (r_set (demo_q kind)))).
  { intros kind. cbn [demo_wide demo_q r_set snd ideal_args]. rewrite E1, E2, E3, D1, D2, D3. reflexivity. }
  assert (Uv : bpow radix2 (- fprec V') = / 9007199254740992) by (cbn; lra).
  assert (Ec : forall kind, 0 <= coef_error V' (r_set (demo_wide kind)) <= 300 * / 9007199254740992).
  { intros kind. unfold coef_error, q_error, demo_wide. cbn [r_set snd]. rewrite D3, Uv. lra. }
  assert (Hok : forall kind, rated_ok V (demo_q kind) -> rated_ok V' (demo_wide kind)).
  { intros kind [_ [Hg [Hv _]]]. rewrite <- Ei in Hg, Hv. split; [|split; [exact Hg|split; [exact Hv|]]].
    - split; [exact Ha'|]. split; [vm_compute; reflexivity|]. rewrite D3. lra.
    - specialize (Ec kind). cbn [demo_wide r_G]. lra. }
  assert (FM : 1073741824 <= fmax V').
  { cbn [fmax V' ieee_view]. change (- (53))%Z with (-53)%Z. assert (B1 : bpow radix2 31 <= bpow radix2 1024) by (apply bpow_le; lia).
    assert (B2 : bpow radix2 (-53) <= / 2) by (change (/ 2) with (bpow radix2 (-1)); apply bpow_le; lia).
    assert (B3 : bpow radix2 31 = 2147483648) by (cbn; lra). nra. }
  destruct (fmin_small _ O' V' HO') as [Fm _].
  assert (Fs : fmin V' <= 1) by (change 1 with (bpow radix2 0); cbn [fmin V' ieee_view]; apply bpow_le; lia).
  assert (St : stage_error V' (demo_wide LowPass) 1 <= / 1000000).
  { specialize (Ec LowPass). unfold stage_error. change (r_H (demo_wide LowPass)) with 1200. change (r_G (demo_wide LowPass)) with 300.
    set (e := coef_error V' (r_set (demo_wide LowPass))) in *. clearbody e. set (m := fmin V') in *. clearbody m.
    assert (0 <= e * (1 + 1200 * 1 + m) <= 300 * / 9007199254740992 * 1202).
    { split; [apply Rmult_le_pos; lra|]. apply Rmult_le_compat; lra. }
    lra. }
  split; [exact HO|]. split; [exact HT|]. split; [exact HP|]. split; [exact HO'|]. split; [exact HT'|]. split; [exact HP'|].
  split.
  { assert (X := Ei LowPass). cbn [demo_wide demo_q r_set snd] in X. unfold l, l'. cbn [map demo_wide demo_q r_set]. rewrite X. reflexivity. }
  split; [exact Hl|]. split.
  { cbn [chain_ok] in Hl. destruct Hl as [H1 [_ [H2 _]]]. apply Hok in H1, H2. unfold l'. cbn [chain_ok].
    change (r_H (demo_wide LowPass)) with 1200. change (r_H (demo_wide HighPass)) with 1200.
    split; [exact H1|]. split; [lra|]. split; [exact H2|]. split; [lra|exact I]. }
  split; [exact Hx|]. split; [exact Hx'|]. rewrite D4, E4, Rminus_eq_0, Rabs_R0. lra.
Qed.

(*@PROP
(** C148 is met by libraries with correctly rounded functions: a LowPass and a HighPass at 1 kHz
    with Q = 11/16, the sample rate being 44100 Hz, in [f32] and in [f64] ([demo_q] and
    [demo_wide]), both on the input 1, 1, 1, ... *)
Example C148_hyps : let O := f32_ops (cr_libm 24 128) false in let V := ieee_view 24 128 in
  let O' := f64_ops (cr_libm 53 1024) false in let V' := ieee_view 53 1024 in
  let l := [demo_q LowPass; demo_q HighPass] in let l' := [demo_wide LowPass; demo_wide HighPass] in
  ieee O V /\ trig_close O V /\ pow10_close O V /\ ieee O' V' /\ trig_close O' V' /\ pow10_close O' V'
  /\ map (fun r => let (kind, args) := r_set r in (kind, ideal_args V args)) l
     = map (fun r => let (kind, args) := r_set r in (kind, ideal_args V' args)) l'
  /\ chain_ok V l 1 /\ chain_ok V' l' 1
  /\ (forall n : nat, fin V ((fun _ => fl32 1 0) n) = true /\ Rabs (val V ((fun _ => fl32 1 0) n)) <= 1)
  /\ (forall n : nat, fin V' ((fun _ => fl64 1 0) n) = true /\ Rabs (val V' ((fun _ => fl64 1 0) n)) <= 1)
  /\ Rabs (val V' (fl64 1 0) - val V (fl32 1 0)) <= 0.
Proof. exact C148_hyps_aux. Qed.
@*)

Lemma C148_banks_hyps_aux : let V := ieee_view 24 128 in let V' := ieee_view 53 1024 in
  let ls := [[demo_q LowPass]; [demo_q HighPass]] in let ls' := [[demo_wide LowPass]; [demo_wide HighPass]] in
  map (map (fun r => let (kind, args) := r_set r in (kind, ideal_args V args))) ls
  = map (map (fun r => let (kind, args) := r_set r in (kind, ideal_args V' args))) ls'
  /\ List.Forall (fun l => chain_ok V l 1) ls /\ List.Forall (fun l => chain_ok V' l 1) ls'
  /\ 2 * bank_level V ls 1 0 <= fmax V /\ 2 * bank_level V' ls' 1 0 <= fmax V'
  /\ val V' (fl64 1 0) = val V (fl32 1 0).
Proof.
  intros V V' ls ls'. destruct C148_hyps_aux as [HO [_ [_ [HO' [_ [_ [El [Hl [Hl' _]]]]]]]]].
  destruct C142_hyps_aux as [_ [_ [_ [_ [Hh _]]]]].
  cbn [map] in El. cbn [chain_ok] in Hl, Hl', Hh. destruct Hl as [H1 [H2 [H3 _]]]. destruct Hl' as [H1' [H2' [H3' _]]]. destruct Hh as [_ [H4 _]].
  split. { exact (f_equal (map (fun a => [a])) El). }
  split. { constructor; [exact (conj H1 (conj H2 I))|constructor; [exact (conj H3 (conj H4 I))|constructor]]. }
  split. { constructor; [exact (conj H1' (conj H2' I))|constructor; [exact (conj H3' (conj H2' I))|constructor]]. }
  assert (E3 : val V (fl32 11 (-4)) = 11 / 16) by (unfold V; cbn [val ieee_view]; lit; lra).
  assert (D3 : val V' (fl64 11 (-4)) = 11 / 16) by (unfold V'; cbn [val ieee_view]; lit; lra).
  assert (E4 : val V (fl32 1 0) = 1) by (unfold V; cbn [val ieee_view]; lit; lra).
  assert (D4 : val V' (fl64 1 0) = 1) by (unfold V'; cbn [val ieee_view]; lit; lra).
  assert (Uv : bpow radix2 (- fprec V) = / 16777216) by (cbn; lra).
  assert (Uv' : bpow radix2 (- fprec V') = / 9007199254740992) by (cbn; lra).
  destruct (fmin_small _ _ V HO) as [Fm _]. destruct (fmin_small _ _ V' HO') as [Fm' _].
  assert (Fs : fmin V <= 1) by (change 1 with (bpow radix2 0); cbn [fmin V ieee_view]; apply bpow_le; lia).
  assert (Fs' : fmin V' <= 1) by (change 1 with (bpow radix2 0); cbn [fmin V' ieee_view]; apply bpow_le; lia).
  assert (Er : forall kind, 0 <= stage_error V (demo_q kind) 1 <= 1000).
  { intros kind. unfold stage_error, coef_error, demo_q. cbn [r_set r_G r_H fst snd]. unfold q_error. rewrite E3, Uv.
    set (m := fmin V) in *. clearbody m. nra. }
  assert (Er' : forall kind, 0 <= stage_error V' (demo_wide kind) 1 <= 1000).
  { intros kind. unfold stage_error, coef_error, demo_wide. cbn [r_set r_G r_H fst snd]. unfold q_error. rewrite D3, Uv'.
    set (m := fmin V') in *. clearbody m. nra. }
  assert (S1 := Er LowPass). assert (S2 := Er HighPass). assert (S1' := Er' LowPass). assert (S2' := Er' HighPass).
  unfold ls, ls'. cbn [bank_level chain_level]. rewrite Uv, Uv'.
  change (r_H (demo_q LowPass)) with 1200 in *. change (r_H (demo_q HighPass)) with 1200 in *.
  change (r_H (demo_wide LowPass)) with 1200 in *. change (r_H (demo_wide HighPass)) with 1200 in *.
  set (e1 := stage_error V (demo_q LowPass) 1) in *. set (e2 := stage_error V (demo_q HighPass) 1) in *.
  set (e1' := stage_error V' (demo_wide LowPass) 1) in *. set (e2' := stage_error V' (demo_wide HighPass) 1) in *.
  change (fmax (ieee_view 24 128)) with (fmax V) in H2. change (fmax (ieee_view 53 1024)) with (fmax V') in H2'. clearbody e1 e2 e1' e2'. split; [lra|]. split; [lra|]. rewrite E4, D4. reflexivity.
Qed.

(*@PROP
(** The further hypotheses of the theorem on banks are met by the same two filters side by side. *)
Example C148_banks_hyps : let V := ieee_view 24 128 in let V' := ieee_view 53 1024 in
  let ls := [[demo_q LowPass]; [demo_q HighPass]] in let ls' := [[demo_wide LowPass]; [demo_wide HighPass]] in
  map (map (fun r => let (kind, args) := r_set r in (kind, ideal_args V args))) ls
  = map (map (fun r => let (kind, args) := r_set r in (kind, ideal_args V' args))) ls'
  /\ List.Forall (fun l => chain_ok V l 1) ls /\ List.Forall (fun l => chain_ok V' l 1) ls'
  /\ 2 * bank_level V ls 1 0 <= fmax V /\ 2 * bank_level V' ls' 1 0 <= fmax V'
  /\ val V' (fl64 1 0) = val V (fl32 1 0).
Proof. exact C148_banks_hyps_aux. Qed.
@*)
