(** Proofs of C147.  The [@PROP] blocks are copied into [PropFltBank.v]. *)
(*@PROP
(** Property C147: banks of filter chains side by side in [f32] and [f64].

    Vocabulary: [flt_bank], [ideal_bank], [bank_level], [bank_error] ([FltBankSpec]); [rated],
    [chain_ok] ([FltChainSpec], as in C142). *)
From Coq Require Import ZArith Reals List Bool Lra Lia Permutation.
From Flocq Require Import Core.Core IEEE754.BinarySingleNaN.
From Verif Require Import Base Num NumR NumF FloatSpec FloatFacts Witness CrLibm FilterM RbjM Device Signal FltFilterSpec
  RbjSpec RbjFltSpec RbjAccSpec DbSpec GainAccSpec FltChainSpec FltChainLemmas FltCrossLemmas FltBankSpec FltBankLemmas.
Import ListNotations.
Open Scope R_scope.
@*)
From Coq Require Import ZArith Reals List Bool Lra Lia Permutation.
From Coquelicot Require Import Coquelicot.
From Flocq Require Import Core.Core IEEE754.BinarySingleNaN.
From Verif Require Import Base Num NumR NumF FloatSpec FloatFacts Witness CrLibm FilterM RbjM Device Signal SignalFacts FilterFacts FilterLemmas
  FltFilterSpec FltFilterFacts FltFilterLemmas RbjSpec RbjLemmas RbjFltSpec RbjFltLemmas RbjAccSpec RbjAccLemmas DbSpec GainAccSpec GainAccLemmas
  FltChainSpec FltChainLemmas FltCrossLemmas FltPairSpec FltPairLemmas FltBankSpec.
Import ListNotations.
Open Scope R_scope.

Lemma chain_loud (T : Type) (O : num_ops T) (V : float_view T) (HO : ieee O V) (HT : trig_close O V) (HP : pow10_close O V)
  (l : list (rated T)) : forall M (x : nat -> T), chain_ok V l M ->
  (forall n, fin V (x n) = true /\ Rabs (val V (x n)) <= M) ->
  forall n, Rabs (val V (flt_chain O (map r_set l) x n)) <= chain_level V l M.
Proof.
  induction l as [|r l IH]; intros M x Hl Hx n; [apply Hx|].
  destruct Hl as [Hr [Hm Hl]].
  assert (S := stage_tracks T O V HO HT HP r M 0 x (fun n => val V (x n)) Hr Hm Hx
    ltac:(intros m; cbv beta; rewrite Rminus_eq_0, Rabs_R0; lra)). cbn zeta in S.
  apply (IH _ (stream (dev_rbj O (fst (r_set r))) (snd (r_set r)) x) Hl); intros m; split; apply (S m).
Qed.

Lemma bank_grows {T} (V : float_view T) (ls : list (list (rated T))) M : (forall l, In l ls -> 0 <= chain_level V l M) ->
  forall L, 0 <= L -> L <= bank_level V ls M L.
Proof.
  assert (U := bpow_gt_0 radix2 (- fprec V)).
  induction ls as [|l ls IH]; intros H L HL; cbn [bank_level]; [lra|].
  assert (C := H l (or_introl eq_refl)). assert (P : 0 <= bpow radix2 (- fprec V) * (L + chain_level V l M)) by (apply Rmult_le_pos; lra).
  eapply Rle_trans; [|apply IH; [intros l' Hl'; apply H; right; exact Hl'|lra]]. lra.
Qed.

Lemma bank_tracks (T : Type) (O : num_ops T) (V : float_view T) (HO : ieee O V) (HT : trig_close O V) (HP : pow10_close O V)
  M (x : nat -> T) n : (forall n, fin V (x n) = true /\ Rabs (val V (x n)) <= M) ->
  forall (ls : list (list (rated T))) (acc : T) L, List.Forall (fun l => chain_ok V l M) ls ->
  fin V acc = true -> Rabs (val V acc) <= L -> 2 * bank_level V ls M L <= fmax V ->
  let y := fold_left (fun acc l => n_add O acc (flt_chain O l x n)) (map (map r_set) ls) acc in
  fin V y = true /\ Rabs (val V y - (val V acc + ideal_bank V (map (map r_set) ls) (fun n => val V (x n)) n)) <= bank_error V ls M L.
Proof.
  intros Hx ls. assert (U := bpow_gt_0 radix2 (- fprec V)). induction ls as [|l ls IH]; intros acc L Hls Fa La Hm.
  - cbn. split; [exact Fa|]. rewrite Rplus_0_r, Rminus_eq_0, Rabs_R0. lra.
  - inversion Hls as [|? ? Hl Hls']; subst.
    destruct (C142_chain_thm T O V HO HT HP l M x Hl Hx n) as [F B].
    assert (Lc := chain_loud T O V HO HT HP l M x Hl Hx n).
    assert (Pos : forall l', In l' (l :: ls) -> 0 <= chain_level V l' M).
    { intros l' Hl'. rewrite List.Forall_forall in Hls. eapply Rle_trans; [apply Rabs_pos|exact (chain_loud T O V HO HT HP l' M x (Hls l' Hl') Hx n)]. }
    assert (L0 : 0 <= L) by (eapply Rle_trans; [apply Rabs_pos|exact La]).
    assert (P := Pos l (or_introl eq_refl)). set (S := L + chain_level V l M) in *.
    assert (US : 0 <= bpow radix2 (- fprec V) * S) by (apply Rmult_le_pos; unfold S; lra).
    assert (Gr := bank_grows V ls M (fun l' H => Pos l' (or_intror H)) ((1 + bpow radix2 (- fprec V)) * S) ltac:(unfold S in *; lra)).
    cbn [bank_level] in Hm. fold S in Hm.
    assert (HS : Rabs (val V acc + val V (flt_chain O (map r_set l) x n)) <= S) by (eapply Rle_trans; [apply Rabs_triang|unfold S; lra]).
    destruct (sum_close O V HO _ _ S Fa F HS ltac:(lra)) as [F2 B2].
    set (a' := n_add O acc (flt_chain O (map r_set l) x n)) in *.
    assert (La' : Rabs (val V a') <= (1 + bpow radix2 (- fprec V)) * S).
    { apply Rabs_le_inv in B2, HS. apply Rabs_le. lra. }
    destruct (IH a' _ Hls' F2 La' Hm) as [F3 B3]. cbn [map fold_left]. split; [exact F3|].
    cbn [bank_error ideal_bank fold_right]. fold S.
    change (fold_right (fun l acc => ideal_chain V l (fun n => val V (x n)) n + acc) 0 (map (map r_set) ls))
      with (ideal_bank V (map (map r_set) ls) (fun n => val V (x n)) n).
    fold a'. apply Rabs_le_inv in B, B2, B3. apply Rabs_le. lra.
Qed.

(*@PROP
(** C147: any number of chains side by side, of any lengths, added up in floating point: the sum is
    finite and stays for ever within [bank_error] of the sum of the ideal chains. *)
@*)
Lemma C147_bank_thm :
  forall (T : Type) (O : num_ops T) (V : float_view T), ieee O V -> trig_close O V -> pow10_close O V ->
  forall (ls : list (list (rated T))) (M : R) (x : nat -> T), List.Forall (fun l => chain_ok V l M) ls ->
    2 * bank_level V ls M 0 <= fmax V -> (forall n, fin V (x n) = true /\ Rabs (val V (x n)) <= M) ->
    forall n, let y := flt_bank O (map (map r_set) ls) x n in
      fin V y = true /\ Rabs (val V y - ideal_bank V (map (map r_set) ls) (fun n => val V (x n)) n) <= bank_error V ls M 0.
Proof.
  intros T O V HO HT HP ls M x Hls Hm Hx n.
  assert (Z : fin V (n_zero O) = true /\ val V (n_zero O) = 0) by (destruct HO; split; reflexivity). destruct Z as [Fz Vz].
  destruct (bank_tracks T O V HO HT HP M x n Hx ls (n_zero O) 0 Hls Fz ltac:(rewrite Vz, Rabs_R0; lra) Hm) as [F B].
  rewrite Vz, Rplus_0_l in B. split; assumption.
Qed.

Lemma bank_perm {T} (V : float_view T) (ls ls' : list (list (rbj_kind * rbj_args T))) x n : Permutation ls ls' ->
  ideal_bank V ls x n = ideal_bank V ls' x n.
Proof.
  intros P. induction P as [|l ls ls' _ IH|a b ls|ls ls' ls'' _ IH1 _ IH2].
  - reflexivity.
  - unfold ideal_bank in *. cbn [fold_right]. rewrite IH. reflexivity.
  - unfold ideal_bank. cbn [fold_right]. ring.
  - rewrite IH1. exact IH2.
Qed.

(*@PROP
(** C147: the order in which the chains are added changes the sum at most by the two errors. *)
@*)
Lemma C147_order_thm :
  forall (T : Type) (O : num_ops T) (V : float_view T), ieee O V -> trig_close O V -> pow10_close O V ->
  forall (ls ls' : list (list (rated T))) (M : R) (x : nat -> T), Permutation ls ls' -> List.Forall (fun l => chain_ok V l M) ls ->
    2 * bank_level V ls M 0 <= fmax V -> 2 * bank_level V ls' M 0 <= fmax V ->
    (forall n, fin V (x n) = true /\ Rabs (val V (x n)) <= M) ->
    forall n, Rabs (val V (flt_bank O (map (map r_set) ls) x n) - val V (flt_bank O (map (map r_set) ls') x n))
      <= bank_error V ls M 0 + bank_error V ls' M 0.
Proof.
  intros T O V HO HT HP ls ls' M x P Hls Hm Hm' Hx n.
  assert (Hls' : List.Forall (fun l => chain_ok V l M) ls').
  { rewrite List.Forall_forall in *. intros l Hl. apply Hls. exact (Permutation_in _ (Permutation_sym P) Hl). }
  destruct (C147_bank_thm T O V HO HT HP ls M x Hls Hm Hx n) as [_ B].
  destruct (C147_bank_thm T O V HO HT HP ls' M x Hls' Hm' Hx n) as [_ B'].
  rewrite (bank_perm V _ _ (fun n => val V (x n)) n (Permutation_map (map r_set) P)) in B.
  apply Rabs_le_inv in B, B'. apply Rabs_le. lra.
Qed.

Lemma C147_hyps_aux : let O := f64_ops (cr_libm 53 1024) false in let V := ieee_view 53 1024 in
  let ls := [[demo_cross LowPass; demo_cross LowPass]; [demo_cross HighPass]; []] in
  ieee O V /\ trig_close O V /\ pow10_close O V /\ List.Forall (fun l => chain_ok V l 1) ls
  /\ 2 * bank_level V ls 1 0 <= fmax V /\ bank_error V ls 1 0 <= / 1000
  /\ forall n : nat, fin V ((fun _ => fl64 1 0) n) = true /\ Rabs (val V ((fun _ => fl64 1 0) n)) <= 1.
Proof.
  intros O V ls. destruct C143_hyps_aux as [HO [HT [HP [Hl [Hh [_ [_ Hx]]]]]]].
  split; [exact HO|]. split; [exact HT|]. split; [exact HP|]. split.
  { constructor; [exact Hl|]. constructor; [|constructor; [exact I|constructor]].
    cbn [chain_ok] in Hh |- *. destruct Hh as [H1 [H2 _]]. split; [exact H1|]. split; [exact H2|exact I]. }
  assert (Uv : bpow radix2 (- fprec V) = / 9007199254740992) by (cbn; lra).
  assert (E4 : val V (fl64 6369051672525773 (-53)) = 6369051672525773 / 9007199254740992) by (unfold V; cbn [val ieee_view]; lit; lra).
  assert (FM : 1073741824 <= fmax V).
  { cbn [fmax V ieee_view]. change (- (53))%Z with (-53)%Z. assert (B1 : bpow radix2 31 <= bpow radix2 1024) by (apply bpow_le; lia).
    assert (B2 : bpow radix2 (-53) <= / 2) by (change (/ 2) with (bpow radix2 (-1)); apply bpow_le; lia).
    assert (B3 : bpow radix2 31 = 2147483648) by (cbn; lra). nra. }
  destruct (fmin_small _ O V HO) as [Fm _].
  assert (Fs : fmin V <= 1) by (change 1 with (bpow radix2 0); cbn [fmin V ieee_view]; apply bpow_le; lia).
  assert (St : forall kind M, 0 <= M <= 2000 -> 0 <= stage_error V (demo_cross kind) M <= (1201 * M + 1) * / 5000000000).
  { intros kind M HM. assert (Ec : 0 <= coef_error V (r_set (demo_cross kind)) <= 300 * / 9007199254740992).
    { unfold coef_error, q_error, demo_cross. cbn [r_set snd]. rewrite E4, Uv. lra. }
    unfold stage_error. change (r_H (demo_cross kind)) with 1200. change (r_G (demo_cross kind)) with 300.
    set (e := coef_error V (r_set (demo_cross kind))) in *. clearbody e. set (m := fmin V) in *. clearbody m.
    assert (0 <= e * (M + 1200 * M + m) <= 300 * / 9007199254740992 * (1201 * M + 1)).
    { split; [apply Rmult_le_pos; lra|]. apply Rmult_le_compat; lra. }
    lra. }
  assert (S1 := fun kind => St kind 1 ltac:(lra)).
  assert (SL := S1 LowPass). assert (SH := S1 HighPass).
  assert (S2 := St LowPass (1200 * 1 + stage_error V (demo_cross LowPass) 1) ltac:(lra)).
  unfold ls. cbn [bank_level bank_error chain_level chain_error]. rewrite Uv.
  change (r_H (demo_cross LowPass)) with 1200. change (r_H (demo_cross HighPass)) with 1200.
  set (e1 := stage_error V (demo_cross LowPass) 1) in *. set (e2 := stage_error V (demo_cross LowPass) (1200 * 1 + e1)) in *.
  set (e3 := stage_error V (demo_cross HighPass) 1) in *. clearbody e1 e2 e3.
  split; [lra|]. split; [lra|exact Hx].
Qed.

(*@PROP
(** C147 is met in [f64] by a library with correctly rounded functions: two LowPass in series, a
    HighPass, and the input itself, at 1 kHz, the sample rate being 44100 Hz, on 1, 1, 1, ... *)
Example C147_hyps : let O := f64_ops (cr_libm 53 1024) false in let V := ieee_view 53 1024 in
  let ls := [[demo_cross LowPass; demo_cross LowPass]; [demo_cross HighPass]; []] in
  ieee O V /\ trig_close O V /\ pow10_close O V /\ List.Forall (fun l => chain_ok V l 1) ls
  /\ 2 * bank_level V ls 1 0 <= fmax V /\ bank_error V ls 1 0 <= / 1000
  /\ forall n : nat, fin V ((fun _ => fl64 1 0) n) = true /\ Rabs (val V ((fun _ => fl64 1 0) n)) <= 1.
Proof. exact C147_hyps_aux. Qed.
@*)
