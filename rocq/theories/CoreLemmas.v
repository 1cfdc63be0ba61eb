(** Proofs of C01-C05, C28 and C33. *)
From Coq Require Import ZArith List Bool Lia.
From Verif Require Import Base BaseLemmas Num Traits FilterM RbjM AnalysisM DelayM DelaySpec
  DelayRun DelayProofs DelayFacts DelayLemmas LinDelayM Device BlockSpec.
Import ListNotations.

(*@PROP
(** Properties C01-C05 (all processors), C28 and C33 (filters).

    Vocabulary: [Device] presents each filter, integrator and detector through its
    public API; [returns D before cs] is what the calls [cs] return when made
    after the calls [before] on a new object. *)
From Coq Require Import ZArith List Bool.
From Verif Require Import Base Num NumF Witness Traits FilterM RbjM AnalysisM DelayM DelaySpec
  DelayRun LinDelayM Device BlockSpec CoreLemmas.
Import ListNotations.
Open Scope Z_scope.
@*)

Lemma process_each_spec {S T} (process : S -> T -> outcome (S * T)) xs : forall s s' ys,
  process_each process s xs = Ok (s', ys) <-> one_by_one process s xs s' ys.
Proof.
  induction xs as [|x xs IH]; intros s s' ys; cbn [process_each]; split; intros H.
  - inversion H; subst. constructor.
  - inversion H; subst. reflexivity.
  - apply bind_Ok in H. destruct H as [[s1 y] [E1 H]].
    apply bind_Ok in H. destruct H as [[s2 ys2] [E2 H]]. inversion H; subst.
    econstructor; [exact E1|]. apply IH. exact E2.
  - inversion H as [|? ? s1 y ? ? ys2 E1 H2]; subst. rewrite E1. cbn [bind].
    apply IH in H2. rewrite H2. reflexivity.
Qed.

Lemma last_shift {A} (l : list A) : forall z d, last (z :: l) d = last l z.
Proof.
  induction l as [|a l IH]; intros z d; [reflexivity|].
  change (last (z :: a :: l) d) with (last (a :: l) d). now rewrite !IH.
Qed.

(** C01: [process_block] on a slice succeeds exactly when calling [process] once
    per sample does and the slice is not empty; it leaves the same samples and
    state and returns the last sample. *)
Lemma C01_block_is_per_sample_thm :
  forall (S T : Type) (process : S -> T -> outcome (S * T)) (s s' : S) (xs ys : list T) (y : T),
    process_block process s xs = Ok (s', ys, y)
    <-> xs <> [] /\ one_by_one process s xs s' ys /\ exists front, ys = front ++ [y].
Proof.
  intros S T process s s' xs ys y. unfold process_block. split.
  - intros H. apply bind_Ok in H. destruct H as [[s1 zs] [E H]].
    destruct zs as [|z zs]; [discriminate|]. inversion H; subst. clear H.
    apply process_each_spec in E. split; [intros ->; inversion E|]. split; [exact E|].
    exists (removelast (z :: zs)).
    rewrite <- (last_shift zs z z). apply app_removelast_last. discriminate.
  - intros [Hne [E [front Hf]]]. apply process_each_spec in E. rewrite E. cbn [bind].
    destruct ys as [|z zs]; [destruct front; discriminate|].
    rewrite <- (last_shift zs z z), Hf, last_last. reflexivity.
Qed.

(** C01: for a processor whose [process] never panics (on the states satisfying
    an invariant [I] that it keeps), [process_block] panics exactly on the empty
    slice. *)
Lemma C01_block_panics_only_empty_thm :
  forall (S T : Type) (process : S -> T -> outcome (S * T)) (I : S -> Prop),
    (forall s x, I s -> exists s' y, process s x = Ok (s', y) /\ I s') ->
    forall (s : S) (xs : list T), I s -> (process_block process s xs = Panic <-> xs = []).
Proof.
  intros S T process I Hp s xs Hs. unfold process_block. split.
  - destruct xs as [|x xs]; [reflexivity|]. intros H. exfalso.
    assert (G : forall xs s, I s -> exists s' ys, process_each process s xs = Ok (s', ys)
                             /\ length ys = length xs).
    { clear - Hp. induction xs as [|x xs IH]; intros s Hs; cbn [process_each]; [eauto|].
      destruct (Hp s x Hs) as [s1 [y [E H1]]]. rewrite E. cbn [bind].
      destruct (IH s1 H1) as [s2 [ys [E2 HL]]]. rewrite E2. cbn [bind].
      do 2 eexists. split; [reflexivity|]. cbn. congruence. }
    destruct (G (x :: xs) s Hs) as [s' [ys [E HL]]]. rewrite E in H. cbn [bind] in H.
    destruct ys; discriminate.
  - intros ->. reflexivity.
Qed.

(** C01 for [Delay]: after any history, a non-empty block never panics. *)
Lemma C01_block_delay_thm :
  forall (T : Type) (O : num_ops T) (p : profile) (d m : Z) (ops : list (dl_op Z T))
         (s : delay T) (xs : list T),
    (1 <= n_size_of O)%Z -> dl_history O p d m ops s ->
    (process_block (delay_process p) s xs = Panic <-> xs = []).
Proof.
  intros T O p d m ops s xs Hs Hh.
  apply (C01_block_panics_only_empty_thm _ _ (delay_process p) (dl_inv O)).
  - intros s0 x Hi. destruct (refine_process O p Hs s0 x Hi) as [s1 [E [Hi1 _]]]. eauto.
  - apply (history_sane O p Hs d m ops s Hh).
Qed.

(** C02: splitting a signal into non-empty blocks changes nothing. *)
Lemma C02_block_boundaries_thm :
  forall (S T : Type) (process : S -> T -> outcome (S * T)) (s : S) (blocks : list (list T)),
    blocks <> [] -> Forall (fun b => b <> []) blocks ->
    (let* (s', yss) := feed_blocks process s blocks in Ok (s', concat yss))
    = (let* (s', ys, _) := process_block process s (concat blocks) in Ok (s', ys)).
Proof.
  intros S T process s blocks Hne Hb.
  assert (Happ : forall a b s, process_each process s (a ++ b)
    = let* (s1, ys) := process_each process s a in
      let* (s2, zs) := process_each process s1 b in Ok (s2, ys ++ zs)).
  { clear. induction a as [|x a IH]; intros b s; cbn [app process_each bind].
    - destruct (process_each process s b) as [[? ?]| |]; reflexivity.
    - destruct (process s x) as [[s1 y]| |]; cbn [bind]; auto.
      rewrite IH. destruct (process_each process s1 a) as [[s2 ys]| |]; cbn [bind]; auto.
      destruct (process_each process s2 b) as [[s3 zs]| |]; cbn [bind]; auto. }
  assert (Hblk : forall b s, b <> [] ->
    (let* (s', ys, _) := process_block process s b in Ok (s', ys)) = process_each process s b).
  { clear. intros b s Hne. unfold process_block.
    destruct (process_each process s b) as [[s' ys]| |] eqn:E; cbn [bind]; auto.
    destruct ys; [|reflexivity]. apply process_each_spec in E. inversion E; subst. congruence. }
  rewrite Hblk.
  2:{ destruct blocks as [|b r]; [congruence|]. inversion Hb; subst. destruct b; [congruence|]. discriminate. }
  clear Hne. revert s. induction Hb as [|b r Hbne Hr IH]; intros s; cbn [feed_blocks concat].
  - reflexivity.
  - rewrite Happ, <- (Hblk b s Hbne).
    destruct (process_block process s b) as [[[s1 ys] y]| |]; cbn [bind]; auto.
    rewrite <- IH. destruct (feed_blocks process s1 r) as [[s2 yss]| |]; cbn [bind]; auto.
Qed.
(*@PROP
(** Non-vacuity of C01 and C02: a leaky integrator fed three samples, in blocks. *)
Example C01_C02_hyps (a b c : f64) :
  let process := fun s x => Ok (leaky_process O64 s x) in
  (exists s' ys y, process_block process (leaky_new O64) [a; b; c] = Ok (s', ys, y))
  /\ [[a; b]; [c]] <> [] /\ Forall (fun l => l <> []) [[a; b]; [c]]
  /\ (forall s x, True -> exists s' y, process s x = Ok (s', y) /\ True).
Proof.
  split; [do 3 eexists; reflexivity|]. split; [discriminate|].
  split; [repeat constructor; discriminate|]. intros s x _. do 2 eexists. split; reflexivity.
Qed.
@*)

Section Devices.
  Context {T : Type} (O : num_ops T).

  Lemma run_app {S K} (D : device S K T) cs1 : forall s cs2,
    d_run D s (cs1 ++ cs2)
    = let (s1, l1) := d_run D s cs1 in let (s2, l2) := d_run D s1 cs2 in (s2, l1 ++ l2).
  Proof.
    induction cs1 as [|c cs1 IH]; intros s cs2; cbn [app d_run].
    - destruct (d_run D s cs2); reflexivity.
    - destruct (d_step D s c) as [s1 o]. rewrite IH.
      destruct (d_run D s1 cs1) as [s2 l2]. destruct (d_run D s2 cs2) as [s3 l3]. reflexivity.
  Qed.

  Lemma run_log {S K} (D : device S K T) cs : forall s, map fst (snd (d_run D s cs)) = cs.
  Proof.
    induction cs as [|c cs IH]; intros s; cbn [d_run]; [reflexivity|].
    destruct (d_step D s c) as [s1 o]. specialize (IH s1).
    destruct (d_run D s1 cs) as [s2 l]. cbn in *. congruence.
  Qed.

  Lemma after_snoc {S K} (D : device S K T) cs c :
    after D (cs ++ [c]) = fst (d_step D (after D cs) c).
  Proof.
    unfold after. rewrite run_app. destruct (d_run D (d_new D) cs) as [s l]. cbn [d_run].
    cbn [fst]. destruct (d_step D s c). reflexivity.
  Qed.
End Devices.

(** C03: directly after [process] returned [y], [last_out()] is [y] (every
    filter, RBJ filter, integrator and detector, after any history). *)
Lemma C03_last_out_thm :
  forall (T S K : Type) (O : num_ops T) (D : device S K T) (history : list (call K T)) (x : T),
    library_device O D ->
    exists y, returns D history [CProcess x; CLastOut] = [Some y; Some y].
Proof.
  intros T S K O D history x HD. unfold returns. set (s := after D history).
  destruct HD as [HD|HD]; destruct HD; try destruct k; eexists; reflexivity.
Qed.

(** C03 for the two delay lines (from any state at all). *)
Lemma C03_last_out_delay_thm :
  forall (T : Type) (p : profile) (s s' : delay T) (x y : T),
    delay_process p s x = Ok (s', y) -> delay_last_out s' = y.
Proof.
  intros T p s s' x y H. unfold delay_process in H.
  repeat (apply bind_Ok in H; destruct H as [? [? H]]). inversion H; subst. reflexivity.
Qed.

Lemma C03_last_out_linear_delay_thm :
  forall (C T : Type) (O : num_ops T) (p : profile) (s s' : lin_delay C T) (x y : T),
    lin_process O p s x = Ok (s', y) -> lin_last_out s' = y.
Proof.
  intros C T O p s s' x y H. unfold lin_process in H.
  apply bind_Ok in H; destruct H as [? [? H]].
  apply bind_Ok in H; destruct H as [? [? H]].
  apply bind_Ok in H; destruct H as [? [? H]].
  apply bind_Ok in H; destruct H as [[s2 o] [? H]].
  apply bind_Ok in H; destruct H as [? [? H]].
  apply bind_Ok in H; destruct H as [? [? H]]. inversion H; subst. reflexivity.
Qed.
(*@PROP
Example C03_last_out_hyps :
  library_device O64 (dev_one_zero O64) /\ library_device O64 (dev_rms O64)
  /\ library_device O64 (dev_rbj O64 HighShelf).
Proof. repeat split; try (left; constructor; fail); right; constructor. Qed.

Example C03_last_out_delay_hyps (a b : f64) :
  exists s s' y, delay_new O64 Debug 1 2 = Ok s /\ delay_process Debug s a = Ok (s', y).
Proof. do 3 eexists. split; reflexivity. Qed.

Example C03_last_out_linear_delay_hyps (a b : f64) :
  let s := MkLin (C := f32) [a; b] a 1 0 (fl32 1 0) true a (fl64 0 0) (fl64 1 0) in
  exists s' y, lin_process O64 Debug s a = Ok (s', y).
Proof. do 2 eexists. reflexivity. Qed.
@*)

Section ClearForgets.
  Context {T S K : Type} (D : device S K T).
  (** [erase s] is [s] as if nothing had been processed. *)
  Variable erase : S -> S.
  Hypothesis e_new : erase (d_new D) = d_new D.
  Hypothesis e_set : forall s k, erase (d_set D s k) = d_set D (erase s) k.
  Hypothesis e_process : forall s x, erase (fst (d_process D s x)) = erase s.
  Hypothesis e_clear : forall s, erase (d_clear D s) = erase s.

  Lemma erase_after history : erase (after D history) = after D (settings history).
  Proof.
    induction history as [|c history IH] using rev_ind.
    - exact e_new.
    - rewrite after_snoc. unfold settings in *. rewrite filter_app. cbn [filter].
      destruct c; cbn [is_set d_step app]; rewrite ?app_nil_r.
      + destruct (d_process D (after D history) x) as [s' y] eqn:E. cbn [fst].
        rewrite <- IH. rewrite <- (e_process (after D history) x), E. reflexivity.
      + cbn [fst]. rewrite e_clear. exact IH.
      + rewrite after_snoc. cbn [fst d_step]. rewrite e_set, IH. reflexivity.
      + cbn [fst]. exact IH.
  Qed.
End ClearForgets.

Lemma pair_eta {A B} (a : A) (b : B) : (let (x, y) := (a, b) in (x, y)) = (a, b).
Proof. reflexivity. Qed.

(** C04: after [clear], every further call returns what it would return on a new
    object on which only the coefficient setters of the history were called. *)
Lemma C04_clear_forgets_thm :
  forall (T S K : Type) (O : num_ops T) (D : device S K T) (history rest : list (call K T)),
    recursive_device O D ->
    returns D (history ++ [CClear]) rest = returns D (settings history) rest.
Proof.
  intros T S K O D history rest HD.
  assert (E : after D (history ++ [CClear]) = after D (settings history)).
  { rewrite after_snoc. cbn [d_step fst].
    destruct HD; try destruct k;
      match goal with |- d_clear ?D0 _ = _ => apply (erase_after D0 (d_clear D0)) end;
      try reflexivity; try (intros [] []; reflexivity).
    all: try (intros s k; destruct k as [[? ?] ?]; reflexivity).
    all: try (intros s k; destruct k as [[[[? ?] ?] ?] ?]; reflexivity).
    - intros s k. cbn. unfold leaky_set_alpha, leaky_clear. cbn. destruct (_ && _); reflexivity.
    - intros s [l|l]; cbn; unfold peak_set_attack, peak_set_release, peak_clear; cbn;
        destruct (_ && _); reflexivity.
    - intros s [l|l]; cbn; unfold rms_set_attack, rms_set_release, rms_clear; cbn;
        destruct (_ && _); reflexivity. }
  unfold returns. rewrite E. reflexivity.
Qed.

(** States that only differ in what [last_out] shows. *)
Lemma returns_reads {T S K} (D : device S K T) (same : S -> S -> Prop) rest :
  (forall s1 s2, same s1 s2 -> forall x, d_process D s1 x = d_process D s2 x) ->
  (forall s1 s2, same s1 s2 -> same (d_clear D s1) (d_clear D s2)) ->
  (forall s1 s2 k, same s1 s2 -> same (d_set D s1 k) (d_set D s2 k)) ->
  forall s1 s2, same s1 s2 -> reads_after_process rest ->
  map snd (snd (d_run D s1 rest)) = map snd (snd (d_run D s2 rest)).
Proof.
  intros Hp Hc Hs. induction rest as [|c rest IH]; intros s1 s2 Hsame Hr; [reflexivity|].
  destruct c; cbn [reads_after_process d_run d_step] in *.
  - rewrite (Hp s1 s2 Hsame x). reflexivity.
  - specialize (IH _ _ (Hc _ _ Hsame) Hr).
    destruct (d_run D (d_clear D s1) rest), (d_run D (d_clear D s2) rest). cbn in *. congruence.
  - specialize (IH _ _ (Hs _ _ k Hsame) Hr).
    destruct (d_run D (d_set D s1 k) rest), (d_run D (d_set D s2 k) rest). cbn in *. congruence.
  - contradiction.
Qed.

(** C04 for the FIR filters: the same, as long as [last_out] is not read before
    the next [process] (see C05 for why). *)
Lemma C04_clear_forgets_fir_thm :
  forall (T S K : Type) (O : num_ops T) (D : device S K T) (history rest : list (call K T)),
    fir_device O D -> reads_after_process rest ->
    returns D (history ++ [CClear]) rest = returns D (settings history) rest.
Proof.
  intros T S K O D history rest HD Hr. unfold returns. rewrite after_snoc. cbn [d_step fst].
  destruct HD.
  - apply (returns_reads (dev_one_zero O)
      (fun a b => oz_x_z1 a = oz_x_z1 b /\ oz_b0 a = oz_b0 b /\ oz_b1 a = oz_b1 b)); auto.
    + intros [a1 a2 a3 a4] [c1 c2 c3 c4] H x. cbn in *. destruct H as [-> [-> ->]]. reflexivity.
    + intros [a1 a2 a3 a4] [c1 c2 c3 c4] H. cbn in *. tauto.
    + intros [a1 a2 a3 a4] [c1 c2 c3 c4] [k1 k2] H. cbn in *. tauto.
    + rewrite <- (erase_after (dev_one_zero O)
        (fun s => OneZero (n_zero O) (n_zero O) (oz_b0 s) (oz_b1 s))); try reflexivity.
      * cbn. auto.
      * intros s [k1 k2]. reflexivity.
  - apply (returns_reads (dev_two_zero O)
      (fun a b => tz_x_z1 a = tz_x_z1 b /\ tz_x_z2 a = tz_x_z2 b /\ tz_b0 a = tz_b0 b
                  /\ tz_b1 a = tz_b1 b /\ tz_b2 a = tz_b2 b)); auto.
    + intros [a1 a2 a3 a4 a5 a6] [c1 c2 c3 c4 c5 c6] H x. cbn in *.
      destruct H as [-> [-> [-> [-> ->]]]]. reflexivity.
    + intros [a1 a2 a3 a4 a5 a6] [c1 c2 c3 c4 c5 c6] H. cbn in *. tauto.
    + intros [a1 a2 a3 a4 a5 a6] [c1 c2 c3 c4 c5 c6] [[k1 k2] k3] H. cbn in *. tauto.
    + rewrite <- (erase_after (dev_two_zero O)
        (fun s => TwoZero (n_zero O) (n_zero O) (n_zero O) (tz_b0 s) (tz_b1 s) (tz_b2 s))); try reflexivity.
      * cbn. auto.
      * intros s [[k1 k2] k3]. reflexivity.
Qed.
(*@PROP
Example C04_clear_forgets_hyps :
  recursive_device O64 (dev_biquad2 O64) /\ fir_device O64 (dev_two_zero O64)
  /\ reads_after_process (K := f64 * f64 * f64) (T := f64)
       [CClear; CProcess (fl64 1 0); CLastOut].
Proof. repeat split; constructor. Qed.
@*)

(** C05: after [clear], [last_out()] is zero (the square root of zero being
    zero, for the RMS detector). *)
Lemma C05_clear_resets_last_out_thm :
  forall (T S K : Type) (O : num_ops T) (D : device S K T) (history : list (call K T)),
    n_sqrt O (n_zero O) = n_zero O -> recursive_device O D ->
    returns D (history ++ [CClear]) [CLastOut] = [Some (n_zero O)].
Proof.
  intros T S K O D history Hsq HD. unfold returns. rewrite after_snoc. cbn [d_step fst].
  destruct HD; try destruct k; cbn; try reflexivity.
  unfold rms_last_out; cbn. rewrite Hsq. reflexivity.
Qed.

(** C05 for the delay lines. *)
Lemma C05_clear_resets_last_out_delays_thm :
  forall (C T : Type) (O : num_ops T) (s : delay T) (s' : lin_delay C T),
    delay_last_out (delay_clear O s) = n_zero O /\ lin_last_out (lin_clear O s') = n_zero O.
Proof. intros. split; reflexivity. Qed.

(** C05 fails for the FIR filters: after [process(x)] and [clear], [last_out()]
    still returns the output of that [process]. *)
Lemma C05_clear_keeps_last_out_fir_refuted_thm :
  forall (T S K : Type) (O : num_ops T) (D : device S K T) (history : list (call K T)) (x : T),
    fir_device O D ->
    exists y, returns D history [CProcess x; CClear; CLastOut] = [Some y; None; Some y].
Proof.
  intros T S K O D history x HD. unfold returns. destruct HD; eexists; reflexivity.
Qed.
(*@PROP
Example C05_hyps :
  n_sqrt O64 (n_zero O64) = n_zero O64 /\ n_sqrt O32 (n_zero O32) = n_zero O32
  /\ recursive_device O64 (dev_rms O64) /\ fir_device O64 (dev_one_zero O64)
  /\ (exists y, returns (dev_one_zero O64) [] [CProcess (fl64 3 0); CClear; CLastOut]
                = [Some y; None; Some y] /\ y <> n_zero O64).
Proof.
  repeat split; try reflexivity; try constructor.
  eexists. split; [reflexivity|]. intros H.
  apply (f_equal (fun f => Flocq.IEEE754.BinarySingleNaN.B2SF f)) in H. vm_compute in H. discriminate.
Qed.
@*)

(** ** C28: difference equations, bit for bit *)
Section DiffEq.
  Context {T : Type} (O : num_ops T).
  Local Notation zero := (n_zero O).

  Lemma past_outputs_snoc {K} (log : list (call K T * option T)) c o :
    past_outputs (log ++ [(c, o)])
    = match c, o with
      | CProcess _, Some y => y :: past_outputs log
      | CClear, _ => []
      | _, _ => past_outputs log
      end.
  Proof. unfold past_outputs. rewrite fold_left_app. destruct c, o; reflexivity. Qed.

  Lemma past_inputs_snoc {K} (cs : list (call K T)) c :
    past_inputs (cs ++ [c])
    = match c with CProcess x => x :: past_inputs cs | CClear => [] | _ => past_inputs cs end.
  Proof. unfold past_inputs. rewrite fold_left_app. destruct c; reflexivity. Qed.

  Lemma current_snoc {K} (k0 : K) (cs : list (call K T)) c :
    current k0 (cs ++ [c]) = match c with CSet k => k | _ => current k0 cs end.
  Proof. unfold current. rewrite fold_left_app. destruct c; reflexivity. Qed.

  (** Induction on histories for a state predicate that may look at the past. *)
  Lemma history_ind {S K} (D : device S K T) (k0 : K)
    (P : S -> K -> list T -> list T -> Prop) :
    P (d_new D) k0 [] [] ->
    (forall s k xs ys x, P s k xs ys ->
       P (fst (d_process D s x)) k (x :: xs) (snd (d_process D s x) :: ys)) ->
    (forall s k xs ys, P s k xs ys -> P (d_clear D s) k [] []) ->
    (forall s k xs ys k', P s k xs ys -> P (d_set D s k') k' xs ys) ->
    forall cs, P (after D cs) (current k0 cs) (past_inputs cs)
                 (past_outputs (snd (d_run D (d_new D) cs))).
  Proof.
    intros H0 Hp Hc Hs cs. induction cs as [|c cs IH] using rev_ind.
    - exact H0.
    - rewrite after_snoc, current_snoc, past_inputs_snoc.
      rewrite run_app. unfold after in *.
      destruct (d_run D (d_new D) cs) as [s l]. cbn [fst snd d_run] in *.
      destruct c; cbn [d_step].
      + specialize (Hp s _ _ _ x IH). destruct (d_process D s x) as [s' y]. cbn [fst snd] in *.
        rewrite past_outputs_snoc. exact Hp.
      + cbn [fst snd]. rewrite past_outputs_snoc. eapply Hc; exact IH.
      + cbn [fst snd]. rewrite past_outputs_snoc. eapply Hs; exact IH.
      + cbn [fst snd]. rewrite past_outputs_snoc. exact IH.
  Qed.
End DiffEq.

(** C28: after any history, the sample returned by [process(x)] is the documented
    difference equation, with the current coefficients and the true previous
    inputs and outputs since the last [clear] (zero where there are none). *)
Lemma C28_one_pole_equation_thm :
  forall (T : Type) (O : num_ops T) (history : list (call (T * T) T)) (x : T),
    let D := dev_one_pole O in
    let '(b0, a1) := current (n_one O, n_zero O) history in
    let ys := past_outputs (snd (d_run D (d_new D) history)) in
    returns D history [CProcess x]
    = [Some (n_sub O (n_mul O b0 x) (n_mul O a1 (nth 0 ys (n_zero O))))].
Proof.
  intros T O history x D.
  assert (H := history_ind D (n_one O, n_zero O)
    (fun s k xs ys => k = (op_b0 s, op_a1 s) /\ op_y_z1 s = nth 0 ys (n_zero O))).
  destruct H with (cs := history) as [Hk Hy]; clear H.
  - split; reflexivity.
  - intros s k xs ys x' [-> Hy]. split; reflexivity.
  - intros s k xs ys [-> Hy]. split; reflexivity.
  - intros s k xs ys [k1 k2] [-> Hy]. split; [reflexivity|exact Hy].
  - rewrite Hk. unfold returns. cbn. rewrite Hy. reflexivity.
Qed.

Lemma C28_one_zero_equation_thm :
  forall (T : Type) (O : num_ops T) (history : list (call (T * T) T)) (x : T),
    let D := dev_one_zero O in
    let '(b0, b1) := current (n_one O, n_zero O) history in
    let xs := past_inputs history in
    returns D history [CProcess x]
    = [Some (n_add O (n_mul O b0 x) (n_mul O b1 (nth 0 xs (n_zero O))))].
Proof.
  intros T O history x D.
  assert (H := history_ind D (n_one O, n_zero O)
    (fun s k xs ys => k = (oz_b0 s, oz_b1 s) /\ oz_x_z1 s = nth 0 xs (n_zero O))).
  destruct H with (cs := history) as [Hk Hy]; clear H.
  - split; reflexivity.
  - intros s k xs ys x' [-> Hy]. split; reflexivity.
  - intros s k xs ys [-> Hy]. split; reflexivity.
  - intros s k xs ys [k1 k2] [-> Hy]. split; [reflexivity|exact Hy].
  - rewrite Hk. unfold returns. cbn. rewrite Hy. reflexivity.
Qed.

Lemma C28_two_pole_equation_thm :
  forall (T : Type) (O : num_ops T) (history : list (call (T * T * T) T)) (x : T),
    let D := dev_two_pole O in
    let '(b0, a1, a2) := current (n_one O, n_zero O, n_zero O) history in
    let ys := past_outputs (snd (d_run D (d_new D) history)) in
    returns D history [CProcess x]
    = [Some (n_sub O (n_sub O (n_mul O b0 x) (n_mul O a1 (nth 0 ys (n_zero O))))
                     (n_mul O a2 (nth 1 ys (n_zero O))))].
Proof.
  intros T O history x D.
  assert (H := history_ind D (n_one O, n_zero O, n_zero O)
    (fun s k xs ys => k = (tp_b0 s, tp_a1 s, tp_a2 s) /\ tp_y_z1 s = nth 0 ys (n_zero O)
                      /\ tp_y_z2 s = nth 1 ys (n_zero O))).
  destruct H with (cs := history) as [Hk [Hy Hy2]]; clear H.
  - repeat split; reflexivity.
  - intros s k xs ys x' [-> [Hy Hy2]]. split; [reflexivity|]. split; [reflexivity|exact Hy].
  - intros s k xs ys [-> Hy]. repeat split; reflexivity.
  - intros s k xs ys [[k1 k2] k3] [-> Hy]. split; [reflexivity|exact Hy].
  - rewrite Hk. unfold returns. cbn. rewrite Hy, Hy2. reflexivity.
Qed.

Lemma C28_two_zero_equation_thm :
  forall (T : Type) (O : num_ops T) (history : list (call (T * T * T) T)) (x : T),
    let D := dev_two_zero O in
    let '(b0, b1, b2) := current (n_one O, n_zero O, n_zero O) history in
    let xs := past_inputs history in
    returns D history [CProcess x]
    = [Some (n_add O (n_add O (n_mul O b0 x) (n_mul O b1 (nth 0 xs (n_zero O))))
                     (n_mul O b2 (nth 1 xs (n_zero O))))].
Proof.
  intros T O history x D.
  assert (H := history_ind D (n_one O, n_zero O, n_zero O)
    (fun s k xs ys => k = (tz_b0 s, tz_b1 s, tz_b2 s) /\ tz_x_z1 s = nth 0 xs (n_zero O)
                      /\ tz_x_z2 s = nth 1 xs (n_zero O))).
  destruct H with (cs := history) as [Hk [Hy Hy2]]; clear H.
  - repeat split; reflexivity.
  - intros s k xs ys x' [-> [Hy Hy2]]. split; [reflexivity|]. split; [reflexivity|exact Hy].
  - intros s k xs ys [-> Hy]. repeat split; reflexivity.
  - intros s k xs ys [[k1 k2] k3] [-> Hy]. split; [reflexivity|exact Hy].
  - rewrite Hk. unfold returns. cbn. rewrite Hy, Hy2. reflexivity.
Qed.

Lemma C28_biquad1_equation_thm :
  forall (T : Type) (O : num_ops T) (history : list (call (T * T * T * T * T) T)) (x : T),
    let D := dev_biquad1 O in
    let '(b0, b1, b2, a1, a2) :=
      current (n_one O, n_zero O, n_zero O, n_zero O, n_zero O) history in
    let xs := past_inputs history in
    let ys := past_outputs (snd (d_run D (d_new D) history)) in
    returns D history [CProcess x]
    = [Some (n_sub O (n_sub O (n_add O (n_add O (n_mul O b0 x)
         (n_mul O b1 (nth 0 xs (n_zero O)))) (n_mul O b2 (nth 1 xs (n_zero O))))
         (n_mul O a1 (nth 0 ys (n_zero O)))) (n_mul O a2 (nth 1 ys (n_zero O))))].
Proof.
  intros T O history x D.
  assert (H := history_ind D (n_one O, n_zero O, n_zero O, n_zero O, n_zero O)
    (fun s k xs ys => k = (b1_b0 s, b1_b1 s, b1_b2 s, b1_a1 s, b1_a2 s)
       /\ b1_x_z1 s = nth 0 xs (n_zero O) /\ b1_x_z2 s = nth 1 xs (n_zero O)
       /\ b1_y_z1 s = nth 0 ys (n_zero O) /\ b1_y_z2 s = nth 1 ys (n_zero O))).
  destruct H with (cs := history) as [Hk [Hx [Hx2 [Hy Hy2]]]]; clear H.
  - repeat split; reflexivity.
  - intros s k xs ys x' [-> [Hx [Hx2 [Hy Hy2]]]]. split; [reflexivity|]. split; [reflexivity|].
    split; [exact Hx|]. split; [reflexivity|exact Hy].
  - intros s k xs ys [-> Hy]. repeat split; reflexivity.
  - intros s k xs ys [[[[k1 k2] k3] k4] k5] [-> Hy]. split; [reflexivity|exact Hy].
  - rewrite Hk. unfold returns. cbn. rewrite Hx, Hx2, Hy, Hy2. reflexivity.
Qed.
(*@PROP
(** A history with samples, two settings and a clear, to which C28 applies. *)
Example C28_hyps (a b c : f64) :
  let history := [CProcess a; CSet (b, c); CProcess b; CClear; CProcess c; CSet (a, b); CProcess a] in
  current (c, c) history = (a, b) /\ past_inputs history = [a; c]
  /\ length (past_outputs (snd (d_run (dev_one_pole O64) (d_new (dev_one_pole O64)) history))) = 2%nat.
Proof. repeat split; reflexivity. Qed.
@*)

(** C33: on the six basic filters the setter changes the coefficients only:
    [last_out()] is the same before and after. *)
Lemma C33_set_keeps_last_out_thm :
  forall (T : Type) (O : num_ops T),
    (forall h k, exists y, returns (dev_one_pole O) h [CLastOut; CSet k; CLastOut] = [Some y; None; Some y])
    /\ (forall h k, exists y, returns (dev_one_zero O) h [CLastOut; CSet k; CLastOut] = [Some y; None; Some y])
    /\ (forall h k, exists y, returns (dev_two_pole O) h [CLastOut; CSet k; CLastOut] = [Some y; None; Some y])
    /\ (forall h k, exists y, returns (dev_two_zero O) h [CLastOut; CSet k; CLastOut] = [Some y; None; Some y])
    /\ (forall h k, exists y, returns (dev_biquad1 O) h [CLastOut; CSet k; CLastOut] = [Some y; None; Some y])
    /\ (forall h k, exists y, returns (dev_biquad2 O) h [CLastOut; CSet k; CLastOut] = [Some y; None; Some y]).
Proof.
  intros T O. split; [|split; [|split; [|split; [|split]]]].
  - intros h [? ?]. eexists. reflexivity.
  - intros h [? ?]. eexists. reflexivity.
  - intros h [[? ?] ?]. eexists. reflexivity.
  - intros h [[? ?] ?]. eexists. reflexivity.
  - intros h [[[[? ?] ?] ?] ?]. eexists. reflexivity.
  - intros h [[[[? ?] ?] ?] ?]. eexists. reflexivity.
Qed.

Lemma past_settings_snoc {K T} (k0 : K) (cs : list (call K T)) c :
  past_settings k0 (cs ++ [c])
  = match c with
    | CProcess _ => current k0 cs :: past_settings k0 cs
    | CClear => []
    | _ => past_settings k0 cs
    end.
Proof.
  unfold past_settings, current. rewrite fold_left_app.
  assert (H : forall cs k l, fst (fold_left (fun kl c => match c with
                            | CProcess _ => (fst kl, fst kl :: snd kl)
                            | CClear => (fst kl, [])
                            | CSet k => (k, snd kl)
                            | CLastOut => kl
                            end) cs (k, l))
    = fold_left (fun k (c : call K T) => match c with CSet k' => k' | _ => k end) cs k).
  { clear. induction cs as [|c cs IH]; intros k l; [reflexivity|]. destruct c; cbn; apply IH. }
  destruct c; cbn; rewrite ?H; reflexivity.
Qed.

(** C33: [Biquad2] keeps its memory across coefficient changes.  Each past sample
    contributes with the coefficients that were in force when it was processed:
    after any history, with [k = (b0,b1,b2,a1,a2)] now, [k1] at the previous
    [process] and [k2] at the one before, since the last [clear] (coefficients
    and samples zero before that). *)
Lemma C33_biquad2_memory_thm :
  forall (T : Type) (O : num_ops T) (history : list (call (T * T * T * T * T) T)) (x : T),
    let D := dev_biquad2 O in
    let k0 := (n_one O, n_zero O, n_zero O, n_zero O, n_zero O) in
    let ks := past_settings k0 history in
    let xs := past_inputs history in
    let ys := past_outputs (snd (d_run D (d_new D) history)) in
    let '(b0, _, _, _, _) := current k0 history in
    returns D history [CProcess x]
    = [Some (n_add O (n_mul O b0 x)
         (match ks, xs, ys with
          | (_, b1, _, a1, _) :: ks', x1 :: xs', y1 :: ys' =>
              n_sub O (n_add O (n_mul O b1 x1)
                (match ks', xs', ys' with
                 | (_, _, b2, _, a2) :: _, x2 :: _, y2 :: _ =>
                     n_sub O (n_mul O b2 x2) (n_mul O a2 y2)
                 | _, _, _ => n_zero O
                 end)) (n_mul O a1 y1)
          | _, _, _ => n_zero O
          end))].
Proof.
  intros T O history x D k0 ks xs ys.
  assert (H : forall cs,
    let s := after D cs in
    let ks := past_settings k0 cs in
    let xs := past_inputs cs in
    let ys := past_outputs (snd (d_run D (d_new D) cs)) in
    current k0 cs = (b2_b0 s, b2_b1 s, b2_b2 s, b2_a1 s, b2_a2 s)
    /\ b2_z2 s = (match ks, xs, ys with
                 | (_, _, b2, _, a2) :: _, x2 :: _, y2 :: _ =>
                     n_sub O (n_mul O b2 x2) (n_mul O a2 y2)
                 | _, _, _ => n_zero O
                 end)
    /\ b2_z1 s = (match ks, xs, ys with
          | (_, b1, _, a1, _) :: ks', x1 :: xs', y1 :: ys' =>
              n_sub O (n_add O (n_mul O b1 x1)
                (match ks', xs', ys' with
                 | (_, _, b2, _, a2) :: _, x2 :: _, y2 :: _ =>
                     n_sub O (n_mul O b2 x2) (n_mul O a2 y2)
                 | _, _, _ => n_zero O
                 end)) (n_mul O a1 y1)
          | _, _, _ => n_zero O
          end)).
  { clear. intros cs. induction cs as [|c cs IH] using rev_ind; cbn zeta.
    - repeat split; reflexivity.
    - cbn zeta in IH. rewrite past_settings_snoc, current_snoc, past_inputs_snoc, after_snoc, run_app.
      unfold after in *. destruct (d_run D (d_new D) cs) as [s l]. cbn [fst snd d_run] in *.
      destruct IH as [Hk [Hz2 Hz1]]. destruct c; cbn [d_step fst snd].
      + destruct (d_process D s x) as [s' y] eqn:E. cbn [fst snd]. rewrite past_outputs_snoc.
        unfold D in E. cbn in E. unfold biquad2_process in E. inversion E; subst s' y. clear E.
        rewrite Hk. cbn -[past_outputs past_inputs past_settings].
        split; [reflexivity|]. split; [reflexivity|].
        rewrite <- Hz2. reflexivity.
      + rewrite Hk. repeat split; reflexivity.
      + rewrite past_outputs_snoc. destruct k as [[[[? ?] ?] ?] ?].
        split; [reflexivity|]. split; [exact Hz2|exact Hz1].
      + rewrite past_outputs_snoc. auto. }
  destruct (H history) as [Hk [Hz2 Hz1]].
  rewrite Hk. unfold returns. cbn. cbn zeta in Hz1. do 3 f_equal. exact Hz1.
Qed.

(** C33: on the RBJ filters a setter call with arguments of the right type makes
    everything that follows independent of what came before. *)
Lemma C33_rbj_set_forgets_thm :
  forall (T : Type) (O : num_ops T) (k : rbj_kind) (history rest : list (call (rbj_args T) T))
         (a : rbj_args T),
    rbj_coeffs O k a <> None ->
    returns (dev_rbj O k) (history ++ [CSet a]) rest = returns (dev_rbj O k) [CSet a] rest.
Proof.
  intros T O k history rest a Ha. unfold returns. rewrite after_snoc.
  change [CSet a] with ([] ++ [@CSet (rbj_args T) T a]). rewrite after_snoc. cbn [d_step fst].
  enough (E : forall s1 s2, d_set (dev_rbj O k) s1 a = d_set (dev_rbj O k) s2 a)
    by (rewrite (E (after (dev_rbj O k) history) (after (dev_rbj O k) [])); reflexivity).
  intros s1 s2. cbn [d_set dev_rbj]. unfold rbj_set_coefficients.
  destruct (rbj_coeffs O k a) as [[[[[b0 b1] b2] a1] a2]|]; [|congruence].
  destruct k; reflexivity.
Qed.

(** C33: the coefficients of an RBJ filter are exactly those its setter
    computes: whatever came before, it then filters like a new [Biquad2] given
    them. *)
Lemma C33_rbj_is_biquad2_thm :
  forall (T : Type) (O : num_ops T) (k : rbj_kind) (history : list (call (rbj_args T) T))
         (a : rbj_args T) (c : T * T * T * T * T) (xs : list T),
    rbj_coeffs O k a = Some c ->
    returns (dev_rbj O k) (history ++ [CSet a]) (map CProcess xs)
    = returns (dev_biquad2 O) [CSet c] (map CProcess xs).
Proof.
  intros T O k history a c xs Ha. rewrite C33_rbj_set_forgets_thm by congruence.
  unfold returns.
  assert (E : after (dev_rbj O k) [CSet a] = after (dev_biquad2 O) [CSet c]).
  { unfold after. cbn. unfold rbj_set_coefficients. rewrite Ha.
    destruct c as [[[[b0 b1] b2] a1] a2]. destruct k; reflexivity. }
  rewrite E. generalize (after (dev_biquad2 O) [CSet c]). clear.
  induction xs as [|x xs IH]; intros s; [reflexivity|]. cbn [map d_run d_step].
  assert (E : d_process (dev_rbj O k) s x = d_process (dev_biquad2 O) s x) by (destruct k; reflexivity).
  rewrite E. destruct (d_process (dev_biquad2 O) s x) as [s' y]. specialize (IH s').
  destruct (d_run (dev_rbj O k) s' (map CProcess xs)).
  destruct (d_run (dev_biquad2 O) s' (map CProcess xs)). cbn in *. congruence.
Qed.
(*@PROP
Example C33_hyps (a b c : f64) :
  rbj_coeffs O64 LowPass (RbjQ a b c) <> None /\ rbj_coeffs O64 Peak (RbjGain a b c c) <> None
  /\ past_settings (a, b) [CProcess a; CSet (b, c); CProcess c] = [(b, c); (a, b)].
Proof. repeat split; discriminate. Qed.
@*)
