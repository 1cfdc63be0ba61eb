(** Properties C01-C05 (all processors), C28 and C33 (filters).

    Vocabulary: [Device] presents each filter, integrator and detector through its
    public API; [returns D before cs] is what the calls [cs] return when made
    after the calls [before] on a new object. *)
From Coq Require Import ZArith List Bool.
From Verif Require Import Base Num NumF Witness Traits FilterM RbjM AnalysisM DelayM DelaySpec
  DelayRun LinDelayM Device BlockSpec CoreLemmas.
Import ListNotations.
Open Scope Z_scope.

(** C01: [process_block] on a slice succeeds exactly when calling [process] once
    per sample does and the slice is not empty; it leaves the same samples and
    state and returns the last sample. *)
Theorem C01_block_is_per_sample :
  forall (S T : Type) (process : S -> T -> outcome (S * T)) (s s' : S) (xs ys : list T) (y : T),
    process_block process s xs = Ok (s', ys, y)
    <-> xs <> [] /\ one_by_one process s xs s' ys /\ exists front, ys = front ++ [y].
Proof. exact C01_block_is_per_sample_thm. Qed.
Print Assumptions C01_block_is_per_sample.

(** C01: for a processor whose [process] never panics (on the states satisfying
    an invariant [I] that it keeps), [process_block] panics exactly on the empty
    slice. *)
Theorem C01_block_panics_only_empty :
  forall (S T : Type) (process : S -> T -> outcome (S * T)) (I : S -> Prop),
    (forall s x, I s -> exists s' y, process s x = Ok (s', y) /\ I s') ->
    forall (s : S) (xs : list T), I s -> (process_block process s xs = Panic <-> xs = []).
Proof. exact C01_block_panics_only_empty_thm. Qed.
Print Assumptions C01_block_panics_only_empty.

(** C01 for [Delay]: after any history, a non-empty block never panics. *)
Theorem C01_block_delay :
  forall (T : Type) (O : num_ops T) (p : profile) (d m : Z) (ops : list (dl_op Z T))
         (s : delay T) (xs : list T),
    (1 <= n_size_of O)%Z -> dl_history O p d m ops s ->
    (process_block (delay_process p) s xs = Panic <-> xs = []).
Proof. exact C01_block_delay_thm. Qed.
Print Assumptions C01_block_delay.

(** C02: splitting a signal into non-empty blocks changes nothing. *)
Theorem C02_block_boundaries :
  forall (S T : Type) (process : S -> T -> outcome (S * T)) (s : S) (blocks : list (list T)),
    blocks <> [] -> Forall (fun b => b <> []) blocks ->
    (let* (s', yss) := feed_blocks process s blocks in Ok (s', concat yss))
    = (let* (s', ys, _) := process_block process s (concat blocks) in Ok (s', ys)).
Proof. exact C02_block_boundaries_thm. Qed.
Print Assumptions C02_block_boundaries.

(** Non-vacuity of C01 and C02: a leaky integrator fed three samples, in blocks. *)
Example C01_C02_hyps (a b c : f64) :
  let process := fun s x => Ok (leaky_process O64 s x) in
  (exists s' ys y, process_block process (leaky_new O64) [a; b; c] = Ok (s', ys, y))
  /\ [[a; b]; [c]] <> [] /\ Forall (fun l => l <> []) [[a; b]; [c]]
  /\ (forall s x, True -> exists s' y, process s x = Ok (s', y) /\ True).
Proof.
  split; [do 3 eexists; reflexivity|]. split; [discriminate|].
  split; [repeat constructor; discriminate|]. intros s x _. do 2 eexists. split; reflexivity.
Qed.

(** C03: directly after [process] returned [y], [last_out()] is [y] (every
    filter, RBJ filter, integrator and detector, after any history). *)
Theorem C03_last_out :
  forall (T S K : Type) (O : num_ops T) (D : device S K T) (history : list (call K T)) (x : T),
    library_device O D ->
    exists y, returns D history [CProcess x; CLastOut] = [Some y; Some y].
Proof. exact C03_last_out_thm. Qed.
Print Assumptions C03_last_out.

(** C03 for the two delay lines (from any state at all). *)
Theorem C03_last_out_delay :
  forall (T : Type) (p : profile) (s s' : delay T) (x y : T),
    delay_process p s x = Ok (s', y) -> delay_last_out s' = y.
Proof. exact C03_last_out_delay_thm. Qed.
Print Assumptions C03_last_out_delay.

Theorem C03_last_out_linear_delay :
  forall (C T : Type) (O : num_ops T) (p : profile) (s s' : lin_delay C T) (x y : T),
    lin_process O p s x = Ok (s', y) -> lin_last_out s' = y.
Proof. exact C03_last_out_linear_delay_thm. Qed.
Print Assumptions C03_last_out_linear_delay.

Example C03_last_out_hyps :
  library_device O64 (dev_one_zero O64) /\ library_device O64 (dev_rms O64)
  /\ library_device O64 (dev_rbj O64 HighShelf).
Proof. repeat split; try (left; constructor; fail); right; constructor. Qed.

Example C03_last_out_delay_hyps (a b : f64) :
  exists s s' y, delay_new O64 Debug 1 2 = Ok s /\ delay_process Debug s a = Ok (s', y).
Proof. do 3 eexists. split; reflexivity. Qed.

Example C03_last_out_linear_delay_hyps (a b : f64) :
  let s := MkLin (C := f32) [a; b] a 1 0 (fl32 1 0) true a (fl64 0 0) (fl64 1 0) in
  exists s' y, lin_process O64 Debug s a = Ok (s', y).
Proof. do 2 eexists. reflexivity. Qed.

(** C04: after [clear], every further call returns what it would return on a new
    object on which only the coefficient setters of the history were called. *)
Theorem C04_clear_forgets :
  forall (T S K : Type) (O : num_ops T) (D : device S K T) (history rest : list (call K T)),
    recursive_device O D ->
    returns D (history ++ [CClear]) rest = returns D (settings history) rest.
Proof. exact C04_clear_forgets_thm. Qed.
Print Assumptions C04_clear_forgets.

(** C04 for the FIR filters: the same, as long as [last_out] is not read before
    the next [process] (see C05 for why). *)
Theorem C04_clear_forgets_fir :
  forall (T S K : Type) (O : num_ops T) (D : device S K T) (history rest : list (call K T)),
    fir_device O D -> reads_after_process rest ->
    returns D (history ++ [CClear]) rest = returns D (settings history) rest.
Proof. exact C04_clear_forgets_fir_thm. Qed.
Print Assumptions C04_clear_forgets_fir.

Example C04_clear_forgets_hyps :
  recursive_device O64 (dev_biquad2 O64) /\ fir_device O64 (dev_two_zero O64)
  /\ reads_after_process (K := f64 * f64 * f64) (T := f64)
       [CClear; CProcess (fl64 1 0); CLastOut].
Proof. repeat split; constructor. Qed.

(** C05: after [clear], [last_out()] is zero (the square root of zero being
    zero, for the RMS detector). *)
Theorem C05_clear_resets_last_out :
  forall (T S K : Type) (O : num_ops T) (D : device S K T) (history : list (call K T)),
    n_sqrt O (n_zero O) = n_zero O -> recursive_device O D ->
    returns D (history ++ [CClear]) [CLastOut] = [Some (n_zero O)].
Proof. exact C05_clear_resets_last_out_thm. Qed.
Print Assumptions C05_clear_resets_last_out.

(** C05 for the delay lines. *)
Theorem C05_clear_resets_last_out_delays :
  forall (C T : Type) (O : num_ops T) (s : delay T) (s' : lin_delay C T),
    delay_last_out (delay_clear O s) = n_zero O /\ lin_last_out (lin_clear O s') = n_zero O.
Proof. exact C05_clear_resets_last_out_delays_thm. Qed.
Print Assumptions C05_clear_resets_last_out_delays.

(** C05 fails for the FIR filters: after [process(x)] and [clear], [last_out()]
    still returns the output of that [process]. *)
Theorem C05_clear_keeps_last_out_fir_refuted :
  forall (T S K : Type) (O : num_ops T) (D : device S K T) (history : list (call K T)) (x : T),
    fir_device O D ->
    exists y, returns D history [CProcess x; CClear; CLastOut] = [Some y; None; Some y].
Proof. exact C05_clear_keeps_last_out_fir_refuted_thm. Qed.
Print Assumptions C05_clear_keeps_last_out_fir_refuted.

Example C05_hyps :
  n_sqrt O64 (n_zero O64) = n_zero O64 /\ n_sqrt O32 (n_zero O32) = n_zero O32
  /\ recursive_device O64 (dev_rms O64) /\ fir_device O64 (dev_one_zero O64)
  /\ (exists y, returns (dev_one_zero O64) [] [CProcess (fl64 3 0); CClear; CLastOut]
                = [Some y; None; Some y] /\ y <> n_zero O64).
Proof.
  repeat split; try reflexivity; try constructor.
  eexists. split; [reflexivity|]. intros H.
  apply (f_equal (fun f => Flocq.IEEE754.BinarySingleNaN.B2SF f)) in H. vm_compute in H. discriminate.
Qed.

(** C28: after any history, the sample returned by [process(x)] is the documented
    difference equation, with the current coefficients and the true previous
    inputs and outputs since the last [clear] (zero where there are none). *)
Theorem C28_one_pole_equation :
  forall (T : Type) (O : num_ops T) (history : list (call (T * T) T)) (x : T),
    let D := dev_one_pole O in
    let '(b0, a1) := current (n_one O, n_zero O) history in
    let ys := past_outputs (snd (d_run D (d_new D) history)) in
    returns D history [CProcess x]
    = [Some (n_sub O (n_mul O b0 x) (n_mul O a1 (nth 0 ys (n_zero O))))].
Proof. exact C28_one_pole_equation_thm. Qed.
Print Assumptions C28_one_pole_equation.

Theorem C28_one_zero_equation :
  forall (T : Type) (O : num_ops T) (history : list (call (T * T) T)) (x : T),
    let D := dev_one_zero O in
    let '(b0, b1) := current (n_one O, n_zero O) history in
    let xs := past_inputs history in
    returns D history [CProcess x]
    = [Some (n_add O (n_mul O b0 x) (n_mul O b1 (nth 0 xs (n_zero O))))].
Proof. exact C28_one_zero_equation_thm. Qed.
Print Assumptions C28_one_zero_equation.

Theorem C28_two_pole_equation :
  forall (T : Type) (O : num_ops T) (history : list (call (T * T * T) T)) (x : T),
    let D := dev_two_pole O in
    let '(b0, a1, a2) := current (n_one O, n_zero O, n_zero O) history in
    let ys := past_outputs (snd (d_run D (d_new D) history)) in
    returns D history [CProcess x]
    = [Some (n_sub O (n_sub O (n_mul O b0 x) (n_mul O a1 (nth 0 ys (n_zero O))))
                     (n_mul O a2 (nth 1 ys (n_zero O))))].
Proof. exact C28_two_pole_equation_thm. Qed.
Print Assumptions C28_two_pole_equation.

Theorem C28_two_zero_equation :
  forall (T : Type) (O : num_ops T) (history : list (call (T * T * T) T)) (x : T),
    let D := dev_two_zero O in
    let '(b0, b1, b2) := current (n_one O, n_zero O, n_zero O) history in
    let xs := past_inputs history in
    returns D history [CProcess x]
    = [Some (n_add O (n_add O (n_mul O b0 x) (n_mul O b1 (nth 0 xs (n_zero O))))
                     (n_mul O b2 (nth 1 xs (n_zero O))))].
Proof. exact C28_two_zero_equation_thm. Qed.
Print Assumptions C28_two_zero_equation.

Theorem C28_biquad1_equation :
  forall (T : Type) (O : num_ops T) (history : list (call (T * T * T * T * T) T)) (x : T),
    let D := dev_biquad1 O in
    let '(b0, b1, b2, a1, a2) :=
      current (n_one O, n_zero O, n_zero O, n_zero O, n_zero O) history in
    let xs := past_inputs history in
    let ys := past_outputs (snd (d_run D (d_new D) history)) in
    returns D history [CProcess x]
    = [Some (n_sub O (n_sub O (n_add O (n_add O (n_mul O b0 x)
         (n_mul O b1 (nth 0 xs (n_zero O)))) (n_mul O b2 (nth 1 xs (n_zero O))))
         (n_mul O a1 (nth 0 ys (n_zero O)))) (n_mul O a2 (nth 1 ys (n_zero O))))].
Proof. exact C28_biquad1_equation_thm. Qed.
Print Assumptions C28_biquad1_equation.

(** A history with samples, two settings and a clear, to which C28 applies. *)
Example C28_hyps (a b c : f64) :
  let history := [CProcess a; CSet (b, c); CProcess b; CClear; CProcess c; CSet (a, b); CProcess a] in
  current (c, c) history = (a, b) /\ past_inputs history = [a; c]
  /\ length (past_outputs (snd (d_run (dev_one_pole O64) (d_new (dev_one_pole O64)) history))) = 2%nat.
Proof. repeat split; reflexivity. Qed.

(** C33: on the six basic filters the setter changes the coefficients only:
    [last_out()] is the same before and after. *)
Theorem C33_set_keeps_last_out :
  forall (T : Type) (O : num_ops T),
    (forall h k, exists y, returns (dev_one_pole O) h [CLastOut; CSet k; CLastOut] = [Some y; None; Some y])
    /\ (forall h k, exists y, returns (dev_one_zero O) h [CLastOut; CSet k; CLastOut] = [Some y; None; Some y])
    /\ (forall h k, exists y, returns (dev_two_pole O) h [CLastOut; CSet k; CLastOut] = [Some y; None; Some y])
    /\ (forall h k, exists y, returns (dev_two_zero O) h [CLastOut; CSet k; CLastOut] = [Some y; None; Some y])
    /\ (forall h k, exists y, returns (dev_biquad1 O) h [CLastOut; CSet k; CLastOut] = [Some y; None; Some y])
    /\ (forall h k, exists y, returns (dev_biquad2 O) h [CLastOut; CSet k; CLastOut] = [Some y; None; Some y]).
Proof. exact C33_set_keeps_last_out_thm. Qed.
Print Assumptions C33_set_keeps_last_out.

(** C33: [Biquad2] keeps its memory across coefficient changes.  Each past sample
    contributes with the coefficients that were in force when it was processed:
    after any history, with [k = (b0,b1,b2,a1,a2)] now, [k1] at the previous
    [process] and [k2] at the one before, since the last [clear] (coefficients
    and samples zero before that). *)
Theorem C33_biquad2_memory :
  forall (T : Type) (O : num_ops T) (history : list (call (T * T * T * T * T) T)) (x : T),
    let D := dev_biquad2 O in
    let k0 := (n_one O, n_zero O, n_zero O, n_zero O, n_zero O) in
    let ks := past_settings k0 history in
    let xs := past_inputs history in
    let ys := past_outputs (snd (d_run D (d_new D) history)) in
    let '(b0, _, _, _, _) := current k0 history in
    returns D history [CProcess x]
    = [Some (n_add O (n_mul O b0 x)
         (match ks, xs, ys with
          | (_, b1, _, a1, _) :: ks', x1 :: xs', y1 :: ys' =>
              n_sub O (n_add O (n_mul O b1 x1)
                (match ks', xs', ys' with
                 | (_, _, b2, _, a2) :: _, x2 :: _, y2 :: _ =>
                     n_sub O (n_mul O b2 x2) (n_mul O a2 y2)
                 | _, _, _ => n_zero O
                 end)) (n_mul O a1 y1)
          | _, _, _ => n_zero O
          end))].
Proof. exact C33_biquad2_memory_thm. Qed.
Print Assumptions C33_biquad2_memory.

(** C33: on the RBJ filters a setter call with arguments of the right type makes
    everything that follows independent of what came before. *)
Theorem C33_rbj_set_forgets :
  forall (T : Type) (O : num_ops T) (k : rbj_kind) (history rest : list (call (rbj_args T) T))
         (a : rbj_args T),
    rbj_coeffs O k a <> None ->
    returns (dev_rbj O k) (history ++ [CSet a]) rest = returns (dev_rbj O k) [CSet a] rest.
Proof. exact C33_rbj_set_forgets_thm. Qed.
Print Assumptions C33_rbj_set_forgets.

(** C33: the coefficients of an RBJ filter are exactly those its setter
    computes: whatever came before, it then filters like a new [Biquad2] given
    them. *)
Theorem C33_rbj_is_biquad2 :
  forall (T : Type) (O : num_ops T) (k : rbj_kind) (history : list (call (rbj_args T) T))
         (a : rbj_args T) (c : T * T * T * T * T) (xs : list T),
    rbj_coeffs O k a = Some c ->
    returns (dev_rbj O k) (history ++ [CSet a]) (map CProcess xs)
    = returns (dev_biquad2 O) [CSet c] (map CProcess xs).
Proof. exact C33_rbj_is_biquad2_thm. Qed.
Print Assumptions C33_rbj_is_biquad2.

Example C33_hyps (a b c : f64) :
  rbj_coeffs O64 LowPass (RbjQ a b c) <> None /\ rbj_coeffs O64 Peak (RbjGain a b c c) <> None
  /\ past_settings (a, b) [CProcess a; CSet (b, c); CProcess c] = [(b, c); (a, b)].
Proof. repeat split; discriminate. Qed.
