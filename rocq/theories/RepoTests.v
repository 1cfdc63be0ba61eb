(** The repository's own tests, run on the model.

    Each [Example] is one [#[test]] function of /repo (file and lines cited),
    transcribed call by call on the [f32] instance of the model in the debug
    profile, which is what [cargo test] builds.  They check the transcription of
    the code into the model against results its author expected; they are
    tests, no theorem rests on them.

    The math functions are those of [FixLibm].  Where a test only uses basic
    arithmetic it is run with [forall lm] instead.  [test_delay_clear] uses a
    shorter buffer than the original, see there. *)
From Coq Require Import ZArith List Bool.
From Flocq Require Import Core.Core IEEE754.BinarySingleNaN.
From Verif Require Import Base Num NumF Traits FilterM RbjM AnalysisM DelayM LinDelayM
  UtilM WindowM FixLibm.
Import ListNotations.
Open Scope Z_scope.

(** The decimal literal [n * 10^-k] as [f32]: nearest even (the last bit is
    sticky, so rounding it once more is harmless). *)
Definition dec (n k : Z) : f32 :=
  let d := 10 ^ Z.max k 0 in
  let a := Z.shiftl (Z.abs n * 10 ^ Z.max (- k) 0) 100 in
  let m := 2 * (a / d) + (if a mod d =? 0 then 0 else 1) in
  binary_normalize 24 128 eq_refl eq_refl mode_NE (if n <? 0 then - m else m) (-101) false.

(** [std::f32::EPSILON] = 2^-23 *)
Definition EPSILON : f32 := binary_normalize 24 128 eq_refl eq_refl mode_NE 1 (-23) false.
Definition tol6 : f32 := dec 1 6.

(** [(a - b).abs() < tol] and [(a - b).abs() <= tol] *)
Definition lt_tol (tol a b : f32) : bool := Bltb (Babs (Bminus mode_NE a b)) tol.
Definition le_tol (tol a b : f32) : bool := Bleb (Babs (Bminus mode_NE a b)) tol.

Fixpoint forallb2 {A B} (f : A -> B -> bool) (l : list A) (m : list B) : bool :=
  match l, m with
  | [], [] => true
  | a :: l', b :: m' => f a b && forallb2 f l' m'
  | _, _ => false
  end.

Definition ok_close (tol : f32) (r : outcome (list f32)) (e : list f32) : bool :=
  match r with Ok l => forallb2 (lt_tol tol) l e | _ => false end.

(** A test that must return normally with all its assertions true. *)
Definition passes (r : outcome bool) : bool := match r with Ok b => b | _ => false end.

Definition pure {S} (f : S -> f32 -> S * f32) : S -> f32 -> outcome (S * f32) :=
  fun s x => Ok (f s x).

Definition O : num_ops f32 := f32_ops fix_libm false.
Notation zero := (dec 0 0).
Notation one := (dec 1 0).

(** ** Filters *)

Section FilterTests.
  Context {S : Type} (new : S) (process : S -> f32 -> S * f32) (clear : S -> S) (set : S -> S)
    (cmp : f32 -> f32 -> bool).

  (** The [process] tests of the six filter types: a new filter copies its
      input; after [clear] and [set_coefficients] it gives [expected]. *)
  Definition filter_process_test (input expected : list f32) : bool :=
    passes (
      let* (s1, ys1) := process_each (pure process) new input in
      let* (_, ys2) := process_each (pure process) (set (clear s1)) input in
      Ok (forallb2 cmp ys1 input && forallb2 cmp expected ys2)).

  (** The [process_block] tests. *)
  Definition filter_block_test (input expected : list f32) : bool :=
    passes (
      let* (s1y, last1) := process_block (pure process) new input in
      let* (s2y, last2) := process_block (pure process) (set (clear (fst s1y))) input in
      Ok (cmp last1 (last input zero) && cmp last2 (last expected zero) &&
          forallb2 cmp expected (snd s2y))).
End FilterTests.

Definition input5 : list f32 := [dec 55 2; dec (-55) 2; dec 55 2; dec (-55) 2; dec 25 2].
Definition input4 : list f32 := [dec 55 2; dec (-55) 2; dec 55 2; dec (-55) 2].

Definition one_pole_expected : list f32 :=
  [dec 275 3; dec (-3025) 4; dec 30525 5; dec (-305525) 6; dec 1555525 7].
(** filter/one_pole.rs:76-100 *)
Example test_one_pole_process : forall lm b, let O := f32_ops lm b in
  filter_process_test (one_pole_new O) (one_pole_process O) (one_pole_clear O)
    (fun s => one_pole_set_coefficients s (dec 5 1) (dec 1 1))
    (lt_tol EPSILON) input5 one_pole_expected = true.
Proof. intros. vm_compute. reflexivity. Qed.
(** filter/one_pole.rs:103-130 *)
Example test_one_pole_block : forall lm b, let O := f32_ops lm b in
  filter_block_test (one_pole_new O) (one_pole_process O) (one_pole_clear O)
    (fun s => one_pole_set_coefficients s (dec 5 1) (dec 1 1))
    (lt_tol EPSILON) input5 one_pole_expected = true.
Proof. intros. vm_compute. reflexivity. Qed.

Definition one_zero_expected : list f32 :=
  [dec (-165) 3; dec 605 3; dec (-605) 3; dec 605 3; dec (-515) 3].
(** filter/one_zero.rs:78-102 *)
Example test_one_zero_process : forall lm b, let O := f32_ops lm b in
  filter_process_test (one_zero_new O) (one_zero_process O) (one_zero_clear O)
    (fun s => one_zero_set_coefficients s (dec (-3) 1) (dec 8 1))
    (lt_tol EPSILON) input5 one_zero_expected = true.
Proof. intros. vm_compute. reflexivity. Qed.
(** filter/one_zero.rs:105-132 *)
Example test_one_zero_block : forall lm b, let O := f32_ops lm b in
  filter_block_test (one_zero_new O) (one_zero_process O) (one_zero_clear O)
    (fun s => one_zero_set_coefficients s (dec (-3) 1) (dec 8 1))
    (lt_tol EPSILON) input5 one_zero_expected = true.
Proof. intros. vm_compute. reflexivity. Qed.

Definition two_pole_expected : list f32 :=
  [dec 495 3; dec (-594) 3; dec 12573 4; dec (-151866) 5].
(** filter/two_pole.rs:83-107 *)
Example test_two_pole_process : forall lm b, let O := f32_ops lm b in
  filter_process_test (two_pole_new O) (two_pole_process O) (two_pole_clear O)
    (fun s => two_pole_set_coefficients s (dec 9 1) (dec 2 1) (dec (-13) 1))
    (le_tol EPSILON) input4 two_pole_expected = true.
Proof. intros. vm_compute. reflexivity. Qed.
(** filter/two_pole.rs:110-138 *)
Example test_two_pole_block : forall lm b, let O := f32_ops lm b in
  filter_block_test (two_pole_new O) (two_pole_process O) (two_pole_clear O)
    (fun s => two_pole_set_coefficients s (dec 9 1) (dec 2 1) (dec (-13) 1))
    (le_tol EPSILON) input4 two_pole_expected = true.
Proof. intros. vm_compute. reflexivity. Qed.

Definition two_zero_expected : list f32 :=
  [dec 495 3; dec (-605) 3; dec 132 2; dec (-132) 2; dec 105 2].
(** filter/two_zero.rs:85-109 *)
Example test_two_zero_process : forall lm b, let O := f32_ops lm b in
  filter_process_test (two_zero_new O) (two_zero_process O) (two_zero_clear O)
    (fun s => two_zero_set_coefficients s (dec 9 1) (dec (-2) 1) (dec 13 1))
    (le_tol EPSILON) input5 two_zero_expected = true.
Proof. intros. vm_compute. reflexivity. Qed.
(** filter/two_zero.rs:112-139 *)
Example test_two_zero_block : forall lm b, let O := f32_ops lm b in
  filter_block_test (two_zero_new O) (two_zero_process O) (two_zero_clear O)
    (fun s => two_zero_set_coefficients s (dec 9 1) (dec (-2) 1) (dec 13 1))
    (le_tol EPSILON) input5 two_zero_expected = true.
Proof. intros. vm_compute. reflexivity. Qed.

Definition biquad_expected : list f32 :=
  [dec 275 3; dec (-11) 2; dec 2145 4; dec (-2519) 4; dec 9893 5].
(** filter/biquad.rs:198-222 *)
Example test_biquad1_process : forall lm b, let O := f32_ops lm b in
  filter_process_test (biquad1_new O) (biquad1_process O) (biquad1_clear O)
    (fun s => biquad1_set_coefficients s (dec 5 1) (dec 4 1) (dec 3 1) (dec 2 1) (dec 1 1))
    (lt_tol EPSILON) input5 biquad_expected = true.
Proof. intros. vm_compute. reflexivity. Qed.
(** filter/biquad.rs:225-252 *)
Example test_biquad1_block : forall lm b, let O := f32_ops lm b in
  filter_block_test (biquad1_new O) (biquad1_process O) (biquad1_clear O)
    (fun s => biquad1_set_coefficients s (dec 5 1) (dec 4 1) (dec 3 1) (dec 2 1) (dec 1 1))
    (lt_tol EPSILON) input5 biquad_expected = true.
Proof. intros. vm_compute. reflexivity. Qed.
(** filter/biquad.rs:262-286 *)
Example test_biquad2_process : forall lm b, let O := f32_ops lm b in
  filter_process_test (biquad2_new O) (biquad2_process O) (biquad2_clear O)
    (fun s => biquad2_set_coefficients s (dec 5 1) (dec 4 1) (dec 3 1) (dec 2 1) (dec 1 1))
    (lt_tol EPSILON) input5 biquad_expected = true.
Proof. intros. vm_compute. reflexivity. Qed.
(** filter/biquad.rs:289-316 *)
Example test_biquad2_block : forall lm b, let O := f32_ops lm b in
  filter_block_test (biquad2_new O) (biquad2_process O) (biquad2_clear O)
    (fun s => biquad2_set_coefficients s (dec 5 1) (dec 4 1) (dec 3 1) (dec 2 1) (dec 1 1))
    (lt_tol EPSILON) input5 biquad_expected = true.
Proof. intros. vm_compute. reflexivity. Qed.

(** ** RBJ filters *)

(** The tests [new] of lowpass.rs and highpass.rs: [w0], [cos_w0], [alpha] as
    the test computes them, then the five coefficients of the filter. *)
Definition rbj_new_test (k : rbj_kind) (b0 b1 b2 : f32) : bool :=
  let sample_rate := dec 44100 0 in
  let cutoff := dec 1200 0 in
  let q := one in
  let w0 := n_div O (n_mul O (n_mul O (dec 2 0) (n_pi O)) cutoff) sample_rate in
  let cos_w0 := n_cos O w0 in
  let alpha := n_div O (n_sin O w0) (n_mul O (dec 2 0) q) in
  match rbj_set_coefficients O k (rbj_new O k) (RbjQ sample_rate cutoff q) with
  | Some s =>
      le_tol EPSILON (dec 170971028767 12) w0 &&
      le_tol EPSILON (dec 985420021355 12) cos_w0 &&
      le_tol EPSILON (dec 85069650158 12) alpha &&
      le_tol EPSILON b0 (b2_b0 s) && le_tol EPSILON b1 (b2_b1 s) &&
      le_tol EPSILON b2 (b2_b2 s) &&
      le_tol EPSILON (dec (-1816325839012) 12) (b2_a1 s) &&
      le_tol EPSILON (dec 843199650555 12) (b2_a2 s)
  | None => false
  end.
(** filter/rbj/lowpass.rs:77-98 *)
Example test_lowpass_new :
  rbj_new_test LowPass (dec 6718452886 12) (dec 13436905772 12) (dec 6718452886 12) = true.
Proof. vm_compute. reflexivity. Qed.
(** filter/rbj/highpass.rs:77-98 *)
Example test_highpass_new :
  rbj_new_test HighPass (dec 914881372392 12) (dec (-1829762744784) 12)
    (dec 914881372392 12) = true.
Proof. vm_compute. reflexivity. Qed.

(** The tests [process] of lowpass.rs and highpass.rs. *)
Definition rbj_process_test (k : rbj_kind) (expected : list f32) : bool :=
  filter_process_test (rbj_new O k) (rbj_process O k) (rbj_clear O k)
    (fun s => match rbj_set_coefficients O k s (RbjQ (dec 44100 0) (dec 8000 0) (dec 71 2)) with
              | Some s' => s' | None => s end)
    (le_tol EPSILON) [dec 5 1; dec 4 1; dec 3 1; dec 2 1; dec 1 1] expected.
(** filter/rbj/lowpass.rs:101-130 *)
Example test_lowpass_process :
  rbj_process_test LowPass
    [dec 88763995825 12; dec 293767078666 12; dec 414231561951 12; dec 359573380268 12;
     dec 234253200384 12] = true.
Proof. vm_compute. reflexivity. Qed.
(** filter/rbj/highpass.rs:101-130 *)
Example test_highpass_process :
  rbj_process_test HighPass
    [dec 216146415734 12; dec (-149242684917) 12; dec (-123518332014) 12;
     dec (-30156347137) 12; dec 11764215888 12] = true.
Proof. vm_compute. reflexivity. Qed.

(** The [rbj] tests of tests/lib.rs: once set, the filter changes 0.1. *)
Definition rbj_changes (k : rbj_kind) (args : rbj_args f32) : bool :=
  match rbj_set_coefficients O k (rbj_new O k) args with
  | Some s => negb (Beqb (snd (rbj_process O k s (dec 1 1))) (dec 1 1))
  | None => false
  end.
Definition q_args : rbj_args f32 := RbjQ (dec 44100 0) (dec 12000 0) (dec 71 2).
Definition gain_args : rbj_args f32 := RbjGain (dec 44100 0) (dec 12000 0) (dec 3 0) (dec 71 2).
(** tests/lib.rs:103-171 *)
Example test_api_rbj :
  forallb (fun k => rbj_changes k q_args) [LowPass; HighPass; BandPass1; BandPass2; BandStop; AllPass]
  && forallb (fun k => rbj_changes k gain_args) [LowShelf; HighShelf; Peak] = true.
Proof. vm_compute. reflexivity. Qed.

(** ** Analysis *)

(** analysis/leaky_integrator.rs:106-111 *)
Example test_leaky_new : forall lm b, let O := f32_ops lm b in
  lt_tol EPSILON (leaky_last_out (leaky_new O)) zero &&
  lt_tol EPSILON (leaky_get_alpha (leaky_new O)) zero = true.
Proof. intros. vm_compute. reflexivity. Qed.
(** analysis/leaky_integrator.rs:114-119 *)
Example test_leaky_gain : forall lm b, let O := f32_ops lm b in
  lt_tol EPSILON (leaky_get_alpha (leaky_set_alpha O (leaky_new O) (dec 5 1))) (dec 5 1) = true.
Proof. intros. vm_compute. reflexivity. Qed.
(** analysis/leaky_integrator.rs:122-138 *)
Example test_leaky_memory : forall lm b, let O := f32_ops lm b in
  (let s0 := leaky_new O in
   let s1 := leaky_set_alpha O s0 (dec 5 1) in
   let (s2, y) := leaky_process O s1 one in
   let s3 := leaky_clear O s2 in
   let (s4, z) := leaky_process O s3 one in
   lt_tol EPSILON (leaky_last_out s0) zero &&
   lt_tol EPSILON y (dec 5 1) && lt_tol EPSILON (leaky_last_out s2) (dec 5 1) &&
   lt_tol EPSILON (leaky_last_out s3) zero &&
   lt_tol EPSILON z (dec 5 1) && lt_tol EPSILON (leaky_last_out s4) (dec 5 1)) = true.
Proof. intros. vm_compute. reflexivity. Qed.
(** analysis/leaky_integrator.rs:141-151 *)
Example test_leaky_process : forall lm b, let O := f32_ops lm b in
  passes (
    let* (_, ys) := process_each (pure (leaky_process O))
                      (leaky_set_alpha O (leaky_new O) (dec 5 1)) (repeat one 5) in
    Ok (forallb2 (lt_tol EPSILON) ys [dec 5 1; dec 75 2; dec 875 3; dec 9375 4; dec 96875 5])) = true.
Proof. intros. vm_compute. reflexivity. Qed.

(** analysis/peak_detector.rs:145-151 and analysis/rms_detector.rs:145-151 *)
Example test_detector_new : forall lm b, let O := f32_ops lm b in
  lt_tol EPSILON (peak_last_out (peak_new O)) zero &&
  lt_tol EPSILON (peak_get_attack_gain (peak_new O)) zero &&
  lt_tol EPSILON (peak_get_release_gain (peak_new O)) zero &&
  lt_tol EPSILON (rms_last_out O (rms_new O)) zero &&
  lt_tol EPSILON (rms_get_attack_gain (rms_new O)) zero &&
  lt_tol EPSILON (rms_get_release_gain (rms_new O)) zero = true.
Proof. intros. vm_compute. reflexivity. Qed.

Section DetectorTests.
  Context {S : Type} (new : S) (set_attack set_release : S -> f32 -> S)
    (attack_gain release_gain last_out : S -> f32) (process : S -> f32 -> S * f32) (clear : S -> S).
  Definition attack := n_mul O (dec 2 2) (dec 44100 0).
  Definition release := n_mul O (dec 2 1) (dec 44100 0).

  (** [attack_and_release]: the gains, and their surviving 0, infinity, NaN. *)
  Definition attack_and_release_test : bool :=
    let ea := n_exp O (n_div O (dec (-1) 0) attack) in
    let er := n_exp O (n_div O (dec (-1) 0) release) in
    let good s := lt_tol EPSILON (attack_gain s) ea && lt_tol EPSILON (release_gain s) er in
    let s0 := set_release (set_attack new attack) release in
    let bad s v := set_release (set_attack s v) v in
    let s1 := bad s0 zero in
    let s2 := bad s1 (B754_infinity false) in
    let s3 := bad s2 B754_nan in
    good s0 && good s1 && good s2 && good s3.

  Definition memory_test : bool :=
    let s0 := set_release (set_attack new attack) release in
    let (s1, y) := process s0 one in
    lt_tol EPSILON (last_out s1) y && lt_tol EPSILON (last_out (clear s1)) zero.
End DetectorTests.
(** analysis/peak_detector.rs:154-175 *)
Example test_peak_attack_and_release :
  attack_and_release_test (peak_new O) (peak_set_attack O) (peak_set_release O)
    (@peak_get_attack_gain _) (@peak_get_release_gain _) = true.
Proof. vm_compute. reflexivity. Qed.
(** analysis/peak_detector.rs:178-188 *)
Example test_peak_memory :
  memory_test (peak_new O) (peak_set_attack O) (peak_set_release O)
    (@peak_last_out _) (peak_process O) (peak_clear O) = true.
Proof. vm_compute. reflexivity. Qed.
(** analysis/rms_detector.rs:154-175 *)
Example test_rms_attack_and_release :
  attack_and_release_test (rms_new O) (rms_set_attack O) (rms_set_release O)
    (@rms_get_attack_gain _) (@rms_get_release_gain _) = true.
Proof. vm_compute. reflexivity. Qed.
(** analysis/rms_detector.rs:178-188 *)
Example test_rms_memory :
  memory_test (rms_new O) (rms_set_attack O) (rms_set_release O)
    (rms_last_out O) (rms_process O) (rms_clear O) = true.
Proof. vm_compute. reflexivity. Qed.

(** tests/lib.rs:17-33 and 51-84: new processors copy their input. *)
Example test_api_initial : forall lm b, let O := f32_ops lm b in
  forallb (lt_tol EPSILON one)
    [snd (leaky_process O (leaky_new O) one); snd (peak_process O (peak_new O) one);
     snd (rms_process O (rms_new O) one); snd (one_pole_process O (one_pole_new O) one);
     snd (one_zero_process O (one_zero_new O) one); snd (two_pole_process O (two_pole_new O) one);
     snd (two_zero_process O (two_zero_new O) one); snd (biquad1_process O (biquad1_new O) one);
     snd (biquad2_process O (biquad2_new O) one)] = true.
Proof. intros. vm_compute. reflexivity. Qed.

(** ** Delay lines *)

Section DelayTests.
  Context (lm : libm f32) (b : bool).
  Let O := f32_ops lm b.
  Let D := delay f32.
  Let L := lin_delay f32 f32.
  Let K := f32_ctl_f32.

  (** delay/mod.rs:168-180 *)
  Definition delay_new_test : outcome bool :=
    let* d1 := delay_new O Debug 0 4095 in
    let* d2 := delay_new O Debug 4 4095 in
    let* y1 := delay_next_out d1 in
    let* y2 := delay_next_out d2 in
    let* m1 := delay_get_max_delay Debug d1 in
    let* m2 := delay_get_max_delay Debug d2 in
    let* d1' := delay_set_delay Debug d1 4 in
    Ok (lt_tol EPSILON y1 zero && lt_tol EPSILON y2 zero &&
        negb (delay_get_delay d1 =? delay_get_delay d2) && (m1 =? m2) &&
        (delay_get_delay d1' =? delay_get_delay d2)).
  (** delay/mod.rs:183-186 *)
  Definition delay_new_beyond_test : outcome bool :=
    let* d := delay_new O Debug 2000 1000 in
    let* m := delay_get_max_delay Debug d in
    Ok (delay_get_delay d =? m).
  (** delay/mod.rs:189-194 *)
  Definition delay_set_delay_test : outcome bool :=
    let* d := delay_new O Debug 500 1000 in
    let* d' := delay_set_delay Debug d 2000 in
    Ok (delay_get_delay d' =? 1000).
  Definition impulse : list f32 := [one; zero; zero; zero; zero].
  (** delay/mod.rs:197-205 *)
  Definition delay_process_test : outcome bool :=
    let* d := delay_new O Debug 4 4095 in
    let* (_, ys) := process_each (delay_process Debug) d impulse in
    Ok (forallb2 (lt_tol EPSILON) [zero; zero; zero; zero; one] ys).
  (** delay/mod.rs:208-220, with a delay of 24 in a buffer of 100 instead of 380
      in 4096 *)
  Definition delay_clear_test : outcome bool :=
    let* d := delay_new O Debug 24 99 in
    let ramp := map (fun i => dec (Z.of_nat i) 0) (seq 0 24) in
    let* (d1, ys) := process_each (delay_process Debug) d ramp in
    let* (_, zs) := process_each (delay_process Debug) (delay_clear O d1) ramp in
    Ok (forallb (lt_tol EPSILON zero) ys && forallb (lt_tol EPSILON zero) zs).

  Definition quarters : list f32 := [zero; dec 25 2; dec 5 1; dec 75 2].
  Definition quarters_down : list f32 := [dec 75 2; dec 5 1; dec 25 2; zero].

  (** delay/mod.rs:223-237 *)
  Fixpoint tap_out_loop {S} (proc : S -> f32 -> outcome (S * f32)) (tap : S -> Z -> outcome f32)
    (cmp : f32 -> f32 -> bool) (s : S) (xs : list f32) : outcome (S * bool) :=
    match xs with
    | [] => Ok (s, true)
    | x :: xs' =>
        let* (s1, _) := proc s x in
        let* y := tap s1 0 in
        let* (s2, ok) := tap_out_loop proc tap cmp s1 xs' in
        Ok (s2, cmp x y && ok)
    end.
  Fixpoint taps {S} (tap : S -> Z -> outcome f32) (s : S) (i : Z) (n : nat) : outcome (list f32) :=
    match n with
    | 0%nat => Ok []
    | S n' => let* y := tap s i in
              let* ys := taps tap s (i + 1) n' in
              Ok (y :: ys)
    end.
  Definition delay_tap_out_test : outcome bool :=
    let* d := delay_new O Debug 4 4095 in
    let* (d1, ok) := tap_out_loop (delay_process Debug) (delay_tap_out Debug)
                       (lt_tol EPSILON) d quarters in
    let* ys := taps (delay_tap_out Debug) d1 0 4 in
    Ok (ok && forallb2 (lt_tol EPSILON) quarters_down ys).

  (** delay/mod.rs:240-253 and 256-269 *)
  Fixpoint tap_ins {S} (tap : S -> f32 -> Z -> outcome S) (s : S) (i : Z) (xs : list f32)
    : outcome S :=
    match xs with
    | [] => Ok s
    | x :: xs' => let* s1 := tap s x i in tap_ins tap s1 (i + 1) xs'
    end.
  Definition delay_tap_in_test (tap : D -> f32 -> Z -> outcome D) : outcome bool :=
    let* d := delay_new O Debug 4 4095 in
    let* d1 := tap_ins tap d 0 quarters in
    let* (_, ys) := process_each (delay_process Debug) d1 (repeat zero 4) in
    Ok (forallb2 (lt_tol EPSILON) quarters_down ys).

  (** delay/linear_delay.rs:205-218 *)
  Definition lin_new_test : outcome bool :=
    let* d1 := lin_new K O Debug zero 4095 in
    let* d2 := lin_new K O Debug (dec 5 1) 4095 in
    let* (d1a, y1) := lin_next_out O Debug d1 in
    let* (d2a, y2) := lin_next_out O Debug d2 in
    let* m1 := lin_get_max_delay Debug d1a in
    let* m2 := lin_get_max_delay Debug d2a in
    let* d1b := lin_set_delay K O Debug d1a (dec 265 2) in
    Ok (Beqb y1 zero && Beqb y2 zero &&
        lt_tol EPSILON (lin_get_delay d1a) zero && lt_tol EPSILON (lin_get_delay d2a) (dec 5 1) &&
        (m1 =? m2) && lt_tol EPSILON (lin_get_delay d1b) (dec 265 2)).
  (** delay/linear_delay.rs:221-227 *)
  Definition lin_new_beyond_test : outcome bool :=
    let* d1 := lin_new K O Debug (dec 2000 0) 1000 in
    let* m1 := lin_get_max_delay Debug d1 in
    let* d2 := lin_new K O Debug (dec (-2000) 0) 1000 in
    Ok (lt_tol EPSILON (lin_get_delay d1) (f_of_Z 24 128 m1) &&
        lt_tol EPSILON (lin_get_delay d2) zero).
  (** delay/linear_delay.rs:230-239 *)
  Definition lin_set_delay_test : outcome bool :=
    let* d := lin_new K O Debug (dec 500 0) 1000 in
    let* d1 := lin_set_delay K O Debug d (dec 2000 0) in
    let* d2 := lin_set_delay K O Debug d1 (dec (-2000) 0) in
    Ok (lt_tol EPSILON (lin_get_delay d1) (f_of_Z 24 128 1000) &&
        lt_tol EPSILON (lin_get_delay d2) zero).
  (** delay/linear_delay.rs:242-261 *)
  Definition lin_process_test : outcome bool :=
    let* d1 := lin_new K O Debug (dec 4 0) 4095 in
    let* (_, ys) := process_each (lin_process O Debug) d1 impulse in
    let* d2 := lin_new K O Debug (dec 25 1) 4095 in
    let* (_, zs) := process_each (lin_process O Debug) d2 impulse in
    Ok (forallb2 (lt_tol EPSILON) [zero; zero; zero; zero; one] ys &&
        forallb2 (lt_tol EPSILON) [zero; zero; dec 5 1; dec 5 1; zero] zs).
  (** delay/linear_delay.rs:264-278 *)
  Definition lin_tap_out_test : outcome bool :=
    let* d := lin_new K O Debug (dec 4 0) 4095 in
    let* (d1, ok) := tap_out_loop (lin_process O Debug) (lin_tap_out Debug)
                       (@Beqb 24 128) d quarters in
    let* ys := taps (lin_tap_out Debug) d1 0 4 in
    Ok (ok && forallb2 (@Beqb 24 128) quarters_down ys).
  (** delay/linear_delay.rs:281-294 *)
  Definition lin_tap_in_test : outcome bool :=
    let* d := lin_new K O Debug (dec 4 0) 4095 in
    let* d1 := tap_ins (lin_tap_in Debug) d 0 quarters in
    let* (_, ys) := process_each (lin_process O Debug) d1 (repeat zero 4) in
    Ok (forallb2 (@Beqb 24 128) quarters_down ys).
  (** tests/lib.rs:182-187 and 190-195 *)
  Definition api_delay_test : outcome bool :=
    let* d := delay_new O Debug 1 4 in
    let* (_, ys) := process_each (delay_process Debug) d [one; zero] in
    let* l := lin_new K O Debug one 4 in
    let* (_, zs) := process_each (lin_process O Debug) l [one; zero] in
    Ok (forallb2 (lt_tol EPSILON) ys [zero; one] && forallb2 (lt_tol EPSILON) zs [zero; one]).
End DelayTests.

Example test_delay_new : forall lm b, passes (delay_new_test lm b) = true.
Proof. intros. vm_compute. reflexivity. Qed.
Example test_delay_new_beyond_bounds : forall lm b, passes (delay_new_beyond_test lm b) = true.
Proof. intros. vm_compute. reflexivity. Qed.
Example test_delay_set_delay : forall lm b, passes (delay_set_delay_test lm b) = true.
Proof. intros. vm_compute. reflexivity. Qed.
Example test_delay_process : forall lm b, passes (delay_process_test lm b) = true.
Proof. intros. vm_compute. reflexivity. Qed.
Example test_delay_clear : forall lm b, passes (delay_clear_test lm b) = true.
Proof. intros. vm_compute. reflexivity. Qed.
Example test_delay_tap_out : forall lm b, passes (delay_tap_out_test lm b) = true.
Proof. intros. vm_compute. reflexivity. Qed.
Example test_delay_tap_in : forall lm b, passes (delay_tap_in_test lm b (delay_tap_in Debug)) = true.
Proof. intros. vm_compute. reflexivity. Qed.
Example test_delay_add_to : forall lm b,
  passes (delay_tap_in_test lm b
            (fun s x i => let* (s', _) := delay_add_to (f32_ops lm b) Debug s x i in Ok s')) = true.
Proof. intros. vm_compute. reflexivity. Qed.
Example test_lin_new : forall lm b, passes (lin_new_test lm b) = true.
Proof. intros. vm_compute. reflexivity. Qed.
Example test_lin_new_beyond_bounds : forall lm b, passes (lin_new_beyond_test lm b) = true.
Proof. intros. vm_compute. reflexivity. Qed.
Example test_lin_set_delay : forall lm b, passes (lin_set_delay_test lm b) = true.
Proof. intros. vm_compute. reflexivity. Qed.
Example test_lin_process : forall lm b, passes (lin_process_test lm b) = true.
Proof. intros. vm_compute. reflexivity. Qed.
Example test_lin_tap_out : forall lm b, passes (lin_tap_out_test lm b) = true.
Proof. intros. vm_compute. reflexivity. Qed.
Example test_lin_tap_in : forall lm b, passes (lin_tap_in_test lm b) = true.
Proof. intros. vm_compute. reflexivity. Qed.
Example test_api_delay : forall lm b, passes (api_delay_test lm b) = true.
Proof. intros. vm_compute. reflexivity. Qed.

(** ** Conversions *)

Definition ok_lt (r : outcome f32) (x : f32) : bool :=
  match r with Ok y => lt_tol EPSILON y x | _ => false end.
(** util/mod.rs:51-79 (and the first line of tests/lib.rs:204) *)
Example test_to_db :
  forallb2 (fun x e => ok_lt (to_db O Debug x) e)
    [zero; dec 999 9; dec 1 7; dec 1 1; dec 1 2; dec 1 3; dec 1 4; dec 1 5; dec 1 6]
    [dec (-120) 0; dec (-120) 0; dec (-120) 0; dec (-20) 0; dec (-40) 0; dec (-60) 0; dec (-80) 0;
     dec (-100) 0; dec (-120) 0] = true.
Proof. vm_compute. reflexivity. Qed.
(** util/mod.rs:81-88, [#[should_panic]]: whatever the sign of NaN is, the third
    line panics if the first two do not. *)
Example test_to_db_panics : forall lm b, let O := f32_ops lm b in
  (let* x := to_db O Debug B754_nan in
   let* y := to_db O Debug (B754_infinity false) in
   let* z := to_db O Debug (B754_infinity true) in
   Ok (forallb (lt_tol EPSILON (dec (-120) 0)) [x; y; z])) = Panic.
Proof. intros lm [|]; vm_compute; reflexivity. Qed.
(** util/mod.rs:91-125 (and the second line of tests/lib.rs:205) *)
Example test_to_sample :
  forallb2 (fun x e => lt_tol EPSILON (to_sample O x) e)
    [dec (-1000) 0; dec (-120000001) 6; dec (-120) 0; dec (-20) 0; dec (-40) 0; dec (-60) 0;
     dec (-80) 0; dec (-100) 0; B754_nan; B754_infinity false; B754_infinity true]
    [zero; zero; zero; dec 1 1; dec 1 2; dec 1 3; dec 1 4; dec 1 5; zero; zero; zero] = true.
Proof. vm_compute. reflexivity. Qed.

(** ** Windows *)

Definition ones : list (list f32) := [repeat one 3; repeat one 5; repeat one 6; repeat one 7].

(** [n] calls of [next().unwrap()]. *)
Fixpoint nexts (k : win_kind) (n : nat) (it : win_iter) : outcome (list f32) :=
  match n with
  | 0%nat => Ok []
  | S n' =>
      let* (it', g) := win_next O k Debug it in
      match g with
      | Some x => let* xs := nexts k n' it' in Ok (x :: xs)
      | None => Panic
      end
  end.
(** [collect()]: [next] until [None]. *)
Fixpoint collect (k : win_kind) (fuel : nat) (it : win_iter) : outcome (list f32) :=
  match fuel with
  | 0%nat => Hang
  | S fuel' =>
      let* (it', g) := win_next O k Debug it in
      match g with
      | Some x => let* xs := collect k fuel' it' in Ok (x :: xs)
      | None => Ok []
      end
  end.

(** window/mod.rs:96-119 *)
Example test_apply_rectangular :
  forallb2 (fun c e => ok_close tol6 (apply_window O Debug c Rectangular) e) ones ones = true.
Proof. vm_compute. reflexivity. Qed.

(** window/triangular.rs:64-81 *)
Definition triangular_results : list (list f32) :=
  [[dec 3333333 7; dec 1 0; dec 3333333 7];
   [dec 2 1; dec 6 1; dec 1 0; dec 6 1; dec 2 1];
   [dec 166667 6; dec 5 1; dec 833333 6; dec 833333 6; dec 5 1; dec 166667 6];
   [dec 142857 6; dec 428571 6; dec 714286 6; dec 1 0; dec 714286 6; dec 428571 6; dec 142857 6]].
Example test_triangular_next :
  forallb (fun e => ok_close tol6 (nexts WTriangular (length e) (win_new WTriangular (vlen e))) e) triangular_results = true.
Proof. vm_compute. reflexivity. Qed.
(** window/triangular.rs:84-100 *)
Example test_triangular_collect :
  forallb (fun e => ok_close tol6 (collect WTriangular 9 (win_new WTriangular (vlen e))) e) triangular_results = true.
Proof. vm_compute. reflexivity. Qed.
(** window/triangular.rs:103-115 *)
Example test_triangular_len :
  forallb (fun e => Z.eqb (vlen e) (win_len WTriangular (win_new WTriangular (vlen e)))) ones = true.
Proof. vm_compute. reflexivity. Qed.
(** window/mod.rs:128-152 *)
Example test_apply_triangular :
  forallb2 (fun c e => ok_close tol6 (apply_window O Debug c Triangular) e) ones triangular_results = true.
Proof. vm_compute. reflexivity. Qed.

(** window/bartlett.rs:62-79 *)
Definition bartlett_results : list (list f32) :=
  [[dec 0 0; dec 1 0; dec 0 0];
   [dec 0 0; dec 5 1; dec 1 0; dec 5 1; dec 0 0];
   [dec 0 0; dec 4 1; dec 8 1; dec 8 1; dec 4 1; dec 0 0];
   [dec 0 0; dec 333333 6; dec 666666 6; dec 1 0; dec 6666666 7; dec 333333 6; dec 0 0]].
Example test_bartlett_next :
  forallb (fun e => ok_close tol6 (nexts WBartlett (length e) (win_new WBartlett (vlen e))) e) bartlett_results = true.
Proof. vm_compute. reflexivity. Qed.
(** window/bartlett.rs:82-98 *)
Example test_bartlett_collect :
  forallb (fun e => ok_close tol6 (collect WBartlett 9 (win_new WBartlett (vlen e))) e) bartlett_results = true.
Proof. vm_compute. reflexivity. Qed.
(** window/bartlett.rs:101-113 *)
Example test_bartlett_len :
  forallb (fun e => Z.eqb (vlen e) (win_len WBartlett (win_new WBartlett (vlen e)))) ones = true.
Proof. vm_compute. reflexivity. Qed.
(** window/mod.rs:156-180 *)
Example test_apply_bartlett :
  forallb2 (fun c e => ok_close tol6 (apply_window O Debug c Bartlett) e) ones bartlett_results = true.
Proof. vm_compute. reflexivity. Qed.

(** window/hann.rs:62-79 *)
Definition hann_results : list (list f32) :=
  [[dec 0 0; dec 1 0; dec 0 0];
   [dec 0 0; dec 5 1; dec 1 0; dec 5 1; dec 0 0];
   [dec 0 0; dec 345492 6; dec 904508 6; dec 904508 6; dec 345492 6; dec 0 0];
   [dec 0 0; dec 25 2; dec 75 2; dec 1 0; dec 75 2; dec 25 2; dec 0 0]].
Example test_hann_next :
  forallb (fun e => ok_close tol6 (nexts WHann (length e) (win_new WHann (vlen e))) e) hann_results = true.
Proof. vm_compute. reflexivity. Qed.
(** window/hann.rs:82-98 *)
Example test_hann_collect :
  forallb (fun e => ok_close tol6 (collect WHann 9 (win_new WHann (vlen e))) e) hann_results = true.
Proof. vm_compute. reflexivity. Qed.
(** window/hann.rs:101-113 *)
Example test_hann_len :
  forallb (fun e => Z.eqb (vlen e) (win_len WHann (win_new WHann (vlen e)))) ones = true.
Proof. vm_compute. reflexivity. Qed.
(** window/mod.rs:184-208 *)
Example test_apply_hann :
  forallb2 (fun c e => ok_close tol6 (apply_window O Debug c Hann) e) ones hann_results = true.
Proof. vm_compute. reflexivity. Qed.

(** window/hamming.rs:63-80 *)
Definition hamming_results : list (list f32) :=
  [[dec 8 2; dec 1 0; dec 8 2];
   [dec 8 2; dec 54 2; dec 1 0; dec 54 2; dec 8 2];
   [dec 8 2; dec 397852 6; dec 912148 6; dec 912148 6; dec 397852 6; dec 8 2];
   [dec 8 2; dec 31 2; dec 77 2; dec 1 0; dec 77 2; dec 31 2; dec 8 2]].
Example test_hamming_next :
  forallb (fun e => ok_close tol6 (nexts WHamming (length e) (win_new WHamming (vlen e))) e) hamming_results = true.
Proof. vm_compute. reflexivity. Qed.
(** window/hamming.rs:83-99 *)
Example test_hamming_collect :
  forallb (fun e => ok_close tol6 (collect WHamming 9 (win_new WHamming (vlen e))) e) hamming_results = true.
Proof. vm_compute. reflexivity. Qed.
(** window/hamming.rs:102-114 *)
Example test_hamming_len :
  forallb (fun e => Z.eqb (vlen e) (win_len WHamming (win_new WHamming (vlen e)))) ones = true.
Proof. vm_compute. reflexivity. Qed.
(** window/mod.rs:212-236 *)
Example test_apply_hamming :
  forallb2 (fun c e => ok_close tol6 (apply_window O Debug c Hamming) e) ones hamming_results = true.
Proof. vm_compute. reflexivity. Qed.

(** window/blackman.rs:65-82 *)
Definition blackman_results : list (list f32) :=
  [[dec (-13878) 21; dec 1 0; dec (-13878) 21];
   [dec (-13878) 21; dec 34 2; dec 1 0; dec 34 2; dec (-13878) 21];
   [dec (-13878) 21; dec 20077 5; dec 84923 5; dec 84923 5; dec 20077 5; dec (-13878) 21];
   [dec (-13878) 21; dec 13 2; dec 63 2; dec 1 0; dec 63 2; dec 13 2; dec (-13878) 21]].
Example test_blackman_next :
  forallb (fun e => ok_close tol6 (nexts WBlackman (length e) (win_new WBlackman (vlen e))) e) blackman_results = true.
Proof. vm_compute. reflexivity. Qed.
(** window/blackman.rs:85-101 *)
Example test_blackman_collect :
  forallb (fun e => ok_close tol6 (collect WBlackman 9 (win_new WBlackman (vlen e))) e) blackman_results = true.
Proof. vm_compute. reflexivity. Qed.
(** window/blackman.rs:104-116 *)
Example test_blackman_len :
  forallb (fun e => Z.eqb (vlen e) (win_len WBlackman (win_new WBlackman (vlen e)))) ones = true.
Proof. vm_compute. reflexivity. Qed.
(** window/mod.rs:239-263 *)
Example test_apply_blackman :
  forallb2 (fun c e => ok_close tol6 (apply_window O Debug c Blackman) e) ones blackman_results = true.
Proof. vm_compute. reflexivity. Qed.

(** window/blackman_harris.rs:67-84 *)
Definition blackman_harris_results : list (list f32) :=
  [[dec 6 5; dec 1 0; dec 6 5];
   [dec 6 5; dec 21747 5; dec 1 0; dec 21747 5; dec 6 5];
   [dec 6 5; dec 103011 6; dec 793834 6; dec 793834 6; dec 103011 6; dec 6 5];
   [dec 6 5; dec 55645 6; dec 520575 6; dec 1 0; dec 520575 6; dec 55645 6; dec 6 5]].
Example test_blackman_harris_next :
  forallb (fun e => ok_close tol6 (nexts WBlackmanHarris (length e) (win_new WBlackmanHarris (vlen e))) e) blackman_harris_results = true.
Proof. vm_compute. reflexivity. Qed.
(** window/blackman_harris.rs:87-103 *)
Example test_blackman_harris_collect :
  forallb (fun e => ok_close tol6 (collect WBlackmanHarris 9 (win_new WBlackmanHarris (vlen e))) e) blackman_harris_results = true.
Proof. vm_compute. reflexivity. Qed.
(** window/blackman_harris.rs:106-118 *)
Example test_blackman_harris_len :
  forallb (fun e => Z.eqb (vlen e) (win_len WBlackmanHarris (win_new WBlackmanHarris (vlen e)))) ones = true.
Proof. vm_compute. reflexivity. Qed.
(** window/mod.rs:272-296 *)
Example test_apply_blackman_harris :
  forallb2 (fun c e => ok_close tol6 (apply_window O Debug c BlackmanHarris) e) ones blackman_harris_results = true.
Proof. vm_compute. reflexivity. Qed.
