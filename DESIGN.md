# Formal model of buosseph/rasp in Rocq (Coq 8.16.1)

## 1. What is modelled and how

rasp is generic over `T: num::traits::Float`.  The model keeps that genericity:
every function of the library is a Gallina function over a record
`num_ops T` of the numeric operations the code uses (`theories/Num.v`).  Two
families of instances are provided:

* `R_ops` - exact real arithmetic (`theories/NumR.v`), used for the ideal
  signal-processing properties (difference equations, frequency response,
  stability, window shapes, dB conversions);
* `ieee_ops` - IEEE-754 binary floating point, round-to-nearest-even, with
  NaN, infinities, signed zeros and subnormals, built on Flocq's
  `BinarySingleNaN` (`theories/NumF.v`), with `f32_ops` and `f64_ops` as the
  24/128 and 53/1024 instances.  `sin cos exp powf log10` are *not* defined by
  IEEE-754: they are an arbitrary record `libm`, universally quantified in every
  theorem; where a theorem needs something of them it is an explicit
  hypothesis of that theorem.

Theorems that hold for *every* `num_ops` (structure, histories, delay lines,
iterators) are stated for every `num_ops`, so they cover f32 and f64 bit for bit.

Integers: `usize` is `Z` with explicit 64-bit wrap/overflow
(`theories/Base.v`): in the `Debug` profile overflow panics, in `Release` it
wraps.  Panics are the value `Panic` of type `outcome`, a loop that does not
finish within its fuel is `Hang`.  `Vec<T>` is `list T` with a length limit of
`isize::MAX / size_of::<T>()`.

## 2. Files (`rocq/theories`)

| file | contents |
|---|---|
| `Base.v` | outcome monad, profiles, usize/isize arithmetic, Vec indexing |
| `Num.v`, `NumR.v`, `NumF.v` | numeric operations; exact and IEEE-754 instances |
| `Traits.v` | `Processor::process_block` |
| `DelayM.v`, `LinDelayM.v` | `delay::Delay`, `delay::LinearDelay` |
| `CmdM.v` | the same methods statement by statement, each assignment to a field a step of its own, so that what a panicking call has already stored is visible (C102) |
| `PortM.v` | the delay lines and windows with the word size as a parameter (C107) |
| `FilterM.v`, `RbjM.v` | the basic filters, the RBJ filters |
| `AnalysisM.v`, `WindowM.v`, `UtilM.v` | integrator and detectors, windows, util |
| `Device.v`, `DelayRun.v`, `LinRun.v` | call histories: the public calls of a type as data, and a function that runs any sequence of them |
| `*Spec.v`, `Signal.v`, `BlockSpec.v`, `LinSame.v` | specifications, written in terms of signals, histories and textbook formulas; they mention the model only to name the calls |
| `*Facts.v`, `*Proofs.v`, `*Lemmas*.v`, `SmoothF.v`, `LinCtl*.v`, `LinInv.v`, `LinFloat.v` | proofs |
| `Witness.v`, `LinWit.v`, `CrLibm.v` | concrete values used by examples and refutations; a correctly rounded math library |
| `FixLibm.v`, `RepoTests.v` | the repository's own tests run on the model (section 5) |
| `Prop*.v` | the property theorems and nothing else: statement, `exact`, `Print Assumptions`, and `Example`s showing that the hypotheses can be met |

`tools/gen_prop.py` copies the statement of each `Lemma X_thm` (with its comment)
of a lemma file into the corresponding `Prop` file, so that statement and proof
cannot drift apart; the generated files are committed.

## 3. Per property: what is modelled, how it is proved

See `properties.jsonl` for the full statements.  "Any history" means: any
sequence of public calls, with any arguments, from construction (`Device.v`,
`DelaySpec.v`, `PlaceSpec.v`, `LinSpec.v`); the proofs are inductions over that sequence.

| id | modelled / proof method |
|---|---|
| C01 C02 | `process_block` over an arbitrary `process : S -> T -> outcome (S*T)`; induction on the slice / on the list of blocks |
| C03 | op-sequence interpreter for each processor; one-step lemma lifted over all histories |
| C04 | state after clear equals (observationally) new+set_coefficients; congruence over op sequences (bisimulation for OneZero/TwoZero whose `output` survives) |
| C05 | direct for each type, `_refuted` witness for OneZero/TwoZero |
| C06 | invariant `read,write < len`, `delay < len`, preserved by every op; op-sequence induction, both profiles |
| C07 | corollary of the refinement C08 |
| C08 | refinement of the ring buffer to a newest-first list spec (`DelaySpec.v`) over all op sequences without growth |
| C09 C10 C13 C14 C17 | corollaries of the refinement / direct frame lemmas |
| C11 | characterisation of the ring after growth, both cases; refutation for every out-of-phase growth; the latency after any history is that of the fold `timing_after` of `PlaceSpec.v` |
| C12 C15 | from the refinement |
| C16 C18 | integer model with isize casts and profiles; case analysis |
| C19 C20 C21 | f32 control arithmetic in Flocq: monotonicity of rounding; termination of the pointer loop; invariant over histories |
| C22 | LinearDelay with real control and real samples; refinement to a history spec with linear interpolation |
| C23 C24 C68 | Flocq: exactness of integer/dyadic subtraction; the interpolation weights for every f32 delay; blow-up witness |
| C25 C26 | model of the peek cache; generic over `num_ops` |
| C27 C69 | simulation between the two delay types; Flocq: x*1 + y*0 = x for finite x, y |
| C28 | induction over histories, generic in `num_ops` |
| C29-C31, C36 | exact real instance, induction with generalised states |
| C32 | Flocq, induction with finiteness invariant; witness with infinity |
| C33 | frame lemmas for every op |
| C34 C35 | Lyapunov / complex roots of the characteristic polynomial, cascade of one-pole recursions |
| C37 | Jury conditions by real algebra |
| C38-C44 | steady state: particular solution + C35; gains by trigonometric algebra |
| C45 C46 | linearity / inverse systems by induction |
| C47-C56, C70, C71 | Flocq rounding lemmas (no-overshoot lemma for v + a*(y-v)), real closed forms, monotone simulation of two runs |
| C57-C64, C72-C74 | iterator model; real trigonometry; Flocq with an arbitrary `cos` satisfying stated hypotheses; NaN propagation |
| C65-C67, C75 | real logarithms; Flocq case analysis |
| C76-C79 | tan half-angle substitution turns the digital response into the Cookbook's H(s); algebra of squared magnitudes; uniqueness of the gain by sampling the steady state |
| C80 | storage function of the lattice form: energy in - energy out = stored quadratic form >= 0, which tends to 0 |
| C81 | one-step backward error of every filter form in Flocq (any evaluation order, subnormals included), then the exact feedback's peak gain bounds the accumulated error; the bound on the output is proved simultaneously by induction |
| C82 C83 | linearity and time invariance give the convolution by induction on the sample index; the worst input is the sign pattern of the reversed impulse response |
| C84 | two alternating steps as a linear map with an explicit eigenvalue outside the unit circle; RBJ: segment bounds from C34, maximum over the presets |
| C85 | round-to-nearest-even at the smallest subnormal: more than half of it never rounds to zero, half of it does; contraction by 3/4 above it |
| C86 | the record of float operations; pi to 20 digits from Machin's series of the standard library, then round-to-nearest |
| C87 | cos of an angle below 2^-12 (2^-27) rounds to 1, so 1 - cos is an exact zero and so are all three forward coefficients; invariant: zero forward coefficients, finite feedback, zero state |
| C88 | the two trigonometric values by interval bounds, the coefficients by evaluation, then 96000 filter steps evaluated in the kernel on plain data and tied to the model by an invariant |
| C89 | absolute error bounds through every operation of the setters; the distance 1 - abs(a2) and 1 + a2 - abs(a1) of the exact coefficients from the edge of the triangle exceeds the accumulated error in the band |
| C90 | induction over the history with the ideal follower in lockstep: one rounding error per step, an exact step that is a contraction by exp(-1/L) whichever side of the envelope the sample is on, gains within 3 units of the ideal ones |
| C91 | relative error of the five roundings of the angle, 1-Lipschitz cosine, then a calculus of absolute errors in units of 2^-p through the sums and products of the window formulas |
| C92 | one rounding each for the product and quotient, bounds on ln 10 from powers of e, first-order bounds on exp and ln near 0 and 1; the floor case by evaluating one rounding of log10 |
| C93 | a calculus of pairs (float, ideal value, absolute error) through every operation of the setters; the ideal coefficients are those of the same formulas over the reals |
| C94 | the float output is the exact solution of the ideal equation with a small extra input (coefficient errors plus rounding); strong induction with the peak gain of the ideal feedback. Gains: quadratic form y^2 + a1 y z + a2 z^2 for complex poles, two first-order recursions for real ones |
| C95 | non-finite values absorb in +, -, *, /, abs and sqrt; per device an invariant on its memory that process keeps; zero divisors in the setters give a non-finite a2 |
| C96 | the generic stream lemma of C22 with the f32 control arithmetic of C68: fixed lag and weights, linear interpolation is 2M-Lipschitz in the delay, rounding of the blend |
| C97 | the error calculus of C93 extended by 10^x (Lipschitz) and square roots, carried through the three setters; tracking by the generic theorem of C94; closed forms of the shelves' feedback gain (poles are complex exactly when the radicand is at most 4); a negative radicand makes `b0` NaN |
| C98 | both detectors are one recursion on levels; with equal times it is linear, so sums over a period obey the one-sample recursion; ripple from the triangle inequality; unequal times by one-sided bounds; settling by contraction and completeness of the reals; float form by C90 (the ideal follower of C90 is the exact detector) |
| C99 | the counterexample is computed symbolically in the math library; the bound follows from C90 (both runs track the ideal envelope) and monotonicity of the ideal envelope |
| C100 | product-to-sum identities and sums of cosines over whole cycles (closed form by telescoping); the linear windows by induction on the size in steps of two |
| C101 | C91 plus one rounded product per sample; the correlation bound by the triangle inequality over the slice, from C100 |
| C102 | every call of the delay lines again as a sequence of statements on a mutable record (`CmdM.v`), proved to be the same program as the state-passing model; case analysis of where each statement can panic under the invariants of C08 and C22; induction over sessions that catch panics |
| C103 | relation `equal or opposite bits, zeros identified` on floats, proved to be a congruence for rounded addition, subtraction and multiplication (Flocq's correctness theorems, symmetry of round to nearest even); lifted to the states of every device and delay line; induction over calls |
| C104 | the coefficients depend on sample rate and frequency through one angle; mirrored angle gives b1, a1 with the other sign; the difference equation and its uniqueness carry that to every signal. Float part: scaling lemma for rounding to nearest in the normal range (Flocq FLX), division of equal real quotients gives equal bits |
| C105 | denominator split into even part P > 0 and odd part s: stable iff s > 0; for s < 0 the product a2 of the poles exceeds 1 and the determinant h[n+1]^2 - h[n] h[n+2] of the click response grows like a2^n, or the response is one growing exponential; edges by pole-zero cancellation in the difference equation |
| C106 | a loop invariant (the line has processed exactly the outputs so far) from the history theorems C10 (Delay) and C22, C25 (LinearDelay, exact arithmetic); closed form and bounds by strong induction on the sample number; float step by the Flocq rounding lemmas |
| C107 | a copy of the model with the word size as a parameter, shown equal to the model at w = 64; simulation invariant: lengths times sample size at most isize::MAX, write pointer inside, read pointer at most 2^(w-1); taps that wrap around land outside the buffer on both targets |
| C108 | invariant on the abstract lines of C08 and C22 (the line holds the last m + 1 inputs), transferred by the refinement theorems; the bound on the steps is a Lipschitz estimate of the interpolated signal; float form: the same invariant with the control arithmetic as computed in f32, the rounding analysis of C68 and C23 at each write position |
| C109 | the loop of a user program over the model's `apply_window`; the frames that reach a sample are reindexed into a sum over a lattice of phases, where the cosines (resp. their products) cancel |
| C110 | taps: the ring-buffer lemma for growth behind C08, applied to both lines; reader: frame lemma for every call (LinInv) and the lag of the read position before and after; latency: invariant relating the line to lin_timing_after (GrowSpec), by induction over the history |
| C111 | joint invariant e^2 <= r <= M e of the two envelopes with equal gains: the comparisons agree except for e < |x|, x^2 <= r, and that case is harmless; floats by C90 |
| C112 | the run of C07/C12 gives the recurrence; energy balance telescopes: sum x^2 - sum y^2 = (1-g^2) * (energy of the last d samples of w), and d samples of silence multiply that by g^2; floats by the invariant |w| <= B |
| C113 | one step needs only the last two samples and outputs; the rounding error of a step is proportional to the level of those; the level B satisfies B' <= C + 3/16 B eventually, so it contracts to 4/3 C |
| C114 | the loop lemma of C106/C112 with the filter state threaded through; echoes by superposition and time invariance of the difference equation and causality; bounds by strong induction with the gain of the filter, floats with the tracking bound of C81 or directly for two taps |
| C115 | invariant over the call list: attack gain zero, release gain in [0, 1), envelope in [0, X]; hence the envelope is never below the sample (in floats from the no-overshoot lemma of C52 and exactness of a zero gain); recovery by induction on the samples; floats by the relative error of a normal quotient and one ulp above the ceiling |
| C116 | invariant: line i holds what it has been fed (the per-line invariant of C106); energy balance E(n+1) = E(n) + fed - shown summed over the lines; within a round of the longest delay all the energy in flight is shown once |
| C117 | numerators and denominators as operators on signals; BandPass2 squared times q^2 equals LowPass and HighPass in series (uniqueness of solutions of the difference equation, sin^2 + cos^2 = 1); the rest is algebra on C45 and C83; gains from C38, C39, C42, C80 |
| C118 | rounding to nearest is monotone, and a finite sum or product has finite operands, so [below] is preserved by each operation without any range condition; simulation between the two objects; the refutation is computed |
| C119 | multiples of 2^e of magnitude at most 2^(prec+e) are representable, and every partial sum in the order the code adds is such a multiple; strong induction over the output; for LinearDelay the interpolation weights lie on the grid of the delays; the stall is a rounding tie computed in the kernel plus induction |
| C120 | Delay's history invariant gives x[n-d] exactly; the accumulator on fixed-point differences is an instance of C119 because the sum it holds is bounded by d M; the residue is exactness of 0 - (-y); the refutation computes four samples and uses the residue theorem |
| C121 | the history invariants of both lines give tap k = x[n-k]; an induction over the coefficients turns the inner loop into the specified sum; rounding by the near/near_add calculus used for the fixed filters, by induction over the coefficients |
| C122 | rounding commutes with 2^e on normal results, and on all sums (a sum of two floats that falls into the subnormal range is exact); a simulation relation between the two runs is carried through the unrolled difference equations and the detector recursions; readings above the floor lie on a grid, so differences do too |
| C123 | two linear combinations of the last two outputs are proved, by induction, to be the rotated Fourier sums; the oscillator is the case of one sample; resonance from a lower bound on sums of squared cosines; in floating point the computed sequence obeys the exact equation with the rounding errors as input, whose effect the closed form bounds by their absolute sum over sin w |
| C124 | order preservation (C118) makes the output rise; a rising sequence of multiples of the smallest subnormal below 2^emax is eventually constant; the leaky integrator stays below a power of two because r times it is exact; the difference of equal floats is exactly zero; in the swapped order the integrator is struck once and C85's never-ending tail applies |
| C125 | both passes are convolutions with the impulse response (C82) over the block, as matrices a kernel and its transpose; exchanging finite sums gives the adjoint identity; for the sinusoid the first pass's transient dies out and the second pass's is bounded uniformly in the phase by two fixed signals |
| C126 | one round of peek and process rotates the last D taps (from C08, C12, C13 and a lemma that a history extends by a process); induction over the rounds gives the rotation by n mod D, and for overdubbing the recurrence; the layers by induction over the passes |
| C127 | the inner loop edits the last d taps one by one (C14), one process call shifts them (C13) and outputs the last (C08); induction over the input turns the tap contents into the nested sum; accuracy and fixed point as in C121 |
| C128 | the line returns the interpolated value (C22) and peeking is harmless at delays of one sample or more (C25); the balance is an induction over time, with the convexity identity ((1-f)a + fb)^2 = (1-f)a^2 + fb^2 - f(1-f)(a-b)^2 for the interpolation loss |
| C129 | stream view of each piece: an empty line maps xs to zeros ++ xs cut to length, a cleared processor commutes with leading zeros up to the sign of zero and respects that relation on its input (lemmas of C103); induction over the chain |
| C130 | no-overshoot and instantaneous attack in floating point (C52, C115) as invariants over the calls; geometric bounds in exact arithmetic; C90 carries the closing bound to floats; the stuck envelope is a fixed point of the f32 update, the gain RN(exp(-2^-20)) = 1 - 2^-20 being derived from 1 + x <= exp x |
| C131 | C22, C106 and C112 reduce the lines to difference equations; a steady state in closed form satisfies them and the deviation from it shrinks by |g| per round trip; phases come from the polar form; the hum by C07 and x - x = +0 |
| C132 | equality of the states reached, which implies equality of everything observable; for the delay lines from the invariants of reachable lines; termination of set_delay from C19 |
| C133 | a map between the states of the two lines that every call respects; both float runs tracked against one exact solution (C81, C90) |
| C134 | the read is the stream law of C96 on the outputs so far, next_out before process being harmless (C25); error recurrences e <= |g| (e + read error) + rounding |
| C135 | one relation between the states of two lines that every call preserves (LinPairFacts.v), instantiated twice; the weights of a line of at most 2^24 slots are multiples of 2^-24 and exact in both types |
| C136 | the program is written in CompSpec.v over the model's detectors and helpers; an invariant of the detector gives readings from +0 to m (sign included), then one step is analysed with the error bounds of C92 |
| C137 | responses from the analogue prototypes of C77 in polar form; the chain by induction with C117's settling lemma; the notches by strict monotonicity of the total phase and the intermediate value theorem |
| C138 | by C82 order is the sign of the impulse response, a second-order recurrence: complex roots by a ratio that falls linearly, a dominant negative root by its growth, real roots by the two first-order parts |
| C139 | the exact filter does not overshoot (C138) and the computed one tracks it (C94); for the order the accuracy of the coefficients (C93) fixes their signs, and filters with such signs are monotone step by step (C118) |
| C140 | each section has the gain of its analog prototype (C76) and the gains of a series multiply; the product of the quadratic factors is 1 + O^(4 N) because the 2 N numbers -e^(+-j psi_k) are the roots of z^(2 N) + 1 |
| C141 | induction over the bands from the one-band results C77, C46 and C83; the gain is unique because two sinusoids of one frequency that approach each other are equal |
| C142 | induction over the stages: C94 and C97 bound the error a stage adds to the float signal it receives, the peak level of its ideal (by C31 a bound for differences too) how much it amplifies the error it receives; the permutation goes through the ideal chain, whose order C83 shows to be irrelevant; the undoing through C46 |
| C143 | C142 for the two bands, C117 for the ideal sum, one rounding for the addition, and how 1/q^2 - 2 moves when q is rounded |
| C144 | C93 for the coefficients, how the ideal coefficients move when Q is rounded, C94 for one filter with that coefficient error, induction over the filters, C140 for the gain |
| C145 | C142's bound with an input that is itself wrong, the ideal chain settles on a tone with the product of the gains (as in C141), C77 for the range of one band |
| C146 | C142's bound for one filter, C45 for the ideal identities, one correctly rounded addition or subtraction without overflow |
| C147 | C142 for each chain, induction over the chains with the level and error of the partial sum, one correctly rounded addition each |
| C148 | both chains track the same ideal chain on the same real input (C142 and C145), the second with an input error of D; triangle inequality |

Every property has at least one theorem, no property is `not_applicable`, and no
theorem is `_partial`.

## 4. What the code does that a user would not expect

Theorems named `_refuted` prove that a natural (or documented) reading of the
API is false, for a whole class of inputs or with a concrete witness:

* `C05_clear_keeps_last_out_fir_refuted`: `clear` leaves `last_out` of OneZero/TwoZero.
* `C11_growth_out_of_phase_refuted`: growing a wrapped `Delay` changes its timing.
* `C12_next_out_zero_delay_refuted`, `C25_peek_stale_refuted`, `C26_clear_keeps_peek_refuted`: `next_out` with delays below one sample; a pending peek survives `clear`.
* `C19_new_usize_max_hangs_refuted`: `LinearDelay::new(_, usize::MAX)` in release.
* `C21_long_line_panics_refuted`: `LinearDelay` on lines longer than 2^24.
* `C24_tiny_delay_blows_up_refuted`: interpolation weights outside [0,1].
* `C32_infinity_poisons_*_refuted`: one infinite sample turns recursive filters into NaN for ever.
* `C48_overflow_refuted`, `C50_loud_signal_refuted`: the integrator near T::MAX.
* `C58_exact_size_refuted`: `len()` of a partly consumed window.
* `C84_sweep_diverges_refuted`: alternating between two stable settings makes TwoPole and the Biquads diverge.
* `C85_tail_never_ends_refuted`: decaying outputs stick at a subnormal number instead of reaching zero.
* `C87_low_cutoff_passes_refuted`, `C88_float_setting_stable_refuted`, `C88_click_dies_out_refuted`: RBJ filters with a cutoff of about 1 Hz in `f32` are mute or blow up.
* `C92_floor_round_trip_refuted`: right above the floor of 10^-6 the level rounds to exactly -120 dB in `f32`, which converts back to silence.
* `C95_poisoned_for_ever`, `C95_bad_setting` (stated positively): one non-finite sample, or q = 0, leaves a recursive processor without finite output until `clear`.
* `C96_zero_delay_ghost_refuted`: with a delay of 0, an infinity or NaN comes back `max_delay` samples later (zero weight times a non-finite sample).
* `C97_steep_shelf_never_finite`: a shelf slope too steep for its gain (for example 4 at 20 dB) puts a negative number under the square root; the setter accepts it and the filter never returns a finite sample.
* `C99_louder_lowers_refuted`: in `f32` a louder sample can give a lower envelope (by one rounding unit); `C99_almost_monotone` bounds the effect.
* `C102_panics_are_harmless_refuted`, `C102_long_line_refuted`: caught panics of `process` that have already stored their sample (release build after `set_max_delay(usize::MAX)`; `LinearDelay` longer than 2^24).
* `C105_above_nyquist`: no RBJ setter rejects a frequency above half the sample rate; in exact arithmetic the click response of all nine filters is then unbounded (up to the sample rate).
* `C107_taps_refuted`: tap_out(u32::MAX) is accepted on a 32-bit target (it is cast to isize as -1) and returns the oldest sample; the same call panics on a 64-bit target.
* `C108_sweep_blows_up_refuted`: a LinearDelay of 5 to 2^24 slots whose delay is swept through 1 + 2^-23 at its second sample multiplies its input by -m there.
* `C109_ripple_refuted`: Hamming and Blackman-Harris frames of m h + 1 samples added up every h samples do not give a constant signal back: every h-th sample is higher by 0.08 (resp. 0.00006), because the windows have two equal end samples.
* `C110_linear_growth_refuted`: growing a LinearDelay in mid-stream while its write position is below its delay lengthens its latency by the growth; get_delay still reports the old delay.
* `C111_float_refuted`: for very small samples an RMS detector reads zero although the peak detector does not (the square underflows).
* a limiter computing x * (c / e) on the detector can exceed its ceiling by one unit in the last place in f32 (C115_float_exact_ceiling_refuted); it can do no worse
* `C118_leaky_refuted`: in f32 LeakyIntegrator can answer a larger sample with a smaller output; the equivalent OnePole cannot (`C118_order`).
* `C119_accumulator_stalls`: OnePole with a1 = -1 (an integrator) stops counting at 2^24 in f32, silently.
* `C120_forgets_refuted`: a running sum made of Delay and OnePole(1, -1) keeps rounding errors for ever on general f32 signals; on fixed-point signals that fit it is exact (`C120_fixed`).
* `C122_subnormal_refuted`: scaling is not exact once a product is subnormal (0.5 times the smallest positive f32 rounds to 0).
* a DC blocker built difference first never returns to zero after a constant
* The tap-reading FIR filter (C121) and the write-ahead one round in different orders: with coefficients 1, 1, 1 and the f32 input 2^24, 1, 1 one returns 16777218 and the other 16777216.
* a delay before an inverting OnePole starts with -0, after it with +0 (C129_zero_sign_refuted)
* in f32 a long release makes the envelope stick above a constant input by up to half an ulp divided by 1 - gain; a gate on it can stay open for ever (C130_hum_is_muted_refuted)
* LinearDelay<f32>::set_delay(get_delay()) is audible: the interpolation weight is recomputed from the write position and rounds differently (C132_set_what_it_reports_refuted)
* `C63_note_refuted`, `C74_blackman_range_refuted`: documentation of the windows.

## 5. Trusted base

* Coq 8.16.1 kernel, including `vm_compute` (used for literal floats and witnesses).
* The reading of the Rust source into the model.  Each definition cites its file
  and lines, and its comment says where it simplifies.  As a check of that reading,
  `RepoTests.v` transcribes the repository's own tests (all 89 `#[test]` functions,
  some grouped) and runs them on the `f32` model with a computable math library
  (`FixLibm.v`); all give the results the tests expect.  They are tests of the model,
  not proofs, and no theorem uses them.
* Flocq's definition of IEEE-754 arithmetic (`BinarySingleNaN`) as the meaning of
  Rust's `f32`/`f64` `+ - * /`, `sqrt`, comparisons and casts; Coquelicot's limits
  and complex numbers in specifications.  Both are definitions and proved
  libraries: no axiom of theirs is used.
* Axioms: only those of Coq's standard library, listed per theorem in section 7.

Modelled: every function with a body in `src/` (traits, delay, filter, filter/rbj,
analysis, window, util), in both build profiles where they differ.

## 6. Not modelled

* Out-of-memory aborts, the allocator, drop, thread safety.
* NaN payloads and NaN sign bits (single NaN; its sign bit as seen by
  `is_sign_negative` is a parameter of the instance).
* State left behind by a panicking call is modelled for the delay lines and `process_block`
  (`CmdM.v`); nothing else that can panic takes `&mut self`. Unwinding itself is not modelled.
* `libm` accuracy: `sin cos exp powf log10` are arbitrary functions; hypotheses
  about them are stated in the theorems that need them and met by `CrLibm.v`.
* `T` other than `f32`/`f64` for the floating-point theorems; derived traits
  (`Clone`, `Debug`).
* Other word sizes: the theorems are about 64-bit `usize`; C107 carries them over to
  targets with fewer bits for calls whose arguments and buffers fit there, not beyond.

## 7. Assumptions of each theorem (output of `Print Assumptions`)

F = `ClassicalDedekindReals.sig_forall_dec`, N = `ClassicalDedekindReals.sig_not_dec`,
E = `FunctionalExtensionality.functional_extensionality_dep`, C = `Classical_Prop.classic`,
- = closed under the global context.

<!-- table -->
| theorem | file | axioms |
|---|---|---|
| `C01_block_delay` | `PropCore.v` | - |
| `C01_block_is_per_sample` | `PropCore.v` | - |
| `C01_block_linear_delay` | `PropLinTaps.v` | CEFN |
| `C01_block_panics_only_empty` | `PropCore.v` | - |
| `C02_block_boundaries` | `PropCore.v` | - |
| `C03_last_out` | `PropCore.v` | - |
| `C03_last_out_delay` | `PropCore.v` | - |
| `C03_last_out_linear_delay` | `PropCore.v` | - |
| `C04_clear_forgets` | `PropCore.v` | - |
| `C04_clear_forgets_fir` | `PropCore.v` | - |
| `C05_clear_keeps_last_out_fir_refuted` | `PropCore.v` | - |
| `C05_clear_resets_last_out` | `PropCore.v` | - |
| `C05_clear_resets_last_out_delays` | `PropCore.v` | - |
| `C06_delay_never_panics` | `PropDelay.v` | - |
| `C07_delay_is_pure_delay` | `PropDelay.v` | - |
| `C08_delay_outputs_tap` | `PropDelay.v` | - |
| `C08_delay_refines_line` | `PropDelay.v` | - |
| `C09_new_clips` | `PropDelay.v` | - |
| `C09_set_delay_clips` | `PropDelay.v` | - |
| `C100_leakage` | `PropSpectrum.v` | CEFN |
| `C100_tone_spectrum` | `PropSpectrum.v` | CEFN |
| `C100_window_sums` | `PropSpectrum.v` | CEFN |
| `C101_apply_accurate` | `PropSpectrumFlt.v` | CEFN |
| `C101_leakage` | `PropSpectrumFlt.v` | CEFN |
| `C102_block_panic` | `PropCmd.v` | - |
| `C102_delay_panics_are_harmless` | `PropCmd.v` | - |
| `C102_linear_delay_panics_are_harmless` | `PropCmd.v` | CEFN |
| `C102_long_line_refuted` | `PropCmd.v` | CEFN |
| `C102_panicking_process_stores` | `PropCmd.v` | - |
| `C102_panics_are_harmless_refuted` | `PropCmd.v` | - |
| `C102_same_program` | `PropCmd.v` | - |
| `C103_delay_polarity` | `PropPol.v` | CEFN |
| `C103_leading_silence` | `PropPol.v` | CEFN |
| `C103_linear_delay_polarity` | `PropPol.v` | CEFN |
| `C103_polarity` | `PropPol.v` | CEFN |
| `C103_zero_sign_refuted` | `PropPol.v` | CEFN |
| `C104_alias` | `PropSym.v` | CEFN |
| `C104_mirror` | `PropSym.v` | CEFN |
| `C104_rescale` | `PropSym.v` | CEFN |
| `C104_rescale_float` | `PropSym.v` | CEFN |
| `C105_above_nyquist` | `PropSym.v` | CEFN |
| `C105_bounded_iff` | `PropSym.v` | CEFN |
| `C105_click` | `PropSym.v` | CEFN |
| `C105_edges` | `PropSym.v` | CEFN |
| `C106_comb` | `PropEcho.v` | CEFN |
| `C106_delay_echo` | `PropEcho.v` | - |
| `C106_float_bound` | `PropEcho.v` | CEFN |
| `C106_linear_echo` | `PropEcho.v` | CEFN |
| `C107_delay` | `PropPort.v` | - |
| `C107_linear` | `PropPort.v` | CEFN |
| `C107_taps_refuted` | `PropPort.v` | CEFN |
| `C107_windows` | `PropPort.v` | - |
| `C107_word64` | `PropPort.v` | CEFN |
| `C108_float` | `PropModF.v` | CEFN |
| `C108_float_grid` | `PropModF.v` | CEFN |
| `C108_modulated_delay` | `PropMod.v` | - |
| `C108_modulated_linear` | `PropMod.v` | CEFN |
| `C108_no_clicks` | `PropMod.v` | CEFN |
| `C108_sweep_blows_up_refuted` | `PropModF.v` | CEFN |
| `C109_bartlett` | `PropOla.v` | CEFN |
| `C109_perfect` | `PropOla.v` | CEFN |
| `C109_resynthesis` | `PropOla.v` | CEFN |
| `C109_ripple_refuted` | `PropOla.v` | CEFN |
| `C10_set_max_delay_grows` | `PropDelay.v` | - |
| `C110_linear_grows` | `PropGrow.v` | - |
| `C110_linear_growth` | `PropGrow.v` | CEFN |
| `C110_linear_growth_refuted` | `PropGrow.v` | CEFN |
| `C110_linear_latency` | `PropGrow.v` | CEFN |
| `C110_linear_taps` | `PropGrow.v` | - |
| `C110_taps` | `PropGrow.v` | - |
| `C111_float` | `PropCrest.v` | CEFN |
| `C111_float_refuted` | `PropCrest.v` | CEFN |
| `C111_rms_at_least_peak` | `PropCrest.v` | CEFN |
| `C111_rms_at_most` | `PropCrest.v` | CEFN |
| `C112_float_bound` | `PropSchroeder.v` | CEFN |
| `C112_lossless` | `PropSchroeder.v` | CEFN |
| `C112_passive` | `PropSchroeder.v` | CEFN |
| `C112_section` | `PropSchroeder.v` | - |
| `C113_noise_follows_level` | `PropFade.v` | CEFN |
| `C113_tail_fades` | `PropFade.v` | CEFN |
| `C114_bounded` | `PropString.v` | CEFN |
| `C114_echoes` | `PropString.v` | CEFN |
| `C114_float_bound` | `PropString.v` | CEFN |
| `C114_float_never_louder` | `PropString.v` | CEFN |
| `C114_linear` | `PropString.v` | CEFN |
| `C114_loop` | `PropString.v` | - |
| `C115_ceiling` | `PropLimit.v` | CEFN |
| `C115_float_ceiling` | `PropLimit.v` | CEFN |
| `C115_float_exact_ceiling_refuted` | `PropLimit.v` | CEFN |
| `C115_recovers` | `PropLimit.v` | CEFN |
| `C115_transparent` | `PropLimit.v` | CEFN |
| `C116_decays` | `PropNet.v` | CEFN |
| `C116_householder` | `PropNet.v` | CEFN |
| `C116_invariant` | `PropNet.v` | - |
| `C116_lossless` | `PropNet.v` | CEFN |
| `C116_network` | `PropNet.v` | - |
| `C116_ping_pong` | `PropNet.v` | CEFN |
| `C116_ping_pong_float` | `PropNet.v` | CEFN |
| `C117_corner` | `PropCross.v` | CEFN |
| `C117_flat` | `PropCross.v` | CEFN |
| `C117_linkwitz_riley` | `PropCross.v` | CEFN |
| `C117_second_order` | `PropCross.v` | CEFN |
| `C117_series_gain` | `PropCross.v` | CEFN |
| `C117_sum` | `PropCross.v` | CEFN |
| `C117_three_way` | `PropCross.v` | CEFN |
| `C118_delay` | `PropOrderLine.v` | CEFN |
| `C118_leaky_refuted` | `PropOrder.v` | CEFN |
| `C118_linear_delay` | `PropOrderLine.v` | CEFN |
| `C118_linear_delay_refuted` | `PropOrderLine.v` | CEFN |
| `C118_order` | `PropOrder.v` | CEFN |
| `C118_rising` | `PropOrder.v` | CEFN |
| `C119_accumulator_refuted` | `PropFixed.v` | CEFN |
| `C119_accumulator_stalls` | `PropFixed.v` | CEFN |
| `C119_exact` | `PropFixed.v` | CEFN |
| `C119_fir` | `PropFixed.v` | CEFN |
| `C119_linear_delay` | `PropFixed.v` | CEFN |
| `C11_growth_in_phase` | `PropDelay.v` | - |
| `C11_growth_out_of_phase_refuted` | `PropDelay.v` | - |
| `C11_latency` | `PropDelay.v` | - |
| `C11_set_delay_restores` | `PropDelay.v` | - |
| `C120_comb` | `PropBox.v` | - |
| `C120_fixed` | `PropBox.v` | CEFN |
| `C120_forgets_refuted` | `PropBox.v` | CEFN |
| `C120_moving_sum` | `PropBox.v` | CEFN |
| `C120_residue` | `PropBox.v` | CEFN |
| `C121_accurate` | `PropFir.v` | CEFN |
| `C121_convolution` | `PropFir.v` | CEFN |
| `C121_delay` | `PropFir.v` | - |
| `C121_fixed` | `PropFir.v` | CEFN |
| `C121_forgets` | `PropFir.v` | - |
| `C121_linear_delay` | `PropFir.v` | CEFN |
| `C121_short` | `PropFir.v` | - |
| `C122_filters` | `PropScale.v` | CEFN |
| `C122_leaky` | `PropScale.v` | CEFN |
| `C122_peak` | `PropScale.v` | CEFN |
| `C122_rms` | `PropScale.v` | CEFN |
| `C122_subnormal_refuted` | `PropScale.v` | CEFN |
| `C123_float_oscillator` | `PropOsc.v` | CEFN |
| `C123_goertzel` | `PropOsc.v` | CEFN |
| `C123_oscillator` | `PropOsc.v` | CEFN |
| `C123_resonance` | `PropOsc.v` | CEFN |
| `C124_difference_first_refuted` | `PropDc.v` | CEFN |
| `C124_integrator_first` | `PropDc.v` | CEFN |
| `C124_offset_removed` | `PropDc.v` | CEFN |
| `C124_settles` | `PropDc.v` | CEFN |
| `C125_symmetric` | `PropBoth.v` | CEFN |
| `C125_zero_phase` | `PropBoth.v` | CEFN |
| `C126_layers` | `PropLoop.v` | CEFN |
| `C126_looper` | `PropLoop.v` | - |
| `C126_overdub` | `PropLoop.v` | - |
| `C127_accurate` | `PropScatter.v` | CEFN |
| `C127_convolution` | `PropScatter.v` | CEFN |
| `C127_fixed` | `PropScatter.v` | CEFN |
| `C127_new` | `PropScatter.v` | - |
| `C127_same_rounding_refuted` | `PropScatter.v` | CEFN |
| `C127_scatter` | `PropScatter.v` | - |
| `C128_balance` | `PropFrac.v` | CEFN |
| `C128_comb_energy` | `PropFrac.v` | CEFN |
| `C128_section` | `PropFrac.v` | CEFN |
| `C129_latency` | `PropRack.v` | CEFN |
| `C129_lines` | `PropRack.v` | - |
| `C129_placement` | `PropRack.v` | CEFN |
| `C129_zero_sign_refuted` | `PropRack.v` | CEFN |
| `C12_next_out_predicts` | `PropDelay.v` | - |
| `C12_next_out_zero_delay_refuted` | `PropDelay.v` | - |
| `C130_float_shuts` | `PropGate.v` | CEFN |
| `C130_hold_time` | `PropGate.v` | CEFN |
| `C130_hum_is_muted_refuted` | `PropGate.v` | CEFN |
| `C130_loud_passes` | `PropGate.v` | CEFN |
| `C130_stays_shut` | `PropGate.v` | CEFN |
| `C131_comb_response` | `PropComb.v` | CEFN |
| `C131_half_sample` | `PropComb.v` | CEFN |
| `C131_hum_removed` | `PropComb.v` | CEFN |
| `C131_linear_response` | `PropComb.v` | CEFN |
| `C131_section_response` | `PropComb.v` | CEFN |
| `C132_clear_and_set` | `PropSetting.v` | - |
| `C132_delay` | `PropSetting.v` | - |
| `C132_last_setting_wins` | `PropSetting.v` | - |
| `C132_last_valid_setting_wins` | `PropSetting.v` | - |
| `C132_linear` | `PropSetting.v` | CEFN |
| `C132_set_what_it_reports` | `PropSetting.v` | CEFN |
| `C132_set_what_it_reports_refuted` | `PropSetting.v` | CEFN |
| `C133_delay_moves_samples` | `PropMap.v` | - |
| `C133_detectors_agree` | `PropMap.v` | CEFN |
| `C133_filters_agree` | `PropMap.v` | CEFN |
| `C133_leaky_agree` | `PropMap.v` | CEFN |
| `C133_linear_scales` | `PropMap.v` | CEFN |
| `C133_widen` | `PropMap.v` | CEFN |
| `C134_comb` | `PropFracEcho.v` | CEFN |
| `C134_exact_comb` | `PropFracEcho.v` | EF |
| `C134_fractional_echo` | `PropFracEcho.v` | CEFN |
| `C135_raised` | `PropLinPair.v` | CEFN |
| `C135_types_agree` | `PropLinPair.v` | CEFN |
| `C136_exact_curve` | `PropComp.v` | CEFN |
| `C136_exact_ratio` | `PropComp.v` | CEFN |
| `C136_exact_settles` | `PropComp.v` | CEFN |
| `C136_float` | `PropComp.v` | CEFN |
| `C137_angle` | `PropPhase.v` | CEFN |
| `C137_chain` | `PropPhase.v` | CEFN |
| `C137_notches` | `PropPhase.v` | CEFN |
| `C137_one_angle` | `PropPhase.v` | CEFN |
| `C137_peak` | `PropPhase.v` | CEFN |
| `C137_phase_unique` | `PropPhase.v` | CEFN |
| `C138_equivalent` | `PropOver.v` | CEFN |
| `C138_lowpass` | `PropOver.v` | CEFN |
| `C138_others` | `PropOver.v` | CEFN |
| `C138_simple` | `PropOver.v` | CEFN |
| `C139_no_overshoot` | `PropOverFlt.v` | CEFN |
| `C139_order` | `PropOverFlt.v` | CEFN |
| `C139_rising` | `PropOverFlt.v` | CEFN |
| `C13_linear_process_shifts_taps` | `PropLinTaps.v` | - |
| `C13_linear_tap_out_reads_back` | `PropLinTaps.v` | - |
| `C13_process_shifts_taps` | `PropDelay.v` | - |
| `C13_tap_out_reads_back` | `PropDelay.v` | - |
| `C140_gain` | `PropButter.v` | CEFN |
| `C140_linkwitz_riley` | `PropButterX.v` | CEFN |
| `C140_shape` | `PropButter.v` | CEFN |
| `C140_sharper` | `PropButter.v` | CEFN |
| `C141_order` | `PropGraph.v` | CEFN |
| `C141_product` | `PropGraph.v` | CEFN |
| `C141_range` | `PropGraph.v` | CEFN |
| `C141_undo` | `PropGraph.v` | CEFN |
| `C142_cascade` | `PropFltChain.v` | CEFN |
| `C142_chain` | `PropFltChain.v` | CEFN |
| `C142_levels` | `PropFltChain.v` | CEFN |
| `C142_order` | `PropFltChain.v` | CEFN |
| `C142_order_exact_refuted` | `PropFltChain.v` | CEFN |
| `C142_undo` | `PropFltChain.v` | CEFN |
| `C143_flat` | `PropFltCross.v` | CEFN |
| `C143_sum` | `PropFltCross.v` | CEFN |
| `C144_butterworth` | `PropFltButter.v` | CEFN |
| `C144_cascade` | `PropFltButter.v` | CEFN |
| `C144_rating` | `PropFltButter.v` | CEFN |
| `C144_tone` | `PropFltButter.v` | CEFN |
| `C145_ends` | `PropFltTone.v` | CEFN |
| `C145_equaliser` | `PropFltTone.v` | CEFN |
| `C145_tone` | `PropFltTone.v` | CEFN |
| `C146_pairs` | `PropFltPair.v` | CEFN |
| `C146_phaser` | `PropFltPair.v` | CEFN |
| `C146_three_bands` | `PropFltPair.v` | CEFN |
| `C146_without` | `PropFltPair.v` | CEFN |
| `C147_bank` | `PropFltBank.v` | CEFN |
| `C147_order` | `PropFltBank.v` | CEFN |
| `C148_agree` | `PropFltPlat.v` | CEFN |
| `C148_banks` | `PropFltPlat.v` | CEFN |
| `C14_add_to_edits_one` | `PropDelay.v` | - |
| `C14_linear_add_to_edits_one` | `PropLinTaps.v` | - |
| `C14_linear_tap_in_edits_one` | `PropLinTaps.v` | - |
| `C14_tap_in_edits_one` | `PropDelay.v` | - |
| `C15_linear_tapped_value_emerges` | `PropEmerge.v` | CEFN |
| `C15_tapped_value_emerges` | `PropDelay.v` | - |
| `C16_linear_taps_beyond_line` | `PropLinTaps.v` | - |
| `C16_taps_beyond_line` | `PropDelay.v` | - |
| `C17_clear_empties_line` | `PropDelay.v` | - |
| `C17_clear_is_new` | `PropDelay.v` | - |
| `C17_linear_clear_empties_line` | `PropLinTaps.v` | - |
| `C17_linear_clear_is_new` | `PropLinTaps.v` | CEFN |
| `C18_linear_new_too_large` | `PropLinTaps.v` | - |
| `C18_new_too_large` | `PropDelay.v` | - |
| `C18_new_usize_max` | `PropDelay.v` | - |
| `C18_set_max_delay_usize_max` | `PropDelay.v` | - |
| `C19_new_usize_max_hangs_refuted` | `PropLin.v` | CEFN |
| `C19_no_session_hangs` | `PropLin.v` | CEFN |
| `C19_set_delay_terminates` | `PropLin.v` | CEFN |
| `C20_nan_delay_poisons` | `PropLin.v` | CEFN |
| `C20_new_clips` | `PropLin.v` | CEFN |
| `C20_set_delay_clips` | `PropLin.v` | CEFN |
| `C21_long_line_panics_refuted` | `PropLin.v` | CEFN |
| `C21_never_panics` | `PropLin.v` | CEFN |
| `C22_interpolates` | `PropLin2.v` | CEFN |
| `C22_mid_stream` | `PropLin2.v` | CEFN |
| `C22_refines_ideal` | `PropLin2.v` | CEFN |
| `C23_dyadic_delays_exact` | `PropLin2.v` | CEFN |
| `C24_tiny_delay_blows_up_refuted` | `PropLin2.v` | CEFN |
| `C24_weights` | `PropLin2.v` | CEFN |
| `C25_peek_harmless` | `PropLin3.v` | CEFN |
| `C25_peek_harmless_float` | `PropLin3.v` | CEFN |
| `C25_peek_same_value` | `PropLin3.v` | CEFN |
| `C25_peek_stale_refuted` | `PropLin3.v` | CEFN |
| `C26_clear_keeps_peek_refuted` | `PropLin3.v` | CEFN |
| `C26_pending_peek` | `PropLin3.v` | - |
| `C27_agrees_with_Delay` | `PropLin3.v` | CEFN |
| `C28_biquad1_equation` | `PropCore.v` | - |
| `C28_one_pole_equation` | `PropCore.v` | - |
| `C28_one_zero_equation` | `PropCore.v` | - |
| `C28_two_pole_equation` | `PropCore.v` | - |
| `C28_two_zero_equation` | `PropCore.v` | - |
| `C29_biquads_agree` | `PropFilter.v` | CEFN |
| `C29_filters_obey_equation` | `PropFilter.v` | CEFN |
| `C30_biquads_disagree` | `PropFilter.v` | CEFN |
| `C30_mid_stream_change` | `PropFilter.v` | CEFN |
| `C31_linear` | `PropFilter.v` | CEFN |
| `C31_time_invariant` | `PropFilter.v` | CEFN |
| `C32_infinity_poisons_f32_refuted` | `PropFilter.v` | CEFN |
| `C32_infinity_poisons_refuted` | `PropFilter.v` | CEFN |
| `C32_new_is_transparent_f32` | `PropFilter.v` | CEFN |
| `C32_new_is_transparent_f64` | `PropFilter.v` | CEFN |
| `C33_biquad2_memory` | `PropCore.v` | - |
| `C33_rbj_is_biquad2` | `PropCore.v` | - |
| `C33_rbj_set_forgets` | `PropCore.v` | - |
| `C33_set_keeps_last_out` | `PropCore.v` | - |
| `C34_bounded` | `PropFilter.v` | CEFN |
| `C34_fir_gain` | `PropFilter.v` | CEFN |
| `C34_one_pole_gain` | `PropFilter.v` | CEFN |
| `C34_one_pole_unstable` | `PropFilter.v` | CEFN |
| `C34_two_pole_iff` | `PropSys.v` | CEFN |
| `C35_past_fades` | `PropFilter.v` | CEFN |
| `C35_ring_down` | `PropFilter.v` | CEFN |
| `C36_embed_in_biquad` | `PropFilter.v` | CEFN |
| `C36_equation_determines_output` | `PropFilter.v` | CEFN |
| `C37_rbj_bounded` | `PropRbj.v` | CEFN |
| `C37_rbj_sinusoid` | `PropRbj.v` | CEFN |
| `C37_rbj_stable` | `PropRbj.v` | CEFN |
| `C37_slope_range` | `PropRbj.v` | CEFN |
| `C38_lowpass` | `PropRbj.v` | CEFN |
| `C39_highpass` | `PropRbj.v` | CEFN |
| `C40_bandpass` | `PropRbj.v` | CEFN |
| `C41_bandstop` | `PropRbj.v` | CEFN |
| `C42_allpass` | `PropRbj.v` | CEFN |
| `C43_peak` | `PropRbj.v` | CEFN |
| `C44_shelves` | `PropRbj.v` | CEFN |
| `C45_complementary` | `PropRbj.v` | CEFN |
| `C46_opposite_gains_cancel` | `PropRbj.v` | CEFN |
| `C46_zero_gain` | `PropRbj.v` | CEFN |
| `C47_alpha` | `PropAna.v` | CEFN |
| `C48_no_overshoot` | `PropAna.v` | CEFN |
| `C48_overflow_refuted` | `PropAna.v` | CEFN |
| `C48_range` | `PropAna.v` | CEFN |
| `C49_converges` | `PropAna2.v` | CEFN |
| `C49_geometric` | `PropAna2.v` | CEFN |
| `C49_one_pole` | `PropAna2.v` | CEFN |
| `C50_loud_signal_refuted` | `PropAna.v` | CEFN |
| `C50_new_is_transparent` | `PropAna.v` | CEFN |
| `C51_exact_gains` | `PropAna2.v` | CEFN |
| `C51_gains` | `PropAna.v` | CEFN |
| `C51_setters` | `PropAna.v` | CEFN |
| `C52_peak_no_overshoot` | `PropAna.v` | CEFN |
| `C52_peak_range` | `PropAna.v` | CEFN |
| `C53_sign_blind` | `PropAna.v` | CEFN |
| `C54_rms_range` | `PropAna.v` | CEFN |
| `C55_fraction` | `PropAna2.v` | CEFN |
| `C55_peak_time_constant` | `PropAna2.v` | CEFN |
| `C55_rms_time_constant` | `PropAna2.v` | CEFN |
| `C56_new_peak_rectifies` | `PropAna.v` | CEFN |
| `C56_new_rms_rectifies` | `PropAna.v` | CEFN |
| `C57_count` | `PropWindow.v` | - |
| `C57_same_samples` | `PropWindow.v` | - |
| `C58_exact_size_refuted` | `PropWindow.v` | - |
| `C58_len` | `PropWindow.v` | - |
| `C59_apply_window` | `PropWindow.v` | - |
| `C60_symmetric` | `PropWindow.v` | CEFN |
| `C60_symmetric_float` | `PropWindowF.v` | CEFN |
| `C61_finite_float` | `PropWindowF.v` | CEFN |
| `C61_range` | `PropWindow.v` | CEFN |
| `C61_range_float` | `PropWindowF.v` | CEFN |
| `C62_rising` | `PropWindow.v` | CEFN |
| `C63_note_refuted` | `PropWindow.v` | CEFN |
| `C63_overlap` | `PropWindow.v` | CEFN |
| `C64_size_one` | `PropWindowF.v` | CEFN |
| `C65_increasing` | `PropUtil.v` | CEFN |
| `C65_round_trip` | `PropUtil.v` | CEFN |
| `C66_clamp` | `PropUtil.v` | CEFN |
| `C66_clamp_float` | `PropUtil.v` | CEFN |
| `C66_panics` | `PropUtil.v` | - |
| `C66_range_float` | `PropUtil.v` | CEFN |
| `C67_apply_gain` | `PropUtil.v` | - |
| `C68_realised_delay` | `PropLin2.v` | CEFN |
| `C69_taps_agree` | `PropLin3.v` | - |
| `C70_long_attack_freezes` | `PropAna.v` | CEFN |
| `C70_long_gain_is_one` | `PropAna.v` | CEFN |
| `C71_monotone` | `PropAna2.v` | CEFN |
| `C72_textbook` | `PropWindow.v` | CEFN |
| `C73_overlap_add` | `PropWindow.v` | CEFN |
| `C74_blackman_range_refuted` | `PropWindowF.v` | CEFN |
| `C75_gain_in_db` | `PropUtil.v` | CEFN |
| `C76_analog_gain` | `PropEq.v` | CEFN |
| `C76_analog_response` | `PropEq.v` | CEFN |
| `C77_peak_range` | `PropEq.v` | CEFN |
| `C77_shelf_range` | `PropEq.v` | CEFN |
| `C77_steep_shelf_overshoots` | `PropEq.v` | CEFN |
| `C78_butterworth` | `PropEq.v` | CEFN |
| `C78_monotone` | `PropEq.v` | CEFN |
| `C78_resonance` | `PropEq.v` | CEFN |
| `C79_band` | `PropEq.v` | CEFN |
| `C79_pass_band` | `PropEq.v` | CEFN |
| `C80_allpass_lossless` | `PropEq.v` | CEFN |
| `C80_allpass_passive` | `PropEq.v` | CEFN |
| `C80_band_energy` | `PropEq.v` | CEFN |
| `C81_explicit_gain` | `PropFltFilter.v` | EF |
| `C81_float_tracks_exact` | `PropFltFilter.v` | CEFN |
| `C81_stable_has_gain` | `PropFltFilter.v` | EFN |
| `C82_convolution` | `PropSys.v` | CEFN |
| `C82_summable` | `PropSys.v` | CEFN |
| `C82_worst_case` | `PropSys.v` | CEFN |
| `C83_series_commutes` | `PropSys.v` | CEFN |
| `C83_series_of_sum` | `PropSys.v` | CEFN |
| `C84_rbj_sweep_bounded` | `PropSys.v` | CEFN |
| `C84_sweep_diverges_refuted` | `PropSys.v` | CEFN |
| `C85_release_gain` | `PropTail.v` | CEFN |
| `C85_tail_ends` | `PropTail.v` | CEFN |
| `C85_tail_never_ends_refuted` | `PropTail.v` | CEFN |
| `C86_constants` | `PropConst.v` | CEFN |
| `C87_low_cutoff_passes_refuted` | `PropRbjFlt.v` | CEFN |
| `C88_click_dies_out_refuted` | `PropRbjFlt.v` | CEFN |
| `C88_float_setting_stable_refuted` | `PropRbjFlt.v` | CEFN |
| `C89_float_gain_setting_stable` | `PropRbjFlt.v` | CEFN |
| `C89_float_setting_stable` | `PropRbjFlt.v` | CEFN |
| `C90_leaky_tracks` | `PropTrack.v` | CEFN |
| `C90_peak_tracks` | `PropTrack.v` | CEFN |
| `C90_rms_tracks` | `PropTrack.v` | CEFN |
| `C91_window_accurate` | `PropWinAcc.v` | CEFN |
| `C91_window_range` | `PropWinAcc.v` | CEFN |
| `C92_floor_round_trip_refuted` | `PropDb.v` | CEFN |
| `C92_round_trip` | `PropDb.v` | CEFN |
| `C92_round_trip_level` | `PropDb.v` | CEFN |
| `C92_to_db_accurate` | `PropDb.v` | CEFN |
| `C92_to_sample_accurate` | `PropDb.v` | CEFN |
| `C93_coefficients_accurate` | `PropRbjAcc.v` | CEFN |
| `C94_filter_tracks_ideal` | `PropRbjAcc.v` | CEFN |
| `C94_rbj_gain` | `PropRbjAcc.v` | CEFN |
| `C94_rbj_tracks_ideal` | `PropRbjAcc.v` | CEFN |
| `C94_stable_gain` | `PropRbjAcc.v` | EFN |
| `C95_bad_setting` | `PropPoison.v` | CEFN |
| `C95_fir_recovers` | `PropPoison.v` | - |
| `C95_overflow_lasts` | `PropPoison.v` | CEFN |
| `C95_passes_on` | `PropPoison.v` | CEFN |
| `C95_poisoned_for_ever` | `PropPoison.v` | CEFN |
| `C95_setters_do_not_help` | `PropPoison.v` | CEFN |
| `C96_contained` | `PropLinAcc.v` | CEFN |
| `C96_tracks_ideal` | `PropLinAcc.v` | CEFN |
| `C96_zero_delay_ghost_refuted` | `PropLinAcc.v` | CEFN |
| `C97_coefficients_accurate` | `PropGainAcc.v` | CEFN |
| `C97_feedback_gain` | `PropGainAcc.v` | CEFN |
| `C97_steep_shelf_never_finite` | `PropGainAcc.v` | CEFN |
| `C97_tracks_ideal` | `PropGainAcc.v` | CEFN |
| `C98_attack_bias` | `PropMeter.v` | CEFN |
| `C98_float_meter` | `PropMeterF.v` | CEFN |
| `C98_forgets` | `PropMeter.v` | CEFN |
| `C98_mean_reading` | `PropMeter.v` | CEFN |
| `C98_peak_hold` | `PropMeter.v` | CEFN |
| `C98_reading_error` | `PropMeter.v` | CEFN |
| `C98_rms_of_sinusoid` | `PropMeter.v` | CEFN |
| `C98_settles` | `PropMeter.v` | CEFN |
| `C99_almost_monotone` | `PropMono.v` | CEFN |
| `C99_louder_lowers_refuted` | `PropMono.v` | CEFN |
<!-- end table -->
