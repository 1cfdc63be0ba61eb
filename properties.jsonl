{"id": "C01", "title": "Block processing is sample-by-sample processing", "statement": "Calling process_block on a non-empty slice leaves in the slice exactly the samples that calling process once per element, in order, would have returned, leaves the processor in the same state, and returns the last of them. On an empty slice it panics, and only then (for processors whose process does not panic). In particular a non-empty block never panics, after any history, on a Delay, nor on a LinearDelay of at most 2^24 slots.", "quantifier": "every processor, every processor state, every slice length and contents", "why_tests_cant": "Slices are unbounded and processors stateful; tests cover a handful of 4-5 element slices and never the empty slice.", "anchors": ["src/traits.rs:39-44 Processor::process_block"]}
{"id": "C02", "title": "Block boundaries are inaudible", "statement": "Splitting a signal into any sequence of non-empty blocks and feeding them to process_block one after another produces the same concatenated output and the same final state as processing the whole signal as one block.", "quantifier": "every processor, state, signal and every way of cutting it into non-empty blocks", "why_tests_cant": "The number of partitions of a signal is exponential in its length.", "anchors": ["src/traits.rs:39-44 Processor::process_block"]}
{"id": "C03", "title": "last_out reports the most recent output", "statement": "Directly after process(x) returned y, last_out() returns y, for every processor of the library, whatever calls (process, clear, coefficient/delay changes, taps) came before.", "quantifier": "every processor type, every call history, every sample value including NaN and infinities", "why_tests_cant": "Needs every history; tests compare last_out once for four of the types.", "anchors": ["src/filter/one_pole.rs last_out", "src/filter/one_zero.rs last_out", "src/filter/two_pole.rs last_out", "src/filter/two_zero.rs last_out", "src/filter/biquad.rs last_out", "src/analysis/leaky_integrator.rs last_out", "src/analysis/peak_detector.rs last_out", "src/analysis/rms_detector.rs last_out", "src/delay/mod.rs last_out", "src/delay/linear_delay.rs last_out", "src/filter/rbj/*.rs last_out"]}
{"id": "C04", "title": "clear forgets all input history of the filters and detectors", "statement": "After clear(), any further sequence of calls on a filter, RBJ filter, leaky integrator or envelope detector returns the same samples as on a freshly constructed object given the same coefficients, no matter what was processed before. (For OneZero and TwoZero this holds for the calls from the next process on: see C05.)", "quantifier": "every history before the clear, every call sequence after it, every numeric type", "why_tests_cant": "Two unbounded histories are quantified over.", "anchors": ["src/traits.rs:46-47", "src/filter/*.rs clear", "src/filter/rbj/*.rs clear", "src/analysis/*.rs clear"]}
{"id": "C05", "title": "clear resets last_out to zero except in the FIR filters", "statement": "After clear(), last_out() is zero for OnePole, TwoPole, Biquad1, Biquad2, the nine RBJ filters, LeakyIntegrator, PeakEnvDetector, RmsEnvDetector, Delay and LinearDelay, from any state. OneZero and TwoZero deviate from the documented 'resets memory of all previous input and output to zero': their last_out() after clear() still returns the last output.", "quantifier": "every object state, every numeric type", "why_tests_cant": "Existing tests never call last_out after clear on the FIR filters; the claim is over all states.", "anchors": ["src/traits.rs:46-47 Processor::clear", "src/filter/one_zero.rs:62-64 clear", "src/filter/two_zero.rs:68-71 clear"]}
{"id": "C06", "title": "Delay never panics in normal use", "statement": "On a Delay built with any delay and any allocatable max_delay, no sequence of process, clear, set_delay, set_max_delay (to an allocatable size), getters, next_out, and tap_out/tap_in/add_to with tap_delay <= get_max_delay() ever panics (no index out of bounds, no arithmetic overflow), in debug or release builds.", "quantifier": "every construction, every finite sequence of API calls with arbitrary arguments in range, both build profiles", "why_tests_cant": "Pointer wrap-around bugs appear only at particular pointer/length/argument combinations of unbounded call sequences.", "anchors": ["src/delay/mod.rs Delay"]}
{"id": "C07", "title": "Delay delays by exactly its length", "statement": "A Delay created with new(d, m), d <= m, outputs d zeros followed by the input signal: output n is input n-d, bit for bit, for any input of any length, including d = 0 and d = m. If d > m it behaves as d = m.", "quantifier": "every d, m, every input signal, every sample type", "why_tests_cant": "Tests use one delay length and an impulse of five samples, never wrapping the buffer.", "anchors": ["src/delay/mod.rs:45-62 Delay::new", "src/delay/mod.rs:109-120 Delay::process"]}
{"id": "C08", "title": "Delay is a time-varying delay line over its recent history", "statement": "At any moment of any history of process, set_delay, clear, tap_in and add_to calls, the next process(x) returns the sample get_delay() positions back in the abstract line (the list of the last get_max_delay()+1 line values, newest first, x being the newest); set_delay only changes which position is read, and tap/clear edit only the positions they name.", "quantifier": "every finite sequence of API calls, every argument value", "why_tests_cant": "It is a refinement statement over all interleavings of delay changes, taps, clears and samples.", "anchors": ["src/delay/mod.rs Delay", "src/traits.rs TappableDelayLine"]}
{"id": "C09", "title": "set_delay clips and get_delay reports the clipped value", "statement": "After set_delay(d), get_delay() is min(d, get_max_delay()); the line contents, last_out and max delay are unchanged. new(d, m) gives get_delay() = min(d, m) and get_max_delay() = m.", "quantifier": "every reachable Delay, every usize argument", "why_tests_cant": "Arguments range over all of usize and states over all histories.", "anchors": ["src/delay/mod.rs:80-95 set_delay", "src/delay/mod.rs:98-100 get_delay", "src/delay/mod.rs:73-75 get_max_delay"]}
{"id": "C10", "title": "set_max_delay only grows the line", "statement": "After set_max_delay(m) with m allocatable, get_max_delay() is max(old max delay, m), and get_delay(), last_out() and the configured delay are unchanged; a request not larger than the current maximum changes nothing at all.", "quantifier": "every reachable Delay or LinearDelay, every allocatable m", "why_tests_cant": "All states and arguments; untested in the repository.", "anchors": ["src/delay/mod.rs:65-70 set_max_delay", "src/delay/linear_delay.rs:74-77 set_max_delay"]}
{"id": "C11", "title": "Growing a Delay keeps its timing only when the line is not wrapped", "statement": "Growing a Delay with set_max_delay does not change any later output when the write position (which process moves round the line, one slot per sample) is at or past the delay; otherwise the realised latency silently becomes get_delay() + (new length - old length), although get_delay() still reports the old one. A subsequent set_delay makes the latency equal to get_delay() again. After any history, with any number of growths, the realised latency is the one obtained by applying these two rules call by call.", "quantifier": "every reachable Delay (earlier growths included), every growth amount, every continuation signal", "why_tests_cant": "The failure needs the write pointer to have wrapped; no test calls set_max_delay at all.", "anchors": ["src/delay/mod.rs:65-70 set_max_delay"]}
{"id": "C12", "title": "next_out predicts the next output of a Delay", "statement": "If get_delay() >= 1 then next_out() equals what the next process(x) returns, for every x, and calling next_out changes nothing. With get_delay() = 0 the prediction is wrong in general (process then returns x itself).", "quantifier": "every reachable Delay, every next sample", "why_tests_cant": "All states; the repository only checks that a new delay predicts zero.", "anchors": ["src/delay/mod.rs:103-105 next_out"]}
{"id": "C13", "title": "tap_out reads the line at the requested depth", "statement": "tap_out(t) with t <= get_max_delay() returns the value t+1 process calls ago (t = 0 is the newest), zero if there was none, as later modified by taps; it changes nothing.", "quantifier": "every reachable Delay and LinearDelay, every t up to the maximum delay", "why_tests_cant": "The index wraps at data-dependent places; tests read four positions of an unwrapped 4096-slot line.", "anchors": ["src/delay/mod.rs:135-141 tap_out", "src/delay/linear_delay.rs:172-178 tap_out"]}
{"id": "C14", "title": "tap_in and add_to edit one line position", "statement": "tap_in(v, t) with t <= get_max_delay() makes tap_out(t) = v and leaves tap_out(s) unchanged for every other s <= get_max_delay(); add_to(v, t) likewise stores and returns old + v. Neither changes delay, last_out or pointers.", "quantifier": "every reachable Delay and LinearDelay, every value, every pair t, s of in-range taps", "why_tests_cant": "All states, all pairs of positions.", "anchors": ["src/delay/mod.rs:143-158 tap_in add_to", "src/delay/linear_delay.rs:180-195 tap_in add_to"]}
{"id": "C15", "title": "A tapped-in value comes out after delay - t samples", "statement": "On a Delay with get_delay() = d, after tap_in(v, t) with t < d the (d-t)-th next process call returns v, whatever samples are processed. On a LinearDelay in exact arithmetic, replacing the value u at tap t by v changes the n-th following output (n = 0, 1, ...) by (v - u) max(0, 1 - |d - t - 1 - n|), whatever is processed: one sample for a whole delay, two with the interpolation weights otherwise, nothing if t >= d.", "quantifier": "every reachable Delay or LinearDelay (trusted timing, no pending peek), every v, every tap, every continuation", "why_tests_cant": "All states and continuations; tests use one pointer position.", "anchors": ["src/delay/mod.rs:143-149 tap_in", "src/delay/mod.rs:109-120 process", "src/delay/linear_delay.rs:180-186 tap_in", "src/delay/linear_delay.rs: process, next_out"]}
{"id": "C16", "title": "Taps beyond the line: alias or panic, never out-of-bounds memory", "statement": "tap_out/tap_in/add_to with tap_delay > get_max_delay() either panic or act on one in-range position: for max_delay < tap_delay <= max_delay + w (w the current write position) they alias position tap_delay - max_delay - 1; beyond that (below 2^63) they panic; from 2^63 on, a tap 2^64 - k aliases position max_delay + 1 - k while w + k <= max_delay + 1 (so usize::MAX acts on the oldest position) and panics otherwise.", "quantifier": "every reachable Delay and LinearDelay (growths included), every usize tap_delay, both build profiles", "why_tests_cant": "The behaviour depends on the hidden write position and on isize casts at the extremes of usize.", "anchors": ["src/delay/mod.rs:135-158", "src/delay/linear_delay.rs: LinearDelay::tap_out, tap_in, add_to"]}
{"id": "C17", "title": "clear of a delay line empties it and keeps the settings", "statement": "After clear(), every in-range tap_out is zero, last_out() is zero, get_delay() and get_max_delay() are unchanged, and the outputs for any further input are the same as those of a new Delay with the same delay and max delay. The same holds for a LinearDelay: the first part always, the last in exact arithmetic and while no peeked value is pending (C26).", "quantifier": "every reachable Delay and LinearDelay (whose timing is intact, for the last part), every continuation", "why_tests_cant": "Read and write pointers are not reset by clear, so equality with a fresh line must be shown for every pointer position.", "anchors": ["src/delay/mod.rs:122-127 clear", "src/delay/linear_delay.rs: LinearDelay::clear"]}
{"id": "C18", "title": "Extreme max_delay requests", "statement": "Delay::new(d, usize::MAX) panics on overflow in debug builds; in release builds it constructs a zero-slot line on which process, next_out and every tap with an argument below 2^63 panic. new with a max_delay whose buffer exceeds the allocation limit panics in both builds, for Delay and LinearDelay.", "quantifier": "every d, both build profiles", "why_tests_cant": "Tests cannot allocate or reach these sizes; wrap-around is profile dependent.", "anchors": ["src/delay/mod.rs:45-62 Delay::new", "src/delay/linear_delay.rs: LinearDelay::new"]}
{"id": "C19", "title": "LinearDelay::set_delay always terminates", "statement": "The pointer-normalisation loop of set_delay runs at most once, for every f32 delay (including NaN, infinities, negative and subnormal values), every non-empty buffer length and write position, in f32 arithmetic; so no sequence of calls makes a LinearDelay loop forever unless some length request is usize::MAX. The exception is real: in release builds LinearDelay::new(d, usize::MAX) with a positive d never returns.", "quantifier": "every f32 bit pattern, every line length, every write position", "why_tests_cant": "2^32 delays times unbounded lengths; a float loop can spin forever when the increment rounds away.", "anchors": ["src/delay/linear_delay.rs:87-113 set_delay"]}
{"id": "C20", "title": "LinearDelay clips its delay", "statement": "After new or set_delay with any non-NaN f32 d on a line with get_max_delay() <= 2^24, get_delay() is d clipped to [0, get_max_delay()]: infinities and negative values are clipped too. A NaN delay is stored as NaN.", "quantifier": "every f32 value, every line length up to 2^24", "why_tests_cant": "All f32 values and lengths.", "anchors": ["src/delay/linear_delay.rs:46-71 new", "src/delay/linear_delay.rs:87-98 set_delay"]}
{"id": "C21", "title": "LinearDelay never panics or reads out of bounds on lines up to 2^24 samples", "statement": "For any LinearDelay with at most 2^24 slots, no sequence of API calls (process, clear, set_delay with any f32 including NaN, set_max_delay up to 2^24 - 1, next_out, in-range taps, getters) panics. With more than 2^24 slots set_delay can leave the read position outside the buffer, and the next process panics.", "quantifier": "every API call sequence, every f32 delay", "why_tests_cant": "The out-of-range read position needs f32 rounding of a >2^24 length; in-range safety quantifies over all sequences.", "anchors": ["src/delay/linear_delay.rs"]}
{"id": "C22", "title": "LinearDelay interpolates linearly (ideal arithmetic)", "statement": "With exact arithmetic, a LinearDelay with delay k + f (0 <= f < 1) outputs (1-f)*x[n-k] + f*x[n-k-1] for every n and every input, with zeros before the start; in particular an integer delay k gives x[n-k].", "quantifier": "every real delay in [0, max], every input signal", "why_tests_cant": "All delays and signals.", "anchors": ["src/delay/linear_delay.rs:87-113 set_delay", "src/delay/linear_delay.rs:121-138 next_out", "src/delay/linear_delay.rs:142-157 process"]}
{"id": "C23", "title": "LinearDelay with f32 control is exact on dyadic delays", "statement": "With the real f32 delay arithmetic, if the delay is a multiple of 2^-j and (number of slots)*2^j <= 2^24, the interpolation position and weights are computed without rounding error, at every write position, so the interpolation formula holds with exactly those weights.", "quantifier": "every j, every such delay, line length and write position", "why_tests_cant": "Needs the absence of rounding at every pointer position.", "anchors": ["src/delay/linear_delay.rs:87-113 set_delay"]}
{"id": "C24", "title": "LinearDelay tiny-delay blow-up", "statement": "set_delay in f32 arithmetic installs proper interpolation weights (newer weight in [0,1), the fractional part of the rounded read position) exactly when the rounded read position stays below the line length; when write position minus delay plus length rounds up to the length, the weights become length and 1 - length. In particular new(d, m) with any delay 0 < d <= 2^-25 and m >= 1 turns the first sample x into about -m*x instead of about x.", "quantifier": "every f32 delay, every length up to 2^24, every write position", "why_tests_cant": "Only triggered when the delay is below the f32 resolution of the line length and the write position is 0 modulo wrap.", "anchors": ["src/delay/linear_delay.rs:104-112"]}
{"id": "C25", "title": "Peeking with next_out is harmless only for delays of at least one sample", "statement": "On a LinearDelay without a pending peek and not grown since the delay was set, calling next_out() immediately before process(x) does not change what process returns or the state after it: in exact arithmetic for every delay of at least 1, in floats bit for bit for delays of at least 2, and up to the sign of zero for a delay of exactly 1 with finite samples. For delays below one sample it does change the output: process then returns the stale peeked value.", "quantifier": "every reachable LinearDelay, every x", "why_tests_cant": "The cached value makes the result depend on call order; tests only peek on silent lines.", "anchors": ["src/delay/linear_delay.rs:121-138 next_out", "src/delay/linear_delay.rs:142-157 process"]}
{"id": "C26", "title": "A pending peek survives clear, set_delay and taps", "statement": "After next_out() on a LinearDelay, the next process(x) returns the peeked value even if clear(), set_delay, tap_in, add_to or set_max_delay is called in between; in particular process after clear can output a non-zero sample from before the clear.", "quantifier": "every reachable LinearDelay, every sequence of non-process calls between the peek and the next process", "why_tests_cant": "Requires all intervening call sequences.", "anchors": ["src/delay/linear_delay.rs:121-138 next_out", "src/delay/linear_delay.rs:159-164 clear"]}
{"id": "C27", "title": "LinearDelay with integer delays agrees with Delay", "statement": "In f32 and f64 arithmetic, on lines up to 2^24 slots, any sequence of calls with whole-number delays and finite samples gives the same answers on a LinearDelay as on a Delay (numerically equal; a zero may change sign), or panics on both.", "quantifier": "every sequence of process, clear, set_delay, set_max_delay, get_delay, get_max_delay, last_out, tap_out and tap_in calls with integer delays, every length up to 2^24, every finite signal", "why_tests_cant": "All lengths, delays and signals, in floating point.", "anchors": ["src/delay/linear_delay.rs", "src/delay/mod.rs"]}
{"id": "C28", "title": "The direct-form filters obey their difference equations bit for bit", "statement": "From a cleared state with coefficients set once, the outputs of OnePole, OneZero, TwoPole, TwoZero and Biquad1 satisfy the documented difference equations at every n, evaluated in the sample type in the documented left-to-right order, with zeros before the start (TwoPole feeds back y[n-2], the documentation's x[n-2] is a typo).", "quantifier": "every coefficient set, every input signal of any length, every numeric type", "why_tests_cant": "All signals; feedback makes every output depend on the whole history.", "anchors": ["src/filter/one_pole.rs:54-58", "src/filter/one_zero.rs:56-60", "src/filter/two_pole.rs:59-64", "src/filter/two_zero.rs:61-66", "src/filter/biquad.rs:86-95"]}
{"id": "C29", "title": "The transposed biquad obeys the direct-form difference equation", "statement": "In exact arithmetic Biquad2, from a cleared state, satisfies y[n] = b0 x[n] + b1 x[n-1] + b2 x[n-2] - a1 y[n-1] - a2 y[n-2] for every n, although it never stores past inputs or outputs; hence Biquad1 and Biquad2 with equal coefficients give equal outputs on every input.", "quantifier": "every coefficient set and input signal", "why_tests_cant": "Algebraic identity over all signals.", "anchors": ["src/filter/biquad.rs:86-95 Biquad1::process", "src/filter/biquad.rs:173-178 Biquad2::process"]}
{"id": "C30", "title": "Changing coefficients mid-stream distinguishes the two biquads", "statement": "Biquad1 and Biquad2 need not agree after set_coefficients is called on a non-silent filter, even in exact arithmetic: they agree for all continuations from a cleared state only.", "quantifier": "existence of a history and continuation", "why_tests_cant": "Existential over histories, complements C29.", "anchors": ["src/filter/biquad.rs set_coefficients"]}
{"id": "C31", "title": "Filters are linear and time invariant (ideal arithmetic)", "statement": "For each of the six basic filters, from a cleared state in exact arithmetic, the response to a*u + b*v is a times the response to u plus b times the response to v, and prefixing k zeros to the input prefixes k zeros to the output.", "quantifier": "all coefficients, signals, scalars, shifts", "why_tests_cant": "Universally quantified over signals and scalars.", "anchors": ["src/filter/*.rs process"]}
{"id": "C32", "title": "A new filter does not alter the signal", "statement": "OnePole, OneZero, TwoPole, TwoZero, Biquad1, Biquad2 and the RBJ filters straight from new() return, in f32 and f64, a value numerically equal to each input sample, for every signal of finite samples (a negative zero may become positive). After one infinite sample this fails: later outputs are NaN.", "quantifier": "every finite signal of any length, f32 and f64", "why_tests_cant": "All finite floats and histories.", "anchors": ["src/filter/one_pole.rs:36-42", "src/filter/one_zero.rs:37-44", "src/filter/two_pole.rs:38-46", "src/filter/two_zero.rs:39-48", "src/filter/biquad.rs:58-70", "src/filter/biquad.rs:146-157"]}
{"id": "C33", "title": "set_coefficients on the basic filters keeps memory", "statement": "set_coefficients on OnePole, OneZero, TwoPole, TwoZero, Biquad1 and Biquad2 stores exactly the given coefficients in order and does not disturb the stored samples or last_out; on the RBJ filters set_coefficients also clears the memory, so the following outputs depend only on the new coefficients.", "quantifier": "every state, every coefficient values", "why_tests_cant": "All states and histories.", "anchors": ["src/filter/*.rs set_coefficients", "src/filter/rbj/*.rs set_coefficients"]}
{"id": "C34", "title": "Stable coefficients give bounded output", "statement": "In exact arithmetic, if |a1| < 1 (OnePole) or |a2| < 1 and |a1| < 1 + a2 (TwoPole, Biquad1, Biquad2), there is a constant K depending only on the coefficients such that every input bounded by M gives outputs bounded by K*M, forever; OneZero and TwoZero are bounded by the sum of the absolute coefficients. For TwoPole with b0 <> 0 the stability condition is also necessary: if it fails, some bounded input gives an unbounded output.", "quantifier": "all coefficients in the stability region, all bounded signals of any length", "why_tests_cant": "Unbounded time and all inputs.", "anchors": ["src/filter/*.rs process"]}
{"id": "C35", "title": "Stable filters ring down to silence", "statement": "In exact arithmetic, with coefficients in the stability region, once the input stays zero the output converges to zero, from any state.", "quantifier": "all stable coefficients, all states", "why_tests_cant": "A limit statement.", "anchors": ["src/filter/*.rs process"]}
{"id": "C36", "title": "Basic filters embed in the biquad", "statement": "In exact arithmetic OnePole(b0,a1), OneZero(b0,b1), TwoPole(b0,a1,a2) and TwoZero(b0,b1,b2) give the same output as Biquad1 with the missing coefficients zero, for every input.", "quantifier": "all coefficients and signals", "why_tests_cant": "All signals.", "anchors": ["src/filter/*.rs process"]}
{"id": "C37", "title": "RBJ filters are stable for every valid setting", "statement": "For sample_rate > 0, 0 < frequency < sample_rate/2 and q > 0 (0 < shelf_slope <= 1 and any db_gain for the shelves, any db_gain for Peak), the coefficients set by LowPass, HighPass, BandPass1, BandPass2, BandStop, AllPass, Peak, LowShelf and HighShelf lie in the stability region (exact arithmetic), so their outputs are bounded for bounded input.", "quantifier": "all sample rates, frequencies, q, gains and slopes in range", "why_tests_cant": "A continuum of parameters.", "anchors": ["src/filter/rbj/*.rs set_coefficients"]}
{"id": "C38", "title": "LowPass passes DC, blocks Nyquist, has gain q at cutoff", "statement": "With valid settings, feeding a LowPass a constant c its output tends to c; feeding it an alternating +c,-c signal its output tends to 0; feeding it a sinusoid at the cutoff frequency its output tends to a sinusoid of q times the amplitude.", "quantifier": "all valid settings, all amplitudes and phases", "why_tests_cant": "Limits over time, continuum of parameters.", "anchors": ["src/filter/rbj/lowpass.rs:25-52"]}
{"id": "C39", "title": "HighPass blocks DC, passes Nyquist, has gain q at cutoff", "statement": "With valid settings, a constant input gives output tending to 0, an alternating input is passed with gain 1, a sinusoid at the cutoff is passed with gain q.", "quantifier": "all valid settings, all amplitudes and phases", "why_tests_cant": "Limits over time, continuum of parameters.", "anchors": ["src/filter/rbj/highpass.rs:25-52"]}
{"id": "C40", "title": "BandPass filters: peak gain q resp. 1 at the centre, zero at DC and Nyquist", "statement": "With valid settings, BandPass1 passes a sinusoid at the centre frequency with gain q and BandPass2 with gain 1 and no phase shift; both reject DC and Nyquist.", "quantifier": "all valid settings, all amplitudes and phases", "why_tests_cant": "Limits over time, continuum of parameters.", "anchors": ["src/filter/rbj/bandpass.rs:28-55", "src/filter/rbj/bandpass.rs:93-120"]}
{"id": "C41", "title": "BandStop removes the centre frequency and passes DC and Nyquist", "statement": "With valid settings the response to a sinusoid at the centre frequency tends to 0 while constant and alternating inputs are passed with gain 1.", "quantifier": "all valid settings, all amplitudes and phases", "why_tests_cant": "Limits over time, continuum of parameters.", "anchors": ["src/filter/rbj/bandstop.rs:27-54"]}
{"id": "C42", "title": "AllPass has unit gain at every frequency", "statement": "With valid settings, a sinusoid of any frequency whatsoever is passed with unchanged amplitude in the limit (only its phase changes).", "quantifier": "all valid settings, all input frequencies, amplitudes and phases", "why_tests_cant": "A continuum of frequencies.", "anchors": ["src/filter/rbj/allpass.rs:25-52"]}
{"id": "C43", "title": "Peak boosts the centre by db_gain and leaves DC and Nyquist alone", "statement": "With valid settings a sinusoid at the centre frequency is passed with gain 10^(db_gain/20) and no phase shift, constant and alternating inputs with gain 1.", "quantifier": "all valid settings, all amplitudes and phases", "why_tests_cant": "Limits over time, continuum of parameters.", "anchors": ["src/filter/rbj/peak.rs:26-57"]}
{"id": "C44", "title": "Shelves apply db_gain on their side of the cutoff", "statement": "With valid settings LowShelf has gain 10^(db_gain/20) at DC, 1 at Nyquist, and HighShelf the reverse; both have gain 10^(db_gain/40) (half the dB gain) at the cutoff frequency.", "quantifier": "all valid settings, all amplitudes and phases", "why_tests_cant": "Limits over time, continuum of parameters.", "anchors": ["src/filter/rbj/lowshelf.rs:26-62", "src/filter/rbj/highshelf.rs:26-62"]}
{"id": "C45", "title": "Complementary RBJ filters", "statement": "With the same settings and exact arithmetic, for every input: LowPass + HighPass = BandStop; BandStop + BandPass2 = the input; AllPass = BandStop - BandPass2; BandPass1 = q * BandPass2, sample for sample.", "quantifier": "all settings with non-zero sample rate and q and a non-vanishing normaliser 1 + sin(w0)/(2q), all signals", "why_tests_cant": "Identity over all signals and parameters.", "anchors": ["src/filter/rbj/lowpass.rs", "src/filter/rbj/highpass.rs", "src/filter/rbj/bandstop.rs", "src/filter/rbj/bandpass.rs", "src/filter/rbj/allpass.rs"]}
{"id": "C46", "title": "Equaliser settings with opposite gains cancel", "statement": "In exact arithmetic, passing any signal through Peak (or LowShelf, or HighShelf) with db_gain g and then through the same filter type with -g and equal other settings returns the original signal; with g = 0 the filter returns its input unchanged.", "quantifier": "all valid settings, all signals", "why_tests_cant": "All signals and parameters.", "anchors": ["src/filter/rbj/peak.rs", "src/filter/rbj/lowshelf.rs", "src/filter/rbj/highshelf.rs"]}
{"id": "C47", "title": "LeakyIntegrator alpha always satisfies 0 <= alpha < 1", "statement": "After any sequence of set_alpha, process and clear calls on a new LeakyIntegrator, get_alpha() is in [0,1): a set_alpha outside that range, including NaN and infinities, leaves it unchanged, one inside sets it exactly.", "quantifier": "every call sequence, every f32/f64 argument", "why_tests_cant": "All sequences and all float values.", "anchors": ["src/analysis/leaky_integrator.rs:77-81 set_alpha"]}
{"id": "C48", "title": "LeakyIntegrator output stays between its memory and its input, in floating point", "statement": "In f32 and f64 arithmetic, process(x) returns a value between the previous output and x inclusive (no overshoot by rounding) whenever x minus the previous output does not overflow; hence over any history the output never leaves the interval spanned by 0 and the inputs seen (inputs up to MAX/2 in magnitude). For larger opposite-sign inputs it can produce infinities or NaN.", "quantifier": "every alpha in [0,1), every history, every finite float in range", "why_tests_cant": "Rounding behaviour of all triples of floats.", "anchors": ["src/analysis/leaky_integrator.rs:85-88 process"]}
{"id": "C49", "title": "LeakyIntegrator converges geometrically", "statement": "In exact arithmetic, n samples of constant input c starting from output y0 give c + alpha^n (y0 - c); it equals OnePole with b0 = 1 - alpha, a1 = -alpha on every input.", "quantifier": "all alpha, c, y0, n, signals", "why_tests_cant": "All n.", "anchors": ["src/analysis/leaky_integrator.rs:85-88"]}
{"id": "C50", "title": "A new LeakyIntegrator does not alter moderate signals", "statement": "In f32 and f64, a new LeakyIntegrator returns a value equal to each input for finite signals of magnitude at most MAX/2; with larger magnitudes (MAX then -MAX) it returns NaN.", "quantifier": "every finite signal in range", "why_tests_cant": "All floats.", "anchors": ["src/analysis/leaky_integrator.rs:37-42 new"]}
{"id": "C51", "title": "Detector gains stay in [0,1] and follow the documented guard", "statement": "set_attack(len)/set_release(len) changes its own gain only, and only if len > 0 and finite (NaN, infinities, zero and negatives are ignored), never the envelope; given that exp maps non-positive floats into [0,1], both gains stay in [0,1] after any call sequence. In exact arithmetic the gain is exp(-1/len), strictly inside (0,1).", "quantifier": "every call sequence and every float argument", "why_tests_cant": "All sequences and floats.", "anchors": ["src/analysis/peak_detector.rs:72-76", "src/analysis/peak_detector.rs:105-109", "src/analysis/rms_detector.rs:72-76", "src/analysis/rms_detector.rs:105-109"]}
{"id": "C52", "title": "Peak envelope is non-negative, never overshoots, and tracks direction", "statement": "In f32 and f64 arithmetic, for any history of finite samples and gains in [0,1), the PeakEnvDetector output is finite, non-negative and lies between the previous envelope and |x|; hence it never exceeds the largest |x| seen. It rises only towards a larger |x| and falls only towards a smaller one.", "quantifier": "every history of finite samples, every gains in [0,1)", "why_tests_cant": "All float histories.", "anchors": ["src/analysis/peak_detector.rs:113-127 process"]}
{"id": "C53", "title": "Detectors ignore the sign of the input", "statement": "Negating any samples of the input of a PeakEnvDetector or RmsEnvDetector does not change any output, bit for bit, in f32 and f64, including infinities and NaN.", "quantifier": "every history, every subset of negated samples", "why_tests_cant": "Exponentially many sign patterns.", "anchors": ["src/analysis/peak_detector.rs:114", "src/analysis/rms_detector.rs:114"]}
{"id": "C54", "title": "RMS envelope is bounded by the loudest sample, in floating point", "statement": "In f32 and f64 arithmetic, for any history of samples whose loudest has a square that neither overflows nor underflows (or is zero) and gains in [0,1), RmsEnvDetector outputs are finite, non-negative and never exceed the largest |x| seen.", "quantifier": "every such history", "why_tests_cant": "Needs sqrt(x*x) = |x| and monotonicity for all floats.", "anchors": ["src/analysis/rms_detector.rs:113-127 process"]}
{"id": "C55", "title": "Attack and release times are time constants", "statement": "In exact arithmetic, after n samples at constant level c above the envelope e0, the peak envelope is c + exp(-n/attack_length)(e0 - c): after attack_length samples a fraction 1 - 1/e of the step has been covered, and the target is never reached exactly (contrary to the documentation's 'number of samples it takes to reach its target'); symmetrically for release, and for the squared RMS envelope.", "quantifier": "all lengths, levels, n", "why_tests_cant": "All n and parameters.", "anchors": ["src/analysis/peak_detector.rs:50-76", "src/analysis/rms_detector.rs:50-76"]}
{"id": "C56", "title": "A new detector outputs the absolute value", "statement": "In f32 and f64, a detector straight from new() outputs |x| for each finite sample (Peak always; RMS when x*x neither overflows nor underflows), so it leaves non-negative signals unaltered and rectifies negative ones.", "quantifier": "every finite signal", "why_tests_cant": "All floats.", "anchors": ["src/analysis/peak_detector.rs:37-43", "src/analysis/rms_detector.rs:37-43"]}
{"id": "C57", "title": "Window iterators yield exactly size samples", "statement": "Each of the six window iterators created with new(n) yields Some exactly n times and None ever after, for every n including 0; the k-th sample depends only on k and n.", "quantifier": "every n, every number of next calls, all six iterators, every numeric type", "why_tests_cant": "All sizes and call counts.", "anchors": ["src/window/*.rs Iterator::next"]}
{"id": "C58", "title": "ExactSizeIterator::len is right only before iteration", "statement": "len() returns n after any number of next calls, so it equals the number of remaining samples exactly when no next call has yielded a sample; the ExactSizeIterator contract (remaining length) is violated from the first sample on.", "quantifier": "every n and number of next calls", "why_tests_cant": "Tests check only fresh iterators.", "anchors": ["src/window/*.rs ExactSizeIterator::len"]}
{"id": "C59", "title": "apply_window multiplies each sample by its window sample", "statement": "apply_window keeps the slice length, leaves Rectangular slices untouched, and for the other windows replaces sample k by window(k, n) * sample k where n is the slice length; it never panics.", "quantifier": "every window, slice length and contents, numeric type", "why_tests_cant": "All slices.", "anchors": ["src/window/mod.rs:48-88 apply_window"]}
{"id": "C60", "title": "Windows are symmetric", "statement": "In exact arithmetic sample k equals sample n-1-k for every window and n >= 2 (n >= 1 for Triangular). For Triangular and Bartlett this holds bit for bit in f32 and f64 for every size up to 2^24 + 1 resp. 2^53 + 1 (so that every index is exact).", "quantifier": "every n, k < n", "why_tests_cant": "All sizes.", "anchors": ["src/window/*.rs generate_window"]}
{"id": "C61", "title": "Window samples lie in [0,1] with the documented end points", "statement": "In exact arithmetic every window sample is in [0,1]; Bartlett, Hann and Blackman are 0 at both ends, Hamming 0.08, Blackman-Harris 0.00006, Triangular 1/n; the middle sample of an odd-sized window is 1. In f32 and f64 the samples of Triangular and Bartlett, and those of Hann and Hamming when the cosine stays within [-1,1], are finite and in [0,1] for every size; Blackman and Blackman-Harris samples are finite.", "quantifier": "every n >= 2, k < n", "why_tests_cant": "All sizes.", "anchors": ["src/window/*.rs generate_window"]}
{"id": "C62", "title": "Windows rise to the middle", "statement": "In exact arithmetic each window is non-decreasing on its first half (and by symmetry non-increasing on the second).", "quantifier": "every n, every k in the first half", "why_tests_cant": "All sizes.", "anchors": ["src/window/*.rs generate_window"]}
{"id": "C63", "title": "50% overlap sums", "statement": "In exact arithmetic: Triangular with even n and hop n/2 sums to exactly 1; Bartlett and Hann with odd n and hop (n-1)/2 sum to exactly 1, Hamming to 1.08. The source note that all of them satisfy window(x)+window(y)=1 is therefore wrong for Hamming, and for Bartlett and Hann with even n and hop n/2.", "quantifier": "every n, k in the overlap", "why_tests_cant": "All sizes.", "anchors": ["src/window/mod.rs:15-18", "src/window/triangular.rs", "src/window/bartlett.rs", "src/window/hann.rs", "src/window/hamming.rs"]}
{"id": "C64", "title": "Size-one windows", "statement": "apply_window on a one-sample slice: Triangular and Rectangular leave the sample unchanged, while Bartlett, Hann, Hamming, Blackman and Blackman-Harris turn it into NaN (0/0), for every sample, in f32 and f64, provided cos(NaN) is NaN.", "quantifier": "every sample value", "why_tests_cant": "Edge case absent from the tests; all sample values.", "anchors": ["src/window/bartlett.rs:29-32", "src/window/hann.rs:30-32", "src/window/hamming.rs:29-33", "src/window/blackman.rs:30-35", "src/window/blackman_harris.rs:31-37"]}
{"id": "C65", "title": "dB conversion round trips", "statement": "In exact arithmetic to_sample(to_db(x)) = x for every x > 1e-6 and to_db(to_sample(d)) = d for every d > -120; both conversions never decrease, and strictly increase above those floors.", "quantifier": "every real in range", "why_tests_cant": "A continuum.", "anchors": ["src/util/mod.rs:10-34"]}
{"id": "C66", "title": "dB conversions clamp", "statement": "In exact arithmetic to_db(x) >= -120 for every non-negative x, with equality exactly for x <= 1e-6, and to_sample(d) >= 0, with equality exactly for d <= -120. In f32 and f64 to_db gives exactly -120 for every x that is not finite or not above the real number 1e-6 and 20*log10(x) otherwise, and to_sample exactly 0 for every d that is not finite or at most -120 and 10^(d/20) otherwise; with a logarithm and power right to within rounding the levels are at least -120 dB, and at most 0 dB exactly where they should. In debug builds to_db panics exactly on inputs with the sign bit set (including -0.0); in release builds negative inputs give -120.", "quantifier": "every float value, both profiles", "why_tests_cant": "All floats.", "anchors": ["src/util/mod.rs:10-34"]}
{"id": "C67", "title": "apply_gain multiplies, and validates only in debug builds", "statement": "apply_gain(s, r) returns s*r; in debug builds it panics exactly when r is not finite or has its sign bit set; in release builds it never panics.", "quantifier": "every sample and ratio, both profiles", "why_tests_cant": "All floats.", "anchors": ["src/util/mod.rs:40-43"]}
{"id": "C68", "title": "LinearDelay realises the delay it reports, up to rounding", "statement": "After any history and set_delay(d), unless the read position rounds up to the line length (C24), a LinearDelay on f32 or f64 blends the samples L and L-1 back, with floor(get_delay()) <= L <= ceil(get_delay()), with weights whose mean latency differs from get_delay() by at most (max_delay+1)*2^-23 samples.", "quantifier": "every history, every f32 request, every line up to 2^24 slots, every sample type", "why_tests_cant": "Rounding depends on every combination of write position, length and request.", "anchors": ["src/delay/linear_delay.rs:87-113 set_delay", "src/delay/linear_delay.rs:142-157 process"]}
{"id": "C69", "title": "Tap operations of LinearDelay and Delay agree", "statement": "The same sequence of calls (any delays, peeks, growth, taps) on a LinearDelay and on a Delay of the same initial length, when both complete, gives the same tap_out, add_to and get_max_delay answers, and afterwards every tap reads the same: the stored line does not depend on the interpolation.", "quantifier": "every call sequence, every sample type, both profiles", "why_tests_cant": "Ranges over every interleaving of taps, growth and processing.", "anchors": ["src/delay/linear_delay.rs:172-195", "src/delay/mod.rs tap_in, tap_out, add_to"]}
{"id": "C70", "title": "Very long attack times freeze a detector", "statement": "With a correctly rounded exponential, set_attack(len) or set_release(len) with len >= 2^(p+1) samples (p bits of precision: 2^25 in f32, about 12.7 minutes at 44.1 kHz) makes the gain exactly 1, outside the range the documentation gives; a new detector given such an attack then returns 0 for every sequence of samples whose squares do not overflow: the envelope never rises.", "quantifier": "All lengths from 2^(p+1), both detectors, f32 and f64, all sample sequences.", "why_tests_cant": "The threshold depends on rounding of exp(-1/len) for every len above it, and 'never rises' ranges over all inputs and durations.", "anchors": ["src/analysis/peak_detector.rs: PeakEnvDetector::set_attack, process", "src/analysis/rms_detector.rs: RmsEnvDetector::set_attack, process"]}
{"id": "C71", "title": "A louder input never lowers an envelope", "statement": "In exact arithmetic, if two call sequences on a detector differ only in that samples of the second are at least as large in magnitude, every value returned by the second is at least the corresponding one of the first.", "quantifier": "All pairs of call sequences on both detectors, any attack and release times changed at any point.", "why_tests_cant": "Relates two unbounded runs whose attack/release decisions may differ at every sample.", "anchors": ["src/analysis/peak_detector.rs: PeakEnvDetector::process", "src/analysis/rms_detector.rs: RmsEnvDetector::process"]}
{"id": "C72", "title": "Windows are the textbook windows", "statement": "In exact arithmetic sample k of the size-n Triangular, Bartlett, Hann, Hamming, Blackman and Blackman-Harris window equals the textbook formula of that window, for every n for which the formula is defined.", "quantifier": "every window, n, k < n", "why_tests_cant": "The tests compare a few sizes with a tolerance.", "anchors": ["src/window/*.rs generate_window"]}
{"id": "C73", "title": "Cosine windows overlap-add to a constant", "statement": "In exact arithmetic the size-(L*h+1) Hann, Hamming, Blackman and Blackman-Harris windows, repeated every h samples, add up to a constant at every position of the steady part (the two end samples that meet at every h-th position counted once) as soon as L exceeds the number of cosine terms: L times the mean of the window.", "quantifier": "every hop, every overlap factor above the number of cosine terms, every position", "why_tests_cant": "All hops, overlaps and positions.", "anchors": ["src/window/hann.rs", "src/window/hamming.rs", "src/window/blackman.rs", "src/window/blackman_harris.rs"]}
{"id": "C74", "title": "Blackman windows start slightly below zero", "statement": "In f32 and f64 a Blackman window is expected to stay in [0,1] and start at 0, but for every size n >= 2 and every cosine with cos(0)=1 its first sample is negative: -2^-26 in f32 and -2^-56 in f64.", "quantifier": "every n >= 2, every math library with cos(0)=1", "why_tests_cant": "The tests compare with a tolerance.", "anchors": ["src/window/blackman.rs:25-36"]}
{"id": "C75", "title": "A gain of d dB raises the level by d dB", "statement": "In exact arithmetic, applying to_sample(d) as a gain to a sample x with apply_gain gives a sample whose to_db is to_db(x)+d, whenever x, d and the result are above the floor; it does not panic.", "quantifier": "every x > 1e-6 and d > -120 with to_db(x)+d > -120, both profiles", "why_tests_cant": "A continuum of samples and gains.", "anchors": ["src/util/mod.rs:10-43"]}
{"id": "C76", "title": "The RBJ filters realise the Cookbook's analog prototypes at every frequency", "statement": "In exact arithmetic, with valid settings, each of the nine RBJ filters passes a sinusoid of any frequency below Nyquist, in the limit, with exactly the gain and the phase shift of the Audio EQ Cookbook's analog transfer function H(s) at the bilinearly warped frequency; this gain is the only one.", "quantifier": "every filter type, every valid setting, every frequency in (0, Nyquist), every phase", "why_tests_cant": "A continuum of settings and frequencies and a limit over time.", "anchors": ["src/filter/rbj/*.rs: set_coefficients", "src/filter/rbj/mod.rs:1-4"]}
{"id": "C77", "title": "Equaliser sections never leave the range between unity and their own gain", "statement": "In exact arithmetic the gain of Peak at every frequency lies between 1 and 10^(db_gain/20), and so does the gain of LowShelf and HighShelf when slope <= 1; with slope > 1 a boosting shelf always overshoots at some frequency.", "quantifier": "every valid setting, every frequency in (0, Nyquist)", "why_tests_cant": "A continuum of settings and frequencies.", "anchors": ["src/filter/rbj/peak.rs", "src/filter/rbj/lowshelf.rs", "src/filter/rbj/highshelf.rs"]}
{"id": "C78", "title": "q = 1/sqrt 2 is Butterworth; below it no resonance, above it always resonance", "statement": "In exact arithmetic LowPass and HighPass with q = 1/sqrt 2 have the Butterworth gains 1/sqrt(1+O^4) and O^2/sqrt(1+O^4) at the warped frequency O; with q <= 1/sqrt 2 their gains are strictly monotone in the frequency and below 1; with q > 1/sqrt 2 some frequency is amplified.", "quantifier": "every sample rate, cutoff below Nyquist, q > 0 and frequency", "why_tests_cant": "A continuum of settings and frequencies.", "anchors": ["src/filter/rbj/lowpass.rs", "src/filter/rbj/highpass.rs"]}
{"id": "C79", "title": "BandPass2 and BandStop split the power; q is the bandwidth", "statement": "In exact arithmetic, at every frequency the squared gains of BandPass2 and BandStop with the same settings add up to 1, BandPass2 reaches 1 and BandStop reaches 0 at the centre frequency only, and BandPass2 passes at least half the power exactly on a band around the centre whose edges have reciprocal warped frequencies that are 1/q apart.", "quantifier": "every valid setting, every frequency in (0, Nyquist)", "why_tests_cant": "A continuum of settings and frequencies.", "anchors": ["src/filter/rbj/bandpass.rs", "src/filter/rbj/bandstop.rs"]}
{"id": "C80", "title": "Energy: AllPass is passive and lossless, BandStop and BandPass2 share the energy", "statement": "In exact arithmetic, for every input whatsoever, the energy AllPass has put out never exceeds the energy it was given, and if the input dies away all of it comes out in the end; the same holds of BandStop and BandPass2 with the same settings taken together.", "quantifier": "every input signal, every length, every valid setting", "why_tests_cant": "All signals of all lengths.", "anchors": ["src/filter/rbj/allpass.rs", "src/filter/rbj/bandstop.rs", "src/filter/rbj/bandpass.rs"]}
{"id": "C81", "title": "Floating-point filters track the exact equation for ever", "statement": "In f32 and f64, a new filter of any type with finite coefficients, whose exact feedback has peak gain at most G, fed finite samples of magnitude at most M with head room below T::MAX, returns only finite values, and each of them stays within a fixed distance (8 units of 2^-p times G(1+4AG)L) of the exact solution of the difference equation with the same coefficients, however many samples are processed. Every stable filter has such a G.", "quantifier": "every filter type, every finite coefficients with stable feedback, every bounded input, every number of samples, f32 and f64", "why_tests_cant": "Rounding errors recirculate without end; tests run for a few samples.", "anchors": ["src/filter/*.rs: process", "src/filter/rbj/*.rs: process"]}
{"id": "C82", "title": "A filter is its impulse response; exact worst-case output", "statement": "In exact arithmetic the output of every configured filter is the convolution of the input with the filter's response to 1, 0, 0, ...; the largest n-th output that samples of magnitude at most M can cause is exactly M times the sum of the absolute impulse response up to n; for stable coefficients that sum converges, and the plain sum converges to the DC gain.", "quantifier": "every filter type, every coefficients, every input signal, every sample index", "why_tests_cant": "All signals; and 'worst case' is a claim about all of them at once.", "anchors": ["src/filter/*.rs: process, set_coefficients", "src/filter/rbj/*.rs: process"]}
{"id": "C83", "title": "Filters in series commute, and distribute over parallel filters", "statement": "In exact arithmetic, feeding one configured filter's output to another gives the same signal in either order, and filtering a sum of two filters' outputs is the sum of the filtered outputs.", "quantifier": "every pair/triple of filters of any types, every coefficients, every input signal", "why_tests_cant": "All signals and all coefficient combinations.", "anchors": ["src/filter/*.rs: process", "src/filter/rbj/*.rs: process"]}
{"id": "C84", "title": "Sweeping coefficients while running", "statement": "In exact arithmetic, switching TwoPole or a Biquad back and forth between two stable settings (a1, a2) and (-a1, a2) with a2 > 0 and |a1| > 1 - a2 makes a single impulse grow beyond every bound; the RBJ filters, whose setter forgets the past, stay below one fixed multiple of the input's peak for all call sequences that switch among a given list of valid presets.", "quantifier": "every such pair of settings; every list of valid presets, every sequence of calls, every input", "why_tests_cant": "Divergence and boundedness are about unboundedly long call sequences.", "anchors": ["src/filter/two_pole.rs: set_coefficients", "src/filter/biquad.rs: set_coefficients", "src/filter/rbj/*.rs: set_coefficients"]}
{"id": "C85", "title": "Tails never end in floating point", "statement": "In f32 and f64, when the input becomes silent, OnePole with 1/2 < |a1| <= 1, LeakyIntegrator with alpha > 1/2 and the detectors with a release gain above 1/2 (every release of two samples or more, with a correctly rounded exponential) keep returning non-zero numbers for ever, although the exact response tends to zero; with a gain of at most 1/2 the output is exactly zero after a number of samples that depends on the float type only.", "quantifier": "every history, every setting with such a gain, every non-zero finite last output, every number of silent samples, f32 and f64", "why_tests_cant": "For ever: the subnormal tail appears after thousands of samples and never stops.", "anchors": ["src/filter/one_pole.rs: process", "src/analysis/leaky_integrator.rs: process", "src/analysis/peak_detector.rs: process", "src/analysis/rms_detector.rs: process"]}
{"id": "C86", "title": "The constants pi and two", "statement": "FloatConst::pi() for f32 and for f64 is the finite number of that type nearest to pi, and FloatConst::two() is exactly two.", "quantifier": "both float types; every other number of the type", "why_tests_cant": "Nearest among all numbers of the type to an irrational number: a test can only compare with another rounded constant.", "anchors": ["src/traits.rs: FloatConst::pi, FloatConst::two"]}
{"id": "C87", "title": "A very low cutoff in floating point mutes LowPass", "statement": "In f32 (f64), with correctly rounded sin and cos, LowPass set to a cutoff below 2^-15 (2^-30) of the sample rate with a finite Q from 1/1024 to 1024 returns zero for every finite sample, instead of passing slow signals as the exact filter does.", "quantifier": "every libm with correctly rounded sin and cos, sample rate from 1 to 2^50, cutoff, Q, every history before the setting and every sequence of calls other than set_coefficients with finite samples after it; f32 and f64", "why_tests_cant": "It holds on a whole range of cutoffs and for every signal; a test shows one of them.", "anchors": ["src/filter/rbj/lowpass.rs: LowPass::set_coefficients, process, clear", "src/filter/biquad.rs: Biquad2"]}
{"id": "C88", "title": "A stable setting can be unstable in f32", "statement": "In f32, with correctly rounded sin and cos, at 48000 Hz with a cutoff of 1 Hz and Q = 1/sqrt 2, the six RBJ filters that take a Q get feedback coefficients outside the stability triangle. HighPass, given one sample of 1 and then silence, returns more than 500 at sample 96000.", "quantifier": "every libm with correctly rounded sin and cos; all six kinds; the whole response to a click", "why_tests_cant": "Follows the exact arithmetic of 96000 samples for every admissible maths library; short tests see an output that looks harmless.", "anchors": ["src/filter/rbj/lowpass.rs: set_coefficients, process", "src/filter/rbj/highpass.rs: set_coefficients, process", "src/filter/rbj/bandpass.rs: set_coefficients, process", "src/filter/rbj/bandstop.rs: set_coefficients, process", "src/filter/rbj/allpass.rs: set_coefficients, process", "src/filter/biquad.rs: Biquad2::process"]}
{"id": "C89", "title": "RBJ settings in the safe band are stable in floating point", "statement": "In f32 (f64), for every cutoff at least 2^-10 (2^-24) of the sample rate away from zero and from half the sample rate, the coefficients the RBJ setters compute are finite and their feedback is inside the stability triangle, for Q from 1/64 to 1024 (Peak: 1/16 to 256 with at most 24 dB; shelves: slope 1/16 to 1 with at most 24 dB), although every operation of the setter rounds.", "quantifier": "every libm whose sin and cos of angles up to 4 are off by at most one unit in the last place of 1 (and whose powf of ten is correctly rounded, for the gain kinds), every sample rate from 1 to 2^50, cutoff in the band, Q or slope, gain; all nine kinds; f32 and f64", "why_tests_cant": "Ranges over every float setting in the band and every admissible maths library.", "anchors": ["src/filter/rbj/lowpass.rs: set_coefficients", "src/filter/rbj/highpass.rs: set_coefficients", "src/filter/rbj/bandpass.rs: set_coefficients", "src/filter/rbj/bandstop.rs: set_coefficients", "src/filter/rbj/allpass.rs: set_coefficients", "src/filter/rbj/peak.rs: set_coefficients", "src/filter/rbj/lowshelf.rs: set_coefficients", "src/filter/rbj/highshelf.rs: set_coefficients"]}
{"id": "C90", "title": "The f32 and f64 detectors and integrator never drift from the ideal ones", "statement": "Take a new LeakyIntegrator, PeakEnvDetector or RmsEnvDetector in f32 or f64 and make any sequence of calls (process, clear, setters, last_out) with finite samples of magnitude at most M, gains at most g < 1, or attack and release lengths from 1 sample to L samples. The output is a finite number at all times, and its distance from the output of the ideal object, which does the same in exact arithmetic with gains exp(-1/length), has a bound that does not grow with the number of calls: 9 (2^-p M + tiny) / (1 - g) for the integrator, 8 (L + 1)(2^-p M + tiny) for the peak envelope, and 16 (L + 1)(2^-p M^2 + tiny) for the square of the RMS output, where p is 24 or 53 and tiny is half a unit of the smallest normal number. For the detectors the exponential is correctly rounded and L is at most 2^(p-2).", "quantifier": "for both float types, every sequence of calls of any length, every samples, lengths and gains in range, and every behaviour of the mathematical functions (with a correctly rounded exponential for the detectors)", "why_tests_cant": "Rounding errors pile up over millions of samples and depend on every sample and setter call; a test can only run some histories, and compares two floating-point runs rather than a run with the ideal.", "anchors": ["src/analysis/leaky_integrator.rs: LeakyIntegrator::process, set_alpha, clear, last_out", "src/analysis/peak_detector.rs: PeakEnvDetector::process, set_attack, set_release, clear, last_out", "src/analysis/rms_detector.rs: RmsEnvDetector::process, set_attack, set_release, clear, last_out"]}
{"id": "C91", "title": "Window samples are accurate in f32 and f64", "statement": "In f32 (p = 24) and f64 (p = 53), every sample of every window of every size, from the smallest size for which the formula is defined to usize::MAX, is the textbook value up to 8 (Triangular, Bartlett), 20 (Hann), 22 (Hamming), 30 (Blackman) or 40 (BlackmanHarris) times 2^-p, although index and size may not be exact in the type. So no sample leaves [0, 1] by more than that.", "quantifier": "every window kind, size, index and build profile; f32 and f64; for the cosine windows every maths library whose cosine of angles up to 20 is off by at most 2^(1-p)", "why_tests_cant": "Ranges over every size up to 2^64 - 1 and every index; the sizes at which index and size stop being exact in f32 are beyond what a test can iterate.", "anchors": ["src/window/triangular.rs: TriangularIter::next", "src/window/bartlett.rs: BartlettIter::next", "src/window/hann.rs: HannIter::next", "src/window/hamming.rs: HammingIter::next", "src/window/blackman.rs: BlackmanIter::next", "src/window/blackman_harris.rs: BlackmanHarrisIter::next"]}
{"id": "C92", "title": "dB conversions are accurate and undo each other in f32 and f64", "statement": "In f32 (p = 24) and f64 (p = 53), to_db of a finite sample above 1e-6 is its level in dB up to a relative error of 4 * 2^-p, and to_sample of a level d above -120 dB (up to 600 dB) is its amplitude up to a relative error of (3 + |d|/8) * 2^-p. A sample from 1.00001e-6 to 1e30 converted to dB and back returns up to a relative error of (3 + |D|) * 2^-p, D its level; a level from -119.999 to 600 dB converted to a sample and back returns up to (20 + 6|d|) * 2^-p dB. Right at the floor this fails: in f32 with a correctly rounded logarithm there is a sample above 1e-6 whose level is exactly -120 and which comes back as 0.", "quantifier": "every finite sample and level in the ranges given, both build profiles, f32 and f64, every maths library whose log10 and powf are off by at most 2^(1-p) of the value", "why_tests_cant": "All floats of two types and every such maths library.", "anchors": ["src/util/mod.rs:10-34"]}
{"id": "C93", "title": "RBJ coefficients are accurate in f32 and f64", "statement": "In f32 (p = 24) and f64 (p = 53), set_coefficients of LowPass, HighPass, BandPass1, BandPass2, BandStop and AllPass with a finite Q from 1/64 to 1024, a sample rate from 1 Hz to 2^50 Hz and any frequency from 0 to half of it computes five finite coefficients, each within (115 + 85/Q) * 2^-p of the coefficient that the formula gives with real numbers.", "quantifier": "every such sample rate, frequency and Q, all six filters, both profiles, f32 and f64, every maths library whose sin and cos are off by at most 2^(1-p)", "why_tests_cant": "All settings over three float arguments and every such maths library.", "anchors": ["src/filter/rbj/lowpass.rs: set_coefficients", "src/filter/rbj/highpass.rs: set_coefficients", "src/filter/rbj/bandpass.rs: set_coefficients", "src/filter/rbj/bandstop.rs: set_coefficients", "src/filter/rbj/allpass.rs: set_coefficients"]}
{"id": "C94", "title": "RBJ filters in f32 and f64 follow the ideal filter for ever", "statement": "A filter whose float coefficients are within d of ideal ones, fed finite samples up to M, returns finite samples and stays within a fixed distance of the ideal output for ever, proportional to d and to the gain G of the ideal feedback. For the six filters with a Q the distance is at most 7 * e * G * (M + Y + MIN_POSITIVE), where e = (115 + 85/Q) * 2^-p, Y bounds the ideal output and 5 e G <= 1. With w = 2 pi f / sample_rate the gain G is at most (1 + 2Q/sin w)^2 for Q >= 1/2 and (1 + sin w/(2Q))/(sin w)^2 for Q <= 1/2. Every stable pair of feedback coefficients has an explicit G: 1/((1 - sqrt a2)(1 - |a1|/2)) for complex poles, 1/(1 - |a1| + a2) for real ones.", "quantifier": "every such setting, every infinite input signal of finite samples up to M with head room below T::MAX, every sample index, f32 and f64", "why_tests_cant": "Unbounded runs on arbitrary input: rounding errors could add up; every setting and maths library.", "anchors": ["src/filter/rbj/lowpass.rs: set_coefficients", "src/filter/rbj/highpass.rs: set_coefficients", "src/filter/rbj/bandpass.rs: set_coefficients", "src/filter/rbj/bandstop.rs: set_coefficients", "src/filter/rbj/allpass.rs: set_coefficients", "src/filter/biquad.rs: process", "src/filter/one_pole.rs: process", "src/filter/one_zero.rs: process", "src/filter/two_pole.rs: process", "src/filter/two_zero.rs: process"]}
{"id": "C95", "title": "Infinities and NaN: what they poison, for how long, and what heals", "statement": "Fed a sample that is infinite or NaN, every filter, integrator and detector returns a sample that is not finite. Every recursive one (OnePole, TwoPole, both biquads, the RBJ filters, LeakyIntegrator, both detectors) then never returns a finite sample again, whatever it is fed, until clear (or, for the RBJ filters only, set_coefficients) is called; for the filters, the integrator and the peak detector the same holds once any returned sample is not finite, e.g. after an overflow. OneZero and TwoZero recover by themselves one and two samples later, bit for bit. The RBJ setters accept q = 0, a shelf slope of 0, a sample rate of 0 and a frequency that is not finite, and the filter then returns nothing finite from the third sample on.", "quantifier": "every history before, every sequence of calls after, every coefficient, f32 and f64, every maths library (for the last claim about frequencies: one whose sin and cos of a non-finite argument are not finite)", "why_tests_cant": "All histories before and all call sequences after; a test cannot see 'for ever'.", "anchors": ["src/filter/one_pole.rs: process", "src/filter/one_zero.rs: process", "src/filter/two_pole.rs: process", "src/filter/two_zero.rs: process", "src/filter/biquad.rs: process", "src/filter/rbj/*.rs: set_coefficients, process", "src/analysis/leaky_integrator.rs: process", "src/analysis/peak_detector.rs: process", "src/analysis/rms_detector.rs: process"]}
{"id": "C96", "title": "Streams through a floating-point LinearDelay", "statement": "LinearDelay::new(d, m) with at most 2^24 slots, fed finite samples up to M (at most 2^126), with a delay d = k + f that is 0 or lies between (m+1)*2^-23 and m: every output is finite and within (m+2)*2^-22*M (plus 2^-148) of the ideal interpolation (1-f)*x[i-k] + f*x[i-k-1], for ever. For d > 0 output i depends only on inputs i - ceil(d) to i - floor(d) + 1, so an infinite or NaN sample is gone after output j + ceil(d). Refuted for d = 0: a sample j that is infinite or NaN also makes output j + m non-finite, because the sample m steps back is multiplied by a zero weight instead of being left out.", "quantifier": "every delay, line length, build profile, every infinite stream of samples, every index, LinearDelay<f32> and LinearDelay<f64>", "why_tests_cant": "Every fractional delay and line length, arbitrary signals of arbitrary length; the error bound has to hold for all of them.", "anchors": ["src/delay/linear_delay.rs: new, set_delay, process"]}
{"id": "C97", "title": "Peak and the shelves in f32 and f64 are as good as the ideal filters", "statement": "In f32 and f64, with sin, cos and 10.powf accurate to a rounding unit or two, set_coefficients of Peak (gain up to 24 dB either way, Q from 1/16 to 256) computes five finite coefficients each within (120 + 3800/Q) * 2^-p of the ideal ones (p = 24, 53), and those of LowShelf and HighShelf (gain up to 12 dB, slope from 1/4 to 1) within 4600 * 2^-p, at any frequency from 0 to half the sample rate. With e that error, G the gain of the ideal feedback, samples up to M and an ideal output up to Y, 5 e G <= 1 and head room, every returned sample is finite and within 11 * e * G * (M + Y + MIN_POSITIVE) of the ideal output, for ever. With w = 2 pi f / sample_rate and A = 10^(gain/40), G is at most (1 + 2QA/sin w)^2 for Peak with QA >= 1/2, (1 + sin w/(2QA))/(sin w)^2 with QA <= 1/2, and 25/(sin w)^2 for the shelves. Finding: a shelf slope too steep for its gain ((A + 1/A)(1/S - 1) + 2 below -1/100, e.g. slope 4 at 20 dB) is accepted, and the filter never returns a finite sample, from the first one on.", "quantifier": "every such setting, every infinite input signal of finite samples up to M, every sample index, every maths library meeting the bounds, f32 and f64", "why_tests_cant": "Unbounded runs, a five-parameter space of settings, and every maths library meeting the bounds.", "anchors": ["src/filter/rbj/peak.rs: set_coefficients", "src/filter/rbj/lowshelf.rs: set_coefficients", "src/filter/rbj/highshelf.rs: set_coefficients", "src/filter/biquad.rs: process"]}
{"id": "C98", "title": "The detectors are level meters for periodic signals", "statement": "In exact arithmetic, with level meaning magnitude for PeakEnvDetector and power for RmsEnvDetector, and whatever calls came before. With attack and release equal to L samples, fed a signal of period P: the mean level of the readings over a period differs from the signal's mean level by an amount that shrinks by exactly exp(-1/L) per sample, and each single reading n samples later is within ((P-1)/(2L) + exp(-n/L)) times the loudest level of it; so RmsEnvDetector reads A/sqrt 2 for a sinusoid of amplitude A up to that ripple. An attack at most as long as the release makes the mean reading end at or above the mean level, an attack at least as long at or below it. For any times the readings settle into one periodic pattern that does not depend on the past, the difference between two pasts shrinking at least by exp(-1/max(attack, release)) per sample. A detector whose attack was never set holds peaks: no reading is below the level of an earlier sample decayed by exp(-1/release) per sample since. In f32 and f64, with a correctly rounded exponential and lengths from 1 to L samples (L at most 2^(p-2)), the readings are those meter readings up to the rounding errors of C90: 8 (L+1) 2^-p times the loudest magnitude, resp. 16 (L+1) 2^-p times the loudest power.", "quantifier": "every earlier history, attack and release length, period, periodic (or any) signal and sample index", "why_tests_cant": "Infinite signals, all periods and lengths, and limits at infinity.", "anchors": ["src/analysis/peak_detector.rs: process, set_attack, set_release", "src/analysis/rms_detector.rs: process, set_attack, set_release"]}
{"id": "C99", "title": "In floating point a louder input lowers an envelope by at most rounding errors", "statement": "C71's monotonicity (louder samples never lower an envelope) is exact arithmetic only. In f32 it fails: PeakEnvDetector with the attack never set and a release whose gain is 1/2, fed 1.5 and then 3/2^25, returns less than when fed 1.5 and then 2/2^25. But the failure is bounded: in f32 and f64, with exp correctly rounded, over any two histories of calls that differ only in louder samples up to M, with lengths from 1 to L samples, the envelope after the louder one is lower by at most 16 (L+1) (2^-p M + tiny) (PeakEnvDetector), and its square by at most 32 (L+1) (2^-p M^2 + tiny) (RmsEnvDetector), with p = 24 or 53 and tiny half the smallest subnormal, however long the histories.", "quantifier": "every pair of such histories (any length), f32 and f64; the counterexample for every maths library and release with that gain", "why_tests_cant": "Unbounded pairs of histories; the violation hits single rounding coincidences that a random test is unlikely to meet.", "anchors": ["src/analysis/peak_detector.rs: process, set_attack, set_release", "src/analysis/rms_detector.rs: process, set_attack, set_release"]}
{"id": "C100", "title": "Cosine windows leak a tone only to neighbouring bins", "statement": "In exact arithmetic, with bins counted in cycles per N samples and a slice of N+1 samples: apply_window with Hann, Hamming, Blackman or BlackmanHarris on a tone of amplitude A and phase phi in bin m, correlated with the tone of phase psi in bin j (neither near 0 nor near half the sample rate), gives exactly A*N/2*cos(phi-psi) times the window's coefficient at distance |m-j| (the constant term at distance 0, half of cosine coefficient number d at distance d, nothing beyond 1, 1, 2, 3 bins), plus the product of the end samples, which is zero for Hann and Blackman. The samples of a window of n samples sum to a0*(n-1) + end value for the cosine windows, n/2 + [n odd]/(2n) for Triangular and (n-1)/2 - [n even]/(2(n-1)) for Bartlett; the sums of their squares have the corresponding closed forms.", "quantifier": "every window, size, pair of bins, amplitude and phases; every size for the sums", "why_tests_cant": "Exact identities over all sizes and real phases; a test sees rounding noise and finitely many sizes.", "anchors": ["src/window/mod.rs: apply_window", "src/window/hann.rs: Hann", "src/window/hamming.rs: Hamming", "src/window/blackman.rs: Blackman", "src/window/blackman_harris.rs: BlackmanHarris", "src/window/triangular.rs: Triangular", "src/window/bartlett.rs: Bartlett"]}
{"id": "C101", "title": "apply_window is accurate in f32 and f64", "statement": "In f32 and f64 (p = 24, 53), with a cosine off by at most 2^(1-p), and finite samples up to a quarter of MAX: apply_window completes, keeps the length, and sample i becomes a finite number within (E+2)*2^-p*|x| plus half the smallest subnormal of the textbook gain times x, where E is the window's error of C91 (8, 8, 20, 22, 30, 40). So the leakage statement of C100 holds up to rounding: on a slice that is a tone of amplitude A in bin m up to e per sample, a bin further away than the window's number of cosines sees at most end*A + (N+1)*((E+2)*2^-p*(A+e) + tiny + e).", "quantifier": "every window, slice (any length up to usize::MAX from the smallest meaningful size), maths library meeting the bound, f32 and f64", "why_tests_cant": "All slice lengths, all sample values and every maths library meeting the bound.", "anchors": ["src/window/mod.rs: apply_window"]}
{"id": "C102", "title": "What a panicking call leaves behind", "statement": "A caller may catch a panic and go on using the object. On a Delay, and on a LinearDelay of at most 2^24 samples, a call that panics changes nothing: whatever calls are made and whichever of them panic, the line is in the state, and the other calls returned the values, of the same session without the panicking calls; only taps and length requests that cannot be allocated panic. A panic inside process_block leaves the samples before it replaced by their outputs, the others untouched, and the processor as the panicking process call left it; on an empty slice nothing changes. The exceptions: after set_max_delay(usize::MAX) in a release build a panicking Delay::process has stored its sample, and on any LinearDelay a panicking process (possible on lines longer than 2^24) has stored its sample.", "quantifier": "every sequence of calls, every set of calls that panic, every point of a call at which it can panic, every profile, sample type and block", "why_tests_cant": "tests do not catch panics, and the state after a panic depends on the whole history and on the statement at which the call stopped", "anchors": ["src/delay/mod.rs: Delay", "src/delay/linear_delay.rs: LinearDelay", "src/traits.rs: Processor::process_block"]}
{"id": "C103", "title": "Inverted polarity and leading silence are exact in floating point", "statement": "In f32 and f64, inverting the sign of every input sample of a filter, RBJ filter or leaky integrator inverts every sample it returns, bit for bit (only the sign of a zero is left open), for every history of calls, infinities, NaN and overflow included; the same holds for the delay lines with all their taps, which also panic or hang exactly when they did before. And silence fed to a cleared processor with finite coefficients comes out as silence and is never heard of again: all later calls return the same bits (up to the sign of a zero) as if the silence had not been processed.", "quantifier": "every sequence of calls, every sample value including infinities and NaN, every setting (finite coefficients for the silence part), every length of silence, every mathematical library", "why_tests_cant": "equality of bits has to hold for every pair of rounded operands and through feedback for ever; a test sees a few samples", "anchors": ["src/filter/one_pole.rs: OnePole::process", "src/filter/one_zero.rs: OneZero::process", "src/filter/two_pole.rs: TwoPole::process", "src/filter/two_zero.rs: TwoZero::process", "src/filter/biquad.rs: Biquad1::process, Biquad2::process", "src/filter/rbj", "src/analysis/leaky_integrator.rs: LeakyIntegrator::process", "src/analysis/peak_detector.rs: PeakEnvDetector::process", "src/analysis/rms_detector.rs: RmsEnvDetector::process", "src/delay/mod.rs: Delay", "src/delay/linear_delay.rs: LinearDelay"]}
{"id": "C104", "title": "Symmetries of the RBJ settings", "statement": "Exactly: turning the spectrum of the input upside down (inverting every other sample) and mirroring the filter (low pass for high pass, low shelf for high shelf, the frequency replaced by half the sample rate minus the frequency) turns the spectrum of the output upside down, sample for sample; multiplying sample rate and frequency by the same factor changes nothing; nor does adding a multiple of the sample rate to the frequency. In f32 and f64, multiplying sample rate and frequency by the same power of two changes no bit of any later output (normal frequencies, no overflow of 16 times the frequency).", "quantifier": "all nine RBJ filters, every setting with a nonzero sample rate, every input signal, every history before and after the setting, every factor; every mathematical library in the float part", "why_tests_cant": "an identity between outputs for every signal and every setting; a test compares a few samples of a few filters with a tolerance", "anchors": ["src/filter/rbj/lowpass.rs: set_coefficients", "src/filter/rbj/highpass.rs: set_coefficients", "src/filter/rbj/bandpass.rs: set_coefficients", "src/filter/rbj/bandstop.rs: set_coefficients", "src/filter/rbj/allpass.rs: set_coefficients", "src/filter/rbj/peak.rs: set_coefficients", "src/filter/rbj/lowshelf.rs: set_coefficients", "src/filter/rbj/highshelf.rs: set_coefficients", "src/filter/biquad.rs: Biquad2::process"]}
{"id": "C105", "title": "RBJ settings outside the documented range", "statement": "The setters accept any numbers. Set to a frequency between half the sample rate and the sample rate (or an alias of that), every RBJ filter with otherwise meaningful parameters answers a single click with an output exceeding every bound; apart from that every bounded input gives a bounded output: boundedness for all bounded inputs holds exactly if the sine of the frequency has the sign of q (is positive, for the shelves). Set to frequency 0 or to half the sample rate, every filter multiplies every sample by one fixed number: 0, 1 or the gain of the shelf.", "quantifier": "all nine RBJ filters, every sample rate, frequency (negative or beyond the sample rate included), every nonzero q and gain, every slope with a real steepness, every divisor a0 that is not 0, every input signal (exact arithmetic)", "why_tests_cant": "unboundedness and boundedness are statements about infinitely many samples of infinitely many inputs", "anchors": ["src/filter/rbj/lowpass.rs: set_coefficients", "src/filter/rbj/highpass.rs: set_coefficients", "src/filter/rbj/bandpass.rs: set_coefficients", "src/filter/rbj/bandstop.rs: set_coefficients", "src/filter/rbj/allpass.rs: set_coefficients", "src/filter/rbj/peak.rs: set_coefficients", "src/filter/rbj/lowshelf.rs: set_coefficients", "src/filter/rbj/highshelf.rs: set_coefficients", "src/filter/biquad.rs: Biquad2::process"]}
{"id": "C106", "title": "Feedback echoes built from the delay lines", "statement": "A program that for each input sample peeks at a delay line, mixes the peeked value with the input, emits the mixture and feeds it back into the line, gets an echo of exactly the nominal length: with Delay::new(d, m), 1 <= d <= m, output sample n is mix(x[n], y[n - d]) in every arithmetic and with every mixing function, never panics, and peeking with next_out() or tap_out(d - 1) gives the same output. With LinearDelay and a delay d = k + f >= 1 the mixed-in value is (1 - f) y[n - k] + f y[n - k - 1]. For the mixture x + g v with |g| < 1 the output is the sum of the echoes g^k x[n - k d] and stays within X / (1 - |g|); in f32 and f64 it stays finite and within any B with |g| B <= G and X + G <= B, for ever.", "quantifier": "every sample type, every mixing function, every delay and maximum, every input of every length; f32/f64 for the last bound", "why_tests_cant": "feedback through the ring buffer: every output depends on the whole history, for every input, length and delay; the bound is about unbounded running time", "anchors": ["src/delay/mod.rs: Delay::new, next_out, tap_out, process", "src/delay/linear_delay.rs: LinearDelay::new, next_out, process"]}
{"id": "C107", "title": "Targets with a 32-bit (or other) word", "statement": "On a target whose usize has w bits, 2 <= w <= 64, every session on a Delay or a LinearDelay whose arguments exist on the target, whose tap positions are at most isize::MAX and whose buffers can be allocated there has exactly the outcome it has on a 64-bit target: the same results and the same panics, in both build profiles; so does apply_window on every buffer. So everything proved for 64 bits holds there. The bound on taps is needed: tap_out(u32::MAX) panics on a 64-bit target and returns the oldest sample on a 32-bit target.", "quantifier": "every word size from 2 to 64, every sample type, both profiles, every history of calls of any length; exact and f32 control arithmetic for LinearDelay", "why_tests_cant": "a test run covers one word size and finitely many call sequences; the wrap-around of usize and isize arithmetic depends on both", "anchors": ["src/delay/mod.rs: Delay", "src/delay/linear_delay.rs: LinearDelay", "src/window/mod.rs: apply_window"]}
{"id": "C108", "title": "Delay lines whose delay changes with every sample", "statement": "A program that sets the delay before every sample (vibrato, chorus, flanger) hears the signal at the time it asked for: step n of a Delay returns exactly the input sample min(d(n), m) earlier, in every arithmetic, whatever the delays before; step n of a LinearDelay in exact arithmetic returns the input d(n) samples earlier (clipped to [0, m]), interpolated linearly. If the input moves by at most L per sample, two consecutive outputs of the LinearDelay differ by at most L |1 - (d' - d)|; in particular by at most L (1 + r) when the requested delay moves by at most r per sample. In f32 and f64, on lines of at most 2^24 slots, the loop never fails whatever delays are requested; every step whose read position does not round up to the line length is finite and within (m + 2) 2^-22 M of that ideal, and within 2^-22 M if all requested delays are multiples of 2^-j with (m + 1) 2^j <= 2^24. Without such a grid the claim fails: on every line of 5 to 2^24 slots a sweep that requests 1 + 2^-23 at its second step returns -m x[0] + (m + 1) x[1].", "quantifier": "every sequence of delays, every input signal of every length, every maximum; every sample type for Delay, exact arithmetic and f32/f64 for LinearDelay", "why_tests_cant": "each output depends on the whole schedule of delay changes through the ring buffer's read position; the bound on the steps is about every input and every sweep", "anchors": ["src/delay/mod.rs: Delay::set_delay, process", "src/delay/linear_delay.rs: LinearDelay::set_delay, process"]}
{"id": "C109", "title": "Overlap-add resynthesis through the windows", "statement": "In exact arithmetic: cut any signal into frames of m h + 1 samples every h samples, apply a cosine window to each frame with apply_window once, or twice (before and after the processing), and add the frames up at their places. No call panics, and in the steady part (positions reached by all their frames) the result is the signal times the constant m * (mean of the window, resp. of its square), as soon as m exceeds the number of cosines of the window (resp. twice that number); only at every h-th sample, where the last sample of one frame meets the first of another, the end value of the window (resp. its square) comes on top. So Hann and Blackman give the signal back exactly up to the constant. Hamming and Blackman-Harris do not: a constant signal comes back with a bump at every h-th sample, whatever the overlap. A Bartlett window of 2 h + 1 samples with hop h gives the signal back unchanged.", "quantifier": "every signal, every number of frames, every hop, every overlap above the threshold, both build profiles", "why_tests_cant": "all signals, hops, overlaps and positions; the cancellation of the cosines is an identity over all frame sizes", "anchors": ["src/window/mod.rs: apply_window", "src/window/hann.rs", "src/window/hamming.rs", "src/window/blackman.rs", "src/window/blackman_harris.rs", "src/window/bartlett.rs"]}
{"id": "C110", "title": "Growing a delay line in mid-stream", "statement": "set_max_delay on a Delay or a LinearDelay that has been in use keeps what the line holds: with w the write position and g the growth, tap_out(t) shows the same value as before for t < w, zero for w <= t < w + g, and for larger t what tap_out(t - g) showed. On a LinearDelay, as on a Delay (C10), it always succeeds while the memory can be allocated, the maximum becomes the larger of the two, get_delay and last_out are kept, and a smaller maximum changes nothing. The two values a LinearDelay blends keep their weights, in exact arithmetic and in f32 and f64 (up to 2^24 slots); they stay as far behind as they were if the older is no farther behind than w, and move back by g if it is. So in exact arithmetic the latency after any history, growths included, is computed from the calls alone (lin_timing_after), and process(x) returns the signal exactly that far behind, interpolated linearly. The natural reading, that the latency is what get_delay reports, fails: growing a LinearDelay whose delay exceeds its write position adds g to the latency while get_delay still reports the old delay, until set_delay is called.", "quantifier": "every history of calls on the line, every growth, every input; every sample type for the taps, exact arithmetic and f32/f64 for the reader", "why_tests_cant": "what a growth does depends on where the ring buffer stands, that is on the whole history of samples and earlier growths", "anchors": ["src/delay/mod.rs: Delay::set_max_delay, tap_out", "src/delay/linear_delay.rs: LinearDelay::set_max_delay, get_delay, process, tap_out"]}
{"id": "C111", "title": "The RMS reading lies between the peak reading and what the crest allows", "statement": "Feed a PeakEnvDetector and an RmsEnvDetector the same calls - any samples, any attack and release times changed at any moment, any clears. In exact arithmetic the RMS reading is never below the peak reading, and its square is never above the peak reading times the largest sample magnitude fed. In f32 and f64 both hold up to the rounding slack of C90. Without slack the first fails: the square of a very small sample underflows, so the RMS detector reads 0 where the peak detector reads the sample.", "quantifier": "every history of calls made on both detectors; f32 and f64 with every math library whose exp is correctly rounded", "why_tests_cant": "the two detectors switch between attack and release at different samples, so the order must survive every interleaving of the four combinations over an unbounded history", "anchors": ["src/analysis/peak_detector.rs: PeakEnvDetector::process, last_out", "src/analysis/rms_detector.rs: RmsEnvDetector::process, last_out"]}
{"id": "C112", "title": "A Schroeder all-pass section built on Delay is passive and lossless", "statement": "Build the reverberator's diffuser from the public calls of a Delay of d samples: v = next_out(); w = x + g*v; process(w); emit v - g*w. It never panics and in every arithmetic obeys w[n] = x[n] + g*w[n-d], y[n] = w[n-d] - g*w[n]. In exact arithmetic this is y[n] = -g*x[n] + x[n-d] + g*y[n-d]; for |g| <= 1 at no time has it emitted more energy than it took in, and an input followed by k*d samples of silence keeps all but the fraction g^(2k) of its energy. In f32 and f64 the output stays finite and bounded for ever when the bounds leave room for the rounding.", "quantifier": "every input signal of any length, every delay 1 <= d <= m, every gain, both build profiles; the first part for every arithmetic", "why_tests_cant": "passivity and losslessness are statements about the energy of every input at every time; the section depends on next_out predicting exactly what process returns, at every position of a wrapping buffer", "anchors": ["src/delay/mod.rs: Delay::next_out, process, new"]}
{"id": "C113", "title": "Filter tails fade to the tiniest numbers; rounding noise follows the present level", "statement": "A stable filter in f32 or f64, fed finite samples within the head room of C81, forgets its loud past. After the input has gone silent the output is, from some sample on, never further from zero than 9*G halves of the smallest positive number (G the gain of the feedback). After the input has dropped to a level m, the distance to the exact output is from some sample on bounded by the rounding unit times G*(1+2AG) times the level (|b0|+|b1|+|b2|)*m plus the smallest normal number, with no trace of earlier, louder samples.", "quantifier": "all filters (one/two pole, one/two zero, both biquads, all RBJ filters), all finite stable coefficients, all finite bounded input histories, f32 and f64, unbounded time", "why_tests_cant": "it concerns the limit behaviour after every history; rounding makes the feedback loop nonlinear, and whether its noise keeps circulating at the old level cannot be seen on finitely many runs", "anchors": ["src/filter/one_pole.rs: process", "src/filter/two_pole.rs: process", "src/filter/biquad.rs: process", "src/filter/rbj/*.rs: process"]}
{"id": "C114", "title": "Plucked strings and damped combs built from a delay line and a filter", "statement": "Put any of the filters into the feedback loop of a delay line: y = x + filter.process(line.next_out()); line.process(y); emit y. On Delay::new(d, m), 1 <= d <= m, it never panics and in every arithmetic y[n] is x[n] plus what the filter, running by itself on y delayed by d samples, returns. In exact arithmetic the output is the sum of echoes of the input, the j-th delayed by j*d and filtered j times; a filter of gain g < 1 keeps an input within X to an output within X/(1-g), and for g <= 1 a string plucked with at most d samples is never louder than the pluck. A LinearDelay (fractional tuning) behaves the same on the interpolated output. In f32 and f64 the loop stays finite and bounded for ever when the bound leaves room for input, filtered past and rounding noise; the Karplus-Strong average is never louder than its pluck although its loop gain is exactly 1.", "quantifier": "every filter and coefficient set, every delay (whole or fractional), every input of any length, both build profiles; the first part for every arithmetic", "why_tests_cant": "whether a feedback loop stays bounded is a statement about every input for unbounded time; at loop gain 1 a single rounding in the wrong direction per round trip would make it grow", "anchors": ["src/delay/mod.rs: Delay::next_out, process", "src/delay/linear_delay.rs: LinearDelay::next_out, process", "src/filter/*.rs: process"]}
{"id": "C115", "title": "A peak limiter built on PeakEnvDetector respects its ceiling", "statement": "Build the usual limiter on a PeakEnvDetector whose attack is never set: e = detector.process(x); emit x * (ceiling / e) if ceiling < e, else x. Whatever release lengths are set, and across clear, no output exceeds the ceiling; no output is louder than its input or of the opposite sign; and the gain never falls below ceiling / X when the samples are within X. A signal within the ceiling is passed bit for bit in f32 and f64. After a burst that left the envelope at e0, with a release of L samples, a passage within b < ceiling is passed unchanged from the n-th sample on, once exp(-(n+1)/L) (e0 - b) <= ceiling - b. In f32 and f64 every output is finite, no louder than its input, and at most one unit in the last place above the ceiling (for a normal ceiling, at least MIN_POSITIVE times the loudest sample); the unit is needed: ceiling 0.9f32 and one sample 5.875 give the float after 0.9f32.", "quantifier": "every ceiling, every sequence of process, clear, last_out and set_release calls of any length on samples of any size; f32 and f64 for any gains in [0, 1)", "why_tests_cant": "a ceiling must hold for every signal and every release history; the worst sample follows a decaying envelope by an unknown number of steps", "anchors": ["src/analysis/peak_detector.rs: PeakEnvDetector::process, set_release, clear, last_out"]}
{"id": "C116", "title": "Feedback delay networks built from Delay lines", "statement": "Build a reverberator from any number of Delay lines: for every sample peek at all lines with next_out(), mix the taps with the input by any function, and feed each line its part with process(). On lines Delay::new(d_i, m_i), 1 <= d_i <= m_i, it never panics and in every arithmetic each tap shows what the mixer fed that line d_i steps ago, zero before; a set of values the mixer never leaves is never left by the network. In exact arithmetic a mixer that keeps the sum of squares of its taps (an orthogonal matrix) makes a lossless network: after the input has ended the energy in flight never changes and bounds every later output; a mixer that multiplies it by at most g^2 makes the tail decay by g per round of the longest delay. The Householder mixer with feedback g is both. The stereo ping-pong delay is, on the sum and difference of its sides, a comb with feedback g and -g; in f32 and f64 it stays finite and within B for ever when |g| B <= G and X + G <= B for numbers G, B of the type.", "quantifier": "every number of lines, all delays and sizes that can be allocated, every mixer, every input of any length, both build profiles; energy in exact arithmetic", "why_tests_cant": "whether a reverberator tail decays, or stays bounded, is a statement about unbounded time and every input; the lines must neither lose, duplicate nor delay a sample for any combination of lengths", "anchors": ["src/delay/mod.rs: Delay::new, next_out, process"]}
{"id": "C117", "title": "Linkwitz-Riley crossovers from LowPass and HighPass", "statement": "Split a signal with two LowPass filters in series and two HighPass filters in series, all at the same frequency and q. In exact arithmetic the two bands add up, sample for sample and for every input, to the output of the library's own AllPass with these settings, plus (1/q^2 - 2) times LowPass and HighPass in series. So with q = 1/sqrt 2 the crossover adds up to AllPass exactly: a sinusoid of any frequency comes out with its own amplitude, no energy is created, and for an input that dies away none is lost. A three-way crossover, whose low band goes through the AllPass of the second split, adds up to the two AllPass filters in series. With q = 1/2 (second order) LowPass minus HighPass is the first-order all-pass run by a Biquad1. For every other q the fourth-order crossover has the gain 2 q^2 at the corner. In general, for filters in series the gains multiply and the phases add.", "quantifier": "every sample rate, frequency and q for which the coefficients are defined (valid settings where limits are taken), every input signal, every sample index, exact arithmetic", "why_tests_cant": "an identity between four filters and one for all settings and all inputs, and limits over unbounded time", "anchors": ["src/filter/rbj/lowpass.rs: set_coefficients, process", "src/filter/rbj/highpass.rs: set_coefficients, process", "src/filter/rbj/allpass.rs: set_coefficients, process", "src/filter/biquad.rs: Biquad1::process"]}
{"id": "C118", "title": "Filters and delay lines that preserve the order of signals in floating point", "statement": "In f32 and f64, with all rounding included: take OnePole, OneZero, TwoPole, TwoZero, Biquad1, Biquad2 or an RBJ filter whose forward coefficients b are all >= 0 and whose feedback coefficients a are all <= 0 (for the RBJ filters, those its setter computes). Make the same calls on two of them (process, clear, setters, last_out in any order, coefficients changing on the way), but feed the second one samples that are not smaller: nothing it returns is smaller, as long as both answers are finite. A signal that starts at or above zero and never falls comes out of a newly configured such filter as a signal that never falls, so a step is smoothed without the slightest dip. LeakyIntegrator, the same filter in exact arithmetic, does not have this property: after 1.5 and with alpha = 1/2 the sample 3/2^25 gives a smaller output than 2/2^25 in f32. Delay preserves the order too: with the same calls, except that the samples processed, tapped in or added are not smaller, no answer (process, next_out, last_out, tap_out, add_to) is smaller, through any changes of delay and maximum, and the two sessions panic alike. So does LinearDelay when every requested delay is a multiple of 2^-j samples with (largest max_delay + 1) * 2^j <= 2^24 (whole samples: any line up to 2^24 slots). With delays f32 cannot resolve it does not: with any delay 0 < d <= 2^-25 on any line of 2 to 2^24 slots, a first sample of 0 comes out as 0 and the larger 1 as -max_delay.", "quantifier": "every history of calls on a filter or delay line, both build profiles, all settings with such coefficients, all samples including infinite ones and NaN, every mathematical library", "why_tests_cant": "rounding could break monotonicity at any one of infinitely many inputs and at any depth of the recursion; the counterexample for LeakyIntegrator is one bit wide", "anchors": ["src/filter/one_pole.rs: process", "src/filter/two_pole.rs: process", "src/filter/one_zero.rs: process", "src/filter/two_zero.rs: process", "src/filter/biquad.rs: Biquad1::process, Biquad2::process", "src/filter/rbj/*.rs: set_coefficients, process", "src/analysis/leaky_integrator.rs: process", "src/delay/mod.rs: Delay", "src/delay/linear_delay.rs: LinearDelay"]}
{"id": "C119", "title": "Fixed-point signals pass through without rounding", "statement": "In f32 and f64: if the forward coefficients of OnePole, OneZero, TwoPole, TwoZero, Biquad1, Biquad2 or an RBJ filter are multiples of 2^p, its feedback coefficients are integers and the samples are multiples of 2^q (16-bit audio: q = -15), then process returns exactly, without any rounding, what the difference equation gives, as long as the magnitudes of the five terms of the equation add up to at most 2^(24+p+q) in f32 (2^(53+p+q) in f64). A filter without feedback is exact for ever if the sum of its coefficients' magnitudes times the largest sample respects that bound. A LinearDelay whose delay is moved before each sample in steps of 2^-j samples returns exactly the linear interpolation of its input if the samples do not exceed 2^(24+q-j). The limit is sharp: a OnePole used as an accumulator (b0 = 1, a1 = -1) and fed with ones counts up to exactly 2^24 (2^53) and then returns that number for ever.", "quantifier": "all such coefficients and signals of any length, all delays on the grid, every mathematical library, f32 and f64", "why_tests_cant": "exactness has to hold at every sample of every signal; the stall of the accumulator only shows after 16777216 samples (9e15 in f64)", "anchors": ["src/filter/one_pole.rs: process", "src/filter/one_zero.rs: process", "src/filter/two_pole.rs: process", "src/filter/two_zero.rs: process", "src/filter/biquad.rs: Biquad1::process, Biquad2::process", "src/filter/rbj/*.rs: process", "src/delay/linear_delay.rs: process, set_delay"]}
{"id": "C120", "title": "A moving sum built from a delay line and an accumulator", "statement": "Build a moving sum (or average, up to a factor) whose cost does not depend on its length from the public calls: old = line.process(x); y = acc.process(x - old), with line = Delay::new(d, m), 1 <= d <= m, and acc a OnePole with coefficients (1, -1). It never panics; with any other filter in place of the accumulator it emits, in every arithmetic, what that filter alone returns for x[n] - x[n-d]. In exact arithmetic it emits x[n] + ... + x[n-d+1]. In f32 and f64 it is exact for ever on samples that are multiples of 2^q and not larger than M if (d + 2) M <= 2^(24+q) resp. 2^(53+q) (16-bit audio in f32: windows of up to 510 samples). On other signals it never forgets its rounding errors: once d samples of silence have passed, the output keeps its value through all further silence. After 2^24, 1 and silence, an f32 moving sum over two samples returns -1 for ever.", "quantifier": "all window lengths, all signals of any length, any filter (first part), every mathematical library, f32 and f64", "why_tests_cant": "the claim is that no error ever accumulates, over signals of unbounded length; the residue depends on the whole history", "anchors": ["src/delay/mod.rs: new, process", "src/filter/one_pole.rs: set_coefficients, process"]}
{"id": "C121", "title": "FIR filters of any length from a delay line and its taps", "statement": "Build an FIR filter of any length from the public calls: line.process(x); y = h[0]*line.tap_out(0) + h[1]*line.tap_out(1) + ..., where line is a Delay or a LinearDelay whose maximum delay is at least the order of the filter. Whatever the line's own delay it never panics, does not disturb the line, and in every arithmetic emits exactly ((h0 x[n] + h1 x[n-1]) + h2 x[n-2]) + ...; with two and three coefficients that is OneZero and TwoZero bit for bit. What happened before the last N samples, infinities and NaN included, makes no difference. In exact arithmetic the output is the convolution of signal and coefficients. In f32 and f64 it is finite and within ((1+u)^N - 1) S + N (1+u)^N eta of the convolution, where S is the sum of |h_k x[n-k]|, unless S is near the largest number; and it is exact if coefficients are multiples of 2^p, samples multiples of 2^q and S <= 2^(24+p+q) resp. 2^(53+p+q).", "quantifier": "all coefficient lists, line lengths and delays, all signals of any length, both profiles, every sample arithmetic (first part); f32 and f64 (error bounds)", "why_tests_cant": "filter order, coefficients and signals are unbounded, and the claim on forgetting is about all histories", "anchors": ["src/delay/mod.rs: new, process, tap_out", "src/delay/linear_delay.rs: new, process, tap_out", "src/filter/one_zero.rs: process", "src/filter/two_zero.rs: process"]}
{"id": "C122", "title": "Scaling a signal by a power of two scales the output bit for bit", "statement": "Feed an f32 or f64 filter (any of the basic filters, both biquads, every RBJ filter) once with x and once with 2^e x, e >= 0. Where the louder output is finite, and while no product of a coefficient and a sample of the quieter run falls among the subnormal numbers, the louder output is exactly 2^e times the quieter one: gain changes in steps of 6.02 dB before the filter equal the same change behind it. The same holds for LeakyIntegrator, PeakEnvDetector and RmsEnvDetector with any settings while the non-zero samples and readings stay above a floor far below audibility (f32, gains not below 2^-24: 2^-79 for the first two, 2^-39 for RMS). The proviso is needed: halving the smallest positive f32 gives 0.", "quantifier": "all coefficients and settings, all finite signals, all scale factors 2^e, every mathematical library, f32 and f64", "why_tests_cant": "bit-exact equality of two runs over unbounded signals and all coefficients, although every operation rounds", "anchors": ["src/filter/one_pole.rs: process", "src/filter/one_zero.rs: process", "src/filter/two_pole.rs: process", "src/filter/two_zero.rs: process", "src/filter/biquad.rs: process", "src/analysis/leaky_integrator.rs: process", "src/analysis/peak_detector.rs: process", "src/analysis/rms_detector.rs: process"]}
{"id": "C123", "title": "A TwoPole on the unit circle is an oscillator and a Fourier meter", "statement": "A TwoPole (or a biquad) with coefficients (1, -2 cos w, 1) has poles on the unit circle. In exact arithmetic: struck once with A it returns A sin((n+1) w) / sin w for ever; its last two outputs hold the cosine and sine parts of the discrete Fourier transform, at w, of everything it was fed (Goertzel's algorithm), so y[n]^2 + y[n-1]^2 - 2 cos w y[n] y[n-1] is the power at that frequency; fed with a bounded sinusoid of its own frequency it exceeds every bound. In f32 and f64 the struck oscillator drifts at most linearly: sample n is within n (12 u |A| / sin w + 3 eta) / sin w of the ideal one as long as this drift is below the amplitude.", "quantifier": "all frequencies, all signals of any length, TwoPole and both biquads (exact part); all finite amplitudes and coefficients with |a1| < 2, every mathematical library, f32 and f64 (drift)", "why_tests_cant": "statements about all signals and about drift over unbounded time", "anchors": ["src/filter/two_pole.rs: set_coefficients, process", "src/filter/biquad.rs: process"]}
{"id": "C124", "title": "Steps settle exactly, and the two orders of a DC blocker", "statement": "In f32 and f64, a newly configured filter whose forward coefficients are not negative and whose feedback coefficients are not positive, fed with a signal that starts at or above zero and never falls, either overflows or returns exactly the same number from some sample on. Hence a DC blocker made of OnePole(1, -r), 0 <= r < 1, followed by OneZero(1, -1) answers a constant with exactly zero after finitely many samples. With the two filters swapped and r above 1/2 it never does: every output is a number other than zero. The difference OneZero(1, -1) itself removes an offset exactly: two signals that differ by a constant come out as the same numbers from the second sample on.", "quantifier": "all four direct filters, both biquads and the RBJ filters with pushing coefficients, all rising signals (settling); all r, all constants, every mathematical library, f32 and f64", "why_tests_cant": "claims about for ever, for every signal and coefficient; the two orders are equal in exact arithmetic and differ only in the last bits, after very many samples", "anchors": ["src/filter/one_pole.rs: set_coefficients, process", "src/filter/one_zero.rs: set_coefficients, process", "src/filter/two_pole.rs: process", "src/filter/biquad.rs: process"]}
{"id": "C125", "title": "Filtering a block forwards and backwards shifts nothing in time", "statement": "A program clears a filter, runs process_block over a block, reverses the block, clears the filter, runs process_block again and reverses back. In exact arithmetic, whatever the filter did before: it never panics on a non-empty block and keeps its length; the operation is symmetric and never opposes its input: the product of the result for u with v equals the product of u and v filtered once each, so it equals the product of the result for v with u, and the result for u times u is the energy of u filtered once. A sinusoid that the filter passes with gain g and any phase comes out with gain g squared and no phase shift, to any accuracy, at all samples far enough from both ends, however long the block.", "quantifier": "all direct filters, biquads and RBJ filters with any coefficients, all histories, all blocks of any length; all stable coefficients, frequencies, amplitudes and phases (zero phase)", "why_tests_cant": "quantifies over all blocks, filters and histories and over an error margin for blocks of every length", "anchors": ["src/traits.rs: Processor::process_block", "src/filter/*.rs: process, clear"]}
{"id": "C126", "title": "A delay line used as a looper repeats its recording bit for bit", "statement": "Take a Delay after any history (set_delay called after the last set_max_delay, get_delay() = D >= 1). Calling process(next_out()) again and again never panics; it outputs the last D samples of the line in order, over and over, with no loss or drift in any arithmetic, and after n calls tap_out shows the same loop turned by n positions, so after any multiple of D calls it shows exactly what it showed before. Mixing new samples in with any mixing function before they are written back mixes every sample with the one exactly D samples earlier: the recording during the first D samples, the program's own output afterwards. With a plain sum in exact arithmetic, position i after k further passes holds the recording plus the sum of everything played at that position.", "quantifier": "all histories of a Delay, all delays from one sample up, all sample types, all mixing functions, all inputs and numbers of repetitions", "why_tests_cant": "the claim is about every history and an unbounded number of passes; a test sees a few passes over a few recordings", "anchors": ["src/delay/mod.rs: Delay::next_out, Delay::process, Delay::tap_out"]}
{"id": "C127", "title": "An FIR filter that writes ahead with add_to", "statement": "A program filters by adding h[k]*x with add_to at tap d-1-k for every coefficient and then calling process(0). On a Delay with any history (set_delay after the last set_max_delay) and d = get_delay() at least the number of coefficients, it never panics, and output n is, bit for bit in every arithmetic, what the line already held for that moment (zero on a new line and after the first d samples) plus the products h[k] x[n-k], the oldest sample's first. In exact arithmetic this is the convolution of C121; in f32 and f64 it is finite and within ((1+u)^(N+1) - 1) S + N (1+u)^(N+1) eta of it; on fixed-point signals and coefficients it is exact, hence the same numbers as the tap-reading filter of C121. In general the two programs round differently: the claim that they always agree is refuted.", "quantifier": "all histories, delays, coefficient lists up to the delay, inputs, sample types (convolution: exact; accuracy and fixed point: f32 and f64)", "why_tests_cant": "quantifies over all histories, coefficients and signals of every length and over rounding errors", "anchors": ["src/delay/mod.rs: TappableDelayLine::add_to, Delay::process"]}
{"id": "C128", "title": "All-pass and comb sections with a fractional delay: where the energy goes", "statement": "Build Schroeder's section (C112) or a feedback comb on a LinearDelay of d = k + f >= 1 samples, peeking with next_out and writing with process, in exact arithmetic. It never panics; it obeys w[n] = x[n] + g v[n], y[n] = v[n] - g w[n] with v the linearly interpolated w. At every time the energy that came in equals the energy that came out plus (1 - g^2) times (the energy still on the line plus f (1 - f) times the energy of the sample-to-sample steps that interpolation smoothed away), so with |g| <= 1 the section is passive at every fractional delay. The feedback comb amplifies energy by at most 1 / (1 - |g|)^2.", "quantifier": "all fractional delays of at least one sample and within the line, all gains, all inputs of any length, at every point of the input", "why_tests_cant": "an energy balance over all inputs, delays and times", "anchors": ["src/delay/linear_delay.rs: LinearDelay::next_out, LinearDelay::process"]}
{"id": "C129", "title": "Delay lines in a chain add up, and may stand anywhere in it", "statement": "Put new or cleared Delay lines and cleared filters, RBJ filters, integrators and detectors (any settings with finite coefficients) in series in any order and feed them sample by sample. Nothing panics. Lines alone delay by exactly the sum of the delays they report. A chain of lines and processors outputs what the processors alone would output, late by that sum, bit for bit except for the sign of zeros. So two chains with the same processors and the same total delay give the same samples wherever the lines stand and however the delay is divided, and subtracting one from the other gives zero at every finite sample. The sign of a zero can differ.", "quantifier": "all chains of any length, all lines, all settings with finite coefficients, all f32/f64 inputs of any length, debug and release builds", "why_tests_cant": "chains, settings and inputs are unbounded, and the claim is about every bit", "anchors": ["src/delay/mod.rs: Delay::process, Delay::clear", "src/filter/*.rs, src/filter/rbj/*.rs, src/analysis/*.rs: process, clear"]}
{"id": "C130", "title": "A noise gate built on PeakEnvDetector", "statement": "Mute a sample when PeakEnvDetector::process(x) is below a threshold and pass it otherwise. In f32 and f64: with an instantaneous attack every sample that reaches the threshold is passed bit for bit from the first one on; a shut gate stays shut until a sample reaches the threshold, whatever attack, release, clear and last_out calls are made (no chatter). With envelope e0 and a release of L samples the gate passes everything at least while exp(-(n+1)/L) e0 has not fallen below the threshold, and a background within b below the threshold c is muted as soon as exp(-(n+1)/L) (e0 - b) < c - b in exact arithmetic; in floating point as soon as the same bound plus the rounding bound of C90 is below c. Without that margin it need not be muted at all: with a release of 2^20 samples in f32, a hum at 16/17 of the threshold holds the gate open for ever.", "quantifier": "all thresholds, histories, releases and inputs of any length; for the refutation every length of hum and every correctly rounded exponential", "why_tests_cant": "claims about every history, and about a gate that never shuts", "anchors": ["src/analysis/peak_detector.rs: PeakEnvDetector::process, set_attack, set_release, clear, last_out"]}
{"id": "C131", "title": "Frequency responses of the delay lines, the feedback comb and Schroeder's section", "statement": "Exact arithmetic. A LinearDelay of k + f samples passes every sinusoid of w radians per sample with its amplitude multiplied by G = sqrt(1 - 2f(1-f)(1 - cos w)) and a fixed phase shift, exactly from sample k + 1 on; |cos(w/2)| <= G <= 1, G = 1 for whole delays; at f = 1/2 the output is cos(w/2) times the input k + 1/2 samples ago (linear phase, nothing left at the Nyquist frequency). The feedback comb y = x + g * next_out() on a Delay of d samples settles on the same sinusoid times 1/sqrt(1 - 2g cos(dw) + g^2), the start dying out by |g| per round trip; the gain is between 1/(1+|g|) and 1/(1-|g|). Schroeder's section settles on the same amplitude exactly, at every frequency. In f32 and f64 the feedforward comb x - process(x) over one period of a hum of any wave form gives exactly +0 after the first period.", "quantifier": "all delays, line lengths, feedback gains |g| < 1, frequencies, amplitudes, phases and input lengths; all periodic finite float signals", "why_tests_cant": "holds for every frequency, delay and input length, exactly", "anchors": ["src/delay/linear_delay.rs: LinearDelay::new, process", "src/delay/mod.rs: Delay::new, process, next_out"]}
{"id": "C132", "title": "The last setting wins, and calls that do not interfere may be exchanged", "statement": "After any history: of several set_coefficients calls in a row on a filter only the last counts; of several set_alpha, set_attack or set_release calls the last valid one, invalid ones being no call at all; attack and release do not interfere; clear twice is clear once and commutes with every setter; last_out and the getters are no call at all. On a Delay and a LinearDelay: of several set_delay calls the last counts (whatever was asked for before, NaN included), of several set_max_delay calls the largest, of several tap_in calls at one place the last; tap_in at different places, and clear with any setter, may be exchanged; writing back what tap_out shows is no call; next_out is free on a Delay (not on a LinearDelay, C25). set_delay(get_delay()) changes nothing on a Delay not grown since, nor on a LinearDelay in exact arithmetic; on a LinearDelay<f32> it may change the next output.", "quantifier": "all objects, histories before, arguments and calls afterwards, panicking ones included", "why_tests_cant": "equivalence over every history and every continuation", "anchors": ["src/filter/mod.rs and filter/*.rs: set_coefficients, clear, last_out", "src/analysis/mod.rs and analysis/*.rs: set_alpha, set_attack, set_release, clear", "src/delay/mod.rs: Delay", "src/delay/linear_delay.rs: LinearDelay"]}
{"id": "C133", "title": "The same program with another sample type", "statement": "A Delay only moves samples: with any function h that keeps zero applied to every sample given, every answer is h of what it was, panics included (with add_to, h must respect addition). This covers widening f32 to f64, which keeps every number. A LinearDelay in exact arithmetic commutes with every gain. Two filters with the same coefficients, in two float types or in two structures, stay within the sum of the rounding errors of the two types for ever on the same samples; likewise PeakEnvDetector, RmsEnvDetector (mean square) and LeakyIntegrator in two float types after the same history.", "quantifier": "all sessions, sample maps, build profiles; all coefficient sets with bounded gain, inputs and times; all histories of samples, clears and lengths within the stated range", "why_tests_cant": "parametricity over every sample function and session, and error bounds that hold for ever", "anchors": ["src/delay/mod.rs: Delay", "src/delay/linear_delay.rs: LinearDelay", "src/filter/*.rs and src/filter/rbj/: process, set_coefficients", "src/analysis/leaky_integrator.rs, src/analysis/peak_detector.rs, src/analysis/rms_detector.rs"]}
{"id": "C134", "title": "Echoes with a fractional delay in f32 and f64", "statement": "The program \"v = line.next_out(); y = mix(x, v); line.process(y); emit y\" on LinearDelay::new(d, m), with 2 <= d <= m < 2^24 not necessarily whole and any mixing function, never panics. While the samples emitted so far are finite and within B, the value read is finite, within B up to rounding, and within (m + 2) 2^-22 B of the linear interpolation of the output d samples ago. With mix = x + g v, bounded input gives output that is finite and within B for ever, and for |g| < 1 within a fixed distance of the exact comb z[n] = x[n] + g z[n - d], which exists and is unique.", "quantifier": "all f32 delays from 2 to the maximum, maximum delays below 2^24, mixing functions, feedback gains, f32 and f64 samples, inputs of any length, build profiles", "why_tests_cant": "accumulated rounding of a feedback loop of unbounded length, for every fractional delay", "anchors": ["src/delay/linear_delay.rs: LinearDelay::new, next_out, process"]}
{"id": "C135", "title": "LinearDelay: louder by a power of two, and the same program in f32 and f64", "statement": "Give two LinearDelay lines with the same settings, of at most 2^24 slots, the same calls of any kind in any order, the second with every sample 2^e times as large (e >= 0; samples multiples of 2^24 times the smallest normal number): both panic or neither, sizes and delays reported are the same, and every finite sample returned by the second is exactly 2^e times that of the first, although every interpolation rounds. Give an f32 line and an f64 line the same calls (all but add_to) and the same samples of magnitude at most M: both panic or neither, and what they return is finite and within 8 lim M (2^-24 + 2^-53) of each other, up to the smallest numbers, on lines of at most lim slots; both read the same slots with the same weights.", "quantifier": "all sessions of calls, delays (NaN included for the first claim), line lengths up to 2^24 with growth, scale factors, samples as stated, build profiles, mathematical libraries", "why_tests_cant": "two runs compared over every call sequence and every fractional delay, bit for bit or within one bound", "anchors": ["src/delay/linear_delay.rs: LinearDelay"]}
{"id": "C136", "title": "A compressor built on a detector and the dB helpers", "statement": "A program that, for every sample x, takes e = detector.process(x), over = to_db(e) - threshold, g = to_sample(slope * over) when over > 0 and 1 otherwise, and outputs apply_gain(x, g), is a compressor, for every sequence of calls on the detector. In exact arithmetic, with either detector, threshold >= -120 and slope <= 0, it never panics, never makes a sample louder or changes its sign, passes it unchanged while e is at or below the threshold, and otherwise turns it down by slope dB per dB of excess (to silence from 120 dB on). With an instantaneous attack and a PeakEnvDetector nothing comes out above the static curve threshold + (level - threshold)/ratio, and with slope -1 nothing above the threshold. Fed with a constant after any history its output level approaches the static curve. In f32 and f64, with samples up to m (0.001 <= m <= 10^6, at most 100 dB above the threshold), threshold from -119 to 120 and slope from -1 to 0, neither the detectors nor the debug assertions of the helpers ever make it panic, every output is finite and is x times the gain of the curve up to 128 * 2^-p of |x|, and samples pass with their value unchanged while the envelope is at least 0.0001 dB below the threshold.", "quantifier": "all call sequences (samples, attack and release lengths, clear, last_out), thresholds, slopes, both detectors, f32 and f64, build profiles, mathematical libraries whose log10 and powf are within one unit in the last place", "why_tests_cant": "unbounded histories and a continuum of thresholds, ratios and levels; the debug assertions depend on the sign of zero of an envelope after any history", "anchors": ["src/util/mod.rs: to_db", "src/util/mod.rs: to_sample", "src/util/mod.rs: apply_gain", "src/analysis/peak_detector.rs: PeakEnvDetector", "src/analysis/rms_detector.rs: RmsEnvDetector"]}
{"id": "C137", "title": "The phases of the RBJ filters, and a phaser", "statement": "In exact arithmetic, for every valid setting, one angle t = atan(q (1/O - O)), with O the warped frequency, gives amplitude and phase of a sinusoid after LowPass, HighPass, BandPass1, BandPass2, BandStop and AllPass: phases t - 90, t + 90, t, t, t - 90 (with the signed gain sin t) and 2t - 180 degrees. The angle lies strictly between -90 and 90 degrees, strictly decreases as the frequency rises, vanishes at the corner frequency only and takes every value in between. The phase of a Peak filter is the difference of two such angles and stays strictly between -90 and 90 degrees. Gain and phase (up to whole turns) are determined by the filter. AllPass filters in series keep the amplitude and add their phases; a phaser, the mean of the signal and of what a chain of N AllPass filters makes of it, has the gain cos of half the total phase, and there are exactly N frequencies strictly between 0 and Nyquist that it removes, wherever the corners are and whatever the q's.", "quantifier": "all sample rates, corners, q's, gains, frequencies, amplitudes and phases, chains of any length", "why_tests_cant": "a continuum of settings and frequencies, chains of any length and limits over infinite time; that there are exactly N notches is a statement about all frequencies", "anchors": ["src/filter/rbj/allpass.rs: AllPass", "src/filter/rbj/lowpass.rs: LowPass", "src/filter/rbj/highpass.rs: HighPass", "src/filter/rbj/bandpass.rs: BandPass1", "src/filter/rbj/bandpass.rs: BandPass2", "src/filter/rbj/bandstop.rs: BandStop", "src/filter/rbj/peak.rs: Peak"]}
{"id": "C138", "title": "Which filters preserve order, and which low passes never overshoot", "statement": "In exact arithmetic a filter preserves the order of signals (x <= x' everywhere gives y <= y' everywhere) exactly if signals that rise from silence come out rising from silence, exactly if its impulse response is nowhere negative and, for stable coefficients with gain 1 for constants, exactly if inputs from 0 to m never produce an output outside 0 to m. OnePole does so exactly for b0 = 0 or b0 > 0 and a1 <= 0; OneZero and TwoZero for non-negative coefficients; TwoPole for b0 = 0 or b0 > 0, a1 <= 0 and real poles (4 a2 <= a1^2). LowPass never overshoots exactly for q <= 1/2 and a corner at or below a quarter of the sample rate: the usual q = 0.7071 overshoots, and so does every LowPass with a higher corner, however small q. HighPass and both band passes never preserve order; BandStop only for q <= 1/2 with its corner at exactly a quarter of the sample rate; AllPass only for q = 1/2 there, where it is a delay of two samples.", "quantifier": "all coefficients and settings, all input signals of any length, all pairs of ordered signals", "why_tests_cant": "a continuum of settings and signals; where the impulse response dips below zero may be arbitrarily late", "anchors": ["src/filter/rbj/lowpass.rs: LowPass", "src/filter/rbj/highpass.rs: HighPass", "src/filter/rbj/bandstop.rs: BandStop", "src/filter/rbj/allpass.rs: AllPass", "src/filter/one_pole.rs: OnePole", "src/filter/two_pole.rs: TwoPole"]}
{"id": "C139", "title": "A LowPass without overshoot in f32 and f64", "statement": "With q from 1/64 to 1/2 and a corner at or below a quarter of the sample rate, a LowPass in f32 or f64 that is fed samples from 0 to m returns, for ever, finite numbers between -E and m + E, where E is a number of rounding units computed from the settings (it grows as the inverse square of the sine of the corner). Where the corner is below a quarter of the sample rate and q is below (sin w)/2, both by more than the error of the computed coefficients, the order of signals is preserved exactly, rounding included: raising samples never lowers any later answer, and a signal that starts at or above zero and never falls comes out never falling.", "quantifier": "all precisions, all sine and cosine functions within two units in the last place, all sample rates, corners and q in range, all input signals and all sequences of calls", "why_tests_cant": "the rounding error of recursive filters depends on the whole history; a dip of one unit in the last place may appear after any number of samples", "anchors": ["src/filter/rbj/lowpass.rs: LowPass", "src/filter/biquad.rs: Biquad2"]}
{"id": "C140", "title": "Butterworth filters of any even order from LowPass and HighPass sections", "statement": "For every N >= 1, N LowPass (or HighPass) filters in series with one corner and q = 1 / (2 cos ((2 k + 1) pi / (4 N))), k = 0 .. N-1, have exactly the Butterworth gain of order 2 N: 1 / sqrt (1 + O^(4 N)) and O^(2 N) / sqrt (1 + O^(4 N)) at the warped frequency O (1 at the corner). So low and high pass of the same order share the power at every frequency, both are at -3 dB at the corner whatever the order, the low pass falls with the frequency and lies between -3 dB and unity exactly below the corner; every further section brings it strictly nearer to the ideal low pass at every frequency but the corner, and in the limit it is ideal. Two such low passes in series and two such high passes in series (the Linkwitz-Riley crossover of order 4 N) are in phase with each other at every frequency and add up to the amplitude of the input, in step with the AllPass filters of the same corner and q in series.", "quantifier": "all numbers of sections, sample rates, corners, frequencies, amplitudes and phases", "why_tests_cant": "a continuum of settings and frequencies and any number of sections; the gain is a limit in time", "anchors": ["src/filter/rbj/lowpass.rs: LowPass", "src/filter/rbj/highpass.rs: HighPass"]}
{"id": "C141", "title": "Equalisers of any number of bands", "statement": "Any number of Peak, LowShelf and HighShelf filters in series (valid settings, shelf slopes up to 1) form an equaliser whose gain at each frequency is the product of the gains of its bands (in decibels, their sum) and nothing else; it is never above all boosts together nor below all cuts together; the bands may stand in any order without changing a single sample of the output; and the equaliser with the opposite gains, its bands in any order, restores the input exactly, from the first sample on.", "quantifier": "all lists of bands, their permutations, all settings, frequencies and input signals", "why_tests_cant": "a continuum of settings and frequencies, any number of bands and every permutation of them", "anchors": ["src/filter/rbj/peak.rs: Peak", "src/filter/rbj/lowshelf.rs: LowShelf", "src/filter/rbj/highshelf.rs: HighShelf"]}
{"id": "C142", "title": "Chains of RBJ filters in f32 and f64 track the ideal chain", "statement": "Any number of new RBJ filters of any of the nine kinds in series (settings in the ranges of C94 and C97, head room before each filter), run in f32 or f64 with a math library whose sine, cosine and powers are accurate, returns only finite samples, and each sample is within an explicit bound of what the same chain returns in exact arithmetic: every filter amplifies the error it receives by at most H, the largest output its ideal makes of samples up to 1, and adds the error of its own arithmetic. The bound does not grow with the length of the signal. Rearranging the filters changes no sample by more than the two bounds together; that it changes none at all is refuted, already for two OneZero gains in f32. An equaliser followed by the equaliser with the opposite gains, its bands in any order, returns the input up to the bound. H may always be taken as 4 G (filters with a Q) or 34 G (filters with a gain), G bounding the gain of the feedback; for a LowPass that does not overshoot it is 1, and no LowPass has a smaller one. A cascade of n equal filters with H = 1 is within ((1 + c)^n - 1) (M + m) of the ideal cascade, with M the level of the input, m half the smallest positive normal number, and c set by the filter and the format alone.", "quantifier": "all lists of stages, their permutations, settings in range, bounded input signals, sample indices and both float formats", "why_tests_cant": "signals of any length, any number of stages, and every float setting in the range", "anchors": ["src/filter/rbj/lowpass.rs: LowPass", "src/filter/rbj/highpass.rs: HighPass", "src/filter/rbj/bandpass.rs: BandPass1, BandPass2", "src/filter/rbj/bandstop.rs: BandStop", "src/filter/rbj/allpass.rs: AllPass", "src/filter/rbj/peak.rs: Peak", "src/filter/rbj/lowshelf.rs: LowShelf", "src/filter/rbj/highshelf.rs: HighShelf", "src/filter/biquad.rs: Biquad2", "src/filter/one_zero.rs: OneZero"]}
{"id": "C143", "title": "A Linkwitz-Riley crossover in f32 and f64 adds up to the ideal all-pass", "statement": "Two LowPass filters in series and two HighPass filters in series with the same settings, run in f32 or f64 with an accurate math library, return bands whose float sum is finite and, for a Q next to 1/sqrt 2, within an explicit bound of the ideal AllPass of the input, for ever: the rounding errors of the two chains, one rounding of the sum, and six units in the last place of the level for the rounding of Q. For any other Q the sum is, within the rounding errors, the AllPass plus (1/q^2 - 2) times LowPass and HighPass in series.", "quantifier": "all settings in range, bounded input signals, sample indices and both float formats", "why_tests_cant": "signals of any length and every float setting; a test cannot bound the error for all later samples", "anchors": ["src/filter/rbj/lowpass.rs: LowPass", "src/filter/rbj/highpass.rs: HighPass", "src/filter/rbj/allpass.rs: AllPass"]}
{"id": "C144", "title": "Butterworth filters of any even order in f32 and f64", "statement": "LowPass (or HighPass) filters in series with one corner, each given a float within two roundings of its real Q between 1/2 and 1000, run in f32 or f64 with an accurate math library, return finite samples within an explicit bound of the same filters in exact arithmetic with the real Qs, for ever. The bound counts the roundings of the settings, the coefficients and every sample, and the error of the input. With the Qs of the Butterworth table this is the maximally flat filter of order 2 N, and a sampled tone settles, within that bound, to the tone with the Butterworth gain and one phase shift. The Qs of the table of order 2 N lie between 1/2 and N, and the level bounds that the error needs are explicit in Q and the corner.", "quantifier": "all orders, settings in range, floats near to the real Qs, bounded input signals, sample indices and both float formats", "why_tests_cant": "signals of any length, every order and every float setting; no Q of the table is a float, so a test compares with a filter that is itself rounded", "anchors": ["src/filter/rbj/lowpass.rs: LowPass", "src/filter/rbj/highpass.rs: HighPass"]}
{"id": "C145", "title": "Tones through filters in series in f32 and f64", "statement": "A tone whose samples are rounded, or wrong by up to D, sent through any RBJ filters in series in f32 or f64 with an accurate math library, settles to the tone whose amplitude is multiplied by the product of the textbook gains of the filters at that frequency, with one phase shift, up to an explicit error bound. For an equaliser of Peak and shelf bands the amplitude therefore changes by a factor between all its cuts together and all its boosts together, and late output samples exceed the boosted amplitude at most by that bound. Constant inputs and inputs alternating at half the sample rate settle, within the same bound, to the input times the product of the filters' gains there.", "quantifier": "all chains of the nine filter kinds with settings in range, frequencies, amplitudes, phases, input errors and both float formats", "why_tests_cant": "the claim is about every frequency, every setting and the limit of a signal of unbounded length", "anchors": ["src/filter/rbj/mod.rs: lowpass, highpass, bandpass, bandstop, allpass, peak, lowshelf, highshelf", "src/filter/rbj/peak.rs: Peak", "src/filter/rbj/lowshelf.rs: LowShelf", "src/filter/rbj/highshelf.rs: HighShelf"]}
{"id": "C146", "title": "Complementary filters side by side in f32 and f64", "statement": "With the same settings in range and an accurate math library, in f32 and in f64 and for ever: the float sum of LowPass and HighPass is the ideal BandStop, the float sum of BandStop and BandPass2 is the input, and LowPass, HighPass and BandPass2 together are the input, each up to an explicit bound made of the rounding errors of the filters and one rounding per addition. The input minus BandPass2 is the ideal BandStop, and the input minus BandStop the ideal BandPass2, within the same kind of bound. The input plus AllPass is twice the ideal BandStop, and the input minus AllPass twice the ideal BandPass2, within it too.", "quantifier": "all settings in range, bounded input signals, sample indices and both float formats", "why_tests_cant": "signals of any length and every float setting; the identities hold exactly only in real arithmetic, so a test cannot tell a rounding error from a growing one", "anchors": ["src/filter/rbj/lowpass.rs: LowPass", "src/filter/rbj/highpass.rs: HighPass", "src/filter/rbj/bandpass.rs: BandPass2", "src/filter/rbj/bandstop.rs: BandStop", "src/filter/rbj/allpass.rs: AllPass"]}
{"id": "C147", "title": "Banks of filter chains side by side in f32 and f64", "statement": "Any number of chains of RBJ filters, of any lengths and with any settings in range, fed the same input and added up one after the other in f32 or f64 with an accurate math library, give a finite sum that stays for ever within an explicit bound of the sum of the ideal chains: the rounding errors of every chain and one rounding per addition at the level reached so far. The order of the additions changes the sum at most by the two bounds.", "quantifier": "all numbers of chains, lengths, settings in range, bounded input signals, sample indices and both float formats", "why_tests_cant": "banks of any size and signals of any length; a test cannot bound the error for all later samples", "anchors": ["src/filter/rbj/mod.rs: lowpass, highpass, bandpass, bandstop, allpass, peak, lowshelf, highshelf", "src/traits.rs: Processor"]}
{"id": "C148", "title": "The same filter chain on two platforms or in two sample types", "statement": "Two programs that run the same chain of RBJ filters, of any length and with settings of the same values in range, on inputs that differ by at most D, each in f32 or f64 and each with an accurate math library of its own, return samples that differ for ever by at most the sum of two explicit error bounds; the difference never builds up with time. Banks of such chains side by side, on inputs of the same values, agree within the sum of their bounds (C147) as well.", "quantifier": "all chains, settings in range, bounded input signals, sample indices, pairs of float formats and pairs of accurate math libraries", "why_tests_cant": "a test compares two builds on a few signals; it cannot bound their difference for all later samples and all platforms", "anchors": ["src/filter/rbj/mod.rs: lowpass, highpass, bandpass, bandstop, allpass, peak, lowshelf, highshelf", "src/traits.rs: Processor"]}
