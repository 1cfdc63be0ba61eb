(** Vocabulary of property C136: a compressor built by the user on an envelope detector and the
    level helpers.  For every sample the program asks the detector for the envelope, measures by
    how many dB it is above the threshold, and turns the sample down by a share of the excess:

      let e = detector.process(x);
      let over = to_db(e) - threshold;
      let g = if over > 0.0 { to_sample(slope * over) } else { 1.0 };
      let y = apply_gain(x, g);

    [slope] is 1/ratio - 1: from 0 (ratio 1, nothing happens) to -1 (ratio infinity, a limiter).
    Between samples the program may call the setters, [last_out] and [clear] at will. *)
From Coq Require Import ZArith Reals List.
From Verif Require Import Base Num UtilM AnalysisM Device DbSpec.
Import ListNotations.

Section Compressor.
  Context {T : Type} (O : num_ops T) (p : profile).

  Definition squeeze (threshold slope x e : T) : outcome T :=
    let* level := to_db O p e in
    let over := n_sub O level threshold in
    let g := if n_lt O (n_zero O) over then to_sample O (n_mul O slope over) else n_one O in
    apply_gain O p x g.

  (** The calls made on a detector in state [s]: one triple (sample, envelope, compressed
      sample) for every [process], or a panic. *)
  Fixpoint compressor {S : Type} (D : device S (det_set T) T) (threshold slope : T) (s : S)
      (cs : list (call (det_set T) T)) : outcome (list (T * T * T)) :=
    match cs with
    | [] => Ok []
    | CProcess x :: rest =>
        let (s1, e) := d_process D s x in
        let* y := squeeze threshold slope x e in
        let* ys := compressor D threshold slope s1 rest in
        Ok ((x, e, y) :: ys)
    | other :: rest => compressor D threshold slope (fst (d_step D s other)) rest
    end.
End Compressor.

(** The gain a compressor is meant to apply when the envelope is [e]: none up to the
    threshold, and [slope] dB for every dB above it. *)
Definition gain_curve (threshold slope e : R) : R :=
  (if Rle_dec e (amplitude threshold) then 1 else amplitude (slope * (decibels e - threshold)))%R.
