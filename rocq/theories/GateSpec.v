(** Vocabulary of property C130: a noise gate built by the user on a [PeakEnvDetector].
    For every sample the program asks the detector for the envelope and mutes the sample
    when the envelope is below the threshold:

      let e = detector.process(x);
      let y = if e < threshold { 0.0 } else { x };

    Between samples it may call the setters, [last_out] and [clear] at will. *)
From Coq Require Import ZArith Reals List.
From Verif Require Import Base Num AnalysisM Device.
Import ListNotations.

Section Gate.
  Context {T : Type} (O : num_ops T).

  Definition mute (threshold x e : T) : T := if n_lt O e threshold then n_zero O else x.

  (** The calls made on a detector in state [s]; one pair (sample, gated sample) for every [process]. *)
  Fixpoint gate (threshold : T) (s : peak T) (cs : list (call (det_set T) T)) : list (T * T) :=
    match cs with
    | [] => []
    | CProcess x :: rest =>
        let (s1, e) := d_process (dev_peak O) s x in
        (x, mute threshold x e) :: gate threshold s1 rest
    | other :: rest => gate threshold (fst (d_step (dev_peak O) s other)) rest
    end.
End Gate.
