(** Vocabulary of property C115: a peak limiter built by the user on a [PeakEnvDetector].
    For every sample the program asks the detector for the envelope and turns the sample down
    when the envelope is above the ceiling:

      let e = detector.process(x);
      let y = if ceiling < e { x * (ceiling / e) } else { x };

    Between samples it may call [set_release], [last_out] and [clear] at will. *)
From Coq Require Import ZArith Reals List.
From Verif Require Import Base Num AnalysisM Device.
Import ListNotations.

Section Limiter.
  Context {T : Type} (O : num_ops T).

  Definition limit (ceiling x e : T) : T :=
    if n_lt O ceiling e then n_mul O x (n_div O ceiling e) else x.

  (** The calls made on a detector in state [s]; one pair (sample, limited sample) for every
      [process]. *)
  Fixpoint limiter (ceiling : T) (s : peak T) (cs : list (call (det_set T) T)) : list (T * T) :=
    match cs with
    | [] => []
    | CProcess x :: rest =>
        let (s1, e) := d_process (dev_peak O) s x in
        (x, limit ceiling x e) :: limiter ceiling s1 rest
    | other :: rest => limiter ceiling (fst (d_step (dev_peak O) s other)) rest
    end.
End Limiter.

(** [set_attack] is never called: the attack stays instantaneous. *)
Definition instant_attack {T} (cs : list (call (det_set T) T)) : Prop :=
  Forall (fun c => match c with CSet (SetAttack _) => False | _ => True end) cs.

(** The samples processed satisfy [P]. *)
Definition processed {T} (P : T -> Prop) (cs : list (call (det_set T) T)) : Prop :=
  Forall (fun c => match c with CProcess x => P x | _ => True end) cs.
