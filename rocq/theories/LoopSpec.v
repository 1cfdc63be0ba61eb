(** Vocabulary of property C126: a looper, built by the user on a [Delay] that already holds a
    recording.  Playing the loop back keeps it on the line:

      for _ in 0..n { let v = line.next_out(); line.process(v); output.push(v); }

    and overdubbing mixes new samples into it:

      for x in input { let y = mix(x, line.next_out()); line.process(y); output.push(y); } *)
From Coq Require Import ZArith List.
From Verif Require Import Base Num DelayM EchoSpec.
Import ListNotations.

Section Loop.
  Context {T : Type} (p : profile).

  Fixpoint looper (line : delay T) (n : nat) : outcome (delay T * list T) :=
    match n with
    | 0%nat => Ok (line, [])
    | S n' =>
        let* v := delay_next_out line in
        let* (line1, _) := delay_process p line v in
        let* (line2, vs) := looper line1 n' in
        Ok (line2, v :: vs)
    end.

  Definition overdub (mix : T -> T -> T) (line : delay T) (input : list T) : outcome (delay T * list T) :=
    echo (fun s => let* v := delay_next_out s in Ok (s, v)) (delay_process p) mix line input.
End Loop.
