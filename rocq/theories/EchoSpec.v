(** Vocabulary of property C106: an echo built by the user from the public calls of a delay
    line.  For every input sample the program peeks at the line, mixes, emits the mixture and
    feeds it back:

      for x in input { let y = mix(x, line.next_out()); line.process(y); output.push(y); } *)
From Coq Require Import ZArith Reals List.
From Verif Require Import Base Num DelayM LinDelayM.
Import ListNotations.

Section Echo.
  Context {S T : Type} (peek : S -> outcome (S * T)) (process : S -> T -> outcome (S * T)) (mix : T -> T -> T).

  Fixpoint echo (line : S) (input : list T) : outcome (S * list T) :=
    match input with
    | [] => Ok (line, [])
    | x :: rest =>
        let* (line1, v) := peek line in
        let y := mix x v in
        let* (line2, _) := process line1 y in
        let* (line3, ys) := echo line2 rest in
        Ok (line3, y :: ys)
    end.
End Echo.

Section Lines.
  Context {C T : Type} (K : ctl_ops C T) (O : num_ops T) (p : profile) (mix : T -> T -> T).

  (** On a new [Delay], peeking with [next_out()] ... *)
  Definition delay_echo (d m : Z) (input : list T) : outcome (delay T * list T) :=
    let* line := delay_new O p d m in
    echo (fun s => let* v := delay_next_out s in Ok (s, v)) (delay_process p) mix line input.

  (** ... or with [tap_out(d - 1)]. *)
  Definition tap_echo (d m : Z) (input : list T) : outcome (delay T * list T) :=
    let* line := delay_new O p d m in
    echo (fun s => let* v := delay_tap_out p s (d - 1)%Z in Ok (s, v)) (delay_process p) mix line input.

  (** On a new [LinearDelay], with [next_out()]. *)
  Definition lin_echo (d : C) (m : Z) (input : list T) : outcome (lin_delay C T * list T) :=
    let* line := lin_new K O p d m in
    echo (lin_next_out O p) (lin_process O p) mix line input.
End Lines.

(** The [n]-th sample of a list of samples. *)
Definition at_ {T} (zero : T) (l : list T) (n : nat) : T := nth n l zero.

(** The usual feedback comb filter: y = x + g * v. *)
Definition feedback {T} (O : num_ops T) (g : T) (x v : T) : T := n_add O x (n_mul O g v).
