(** Vocabulary of property C114: a plucked string, or a damped comb filter, built by the user
    from the public calls of a delay line and of any of the filters.  For every input sample
    the program peeks at the line, filters what it sees, adds the input, emits the sum and
    feeds it back:

      for x in input {
        let y = x + filter.process(line.next_out());
        line.process(y);
        output.push(y);
      } *)
From Coq Require Import ZArith Reals List.
From Verif Require Import Base Num FilterM RbjM Device Signal DelayM LinDelayM.
Import ListNotations.

Section Loop.
  Context {L S K T : Type} (O : num_ops T) (D : device S K T).
  Context (peek : L -> outcome (L * T)) (process : L -> T -> outcome (L * T)).

  Fixpoint strum (line : L) (filter : S) (input : list T) : outcome (L * S * list T) :=
    match input with
    | [] => Ok (line, filter, [])
    | x :: rest =>
        let* (line1, v) := peek line in
        let (filter1, u) := d_process D filter v in
        let y := n_add O x u in
        let* (line2, _) := process line1 y in
        let* (end_, ys) := strum line2 filter1 rest in
        Ok (end_, y :: ys)
    end.
End Loop.

Section Strings.
  Context {C S K T : Type} (Ct : ctl_ops C T) (O : num_ops T) (p : profile) (D : device S K T).

  (** On [Delay::new(d, m)] and a new filter configured with [k]. *)
  Definition string (k : K) (d m : Z) (input : list T) : outcome (delay T * S * list T) :=
    let* line := delay_new O p d m in
    strum O D (fun s => let* v := delay_next_out s in Ok (s, v)) (delay_process p) line (after D [CSet k]) input.

  (** On [LinearDelay::new(d, m)]: a string tuned between two samples. *)
  Definition lin_string (k : K) (d : C) (m : Z) (input : list T) : outcome (lin_delay C T * S * list T) :=
    let* line := lin_new Ct O p d m in
    strum O D (lin_next_out O p) (lin_process O p) line (after D [CSet k]) input.
End Strings.

(** [g] bounds the gain of the filter with coefficients [c], for bounded signals: an input
    within [M] has an output within g M. *)
Definition gain (c : R * R * R * R * R) (g : R) : Prop :=
  forall (x y : signal) (M : R), obeys c x y ->
    (forall n, Rabs (x n) <= M)%R -> forall n, (Rabs (y n) <= g * M)%R.
