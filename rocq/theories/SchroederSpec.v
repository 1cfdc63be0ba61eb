(** Vocabulary of property C112: Schroeder's all-pass section, the building block of
    reverberators, built by the user from the public calls of a [Delay]:

      for x in input {
        let v = line.next_out();
        let w = x + g * v;
        line.process(w);
        output.push(v - g * w);
      } *)
From Coq Require Import ZArith Reals List.
From Verif Require Import Base Num DelayM.
Import ListNotations.

Section Schroeder.
  Context {T : Type} (O : num_ops T) (p : profile) (g : T).

  Fixpoint diffuse (line : delay T) (input : list T) : outcome (delay T * list T) :=
    match input with
    | [] => Ok (line, [])
    | x :: rest =>
        let* v := delay_next_out line in
        let w := n_add O x (n_mul O g v) in
        let* (line1, _) := delay_process p line w in
        let y := n_sub O v (n_mul O g w) in
        let* (line2, ys) := diffuse line1 rest in
        Ok (line2, y :: ys)
    end.

  (** On [Delay::new(d, m)]. *)
  Definition diffuser (d m : Z) (input : list T) : outcome (delay T * list T) :=
    let* line := delay_new O p d m in diffuse line input.
End Schroeder.
