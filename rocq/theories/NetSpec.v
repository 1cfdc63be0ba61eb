(** Vocabulary of property C116: a feedback delay network, the usual reverberator, built by the
    user from any number of [Delay] lines.  For every input sample the program peeks at all the
    lines, mixes what it sees with the input, and feeds each line its part of the mixture:

      for x in input {
        let taps: Vec<T> = lines.iter().map(|l| l.next_out()).collect();
        let mixed = mix(x, &taps);
        for (l, w) in lines.iter_mut().zip(mixed) { l.process(w); }
        output.push(taps);
      } *)
From Coq Require Import ZArith Reals List.
From Verif Require Import Base Num DelayM DelaySpec DelayRun LinRun EchoSpec.
Import ListNotations.

Section Network.
  Context {T : Type} (O : num_ops T) (p : profile) (mix : T -> list T -> list T).

  Fixpoint peek_all (lines : list (delay T)) : outcome (list T) :=
    match lines with
    | [] => Ok []
    | l :: rest => let* v := delay_next_out l in let* vs := peek_all rest in Ok (v :: vs)
    end.

  Fixpoint feed_all (lines : list (delay T)) (ws : list T) : outcome (list (delay T)) :=
    match lines, ws with
    | l :: rest, w :: ws' => let* (l1, _) := delay_process p l w in let* rest1 := feed_all rest ws' in Ok (l1 :: rest1)
    | _, _ => Ok lines
    end.

  Fixpoint circulate (lines : list (delay T)) (input : list T) : outcome (list (delay T) * list (list T)) :=
    match input with
    | [] => Ok (lines, [])
    | x :: rest =>
        let* taps := peek_all lines in
        let* lines1 := feed_all lines (mix x taps) in
        let* (lines2, out) := circulate lines1 rest in
        Ok (lines2, taps :: out)
    end.

  (** [Delay::new(d, m)] for every pair of the list. *)
  Fixpoint new_all (sizes : list (Z * Z)) : outcome (list (delay T)) :=
    match sizes with
    | [] => Ok []
    | (d, m) :: rest => let* l := delay_new O p d m in let* ls := new_all rest in Ok (l :: ls)
    end.

  Definition network (sizes : list (Z * Z)) (input : list T) : outcome (list (delay T) * list (list T)) :=
    let* lines := new_all sizes in circulate lines input.

  (** What line [i] was fed at every step, computed from the input and the taps. *)
  Definition fed_to (i : nat) (input : list T) (out : list (list T)) (n : nat) : T :=
    nth i (mix (at_ (n_zero O) input n) (at_ [] out n)) (n_zero O).

  (** The lines can be allocated, and delay by at least one sample. *)
  Definition sizes_ok (sizes : list (Z * Z)) : Prop :=
    Forall (fun dm => (1 <= fst dm <= snd dm)%Z /\ is_usize (snd dm) /\ fits O (snd dm)) sizes.
End Network.

(** The delay of line [i]. *)
Definition delay_of (sizes : list (Z * Z)) (i : nat) : nat := Z.to_nat (fst (nth i sizes (0, 0)%Z)).

(** ** Energy, in exact arithmetic *)
Open Scope R_scope.

(** f 0 + ... + f (N - 1) *)
Fixpoint total (f : nat -> R) (N : nat) : R :=
  match N with O => 0 | S n => total f n + f n end.

(** The sum of the squares of a list. *)
Definition power (v : list R) : R := total (fun i => nth i v 0 * nth i v 0) (length v).

(** The energy of the last [d] samples of [w] before number [n]. *)
Definition recent (w : nat -> R) (d n : nat) : R := total (fun k => behind 0 w (k + 1) n * behind 0 w (k + 1) n) d.

(** The energy in flight before step [n]: what the lines have been fed and have not yet shown. *)
Definition in_flight (sizes : list (Z * Z)) (w : nat -> nat -> R) (n : nat) : R :=
  total (fun i => recent (w i) (delay_of sizes i) n) (length sizes).

(** The Householder mixer with feedback [g]: each line is fed x + g (v_i - (2/N) sum v). *)
Definition householder (g : R) (x : R) (v : list R) : list R :=
  let s := 2 / INR (length v) * total (fun i => nth i v 0) (length v) in
  map (fun a => x + g * (a - s)) v.

(** The stereo ping-pong mixer: the input goes left, each side feeds the other. *)
Definition ping_pong {T} (O : num_ops T) (g : T) (x : T) (v : list T) : list T :=
  match v with
  | [a; b] => [feedback O g x b; n_mul O g a]
  | _ => v
  end.
