(** Vocabulary of the window properties. *)
From Coq Require Import ZArith Reals List.
From Verif Require Import Base Num FloatSpec WindowM.
Import ListNotations.

(** ** Iterating *)
Section Iter.
  Context {T : Type} (O : num_ops T).

  (** [m] calls of [next]: the iterator afterwards and what the calls returned. *)
  Fixpoint nexts (k : win_kind) (p : profile) (it : win_iter) (m : nat)
    : outcome (win_iter * list (option T)) :=
    match m with
    | 0%nat => Ok (it, [])
    | S m' =>
        let* (it1, r) := win_next O k p it in
        let* (it2, rs) := nexts k p it1 m' in
        Ok (it2, r :: rs)
    end.

  (** The iterator created by [new(n)] yields [g] as its sample number [i] (from 0). *)
  Definition yields (k : win_kind) (p : profile) (n : Z) (i : nat) (g : T) : Prop :=
    exists it rs, nexts k p (win_new k n) (i + 1) = Ok (it, rs) /\ nth_error rs i = Some (Some g).
End Iter.

(** The iterator behind a [Window]; [Rectangular] has none. *)
Definition window_iter (w : window) : option win_kind :=
  match w with
  | Rectangular => None
  | Triangular => Some WTriangular
  | Bartlett => Some WBartlett
  | Hann => Some WHann
  | Hamming => Some WHamming
  | Blackman => Some WBlackman
  | BlackmanHarris => Some WBlackmanHarris
  end.

(** A size of a slice or window. *)
Definition is_size (n : Z) : Prop := (0 <= n <= usize_max)%Z.

(** ** The textbook windows *)
Open Scope R_scope.

(** Sample [i] of the window of [n] samples. *)
Definition textbook (k : win_kind) (n i : R) : R :=
  let x := 2 * PI * i / (n - 1) in
  match k with
  | WTriangular => 1 - Rabs ((i - (n - 1) / 2) / (n / 2))
  | WBartlett => 1 - Rabs ((i - (n - 1) / 2) / ((n - 1) / 2))
  | WHann => 0.5 - 0.5 * cos x
  | WHamming => 0.54 - 0.46 * cos x
  | WBlackman => 0.42 - 0.5 * cos x + 0.08 * cos (2 * x)
  | WBlackmanHarris =>
      0.35875 - 0.48829 * cos x + 0.14128 * cos (2 * x) - 0.01168 * cos (3 * x)
  end.

(** The smallest size for which the documented formula makes sense: with one sample
    all but the triangular one divide by zero. *)
Definition min_size (k : win_kind) : Z := match k with WTriangular => 1%Z | _ => 2%Z end.

(** The value at both ends. *)
Definition end_value (k : win_kind) (n : R) : R :=
  match k with
  | WTriangular => 1 / n
  | WBartlett | WHann | WBlackman => 0
  | WHamming => 0.08
  | WBlackmanHarris => 0.00006
  end.

(** The mean of the cosine windows: their constant term. *)
Definition mean (k : win_kind) : R :=
  match k with
  | WHann => 0.5 | WHamming => 0.54 | WBlackman => 0.42 | WBlackmanHarris => 0.35875
  | _ => 0.5
  end.

(** The number of cosine terms. *)
Definition terms (k : win_kind) : nat :=
  match k with
  | WHann | WHamming => 1 | WBlackman => 2 | WBlackmanHarris => 3 | _ => 0
  end.

(** Sum of [f 0 .. f (m-1)]. *)
Fixpoint total (f : nat -> R) (m : nat) : R :=
  match m with 0%nat => 0 | S m' => total f m' + f m' end.

(** The number of samples among the answers of [next]. *)
Definition yielded {T} (rs : list (option T)) : Z :=
  Z.of_nat (length (filter (fun r => match r with Some _ => true | None => false end) rs)).

(** The cosine maps numbers to numbers in [-1, 1]. *)
Definition cos_sound {T} (O : num_ops T) (V : FloatSpec.float_view T) : Prop :=
  forall x, FloatSpec.fin V x = true ->
    FloatSpec.fin V (n_cos O x) = true /\ -1 <= FloatSpec.val V (n_cos O x) <= 1.
