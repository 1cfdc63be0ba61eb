(** Model of /repo/src/window/*.rs. *)
From Coq Require Import ZArith List.
From Verif Require Import Base Num.
Import ListNotations.

(** The six iterator types of /repo/src/window/{triangular,bartlett,hann,
    hamming,blackman,blackman_harris}.rs. *)
Inductive win_kind :=
| WTriangular | WBartlett | WHann | WHamming | WBlackman | WBlackmanHarris.

(** [enum Window], /repo/src/window/mod.rs:26-41. *)
Inductive window :=
| Rectangular | Triangular | Bartlett | Hann | Hamming | Blackman | BlackmanHarris.

(** The iterator structs (e.g. hann.rs:8-12): [index], [size]. *)
Record win_iter := WinIter { wi_index : Z; wi_size : Z }.

Section Window.
  Context {T : Type} (O : num_ops T).
  Local Notation one := (n_one O).
  Local Notation two := (n_two O).
  Local Notation pi := (n_pi O).
  Local Infix "+" := (n_add O).
  Local Infix "-" := (n_sub O).
  Local Infix "*" := (n_mul O).
  Local Infix "/" := (n_div O).

  (** triangular.rs:23-35 *)
  Definition triangular_gen (p : profile) (index size : Z) : outcome T :=
    let index_float := n_of_usize O index in
    let size_float := n_of_usize O size in
    let* sm1 := usub p size 1 in
    let size_minus_one := n_of_usize O sm1 in
    let alpha := size_minus_one / two in
    let numerator := index_float - alpha in
    let denominator := size_float / two in
    Ok (one - n_abs O (numerator / denominator)).

  (** bartlett.rs:23-33 *)
  Definition bartlett_gen (p : profile) (index size : Z) : outcome T :=
    let index_float := n_of_usize O index in
    let* sm1 := usub p size 1 in
    let size_minus_one := n_of_usize O sm1 in
    let alpha := size_minus_one / two in
    let numerator := index_float - alpha in
    Ok (one - n_abs O (numerator / alpha)).

  (** hann.rs:23-33 *)
  Definition hann_gen (p : profile) (index size : Z) : outcome T :=
    let half := n_of_f64 O (F64lit 5 10) in
    let index_float := n_of_usize O index in
    let* sm1 := usub p size 1 in
    let size_minus_one := n_of_usize O sm1 in
    let numerator := two * pi * index_float in
    Ok (half * (one - n_cos O (numerator / size_minus_one))).

  (** hamming.rs:23-34 *)
  Definition hamming_gen (p : profile) (index size : Z) : outcome T :=
    let index_float := n_of_usize O index in
    let* sm1 := usub p size 1 in
    let size_minus_one := n_of_usize O sm1 in
    let alpha := n_of_f64 O (F64lit 54 100) in
    let beta := one - alpha in
    let numerator := two * pi * index_float in
    Ok (alpha - beta * n_cos O (numerator / size_minus_one)).

  (** blackman.rs:7 and 25-36 *)
  Definition blackman_gen (p : profile) (index size : Z) : outcome T :=
    let index_float := n_of_usize O index in
    let* sm1 := usub p size 1 in
    let size_minus_one := n_of_usize O sm1 in
    let theta := two * pi * index_float / size_minus_one in
    let a0 := n_of_f64 O (F64div (F64sub (F64lit 1 1) (F64lit 16 100)) (F64lit 2 1)) in
    let a1 := n_of_f64 O (F64lit 5 10) in
    let a2 := n_of_f64 O (F64div (F64lit 16 100) (F64lit 2 1)) in
    Ok (a0 - a1 * n_cos O theta + a2 * n_cos O (two * theta)).

  (** blackman_harris.rs:7 and 25-38 *)
  Definition blackman_harris_gen (p : profile) (index size : Z) : outcome T :=
    let three := n_of_f64 O (F64lit 3 1) in
    let index_float := n_of_usize O index in
    let* sm1 := usub p size 1 in
    let size_minus_one := n_of_usize O sm1 in
    let theta := two * pi * index_float / size_minus_one in
    let a0 := n_of_f64 O (F64lit 35875 100000) in
    let a1 := n_of_f64 O (F64lit 48829 100000) in
    let a2 := n_of_f64 O (F64lit 14128 100000) in
    let a3 := n_of_f64 O (F64lit 1168 100000) in
    Ok (a0 - a1 * n_cos O theta + a2 * n_cos O (two * theta)
        - a3 * n_cos O (three * theta)).

  (** [generate_window] of each iterator type. *)
  Definition win_generate (k : win_kind) (p : profile) (it : win_iter) : outcome T :=
    match k with
    | WTriangular => triangular_gen p (wi_index it) (wi_size it)
    | WBartlett => bartlett_gen p (wi_index it) (wi_size it)
    | WHann => hann_gen p (wi_index it) (wi_size it)
    | WHamming => hamming_gen p (wi_index it) (wi_size it)
    | WBlackman => blackman_gen p (wi_index it) (wi_size it)
    | WBlackmanHarris => blackman_harris_gen p (wi_index it) (wi_size it)
    end.

  (** [new], the same in the six files (triangular.rs:15-21, bartlett.rs:15-21,
      hann.rs:15-21, hamming.rs:15-21, blackman.rs:17-23,
      blackman_harris.rs:17-23). *)
  Definition win_new (k : win_kind) (size : Z) : win_iter := WinIter 0 size.

  (** [Iterator::next], the same in the six files (triangular.rs:41-50,
      bartlett.rs:39-48, hann.rs:39-48, hamming.rs:40-49, blackman.rs:42-51,
      blackman_harris.rs:44-53). *)
  Definition win_next (k : win_kind) (p : profile) (it : win_iter)
    : outcome (win_iter * option T) :=
    if (wi_index it <? wi_size it)%Z then
      let* window_sample := win_generate k p it in
      let* index := uadd p (wi_index it) 1 in
      Ok (WinIter index (wi_size it), Some window_sample)
    else Ok (it, None).

  (** [ExactSizeIterator::len], the same in the six files (triangular.rs:54-56,
      bartlett.rs:52-54, hann.rs:52-54, hamming.rs:53-55, blackman.rs:55-57,
      blackman_harris.rs:57-59). *)
  Definition win_len (k : win_kind) (it : win_iter) : Z := wi_size it.

  (** The loop [for (sample, window_gain) in samples.iter_mut().zip(window)
      { *sample = window_gain * *sample; }] of mod.rs:53-55 (and 59-61, 65-67,
      71-73, 77-79, 83-85): stops at the shorter of the two. *)
  Fixpoint zip_apply (k : win_kind) (p : profile) (it : win_iter) (samples : list T)
    : outcome (list T) :=
    match samples with
    | [] => Ok []
    | sample :: rest =>
        let* (it', g) := win_next k p it in
        match g with
        | None => Ok (sample :: rest)
        | Some window_gain =>
            let* rest' := zip_apply k p it' rest in
            Ok (window_gain * sample :: rest')
        end
    end.

  (** [apply_window], mod.rs:48-88. *)
  Definition apply_window (p : profile) (samples : list T) (w : window) : outcome (list T) :=
    match w with
    | Rectangular => Ok samples
    | Triangular => zip_apply WTriangular p (win_new WTriangular (vlen samples)) samples
    | Bartlett => zip_apply WBartlett p (win_new WBartlett (vlen samples)) samples
    | Hann => zip_apply WHann p (win_new WHann (vlen samples)) samples
    | Hamming => zip_apply WHamming p (win_new WHamming (vlen samples)) samples
    | Blackman => zip_apply WBlackman p (win_new WBlackman (vlen samples)) samples
    | BlackmanHarris =>
        zip_apply WBlackmanHarris p (win_new WBlackmanHarris (vlen samples)) samples
    end.
End Window.
