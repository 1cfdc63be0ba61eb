(** Model of /repo/src/util/mod.rs. *)
From Coq Require Import ZArith Bool.
From Verif Require Import Base Num.

Section Util.
  Context {T : Type} (O : num_ops T).
  Local Infix "*" := (n_mul O).
  Local Infix "/" := (n_div O).

  (** [debug_assert!(c)] *)
  Definition debug_assert (p : profile) (c : bool) : outcome unit :=
    match p with
    | Debug => if c then Ok tt else Panic
    | Release => Ok tt
    end.

  (** util/mod.rs:10-19 *)
  Definition to_db (p : profile) (sample : T) : outcome T :=
    let* _ := debug_assert p (negb (n_is_sign_negative O sample)) in
    if n_lt O (n_of_f64 O (F64lit 1 1000000)) sample && n_is_finite O sample then
      let twenty := n_of_f64 O (F64lit 20 1) in
      Ok (twenty * n_log10 O sample)
    else Ok (n_of_f64 O (F64lit (-120) 1)).

  (** util/mod.rs:25-34 *)
  Definition to_sample (db_value : T) : T :=
    if n_lt O (n_of_f64 O (F64lit (-120) 1)) db_value && n_is_finite O db_value then
      let ten := n_of_f64 O (F64lit 10 1) in
      let twenty := n_of_f64 O (F64lit 20 1) in
      n_powf O ten (db_value / twenty)
    else n_zero O.

  (** util/mod.rs:40-43 *)
  Definition apply_gain (p : profile) (sample ratio : T) : outcome T :=
    let* _ := debug_assert p (n_is_finite O ratio && negb (n_is_sign_negative O ratio)) in
    Ok (sample * ratio).
End Util.
