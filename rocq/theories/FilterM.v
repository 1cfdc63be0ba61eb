(** Model of /repo/src/filter/{one_pole,one_zero,two_pole,two_zero,biquad}.rs.

    The [pub] coefficient fields can also be assigned one by one by a user;
    such an assignment is [set_coefficients] with the other coefficients kept,
    so only [set_coefficients] is modelled. *)
From Coq Require Import ZArith.
From Verif Require Import Base Num.

Section Filters.
  Context {T : Type} (O : num_ops T).
  Local Notation zero := (n_zero O).
  Local Notation one := (n_one O).
  Local Infix "+" := (n_add O).
  Local Infix "-" := (n_sub O).
  Local Infix "*" := (n_mul O).

  (** ** OnePole (/repo/src/filter/one_pole.rs:13-17) *)
  Record one_pole := OnePole { op_y_z1 : T; op_b0 : T; op_a1 : T }.

  (** one_pole.rs:36-42 *)
  Definition one_pole_new : one_pole := OnePole zero one zero.
  (** one_pole.rs:47-50 *)
  Definition one_pole_set_coefficients (s : one_pole) (b0 a1 : T) : one_pole :=
    OnePole (op_y_z1 s) b0 a1.
  (** one_pole.rs:54-58 *)
  Definition one_pole_process (s : one_pole) (sample : T) : one_pole * T :=
    let output := op_b0 s * sample - op_a1 s * op_y_z1 s in
    (OnePole output (op_b0 s) (op_a1 s), output).
  (** one_pole.rs:60-62 *)
  Definition one_pole_clear (s : one_pole) : one_pole :=
    OnePole zero (op_b0 s) (op_a1 s).
  (** one_pole.rs:64-66 *)
  Definition one_pole_last_out (s : one_pole) : T := op_y_z1 s.

  (** ** OneZero (/repo/src/filter/one_zero.rs:13-18) *)
  Record one_zero := OneZero { oz_x_z1 : T; oz_output : T; oz_b0 : T; oz_b1 : T }.

  (** one_zero.rs:37-44 *)
  Definition one_zero_new : one_zero := OneZero zero zero one zero.
  (** one_zero.rs:49-52 *)
  Definition one_zero_set_coefficients (s : one_zero) (b0 b1 : T) : one_zero :=
    OneZero (oz_x_z1 s) (oz_output s) b0 b1.
  (** one_zero.rs:56-60 *)
  Definition one_zero_process (s : one_zero) (sample : T) : one_zero * T :=
    let output := oz_b0 s * sample + oz_b1 s * oz_x_z1 s in
    (OneZero sample output (oz_b0 s) (oz_b1 s), output).
  (** one_zero.rs:62-64; note that [output] is not reset *)
  Definition one_zero_clear (s : one_zero) : one_zero :=
    OneZero zero (oz_output s) (oz_b0 s) (oz_b1 s).
  (** one_zero.rs:66-68 *)
  Definition one_zero_last_out (s : one_zero) : T := oz_output s.

  (** ** TwoPole (/repo/src/filter/two_pole.rs:13-19) *)
  Record two_pole := TwoPole { tp_y_z1 : T; tp_y_z2 : T; tp_b0 : T; tp_a1 : T; tp_a2 : T }.

  (** two_pole.rs:38-46 *)
  Definition two_pole_new : two_pole := TwoPole zero zero one zero zero.
  (** two_pole.rs:51-55 *)
  Definition two_pole_set_coefficients (s : two_pole) (b0 a1 a2 : T) : two_pole :=
    TwoPole (tp_y_z1 s) (tp_y_z2 s) b0 a1 a2.
  (** two_pole.rs:59-64 *)
  Definition two_pole_process (s : two_pole) (sample : T) : two_pole * T :=
    let output := tp_b0 s * sample - tp_a1 s * tp_y_z1 s - tp_a2 s * tp_y_z2 s in
    (TwoPole output (tp_y_z1 s) (tp_b0 s) (tp_a1 s) (tp_a2 s), output).
  (** two_pole.rs:66-69 *)
  Definition two_pole_clear (s : two_pole) : two_pole :=
    TwoPole zero zero (tp_b0 s) (tp_a1 s) (tp_a2 s).
  (** two_pole.rs:71-73 *)
  Definition two_pole_last_out (s : two_pole) : T := tp_y_z1 s.

  (** ** TwoZero (/repo/src/filter/two_zero.rs:13-20) *)
  Record two_zero := TwoZero
    { tz_x_z1 : T; tz_x_z2 : T; tz_output : T; tz_b0 : T; tz_b1 : T; tz_b2 : T }.

  (** two_zero.rs:39-48 *)
  Definition two_zero_new : two_zero := TwoZero zero zero zero one zero zero.
  (** two_zero.rs:53-57 *)
  Definition two_zero_set_coefficients (s : two_zero) (b0 b1 b2 : T) : two_zero :=
    TwoZero (tz_x_z1 s) (tz_x_z2 s) (tz_output s) b0 b1 b2.
  (** two_zero.rs:61-66 *)
  Definition two_zero_process (s : two_zero) (sample : T) : two_zero * T :=
    let output := tz_b0 s * sample + tz_b1 s * tz_x_z1 s + tz_b2 s * tz_x_z2 s in
    (TwoZero sample (tz_x_z1 s) output (tz_b0 s) (tz_b1 s) (tz_b2 s), output).
  (** two_zero.rs:68-71; note that [output] is not reset *)
  Definition two_zero_clear (s : two_zero) : two_zero :=
    TwoZero zero zero (tz_output s) (tz_b0 s) (tz_b1 s) (tz_b2 s).
  (** two_zero.rs:73-75 *)
  Definition two_zero_last_out (s : two_zero) : T := tz_output s.

  (** ** Biquad1 (/repo/src/filter/biquad.rs:29-39) *)
  Record biquad1 := Biquad1
    { b1_x_z1 : T; b1_x_z2 : T; b1_y_z1 : T; b1_y_z2 : T;
      b1_b0 : T; b1_b1 : T; b1_b2 : T; b1_a1 : T; b1_a2 : T }.

  (** biquad.rs:58-70 *)
  Definition biquad1_new : biquad1 :=
    Biquad1 zero zero zero zero one zero zero zero zero.
  (** biquad.rs:76-82 *)
  Definition biquad1_set_coefficients (s : biquad1) (b0 b1 b2 a1 a2 : T) : biquad1 :=
    Biquad1 (b1_x_z1 s) (b1_x_z2 s) (b1_y_z1 s) (b1_y_z2 s) b0 b1 b2 a1 a2.
  (** biquad.rs:86-95 *)
  Definition biquad1_process (s : biquad1) (sample : T) : biquad1 * T :=
    let output :=
      b1_b0 s * sample + b1_b1 s * b1_x_z1 s + b1_b2 s * b1_x_z2 s
      - b1_a1 s * b1_y_z1 s - b1_a2 s * b1_y_z2 s in
    (Biquad1 sample (b1_x_z1 s) output (b1_y_z1 s)
             (b1_b0 s) (b1_b1 s) (b1_b2 s) (b1_a1 s) (b1_a2 s), output).
  (** biquad.rs:97-102 *)
  Definition biquad1_clear (s : biquad1) : biquad1 :=
    Biquad1 zero zero zero zero (b1_b0 s) (b1_b1 s) (b1_b2 s) (b1_a1 s) (b1_a2 s).
  (** biquad.rs:104-106 *)
  Definition biquad1_last_out (s : biquad1) : T := b1_y_z1 s.

  (** ** Biquad2 (/repo/src/filter/biquad.rs:118-127) *)
  Record biquad2 := Biquad2
    { b2_z1 : T; b2_z2 : T; b2_output : T;
      b2_b0 : T; b2_b1 : T; b2_b2 : T; b2_a1 : T; b2_a2 : T }.

  (** biquad.rs:146-157 *)
  Definition biquad2_new : biquad2 :=
    Biquad2 zero zero zero one zero zero zero zero.
  (** biquad.rs:163-169 *)
  Definition biquad2_set_coefficients (s : biquad2) (b0 b1 b2 a1 a2 : T) : biquad2 :=
    Biquad2 (b2_z1 s) (b2_z2 s) (b2_output s) b0 b1 b2 a1 a2.
  (** biquad.rs:173-178 *)
  Definition biquad2_process (s : biquad2) (sample : T) : biquad2 * T :=
    let output := b2_b0 s * sample + b2_z1 s in
    let z1 := b2_b1 s * sample + b2_z2 s - b2_a1 s * output in
    let z2 := b2_b2 s * sample - b2_a2 s * output in
    (Biquad2 z1 z2 output (b2_b0 s) (b2_b1 s) (b2_b2 s) (b2_a1 s) (b2_a2 s), output).
  (** biquad.rs:180-184 *)
  Definition biquad2_clear (s : biquad2) : biquad2 :=
    Biquad2 zero zero zero (b2_b0 s) (b2_b1 s) (b2_b2 s) (b2_a1 s) (b2_a2 s).
  (** biquad.rs:186-188 *)
  Definition biquad2_last_out (s : biquad2) : T := b2_output s.
End Filters.

Arguments one_pole : clear implicits.
Arguments one_zero : clear implicits.
Arguments two_pole : clear implicits.
Arguments two_zero : clear implicits.
Arguments biquad1 : clear implicits.
Arguments biquad2 : clear implicits.
