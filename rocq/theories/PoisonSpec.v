(** Vocabulary of C95: samples that are infinite or not a number. *)
From Coq Require Import ZArith Reals List Bool.
From Verif Require Import Base Num NumF FloatSpec FilterM RbjM AnalysisM Device.
Import ListNotations.
Open Scope R_scope.

(** None of the returned samples is finite. *)
Definition none_finite {T} (V : float_view T) (rs : list (option T)) : Prop :=
  List.Forall (fun r => match r with Some y => fin V y = false | None => True end) rs.

(** Neither [clear] nor a setter is called. *)
Definition only_used {K T} (calls : list (call K T)) : Prop := ~ In CClear calls /\ forall k, ~ In (CSet k) calls.

(** The processors with memory of their output whose setters keep that memory (the
    setters of the RBJ filters clear it). *)
Inductive memory_device {T} (O : num_ops T) : forall {S K : Type}, device S K T -> Prop :=
| md_one_pole : memory_device O (dev_one_pole O)
| md_two_pole : memory_device O (dev_two_pole O)
| md_biquad1 : memory_device O (dev_biquad1 O)
| md_biquad2 : memory_device O (dev_biquad2 O)
| md_leaky : memory_device O (dev_leaky O)
| md_peak : memory_device O (dev_peak O)
| md_rms : memory_device O (dev_rms O).

(** Those that return their memory itself ([RmsEnvDetector] returns its square root). *)
Inductive feedback_device {T} (O : num_ops T) : forall {S K : Type}, device S K T -> Prop :=
| fb_one_pole : feedback_device O (dev_one_pole O)
| fb_two_pole : feedback_device O (dev_two_pole O)
| fb_biquad1 : feedback_device O (dev_biquad1 O)
| fb_biquad2 : feedback_device O (dev_biquad2 O)
| fb_rbj k : feedback_device O (dev_rbj O k)
| fb_leaky : feedback_device O (dev_leaky O)
| fb_peak : feedback_device O (dev_peak O).

(** A setting of an RBJ filter whose q or shelf slope is zero. *)
Definition zero_q {T} (V : float_view T) (a : rbj_args T) : Prop :=
  match a with RbjQ _ _ q => fin V q = true /\ val V q = 0 | RbjGain _ _ _ x => fin V x = true /\ val V x = 0 end.

(** A setting with a sample rate of zero or with an infinite or NaN frequency. *)
Definition bad_frequency {T} (V : float_view T) (a : rbj_args T) : Prop :=
  match a with
  | RbjQ sr f _ | RbjGain sr f _ _ => fin V sr = true /\ val V sr = 0 \/ fin V f = false
  end.

(** As IEEE 754 and C demand: sin and cos of an infinity or NaN are NaN. *)
Definition trig_invalid {T} (O : num_ops T) (V : float_view T) : Prop :=
  forall w, fin V w = false -> fin V (n_sin O w) = false /\ fin V (n_cos O w) = false.
