(** Vocabulary of C103: inverted polarity and leading silence in floating point. *)
From Coq Require Import ZArith Reals List Bool.
From Verif Require Import Base Num NumF FloatSpec FilterM RbjM AnalysisM Device DelaySpec.
Import ListNotations.
Open Scope R_scope.

Section Pol.
  Context {T : Type} (O : num_ops T) (V : float_view T).

  Definition zero_sample (x : T) : Prop := fin V x = true /\ val V x = 0.

  (** [y] is [x] with the other sign, bit for bit; only the sign of a zero is left open. *)
  Definition inverted (x y : T) : Prop := y = n_neg O x \/ zero_sample x /\ zero_sample y.

  (** [y] is [x], bit for bit; only the sign of a zero is left open. *)
  Definition same_sample (x y : T) : Prop := y = x \/ zero_sample x /\ zero_sample y.

  (** Two answers of a call, related by [R]. *)
  Definition answers (R : T -> T -> Prop) (r r' : option T) : Prop :=
    match r, r' with
    | Some x, Some y => R x y
    | None, None => True
    | _, _ => False
    end.

  (** The same calls with every sample inverted. *)
  Definition invert_call {K} (c : call K T) : call K T :=
    match c with CProcess x => CProcess (n_neg O x) | _ => c end.

  (** The filters and the integrator; the detectors ignore the sign (C53). *)
  Inductive signed_device : forall {S K : Type}, device S K T -> Prop :=
  | sd_one_pole : signed_device (dev_one_pole O)
  | sd_one_zero : signed_device (dev_one_zero O)
  | sd_two_pole : signed_device (dev_two_pole O)
  | sd_two_zero : signed_device (dev_two_zero O)
  | sd_biquad1 : signed_device (dev_biquad1 O)
  | sd_biquad2 : signed_device (dev_biquad2 O)
  | sd_rbj k : signed_device (dev_rbj O k)
  | sd_leaky : signed_device (dev_leaky O).

  Definition finite2 (k : T * T) : Prop := let '(a, b) := k in fin V a = true /\ fin V b = true.
  Definition finite3 (k : T * T * T) : Prop :=
    let '(a, b, c) := k in fin V a = true /\ fin V b = true /\ fin V c = true.
  Definition finite5 (k : T * T * T * T * T) : Prop :=
    let '(a, b, c, d, e) := k in
    fin V a = true /\ fin V b = true /\ fin V c = true /\ fin V d = true /\ fin V e = true.

  (** [tame D ok]: a processor and the settings that give it finite coefficients:
      for the RBJ filters those whose five Cookbook coefficients come out finite, for
      the detectors those whose gain e^(-1/len) does. *)
  Inductive tame : forall {S K : Type}, device S K T -> (K -> Prop) -> Prop :=
  | tame_one_pole : tame (dev_one_pole O) finite2
  | tame_one_zero : tame (dev_one_zero O) finite2
  | tame_two_pole : tame (dev_two_pole O) finite3
  | tame_two_zero : tame (dev_two_zero O) finite3
  | tame_biquad1 : tame (dev_biquad1 O) finite5
  | tame_biquad2 : tame (dev_biquad2 O) finite5
  | tame_rbj k : tame (dev_rbj O k) (fun a => forall c, rbj_coeffs O k a = Some c -> finite5 c)
  | tame_leaky : tame (dev_leaky O) (fun _ => True)
  | tame_peak : tame (dev_peak O) (fun k => match k with
                 SetAttack l | SetRelease l => fin V (n_exp O (n_div O (n_neg O (n_one O)) l)) = true end)
  | tame_rms : tame (dev_rms O) (fun k => match k with
                 SetAttack l | SetRelease l => fin V (n_exp O (n_div O (n_neg O (n_one O)) l)) = true end).

  (** Every setter call of a history has a setting in [ok]. *)
  Definition all_set {K} (ok : K -> Prop) (cs : list (call K T)) : Prop := forall k, In (CSet k) cs -> ok k.

  (** Delay lines: the same calls with every sample inverted ... *)
  Definition invert_op {D} (op : dl_op D T) : dl_op D T :=
    match op with
    | DProcess x => DProcess (n_neg O x)
    | DTapIn x t => DTapIn (n_neg O x) t
    | DAddTo x t => DAddTo (n_neg O x) t
    | _ => op
    end.

  (** ... and the answers with every sample inverted. *)
  Definition inverted_obs {D} (o o' : obs D T) : Prop :=
    match o, o' with
    | OSample x, OSample y => inverted x y
    | _, _ => o = o'
    end.

  (** Two sessions that end the same way, with inverted answers. *)
  Definition inverted_session {D S} (r r' : outcome (S * list (obs D T))) : Prop :=
    match r, r' with
    | Ok (_, os), Ok (_, os') => Forall2 inverted_obs os os'
    | Panic, Panic => True
    | Hang, Hang => True
    | _, _ => False
    end.
End Pol.
