(** Specification for property C133: the same program with another sample type. *)
From Coq Require Import ZArith Reals List.
From Flocq Require Import IEEE754.BinarySingleNaN Core.Core.
From Verif Require Import Base Num NumF FloatSpec Device DelaySpec CrLibm Witness.
Import ListNotations.

Section Map.
  Context {D T T' : Type} (h : T -> T').

  (** The same call with every sample [x] replaced by [h x]. *)
  Definition map_call (op : dl_op D T) : dl_op D T' :=
    match op with
    | DProcess x => DProcess (h x)
    | DClear => DClear
    | DSetDelay d => DSetDelay d
    | DSetMaxDelay m => DSetMaxDelay m
    | DGetDelay => DGetDelay
    | DGetMaxDelay => DGetMaxDelay
    | DNextOut => DNextOut
    | DLastOut => DLastOut
    | DTapOut t => DTapOut t
    | DTapIn v t => DTapIn (h v) t
    | DAddTo v t => DAddTo (h v) t
    end.

  (** The same answer with every sample [x] replaced by [h x]. *)
  Definition map_answer (o : obs D T) : obs D T' :=
    match o with
    | ONone => ONone
    | OSample x => OSample (h x)
    | OSize n => OSize n
    | ODelay d => ODelay d
    end.
End Map.

(** The answers of a session: those of its calls, or that some call panicked. *)
Definition answers {S D T} (o : outcome (S * list (obs D T))) : outcome (list (obs D T)) :=
  let* (_, os) := o in Ok os.
Definition map_answers {D T T'} (h : T -> T') (o : outcome (list (obs D T))) : outcome (list (obs D T')) :=
  let* os := o in Ok (map (map_answer h) os).

(** A call other than [add_to]: the line computes nothing, it only stores and returns samples. *)
Definition moves_only {D T} (op : dl_op D T) : Prop := forall v t, op <> DAddTo v t.

(** Every length asked for can be allocated with samples of [size] bytes. *)
Definition allocates {D T} (size : Z) (op : dl_op D T) : Prop :=
  match op with DSetMaxDelay m => alloc_ok size (m + 1) = true | _ => True end.

(** The same number in two float types. *)
Definition same_number {T T'} (V : float_view T) (V' : float_view T') (x : T) (x' : T') : Prop := val V x = val V' x'.

(** The same call on a detector in two float types ... *)
Definition same_detector_call {T T'} (V : float_view T) (V' : float_view T') (c : call (det_set T) T) (c' : call (det_set T') T') : Prop :=
  match c, c' with
  | CProcess x, CProcess x' => same_number V V' x x'
  | CSet (SetAttack l), CSet (SetAttack l') => same_number V V' l l'
  | CSet (SetRelease l), CSet (SetRelease l') => same_number V V' l l'
  | CClear, CClear => True
  | CLastOut, CLastOut => True
  | _, _ => False
  end.

(** ... and on an integrator. *)
Definition same_leaky_call {T T'} (V : float_view T) (V' : float_view T') (c : call T T) (c' : call T' T') : Prop :=
  match c, c' with
  | CProcess x, CProcess x' => same_number V V' x x'
  | CSet a, CSet a' => same_number V V' a a'
  | CClear, CClear => True
  | CLastOut, CLastOut => True
  | _, _ => False
  end.

(** [x as f64] for an [f32] sample. *)
Definition widen (x : f32) : f64 :=
  match x with
  | B754_zero s => B754_zero s
  | B754_infinity s => B754_infinity s
  | B754_nan => B754_nan
  | B754_finite s m e _ => binary_normalize 53 1024 eq_refl eq_refl mode_NE (cond_Zopp s (Zpos m)) e s
  end.

(** The examples: a detector history in [f64], the numbers of [history90]. *)
Definition O133 : num_ops f64 := f64_ops (cr_libm 53 1024) false.
Definition V133 : float_view f64 := ieee_view 53 1024.
Definition history133 : list (call (det_set f64) f64) :=
  [CSet (SetAttack (fl64 48000 0)); CProcess (fl64 1 0); CSet (SetRelease (fl64 48000 0)); CProcess (fl64 (-1) (-1)); CLastOut].
