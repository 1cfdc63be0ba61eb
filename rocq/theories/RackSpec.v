(** Vocabulary of property C129: a rack of delay lines and processors in series, fed sample by sample:

      for x in input {
        let mut v = x;
        for u in rack.iter_mut() { v = u.process(v); }
        output.push(v);
      } *)
From Coq Require Import ZArith List.
From Verif Require Import Base Num DelayM DelaySpec DelayRun Device FloatSpec PolSpec.
Import ListNotations.

Section Rack.
  Context {T : Type} (O : num_ops T) (p : profile).

  (** A delay line, or one of the filters, RBJ filters, integrator or detectors. *)
  Inductive gear : Type :=
  | GLine (line : delay T)
  | GBox {S K : Type} (D : device S K T) (s : S).

  (** [u.process(x)] *)
  Definition feed (u : gear) (x : T) : outcome (gear * T) :=
    match u with
    | GLine line => let* (line', y) := delay_process p line x in Ok (GLine line', y)
    | GBox D s => let (s', y) := d_process D s x in Ok (GBox D s', y)
    end.

  (** The inner loop. *)
  Fixpoint through (rack : list gear) (x : T) : outcome (list gear * T) :=
    match rack with
    | [] => Ok ([], x)
    | u :: rest =>
        let* (u', v) := feed u x in
        let* (rest', y) := through rest v in
        Ok (u' :: rest', y)
    end.

  (** The outer loop. *)
  Fixpoint play (rack : list gear) (input : list T) : outcome (list gear * list T) :=
    match input with
    | [] => Ok (rack, [])
    | x :: rest =>
        let* (rack', y) := through rack x in
        let* (rack'', ys) := play rack' rest in
        Ok (rack'', y :: ys)
    end.

  (** The samples that come out of a rack, if nothing panics. *)
  Definition sound (rack : list gear) (input : list T) : outcome (list T) :=
    let* (_, ys) := play rack input in Ok ys.

  (** The sum of the delays its lines report. *)
  Fixpoint latency (rack : list gear) : Z :=
    match rack with
    | [] => 0
    | GLine line :: rest => delay_get_delay line + latency rest
    | _ :: rest => latency rest
    end.

  (** The rack with its delay lines taken out. *)
  Fixpoint boxes (rack : list gear) : list gear :=
    match rack with
    | [] => []
    | GLine _ :: rest => boxes rest
    | u :: rest => u :: boxes rest
    end.

  (** [n] zeros, then the samples, cut to the length of the input. *)
  Definition late (n : Z) (xs : list T) : list T := firstn (length xs) (repeat (n_zero O) (Z.to_nat n) ++ xs).

  (** A line that holds no sound: new, or just cleared (after any history that kept its timing, see C11). *)
  Inductive empty_line : delay T -> Prop :=
  | el_new d m s : is_usize d -> is_usize m -> fits O m -> delay_new O p d m = Ok s -> empty_line s
  | el_cleared d m ops s : dl_history O p d m ops s -> timing_trusted ops -> empty_line (delay_clear O s).

  (** Gear that holds no sound: such a line, or a processor that was set up at will with finite coefficients and
      cleared. *)
  Inductive silent (V : float_view T) : gear -> Prop :=
  | si_line s : empty_line s -> silent V (GLine s)
  | si_box S K (D : device S K T) ok before :
      tame O V D ok -> all_set ok before -> silent V (GBox D (after D (before ++ [CClear]))).
End Rack.
Arguments gear : clear implicits.
