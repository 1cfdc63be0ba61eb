(** The filters, RBJ filters, integrator and detectors of rasp seen through their
    public API only: construction, coefficient setters, [process], [clear],
    [last_out].  A history is a list of calls; running it yields what each call
    returned. *)
From Coq Require Import ZArith List Bool.
From Verif Require Import Base Num FilterM RbjM AnalysisM.
Import ListNotations.

(** [S]: the struct, [K]: the argument of its coefficient setter(s). *)
Record device (S K T : Type) := Device {
  d_new : S;
  d_set : S -> K -> S;
  d_process : S -> T -> S * T;
  d_clear : S -> S;
  d_last_out : S -> T
}.
Arguments Device {S K T}.
Arguments d_new {S K T}.
Arguments d_set {S K T}.
Arguments d_process {S K T}.
Arguments d_clear {S K T}.
Arguments d_last_out {S K T}.

Inductive call (K T : Type) :=
| CProcess (x : T)
| CClear
| CSet (k : K)
| CLastOut.
Arguments CProcess {K T}. Arguments CClear {K T}. Arguments CSet {K T}. Arguments CLastOut {K T}.

Section Run.
  Context {S K T : Type} (D : device S K T).

  (** One call; the returned sample, if the call returns one. *)
  Definition d_step (s : S) (c : call K T) : S * option T :=
    match c with
    | CProcess x => let (s', y) := d_process D s x in (s', Some y)
    | CClear => (d_clear D s, None)
    | CSet k => (d_set D s k, None)
    | CLastOut => (s, Some (d_last_out D s))
    end.

  (** A call sequence: final state and the log of (call, returned value). *)
  Fixpoint d_run (s : S) (cs : list (call K T)) : S * list (call K T * option T) :=
    match cs with
    | [] => (s, [])
    | c :: rest =>
        let (s1, o) := d_step s c in
        let (s2, log) := d_run s1 rest in
        (s2, (c, o) :: log)
    end.

  (** The state after the calls [cs] on a new object. *)
  Definition after (cs : list (call K T)) : S := fst (d_run (d_new D) cs).

  (** What the calls [cs] return, made after the calls [before] on a new object. *)
  Definition returns (before cs : list (call K T)) : list (option T) :=
    map snd (snd (d_run (after before) cs)).

  (** Just the outputs of processing [xs] from state [s]. *)
  Fixpoint d_outputs (s : S) (xs : list T) : list T :=
    match xs with
    | [] => []
    | x :: rest => let (s', y) := d_process D s x in y :: d_outputs s' rest
    end.

  Definition is_set (c : call K T) : bool :=
    match c with CSet _ => true | _ => false end.

  (** The setter calls of a history. *)
  Definition settings (cs : list (call K T)) : list (call K T) := filter is_set cs.

  (** [last_out] is only called after some [process]. *)
  Fixpoint reads_after_process (cs : list (call K T)) : Prop :=
    match cs with
    | [] => True
    | CProcess _ :: _ => True
    | CLastOut :: _ => False
    | _ :: rest => reads_after_process rest
    end.

  (** The last [CSet] argument of a history, [k0] if there is none. *)
  Definition current (k0 : K) (cs : list (call K T)) : K :=
    fold_left (fun k c => match c with CSet k' => k' | _ => k end) cs k0.

  (** Samples processed since the last [clear], newest first. *)
  Definition past_inputs (cs : list (call K T)) : list T :=
    fold_left (fun l c => match c with CProcess x => x :: l | CClear => [] | _ => l end) cs [].

  (** Coefficients in force at each [process] since the last [clear], newest first. *)
  Definition past_settings (k0 : K) (cs : list (call K T)) : list K :=
    snd (fold_left (fun kl c => match c with
                                | CProcess _ => (fst kl, fst kl :: snd kl)
                                | CClear => (fst kl, [])
                                | CSet k => (k, snd kl)
                                | CLastOut => kl
                                end) cs (k0, [])).

  (** Samples returned by [process] since the last [clear], newest first. *)
  Definition past_outputs (log : list (call K T * option T)) : list T :=
    fold_left (fun l e => match e with
                          | (CProcess _, Some y) => y :: l
                          | (CClear, _) => []
                          | _ => l
                          end) log [].
End Run.

(** ** The devices of the library *)
Section Library.
  Context {T : Type} (O : num_ops T).

  (** filter/one_pole.rs *)
  Definition dev_one_pole : device (one_pole T) (T * T) T :=
    Device (one_pole_new O) (fun s '(b0, a1) => one_pole_set_coefficients s b0 a1)
           (one_pole_process O) (one_pole_clear O) one_pole_last_out.

  (** filter/one_zero.rs *)
  Definition dev_one_zero : device (one_zero T) (T * T) T :=
    Device (one_zero_new O) (fun s '(b0, b1) => one_zero_set_coefficients s b0 b1)
           (one_zero_process O) (one_zero_clear O) one_zero_last_out.

  (** filter/two_pole.rs *)
  Definition dev_two_pole : device (two_pole T) (T * T * T) T :=
    Device (two_pole_new O) (fun s '(b0, a1, a2) => two_pole_set_coefficients s b0 a1 a2)
           (two_pole_process O) (two_pole_clear O) two_pole_last_out.

  (** filter/two_zero.rs *)
  Definition dev_two_zero : device (two_zero T) (T * T * T) T :=
    Device (two_zero_new O) (fun s '(b0, b1, b2) => two_zero_set_coefficients s b0 b1 b2)
           (two_zero_process O) (two_zero_clear O) two_zero_last_out.

  (** filter/biquad.rs *)
  Definition dev_biquad1 : device (biquad1 T) (T * T * T * T * T) T :=
    Device (biquad1_new O)
           (fun s '(b0, b1, b2, a1, a2) => biquad1_set_coefficients s b0 b1 b2 a1 a2)
           (biquad1_process O) (biquad1_clear O) biquad1_last_out.

  Definition dev_biquad2 : device (biquad2 T) (T * T * T * T * T) T :=
    Device (biquad2_new O)
           (fun s '(b0, b1, b2, a1, a2) => biquad2_set_coefficients s b0 b1 b2 a1 a2)
           (biquad2_process O) (biquad2_clear O) biquad2_last_out.

  (** filter/rbj/*.rs; a setter call with the arguments of another type does not
      compile and is modelled as no call. *)
  Definition dev_rbj (k : rbj_kind) : device (biquad2 T) (rbj_args T) T :=
    Device (rbj_new O k)
           (fun s a => match rbj_set_coefficients O k s a with Some s' => s' | None => s end)
           (rbj_process O k) (rbj_clear O k) (rbj_last_out k).

  (** analysis/leaky_integrator.rs *)
  Definition dev_leaky : device (leaky T) T T :=
    Device (leaky_new O) (leaky_set_alpha O) (leaky_process O) (leaky_clear O) leaky_last_out.

  (** Setters of the two detectors. *)
  Inductive det_set := SetAttack (len : T) | SetRelease (len : T).

  (** analysis/peak_detector.rs *)
  Definition dev_peak : device (peak T) det_set T :=
    Device (peak_new O)
           (fun s k => match k with
                       | SetAttack l => peak_set_attack O s l
                       | SetRelease l => peak_set_release O s l
                       end)
           (peak_process O) (peak_clear O) peak_last_out.

  (** analysis/rms_detector.rs *)
  Definition dev_rms : device (rms T) det_set T :=
    Device (rms_new O)
           (fun s k => match k with
                       | SetAttack l => rms_set_attack O s l
                       | SetRelease l => rms_set_release O s l
                       end)
           (rms_process O) (rms_clear O) (rms_last_out O).

  (** Every device of the library except the two FIR filters ... *)
  Inductive recursive_device : forall {S K : Type}, device S K T -> Prop :=
  | lib_one_pole : recursive_device dev_one_pole
  | lib_two_pole : recursive_device dev_two_pole
  | lib_biquad1 : recursive_device dev_biquad1
  | lib_biquad2 : recursive_device dev_biquad2
  | lib_rbj k : recursive_device (dev_rbj k)
  | lib_leaky : recursive_device dev_leaky
  | lib_peak : recursive_device dev_peak
  | lib_rms : recursive_device dev_rms.

  (** ... and those two. *)
  Inductive fir_device : forall {S K : Type}, device S K T -> Prop :=
  | lib_one_zero : fir_device dev_one_zero
  | lib_two_zero : fir_device dev_two_zero.

  Definition library_device {S K : Type} (D : device S K T) : Prop :=
    recursive_device D \/ fir_device D.
End Library.
Arguments det_set : clear implicits.
