(** Model of /repo/src/filter/rbj/*.rs.

    Each RBJ filter is a struct with the single private field
    [biquad: Biquad2<T>]; it is modelled by that field.  The nine types are
    distinguished by [rbj_kind]. *)
From Coq Require Import ZArith.
From Verif Require Import Base Num FilterM.

Inductive rbj_kind :=
| LowPass | HighPass | BandPass1 | BandPass2 | BandStop | AllPass
| Peak | LowShelf | HighShelf.

Section Rbj.
  Context {T : Type} (O : num_ops T).
  Local Notation zero := (n_zero O).
  Local Notation one := (n_one O).
  Local Notation two := (n_two O).
  Local Notation pi := (n_pi O).
  Local Infix "+" := (n_add O).
  Local Infix "-" := (n_sub O).
  Local Infix "*" := (n_mul O).
  Local Infix "/" := (n_div O).
  Local Notation "- x" := (n_neg O x).

  (** The normalisation common to all nine [set_coefficients] (e.g.
      lowpass.rs:44-48): every coefficient is divided by [a0]. *)
  Definition normalised (b0 b1 b2 a0 a1 a2 : T) : T * T * T * T * T :=
    (b0 / a0, b1 / a0, b2 / a0, a1 / a0, a2 / a0).

  (** lowpass.rs:30-48 *)
  Definition lowpass_coeffs (sample_rate cutoff_frequency q : T) :=
    let w0 := two * pi * cutoff_frequency / sample_rate in
    let cos_w0 := n_cos O w0 in
    let alpha := n_sin O w0 / (two * q) in
    let b0 := (one - cos_w0) / two in
    let b1 := one - cos_w0 in
    let b2 := b0 in
    let a0 := one + alpha in
    let a1 := (- two) * cos_w0 in
    let a2 := one - alpha in
    normalised b0 b1 b2 a0 a1 a2.

  (** highpass.rs:30-48 *)
  Definition highpass_coeffs (sample_rate cutoff_frequency q : T) :=
    let w0 := two * pi * cutoff_frequency / sample_rate in
    let cos_w0 := n_cos O w0 in
    let alpha := n_sin O w0 / (two * q) in
    let b0 := (one + cos_w0) / two in
    let b1 := (- one) - cos_w0 in
    let b2 := b0 in
    let a0 := one + alpha in
    let a1 := (- two) * cos_w0 in
    let a2 := one - alpha in
    normalised b0 b1 b2 a0 a1 a2.

  (** bandpass.rs:33-51 *)
  Definition bandpass1_coeffs (sample_rate center_frequency q : T) :=
    let w0 := two * pi * center_frequency / sample_rate in
    let cos_w0 := n_cos O w0 in
    let alpha := n_sin O w0 / (two * q) in
    let b0 := q * alpha in
    let b1 := zero in
    let b2 := (- q) * alpha in
    let a0 := one + alpha in
    let a1 := (- two) * cos_w0 in
    let a2 := one - alpha in
    normalised b0 b1 b2 a0 a1 a2.

  (** bandpass.rs:98-116 *)
  Definition bandpass2_coeffs (sample_rate center_frequency q : T) :=
    let w0 := two * pi * center_frequency / sample_rate in
    let cos_w0 := n_cos O w0 in
    let alpha := n_sin O w0 / (two * q) in
    let b0 := alpha in
    let b1 := zero in
    let b2 := - alpha in
    let a0 := one + alpha in
    let a1 := (- two) * cos_w0 in
    let a2 := one - alpha in
    normalised b0 b1 b2 a0 a1 a2.

  (** bandstop.rs:32-50 *)
  Definition bandstop_coeffs (sample_rate center_frequency q : T) :=
    let w0 := two * pi * center_frequency / sample_rate in
    let cos_w0 := n_cos O w0 in
    let alpha := n_sin O w0 / (two * q) in
    let b0 := one in
    let b1 := (- two) * cos_w0 in
    let b2 := one in
    let a0 := one + alpha in
    let a1 := b1 in
    let a2 := one - alpha in
    normalised b0 b1 b2 a0 a1 a2.

  (** allpass.rs:30-48 *)
  Definition allpass_coeffs (sample_rate phase_frequency q : T) :=
    let w0 := two * pi * phase_frequency / sample_rate in
    let cos_w0 := n_cos O w0 in
    let alpha := n_sin O w0 / (two * q) in
    let b0 := one - alpha in
    let b1 := (- two) * cos_w0 in
    let b2 := one + alpha in
    let a0 := b2 in
    let a1 := b1 in
    let a2 := b0 in
    normalised b0 b1 b2 a0 a1 a2.

  (** peak.rs:32-53 *)
  Definition peak_coeffs (sample_rate center_frequency db_gain q : T) :=
    let ten := n_of_f64 O (F64lit 10 1) in
    let forty := n_of_f64 O (F64lit 40 1) in
    let a := n_powf O ten (db_gain / forty) in
    let w0 := two * pi * center_frequency / sample_rate in
    let cos_w0 := n_cos O w0 in
    let alpha := n_sin O w0 / (two * q) in
    let b0 := one + alpha * a in
    let b1 := (- two) * cos_w0 in
    let b2 := one - alpha * a in
    let a0 := one + alpha / a in
    let a1 := b1 in
    let a2 := one - alpha / a in
    normalised b0 b1 b2 a0 a1 a2.

  (** lowshelf.rs:32-58 *)
  Definition lowshelf_coeffs (sample_rate cutoff_frequency db_gain shelf_slope : T) :=
    let ten := n_of_f64 O (F64lit 10 1) in
    let forty := n_of_f64 O (F64lit 40 1) in
    let a := n_powf O ten (db_gain / forty) in
    let w0 := two * pi * cutoff_frequency / sample_rate in
    let cos_w0 := n_cos O w0 in
    let alpha := n_sin O w0 / two
                 * n_sqrt O ((a + one / a) * (one / shelf_slope - one) + two) in
    let a_plus_one := a + one in
    let a_subt_one := a - one in
    let sqrt_product := two * n_sqrt O a * alpha in
    let b0 := a * (a_plus_one - a_subt_one * cos_w0 + sqrt_product) in
    let b1 := two * a * (a_subt_one - a_plus_one * cos_w0) in
    let b2 := a * (a_plus_one - a_subt_one * cos_w0 - sqrt_product) in
    let a0 := a_plus_one + a_subt_one * cos_w0 + sqrt_product in
    let a1 := (- two) * (a_subt_one + a_plus_one * cos_w0) in
    let a2 := a_plus_one + a_subt_one * cos_w0 - sqrt_product in
    normalised b0 b1 b2 a0 a1 a2.

  (** highshelf.rs:32-58 *)
  Definition highshelf_coeffs (sample_rate cutoff_frequency db_gain shelf_slope : T) :=
    let ten := n_of_f64 O (F64lit 10 1) in
    let forty := n_of_f64 O (F64lit 40 1) in
    let a := n_powf O ten (db_gain / forty) in
    let w0 := two * pi * cutoff_frequency / sample_rate in
    let cos_w0 := n_cos O w0 in
    let alpha := n_sin O w0 / two
                 * n_sqrt O ((a + one / a) * (one / shelf_slope - one) + two) in
    let a_plus_one := a + one in
    let a_subt_one := a - one in
    let sqrt_product := two * n_sqrt O a * alpha in
    let b0 := a * (a_plus_one + a_subt_one * cos_w0 + sqrt_product) in
    let b1 := (- two) * a * (a_subt_one + a_plus_one * cos_w0) in
    let b2 := a * (a_plus_one + a_subt_one * cos_w0 - sqrt_product) in
    let a0 := a_plus_one - a_subt_one * cos_w0 + sqrt_product in
    let a1 := two * (a_subt_one - a_plus_one * cos_w0) in
    let a2 := a_plus_one - a_subt_one * cos_w0 - sqrt_product in
    normalised b0 b1 b2 a0 a1 a2.

  (** [clear], identical in the nine files (e.g. lowpass.rs:60-62):
      allpass.rs:60-62, bandpass.rs:63-65 and 128-130, bandstop.rs:62-64,
      highpass.rs:60-62, highshelf.rs:70-72, lowshelf.rs:70-72, peak.rs:65-67. *)
  Definition rbj_clear (k : rbj_kind) (s : biquad2 T) : biquad2 T :=
    match k with
    | LowPass => biquad2_clear O s
    | HighPass => biquad2_clear O s
    | BandPass1 => biquad2_clear O s
    | BandPass2 => biquad2_clear O s
    | BandStop => biquad2_clear O s
    | AllPass => biquad2_clear O s
    | Peak => biquad2_clear O s
    | LowShelf => biquad2_clear O s
    | HighShelf => biquad2_clear O s
    end.

  (** [process], e.g. lowpass.rs:56-58; same files, the method above [clear]. *)
  Definition rbj_process (k : rbj_kind) (s : biquad2 T) (sample : T) : biquad2 T * T :=
    match k with
    | LowPass => biquad2_process O s sample
    | HighPass => biquad2_process O s sample
    | BandPass1 => biquad2_process O s sample
    | BandPass2 => biquad2_process O s sample
    | BandStop => biquad2_process O s sample
    | AllPass => biquad2_process O s sample
    | Peak => biquad2_process O s sample
    | LowShelf => biquad2_process O s sample
    | HighShelf => biquad2_process O s sample
    end.

  (** [last_out], e.g. lowpass.rs:64-66; same files, the method below [clear]. *)
  Definition rbj_last_out (k : rbj_kind) (s : biquad2 T) : T :=
    match k with
    | LowPass => biquad2_last_out s
    | HighPass => biquad2_last_out s
    | BandPass1 => biquad2_last_out s
    | BandPass2 => biquad2_last_out s
    | BandStop => biquad2_last_out s
    | AllPass => biquad2_last_out s
    | Peak => biquad2_last_out s
    | LowShelf => biquad2_last_out s
    | HighShelf => biquad2_last_out s
    end.

  (** [new], e.g. lowpass.rs:13-17 (allpass.rs:13-17, bandpass.rs:16-20 and
      81-85, bandstop.rs:15-19, highpass.rs:13-17, highshelf.rs:14-18,
      lowshelf.rs:14-18, peak.rs:14-18). *)
  Definition rbj_new (k : rbj_kind) : biquad2 T :=
    match k with
    | LowPass => biquad2_new O
    | HighPass => biquad2_new O
    | BandPass1 => biquad2_new O
    | BandPass2 => biquad2_new O
    | BandStop => biquad2_new O
    | AllPass => biquad2_new O
    | Peak => biquad2_new O
    | LowShelf => biquad2_new O
    | HighShelf => biquad2_new O
    end.

  (** Arguments of [set_coefficients]: [RbjQ sample_rate frequency q] for the
      six filters without gain, [RbjGain sample_rate frequency db_gain x] for
      Peak ([x] = q) and the shelves ([x] = shelf_slope). *)
  Inductive rbj_args :=
  | RbjQ (sample_rate frequency q : T)
  | RbjGain (sample_rate frequency db_gain x : T).

  (** The coefficients computed by each [set_coefficients]; [None] when the
      arguments do not fit the type's signature (the program would not
      compile). *)
  Definition rbj_coeffs (k : rbj_kind) (args : rbj_args) : option (T * T * T * T * T) :=
    match k, args with
    | LowPass, RbjQ sr f q => Some (lowpass_coeffs sr f q)
    | HighPass, RbjQ sr f q => Some (highpass_coeffs sr f q)
    | BandPass1, RbjQ sr f q => Some (bandpass1_coeffs sr f q)
    | BandPass2, RbjQ sr f q => Some (bandpass2_coeffs sr f q)
    | BandStop, RbjQ sr f q => Some (bandstop_coeffs sr f q)
    | AllPass, RbjQ sr f q => Some (allpass_coeffs sr f q)
    | Peak, RbjGain sr f g q => Some (peak_coeffs sr f g q)
    | LowShelf, RbjGain sr f g sl => Some (lowshelf_coeffs sr f g sl)
    | HighShelf, RbjGain sr f g sl => Some (highshelf_coeffs sr f g sl)
    | _, _ => None
    end.

  (** [set_coefficients], e.g. lowpass.rs:25-52: store the coefficients in the
      biquad, then [self.clear()]. *)
  Definition rbj_set_coefficients (k : rbj_kind) (s : biquad2 T) (args : rbj_args)
    : option (biquad2 T) :=
    match rbj_coeffs k args with
    | Some (b0, b1, b2, a1, a2) =>
        Some (rbj_clear k (biquad2_set_coefficients s b0 b1 b2 a1 a2))
    | None => None
    end.
End Rbj.
Arguments rbj_args : clear implicits.
