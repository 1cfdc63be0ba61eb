(** Model of /repo/src/analysis/*.rs. *)
From Coq Require Import ZArith Bool.
From Verif Require Import Base Num.

Section Analysis.
  Context {T : Type} (O : num_ops T).
  Local Notation zero := (n_zero O).
  Local Notation one := (n_one O).
  Local Infix "+" := (n_add O).
  Local Infix "-" := (n_sub O).
  Local Infix "*" := (n_mul O).
  Local Infix "/" := (n_div O).

  (** ** LeakyIntegrator (/repo/src/analysis/leaky_integrator.rs:13-18) *)
  Record leaky := Leaky { lk_alpha : T; lk_y_z1 : T }.

  (** leaky_integrator.rs:37-42 *)
  Definition leaky_new : leaky := Leaky zero zero.
  (** leaky_integrator.rs:48-50 *)
  Definition leaky_get_alpha (s : leaky) : T := lk_alpha s.
  (** leaky_integrator.rs:77-81 *)
  Definition leaky_set_alpha (s : leaky) (gain : T) : leaky :=
    if n_le O zero gain && n_lt O gain one then Leaky gain (lk_y_z1 s) else s.
  (** leaky_integrator.rs:85-88 *)
  Definition leaky_process (s : leaky) (value : T) : leaky * T :=
    let y := value + lk_alpha s * (lk_y_z1 s - value) in
    (Leaky (lk_alpha s) y, y).
  (** leaky_integrator.rs:90-92 *)
  Definition leaky_clear (s : leaky) : leaky := Leaky (lk_alpha s) zero.
  (** leaky_integrator.rs:94-96 *)
  Definition leaky_last_out (s : leaky) : T := lk_y_z1 s.

  (** ** PeakEnvDetector (/repo/src/analysis/peak_detector.rs:9-15) *)
  Record peak := PeakDet { pk_attack_gain : T; pk_release_gain : T; pk_envelope : T }.

  (** peak_detector.rs:37-43 *)
  Definition peak_new : peak := PeakDet zero zero zero.
  (** peak_detector.rs:46-48 *)
  Definition peak_get_attack_gain (s : peak) : T := pk_attack_gain s.
  (** peak_detector.rs:72-76 *)
  Definition peak_set_attack (s : peak) (attack_length : T) : peak :=
    if n_lt O zero attack_length && n_is_finite O attack_length
    then PeakDet (n_exp O (n_neg O one / attack_length)) (pk_release_gain s) (pk_envelope s)
    else s.
  (** peak_detector.rs:79-81 *)
  Definition peak_get_release_gain (s : peak) : T := pk_release_gain s.
  (** peak_detector.rs:105-109 *)
  Definition peak_set_release (s : peak) (release_length : T) : peak :=
    if n_lt O zero release_length && n_is_finite O release_length
    then PeakDet (pk_attack_gain s) (n_exp O (n_neg O one / release_length)) (pk_envelope s)
    else s.
  (** peak_detector.rs:113-127 *)
  Definition peak_process (s : peak) (sample : T) : peak * T :=
    let input_envelope := n_abs O sample in
    let alpha := if n_lt O (pk_envelope s) input_envelope
                 then pk_attack_gain s else pk_release_gain s in
    let envelope := input_envelope + alpha * (pk_envelope s - input_envelope) in
    (PeakDet (pk_attack_gain s) (pk_release_gain s) envelope, envelope).
  (** peak_detector.rs:129-131 *)
  Definition peak_clear (s : peak) : peak :=
    PeakDet (pk_attack_gain s) (pk_release_gain s) zero.
  (** peak_detector.rs:133-135 *)
  Definition peak_last_out (s : peak) : T := pk_envelope s.

  (** ** RmsEnvDetector (/repo/src/analysis/rms_detector.rs:9-15) *)
  Record rms := RmsDet { rm_attack_gain : T; rm_release_gain : T; rm_envelope : T }.

  (** rms_detector.rs:37-43 *)
  Definition rms_new : rms := RmsDet zero zero zero.
  (** rms_detector.rs:46-48 *)
  Definition rms_get_attack_gain (s : rms) : T := rm_attack_gain s.
  (** rms_detector.rs:72-76 *)
  Definition rms_set_attack (s : rms) (attack_length : T) : rms :=
    if n_lt O zero attack_length && n_is_finite O attack_length
    then RmsDet (n_exp O (n_neg O one / attack_length)) (rm_release_gain s) (rm_envelope s)
    else s.
  (** rms_detector.rs:79-81 *)
  Definition rms_get_release_gain (s : rms) : T := rm_release_gain s.
  (** rms_detector.rs:105-109 *)
  Definition rms_set_release (s : rms) (release_length : T) : rms :=
    if n_lt O zero release_length && n_is_finite O release_length
    then RmsDet (rm_attack_gain s) (n_exp O (n_neg O one / release_length)) (rm_envelope s)
    else s.
  (** rms_detector.rs:113-127 *)
  Definition rms_process (s : rms) (sample : T) : rms * T :=
    let input_envelope := sample * sample in
    let a1 := if n_lt O (rm_envelope s) input_envelope
              then rm_attack_gain s else rm_release_gain s in
    let envelope := input_envelope + a1 * (rm_envelope s - input_envelope) in
    (RmsDet (rm_attack_gain s) (rm_release_gain s) envelope, n_sqrt O envelope).
  (** rms_detector.rs:129-131 *)
  Definition rms_clear (s : rms) : rms :=
    RmsDet (rm_attack_gain s) (rm_release_gain s) zero.
  (** rms_detector.rs:133-135 *)
  Definition rms_last_out (s : rms) : T := n_sqrt O (rm_envelope s).
End Analysis.

Arguments leaky : clear implicits.
Arguments peak : clear implicits.
Arguments rms : clear implicits.
