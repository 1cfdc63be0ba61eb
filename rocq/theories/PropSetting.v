(** Property C132: the last setting wins, and calls that do not interfere may be exchanged.

    Vocabulary ([SettingSpec]): [alike D a b]: after any history of the object, nothing that is called later returns another value
    whether [a] or [b] was called; [line_alike run s a b]: the same on the delay line [s], panics included; [dl_history],
    [lin_history]: [s] is the line after a session on a new one; [dl_run O p], [lin_run K O p]: running calls. *)
From Coq Require Import ZArith List Bool Lia Reals.
From Verif Require Import Base Num NumR NumF FloatSpec FilterM RbjM AnalysisM Device DelayM LinDelayM DelaySpec LinSpec DelayRun LinRun
  SettingSpec Witness LinWit SettingLemmas.
Import ListNotations.
Open Scope Z_scope.

(** C132: in every filter and detector of the library, clearing twice is clearing once, clearing commutes with every setter, and
    asking for the last output changes nothing. *)

Theorem C132_clear_and_set :
  forall (T S K : Type) (O : num_ops T) (D : device S K T),
    library_device O D ->
    alike D [CClear; CClear] [CClear]
    /\ (forall k, alike D [CClear; CSet k] [CSet k; CClear])
    /\ alike D [CLastOut] [].
Proof. exact C132_clear_and_set_thm. Qed.
Print Assumptions C132_clear_and_set.

Example C132_clear_and_set_hyps : library_device O32 (dev_rms O32) /\ library_device O64 (dev_one_zero O64).
Proof. split; [left; constructor|right; constructor]. Qed.

(** C132: of several settings in a row only the last one counts.  (The arguments of an RBJ setter are those of its own type.) *)

Theorem C132_last_setting_wins :
  forall (T : Type) (O : num_ops T),
    (forall k k', alike (dev_one_pole O) [CSet k; CSet k'] [CSet k'])
    /\ (forall k k', alike (dev_one_zero O) [CSet k; CSet k'] [CSet k'])
    /\ (forall k k', alike (dev_two_pole O) [CSet k; CSet k'] [CSet k'])
    /\ (forall k k', alike (dev_two_zero O) [CSet k; CSet k'] [CSet k'])
    /\ (forall k k', alike (dev_biquad1 O) [CSet k; CSet k'] [CSet k'])
    /\ (forall k k', alike (dev_biquad2 O) [CSet k; CSet k'] [CSet k'])
    /\ (forall kind k k', rbj_coeffs O kind k' <> None -> alike (dev_rbj O kind) [CSet k; CSet k'] [CSet k']).
Proof. exact C132_last_setting_wins_thm. Qed.
Print Assumptions C132_last_setting_wins.

Example C132_last_setting_wins_hyps (s f q : f32) : rbj_coeffs O32 LowPass (RbjQ s f q) <> None.
Proof. discriminate. Qed.

(** C132: of several settings of the integrator or a detector the last valid one counts and the others might as well not have been
    made: an [alpha] outside [0, 1) and a time that is not positive and finite are no call at all.  Attack and release do not
    interfere. *)

Theorem C132_last_valid_setting_wins :
  forall (T : Type) (O : num_ops T),
    (forall k k', valid_alpha O k' = true -> alike (dev_leaky O) [CSet k; CSet k'] [CSet k'])
    /\ (forall k, valid_alpha O k = false -> alike (dev_leaky O) [CSet k] [])
    /\ (forall (S : Type) (D : device S (det_set T) T), detector O D ->
          (forall a a', valid_time O a' = true -> alike D [CSet (SetAttack a); CSet (SetAttack a')] [CSet (SetAttack a')])
          /\ (forall r r', valid_time O r' = true -> alike D [CSet (SetRelease r); CSet (SetRelease r')] [CSet (SetRelease r')])
          /\ (forall l, valid_time O l = false -> alike D [CSet (SetAttack l)] [] /\ alike D [CSet (SetRelease l)] [])
          /\ (forall a r, alike D [CSet (SetAttack a); CSet (SetRelease r)] [CSet (SetRelease r); CSet (SetAttack a)])).
Proof. exact C132_last_valid_setting_wins_thm. Qed.
Print Assumptions C132_last_valid_setting_wins.

Example C132_last_valid_setting_wins_hyps :
  valid_alpha O32 (fl32 1 (-1)) = true /\ valid_alpha O32 (fl32 1 0) = false
  /\ valid_time O32 (fl32 441 0) = true /\ valid_time O32 (fl32 (-1) 0) = false /\ detector O32 (dev_rms O32).
Proof. repeat split; try reflexivity. constructor. Qed.

(** C132, [Delay], after any session: of several delays in a row only the last counts; of several maximum lengths the largest; of
    several values tapped in at one place the last; taps at different places, and [clear] with any setting, may be exchanged;
    writing back what a tap shows, and every query, is no call at all.  The line returns the same and panics on the same calls. *)

Theorem C132_delay :
  forall (T : Type) (O : num_ops T) (p : profile) (d m : Z) (ops : list (dl_op Z T)) (s : delay T) (mx : Z),
    1 <= n_size_of O -> dl_history O p d m ops s -> delay_get_max_delay p s = Ok mx ->
    let same := line_alike (dl_run O p) s in
    (forall a b, is_usize a -> is_usize b -> same [DSetDelay a; DSetDelay b] [DSetDelay b])
    /\ (forall a b, is_usize a -> is_usize b -> a <> usize_max -> b <> usize_max ->
          same [DSetMaxDelay a; DSetMaxDelay b] [DSetMaxDelay (Z.max a b)])
    /\ same [DClear; DClear] [DClear]
    /\ (forall a, is_usize a -> same [DClear; DSetDelay a] [DSetDelay a; DClear])
    /\ (forall a, is_usize a -> a <> usize_max -> same [DClear; DSetMaxDelay a] [DSetMaxDelay a; DClear])
    /\ (forall t v v', 0 <= t <= mx -> same [DTapIn v t; DTapIn v' t] [DTapIn v' t])
    /\ (forall t t' v v', 0 <= t <= mx -> 0 <= t' <= mx -> t <> t' -> same [DTapIn v t; DTapIn v' t'] [DTapIn v' t'; DTapIn v t])
    /\ (forall t v, 0 <= t <= mx -> delay_tap_out p s t = Ok v -> same [DTapIn v t] [])
    /\ same [DNextOut] [] /\ same [DLastOut] [] /\ same [DGetDelay] [] /\ same [DGetMaxDelay] []
    /\ (forall t, 0 <= t <= mx -> same [DTapOut t] []).
Proof. exact C132_delay_thm. Qed.
Print Assumptions C132_delay.

Example C132_delay_hyps (a b : f64) :
  exists s, dl_history O64 Debug 2 3 [DProcess a; DSetMaxDelay 5; DTapIn b 4; DProcess b] s /\ delay_get_max_delay Debug s = Ok 5.
Proof.
  eexists. split.
  - split; [easy|]. split; [easy|]. split; [easy|]. split; [repeat constructor; easy|]. eexists. vm_compute. reflexivity.
  - vm_compute. reflexivity.
Qed.

(** C132, [LinearDelay] (delays in [f32], samples of any kind): the same after any session, whatever the delays asked for (negative,
    huge, infinite or NaN), with one exception: a [next_out] is not free (C25). *)

Theorem C132_linear :
  forall (T : Type) (cast : f32 -> T) (O : num_ops T) (p : profile) (d : f32) (m : Z) (ops : list (dl_op f32 T))
         (s : lin_delay f32 T) (mx : Z),
    let K := f32_ctl_gen cast in
    1 <= n_size_of O -> lin_history K O p d m ops s -> lin_get_max_delay p s = Ok mx ->
    let same := line_alike (lin_run K O p) s in
    (forall a b, same [DSetDelay a; DSetDelay b] [DSetDelay b])
    /\ (forall a b, is_usize a -> is_usize b -> a <> usize_max -> b <> usize_max ->
          same [DSetMaxDelay a; DSetMaxDelay b] [DSetMaxDelay (Z.max a b)])
    /\ same [DClear; DClear] [DClear]
    /\ (forall a, same [DClear; DSetDelay a] [DSetDelay a; DClear])
    /\ (forall a, is_usize a -> a <> usize_max -> same [DClear; DSetMaxDelay a] [DSetMaxDelay a; DClear])
    /\ (forall t v v', 0 <= t <= mx -> same [DTapIn v t; DTapIn v' t] [DTapIn v' t])
    /\ (forall t t' v v', 0 <= t <= mx -> 0 <= t' <= mx -> t <> t' -> same [DTapIn v t; DTapIn v' t'] [DTapIn v' t'; DTapIn v t])
    /\ (forall t v, 0 <= t <= mx -> lin_tap_out p s t = Ok v -> same [DTapIn v t] [])
    /\ same [DLastOut] [] /\ same [DGetDelay] [] /\ same [DGetMaxDelay] []
    /\ (forall t, 0 <= t <= mx -> same [DTapOut t] []).
Proof. exact C132_linear_thm. Qed.
Print Assumptions C132_linear.

Example C132_linear_hyps (a b : f32) :
  let ops := [DProcess a; DProcess b; DTapIn a 3; DSetDelay (fl32 5 (-1)); DProcess b; DGetDelay] ++ [DSetDelay (fl32 1 0)] in
  exists s, lin_history f32_ctl_f32 O32 Debug (fl32 3 (-1)) 7 ops s /\ lin_get_max_delay Debug s = Ok 7.
Proof.
  intros ops.
  destruct (wit_set (fl32 3 (-1)) (fl32 1 0) 7 [DProcess a; DProcess b; DTapIn a 3; DSetDelay (fl32 5 (-1)); DProcess b; DGetDelay])
    as [s [H [H1 _]]]; [easy|repeat constructor; easy|cbn; repeat split; discriminate|repeat constructor; discriminate|].
  exists s. split; [exact H|exact H1].
Qed.

(** C132: setting the delay to the value the line reports changes nothing, on a [Delay] and, in exact arithmetic, on a
    [LinearDelay], as long as the line was not grown since its delay was set. *)

Theorem C132_set_what_it_reports :
  (forall (T : Type) (O : num_ops T) (p : profile) (d m : Z) (ops : list (dl_op Z T)) (s : delay T),
    1 <= n_size_of O -> dl_history O p d m ops s -> timing_trusted ops ->
    line_alike (dl_run O p) s [DSetDelay (delay_get_delay s)] [])
  /\ (forall (p : profile) (d : R) (m : Z) (ops : list (dl_op R R)) (s : lin_delay R R),
    lin_history R_ctl R_ops p d m ops s -> lin_trusted ops ->
    line_alike (lin_run R_ctl R_ops p) s [DSetDelay (lin_get_delay s)] []).
Proof. exact C132_set_what_it_reports_thm. Qed.
Print Assumptions C132_set_what_it_reports.

Example C132_set_what_it_reports_hyps (a b : f64) :
  let ops := [DProcess a; DSetMaxDelay 5; DSetDelay 4; DProcess b] in
  (exists s, dl_history O64 Debug 2 3 ops s) /\ timing_trusted ops.
Proof.
  split; [|reflexivity]. eexists. split; [easy|]. split; [easy|]. split; [easy|]. split; [repeat constructor; easy|].
  eexists. vm_compute. reflexivity.
Qed.

(** C132, refuted for [LinearDelay<f32>]: with a delay of 0.1 (the [f32] nearest to it) on a line of up to 7 samples, after one
    sample of 1.0, [set_delay(get_delay())] changes what the next silent sample returns: the fractional part is computed from the
    write position and its rounding error moves with it. *)

Theorem C132_set_what_it_reports_refuted :
  ~ (forall (p : profile) (d : f32) (m : Z) (ops : list (dl_op f32 f32)) (s : lin_delay f32 f32),
       lin_history f32_ctl_f32 O32 p d m ops s -> lin_trusted ops -> unpeeked ops ->
       line_alike (lin_run f32_ctl_f32 O32 p) s [DSetDelay (lin_get_delay s)] []).
Proof. exact C132_set_what_it_reports_refuted_thm. Qed.
Print Assumptions C132_set_what_it_reports_refuted.
