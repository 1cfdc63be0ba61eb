(** Lemmas behind property C132.  The [@PROP] blocks are copied into [PropSetting.v]. *)
(*@PROP
(** Property C132: the last setting wins, and calls that do not interfere may be exchanged.

    Vocabulary ([SettingSpec]): [alike D a b]: after any history of the object, nothing that is called later returns another value
    whether [a] or [b] was called; [line_alike run s a b]: the same on the delay line [s], panics included; [dl_history],
    [lin_history]: [s] is the line after a session on a new one; [dl_run O p], [lin_run K O p]: running calls. *)
From Coq Require Import ZArith List Bool Lia Reals.
From Verif Require Import Base Num NumR NumF FloatSpec FilterM RbjM AnalysisM Device DelayM LinDelayM DelaySpec LinSpec DelayRun LinRun
  SettingSpec Witness LinWit SettingLemmas.
Import ListNotations.
Open Scope Z_scope.
@*)
From Coq Require Import ZArith List Bool Lia Reals.
From Flocq Require Import IEEE754.BinarySingleNaN.
From Verif Require Import Base Num NumR NumF FloatSpec FilterM RbjM AnalysisM Device DelayM LinDelayM DelaySpec LinSpec DelayRun LinRun
  BaseLemmas DelayProofs DelayFacts DelayLemmas LinProofs LinCtlR LinInv LinFacts LinLemmas LinLemmas2 SettingSpec Witness.
Import ListNotations.
Open Scope Z_scope.

(** ** Filters and detectors *)
Lemma alike_states {S K T} (D : device S K T) a b :
  (forall s, fst (d_run D s a) = fst (d_run D s b)) -> alike D a b.
Proof.
  intros H before rest. unfold returns. do 3 f_equal.
  assert (A : forall c, after D (before ++ c) = fst (d_run D (after D before) c)).
  { intros c. unfold after. generalize (d_new D). induction before as [|x before IH]; intros s; [reflexivity|].
    cbn [app d_run]. destruct (d_step D s x) as [s1 o]. specialize (IH s1).
    destruct (d_run D s1 (before ++ c)), (d_run D s1 before). exact IH. }
  rewrite !A. apply H.
Qed.

(*@PROP
(** C132: in every filter and detector of the library, clearing twice is clearing once, clearing commutes with every setter, and
    asking for the last output changes nothing. *)
@*)
Lemma C132_clear_and_set_thm :
  forall (T S K : Type) (O : num_ops T) (D : device S K T),
    library_device O D ->
    alike D [CClear; CClear] [CClear]
    /\ (forall k, alike D [CClear; CSet k] [CSet k; CClear])
    /\ alike D [CLastOut] [].
Proof.
  intros T S K O D HD.
  split; [|split; [intros k|]]; apply alike_states; intros s; destruct HD as [HD|HD]; destruct HD; try reflexivity;
    try (destruct k as [[[[? ?] ?] ?] ?]; reflexivity); try (destruct k as [[? ?] ?]; reflexivity);
    try (destruct k as [? ?]; reflexivity).
  all: cbn. all: try (destruct k; reflexivity).
  - unfold rbj_set_coefficients. destruct (rbj_coeffs O k0 k) as [[[[[? ?] ?] ?] ?]|]; destruct k0; reflexivity.
  - unfold leaky_set_alpha. destruct (_ && _); reflexivity.
  - destruct k; unfold peak_set_attack, peak_set_release; destruct (_ && _); reflexivity.
  - destruct k; unfold rms_set_attack, rms_set_release; destruct (_ && _); reflexivity.
Qed.

(*@PROP
Example C132_clear_and_set_hyps : library_device O32 (dev_rms O32) /\ library_device O64 (dev_one_zero O64).
Proof. split; [left; constructor|right; constructor]. Qed.

(** C132: of several settings in a row only the last one counts.  (The arguments of an RBJ setter are those of its own type.) *)
@*)
Lemma C132_last_setting_wins_thm :
  forall (T : Type) (O : num_ops T),
    (forall k k', alike (dev_one_pole O) [CSet k; CSet k'] [CSet k'])
    /\ (forall k k', alike (dev_one_zero O) [CSet k; CSet k'] [CSet k'])
    /\ (forall k k', alike (dev_two_pole O) [CSet k; CSet k'] [CSet k'])
    /\ (forall k k', alike (dev_two_zero O) [CSet k; CSet k'] [CSet k'])
    /\ (forall k k', alike (dev_biquad1 O) [CSet k; CSet k'] [CSet k'])
    /\ (forall k k', alike (dev_biquad2 O) [CSet k; CSet k'] [CSet k'])
    /\ (forall kind k k', rbj_coeffs O kind k' <> None -> alike (dev_rbj O kind) [CSet k; CSet k'] [CSet k']).
Proof.
  intros T O. do 2 (split; [intros [? ?] [? ?]; apply alike_states; reflexivity|]).
  do 2 (split; [intros [[? ?] ?] [[? ?] ?]; apply alike_states; reflexivity|]).
  do 2 (split; [intros [[[[? ?] ?] ?] ?] [[[[? ?] ?] ?] ?]; apply alike_states; reflexivity|]).
  intros kind k k' H. apply alike_states. intros s. cbn. unfold rbj_set_coefficients.
  destruct (rbj_coeffs O kind k') as [[[[[? ?] ?] ?] ?]|]; [|congruence].
  destruct (rbj_coeffs O kind k) as [[[[[? ?] ?] ?] ?]|]; destruct kind; reflexivity.
Qed.

(*@PROP
Example C132_last_setting_wins_hyps (s f q : f32) : rbj_coeffs O32 LowPass (RbjQ s f q) <> None.
Proof. discriminate. Qed.

(** C132: of several settings of the integrator or a detector the last valid one counts and the others might as well not have been
    made: an [alpha] outside [0, 1) and a time that is not positive and finite are no call at all.  Attack and release do not
    interfere. *)
@*)
Lemma C132_last_valid_setting_wins_thm :
  forall (T : Type) (O : num_ops T),
    (forall k k', valid_alpha O k' = true -> alike (dev_leaky O) [CSet k; CSet k'] [CSet k'])
    /\ (forall k, valid_alpha O k = false -> alike (dev_leaky O) [CSet k] [])
    /\ (forall (S : Type) (D : device S (det_set T) T), detector O D ->
          (forall a a', valid_time O a' = true -> alike D [CSet (SetAttack a); CSet (SetAttack a')] [CSet (SetAttack a')])
          /\ (forall r r', valid_time O r' = true -> alike D [CSet (SetRelease r); CSet (SetRelease r')] [CSet (SetRelease r')])
          /\ (forall l, valid_time O l = false -> alike D [CSet (SetAttack l)] [] /\ alike D [CSet (SetRelease l)] [])
          /\ (forall a r, alike D [CSet (SetAttack a); CSet (SetRelease r)] [CSet (SetRelease r); CSet (SetAttack a)])).
Proof.
  intros T O. split; [|split].
  - intros k k' H. apply alike_states. intros s. cbn. unfold leaky_set_alpha. unfold valid_alpha in H. rewrite H.
    destruct (n_le O (n_zero O) k && _); reflexivity.
  - intros k H. apply alike_states. intros s. cbn. unfold leaky_set_alpha. unfold valid_alpha in H. rewrite H. reflexivity.
  - intros S D HD. unfold valid_time. destruct HD; (split; [|split; [|split]]).
    all: try (intros l H; split; apply alike_states; intros s; cbn;
      unfold peak_set_attack, peak_set_release, rms_set_attack, rms_set_release; rewrite H; reflexivity).
    all: intros a b; try intros H; apply alike_states; intros s; cbn;
      unfold peak_set_attack, peak_set_release, rms_set_attack, rms_set_release; try rewrite H;
      repeat destruct (n_lt O _ _ && n_is_finite O _); reflexivity.
Qed.

(*@PROP
Example C132_last_valid_setting_wins_hyps :
  valid_alpha O32 (fl32 1 (-1)) = true /\ valid_alpha O32 (fl32 1 0) = false
  /\ valid_time O32 (fl32 441 0) = true /\ valid_time O32 (fl32 (-1) 0) = false /\ detector O32 (dev_rms O32).
Proof. repeat split; try reflexivity. constructor. Qed.
@*)

(** ** Delay lines *)
Lemma line_states {S C T} (run : S -> list (dl_op C T) -> outcome (S * list (obs C T))) s a b :
  (let* (s1, _) := run s a in Ok s1) = (let* (s1, _) := run s b in Ok s1) -> line_alike run s a b.
Proof.
  unfold line_alike, seen_after. intros H rest.
  destruct (run s a) as [[sa oa]| |], (run s b) as [[sb ob]| |]; cbn [bind] in *; congruence.
Qed.

Lemma list_set_twice {T} (v : list T) : forall i x y, list_set (list_set v i x) i y = list_set v i y.
Proof. induction v as [|a v IH]; intros i x y; [reflexivity|]. destruct i; cbn [list_set]; [reflexivity|]. rewrite IH. reflexivity. Qed.
Lemma list_set_swap {T} (v : list T) : forall i j x y, i <> j -> list_set (list_set v i x) j y = list_set (list_set v j y) i x.
Proof.
  induction v as [|a v IH]; intros i j x y H; [reflexivity|]. destruct i, j; cbn [list_set]; try reflexivity; [congruence|].
  rewrite IH by congruence. reflexivity.
Qed.
Lemma list_set_own {T} (v : list T) : forall i d, list_set v i (nth i v d) = v.
Proof.
  induction v as [|a v IH]; intros i d; [reflexivity|]. destruct i; cbn [list_set nth]; [reflexivity|]. rewrite IH. reflexivity.
Qed.

Lemma map_rep {A B} (f : A -> B) x n : map f (repeat x n) = repeat (f x) n.
Proof. induction n; cbn; congruence. Qed.

Lemma alloc_mono size a b : 1 <= size -> 0 <= a <= b -> alloc_ok size b = true -> alloc_ok size a = true.
Proof. unfold alloc_ok. rewrite !Z.leb_le. intros. nia. Qed.

Lemma resize_resize {T} size (v : list T) (zero : T) a b : 1 <= size -> vlen v <= a -> a < b ->
  (let* m := vec_resize size v (a + 1) zero in vec_resize size m (b + 1) zero) = vec_resize size v (b + 1) zero.
Proof.
  intros Hs Ha Hb. unfold vec_resize. assert (0 <= vlen v) by (unfold vlen; lia).
  replace (a + 1 <=? vlen v) with false by lia. replace (b + 1 <=? vlen v) with false by lia.
  destruct (alloc_ok size (a + 1)) eqn:A; cbn [bind].
  - assert (L : vlen (v ++ repeat zero (Z.to_nat (a + 1 - vlen v))) = a + 1).
    { unfold vlen in *. rewrite app_length, repeat_length. lia. }
    rewrite L. replace (b + 1 <=? a + 1) with false by lia. destruct (alloc_ok size (b + 1)); [|reflexivity].
    rewrite <- app_assoc, <- repeat_app. do 3 f_equal. lia.
  - destruct (alloc_ok size (b + 1)) eqn:B; [|reflexivity].
    rewrite (alloc_mono size (a + 1) (b + 1)) in A by (lia || assumption). discriminate.
Qed.

Section Grow.
  Context {T St : Type} (size : Z) (zero : T) (mem : St -> list T) (put : St -> list T -> St) (p : profile).
  Hypothesis Hsize : 1 <= size.
  Hypothesis put_put : forall s m m', put (put s m) m' = put s m'.
  Hypothesis mem_put : forall s m, mem (put s m) = m.
  Let grow (s : St) (d : Z) : outcome St :=
    if d <? vlen (mem s) then Ok s
    else let* n := uadd p d 1 in let* m := vec_resize size (mem s) n zero in Ok (put s m).

  Lemma grow_grow s a b : is_usize a -> is_usize b -> a <> usize_max -> b <> usize_max ->
    (let* s1 := grow s a in grow s1 b) = grow s (Z.max a b).
  Proof using Hsize put_put mem_put.
    intros Ha Hb Na Nb. unfold grow.
    assert (U : forall d, is_usize d -> d <> usize_max -> uadd p d 1 = Ok (d + 1)).
    { intros d Hd Nd. unfold uadd. apply chk_usize_ok. unfold is_usize, usize_max in *. lia. }
    destruct (Z.ltb_spec a (vlen (mem s))); cbn [bind].
    - destruct (Z.ltb_spec b (vlen (mem s))).
      + replace (Z.max a b <? vlen (mem s)) with true by lia. reflexivity.
      + replace (Z.max a b) with b by lia. replace (b <? vlen (mem s)) with false by lia. reflexivity.
    - rewrite (U a Ha Na). cbn [bind]. replace (Z.max a b <? vlen (mem s)) with false by lia.
      destruct (Z.leb_spec b a).
      + replace (Z.max a b) with a by lia. rewrite (U a Ha Na). cbn [bind].
        unfold vec_resize. replace (a + 1 <=? vlen (mem s)) with false by lia.
        destruct (alloc_ok size (a + 1)); cbn [bind]; [|reflexivity]. rewrite mem_put.
        replace (b <? vlen (mem s ++ repeat zero (Z.to_nat (a + 1 - vlen (mem s))))) with true; [reflexivity|].
        symmetry. apply Z.ltb_lt. unfold vlen in *. rewrite app_length, repeat_length. lia.
      + replace (Z.max a b) with b by lia. rewrite (U b Hb Nb). cbn [bind].
        assert (R := resize_resize size (mem s) zero a b Hsize ltac:(lia) ltac:(lia)). rewrite <- R.
        destruct (vec_resize size (mem s) (a + 1) zero) as [m| |] eqn:E; cbn [bind]; try reflexivity.
        rewrite mem_put. replace (b <? vlen m) with false.
        * cbn [bind]. destruct (vec_resize size m (b + 1) zero); cbn [bind]; [|reflexivity|reflexivity]. rewrite put_put. reflexivity.
        * symmetry. apply Z.ltb_ge. unfold vec_resize in E. replace (a + 1 <=? vlen (mem s)) with false in E by lia.
          destruct (alloc_ok size (a + 1)); [|discriminate]. injection E as <-. unfold vlen in *. rewrite app_length, repeat_length. lia.
  Qed.
End Grow.

Lemma slot_inj len w t t' : (w < len)%nat -> (t < len)%nat -> (t' < len)%nat -> slot_of len w t = slot_of len w t' -> t = t'.
Proof. unfold slot_of. intros. destruct (Nat.ltb_spec t w), (Nat.ltb_spec t' w); lia. Qed.
Lemma slot_lt len w t : (w < len)%nat -> (t < len)%nat -> (slot_of len w t < len)%nat.
Proof. unfold slot_of. intros. destruct (Nat.ltb_spec t w); lia. Qed.

(*@PROP
(** C132, [Delay], after any session: of several delays in a row only the last counts; of several maximum lengths the largest; of
    several values tapped in at one place the last; taps at different places, and [clear] with any setting, may be exchanged;
    writing back what a tap shows, and every query, is no call at all.  The line returns the same and panics on the same calls. *)
@*)
Lemma C132_delay_thm :
  forall (T : Type) (O : num_ops T) (p : profile) (d m : Z) (ops : list (dl_op Z T)) (s : delay T) (mx : Z),
    1 <= n_size_of O -> dl_history O p d m ops s -> delay_get_max_delay p s = Ok mx ->
    let same := line_alike (dl_run O p) s in
    (forall a b, is_usize a -> is_usize b -> same [DSetDelay a; DSetDelay b] [DSetDelay b])
    /\ (forall a b, is_usize a -> is_usize b -> a <> usize_max -> b <> usize_max ->
          same [DSetMaxDelay a; DSetMaxDelay b] [DSetMaxDelay (Z.max a b)])
    /\ same [DClear; DClear] [DClear]
    /\ (forall a, is_usize a -> same [DClear; DSetDelay a] [DSetDelay a; DClear])
    /\ (forall a, is_usize a -> a <> usize_max -> same [DClear; DSetMaxDelay a] [DSetMaxDelay a; DClear])
    /\ (forall t v v', 0 <= t <= mx -> same [DTapIn v t; DTapIn v' t] [DTapIn v' t])
    /\ (forall t t' v v', 0 <= t <= mx -> 0 <= t' <= mx -> t <> t' -> same [DTapIn v t; DTapIn v' t'] [DTapIn v' t'; DTapIn v t])
    /\ (forall t v, 0 <= t <= mx -> delay_tap_out p s t = Ok v -> same [DTapIn v t] [])
    /\ same [DNextOut] [] /\ same [DLastOut] [] /\ same [DGetDelay] [] /\ same [DGetMaxDelay] []
    /\ (forall t, 0 <= t <= mx -> same [DTapOut t] []).
Proof.
  intros T O p d m ops s mx Hs Hh Hmx same.
  assert (Hi : dl_inv O s) by apply (history_sane O p Hs d m ops s Hh).
  assert (ML := max_slots_lt O Hs). assert (Hi' := Hi). destruct Hi' as [HL HW HR HD].
  assert (HMX : vlen (dl_memory s) = mx + 1).
  { unfold delay_get_max_delay, usub in Hmx. rewrite chk_usize_ok in Hmx by (unfold two63, two64 in *; lia). injection Hmx as <-. lia. }
  assert (TI : forall (s' : delay T) t, vlen (dl_memory s') = vlen (dl_memory s) -> dl_write s' = dl_write s -> 0 <= t <= mx ->
     tap_index p (dl_write s') (vlen (dl_memory s')) t
     = Ok (Z.of_nat (slot_of (length (dl_memory s)) (Z.to_nat (dl_write s)) (Z.to_nat t)))
     /\ (slot_of (length (dl_memory s)) (Z.to_nat (dl_write s)) (Z.to_nat t) < length (dl_memory s))%nat).
  { intros s' t E1 E2 Ht. rewrite E1, E2, tap_index_ok by lia. unfold vlen in *. rewrite Nat2Z.id. split; [reflexivity|].
    apply slot_lt; lia. }
  assert (TapIn : forall (s' : delay T) t v, vlen (dl_memory s') = vlen (dl_memory s) -> dl_write s' = dl_write s -> 0 <= t <= mx ->
     delay_tap_in p s' v t = Ok (MkDelay (list_set (dl_memory s') (slot_of (length (dl_memory s)) (Z.to_nat (dl_write s)) (Z.to_nat t)) v)
                                         (dl_output s') (dl_read s') (dl_write s') (dl_delay s'))).
  { intros s' t v E1 E2 Ht. unfold delay_tap_in. destruct (TI s' t E1 E2 Ht) as [-> Hlt]. cbn [bind].
    rewrite vset_ok by (unfold vlen in *; lia). cbn [bind]. rewrite Nat2Z.id. reflexivity. }
  unfold same. repeat match goal with |- _ /\ _ => split end.
  - intros a b Ha Hb. apply line_states. cbn [dl_run dl_step]. unfold delay_set_delay.
    destruct (refine_set_delay O p Hs s a Hi Ha) as [sa [Ea _]]. destruct (refine_set_delay O p Hs s b Hi Hb) as [sb [Eb _]].
    unfold delay_set_delay in Ea, Eb. rewrite Ea, Eb. cbn [bind].
    apply bind_Ok in Ea. destruct Ea as [n [En Ea]]. apply bind_Ok in Ea. destruct Ea as [r [Er Ea]]. injection Ea as <-.
    cbn [dl_memory dl_write dl_output]. rewrite Eb. reflexivity.
  - intros a b Ha Hb Na Nb. apply line_states. cbn [dl_run dl_step].
    assert (G := grow_grow (n_size_of O) (n_zero O) (@dl_memory T)
       (fun s m => MkDelay m (dl_output s) (dl_read s) (dl_write s) (dl_delay s)) p Hs ltac:(reflexivity) ltac:(reflexivity) s a b Ha Hb Na Nb).
    cbv beta in G. unfold delay_set_max_delay.
    destruct (if a <? vlen (dl_memory s) then _ else _) as [s1| |]; cbn [bind] in *; [|rewrite <- G; reflexivity|rewrite <- G; reflexivity].
    rewrite <- G. destruct (if b <? vlen (dl_memory s1) then _ else _); reflexivity.
  - apply line_states. cbn [dl_run dl_step bind]. unfold delay_clear. cbn [dl_memory dl_read dl_write dl_delay]. rewrite map_map. reflexivity.
  - intros a Ha. apply line_states. cbn [dl_run dl_step]. unfold delay_set_delay, delay_clear.
    cbn [bind dl_memory dl_read dl_write dl_delay dl_output]. unfold vlen. rewrite map_length.
    destruct (usub p _ 1); cbn [bind]; try reflexivity.
    destruct (if _ <=? dl_write s then _ else _); reflexivity.
  - intros a Ha Na. apply line_states. cbn [dl_run dl_step]. unfold delay_set_max_delay, delay_clear.
    cbn [bind dl_memory dl_read dl_write dl_delay dl_output]. unfold vlen. rewrite map_length.
    destruct (a <? _) eqn:E; cbn [bind]; [reflexivity|]. unfold uadd. rewrite chk_usize_ok by (unfold is_usize, usize_max in *; lia). cbn [bind].
    unfold vec_resize, vlen. rewrite map_length. destruct (a + 1 <=? _) eqn:E2; [lia|].
    destruct (alloc_ok _ _); cbn [bind dl_memory dl_read dl_write dl_delay dl_output]; [|reflexivity].
    rewrite map_app. do 5 f_equal. rewrite map_rep. reflexivity.
  - intros t v v' Ht. apply line_states. cbn [dl_run dl_step]. rewrite !TapIn by (reflexivity || assumption). cbn [bind].
    rewrite TapIn; [|unfold vlen; cbn [dl_memory]; rewrite list_set_length; reflexivity|reflexivity|assumption]. cbn [bind dl_memory dl_output dl_read dl_write dl_delay].
    rewrite list_set_twice. reflexivity.
  - intros t t' v v' Ht Ht' Hne. apply line_states. cbn [dl_run dl_step]. rewrite !TapIn by (reflexivity || assumption). cbn [bind].
    rewrite !TapIn; try assumption; try reflexivity; try (unfold vlen; cbn [dl_memory]; rewrite list_set_length; reflexivity).
    cbn [bind dl_memory dl_output dl_read dl_write dl_delay]. rewrite list_set_swap; [reflexivity|].
    intros E. apply slot_inj in E; unfold vlen in *; lia.
  - intros t v Ht E. apply line_states. cbn [dl_run dl_step]. rewrite TapIn by (reflexivity || assumption). cbn [bind].
    unfold delay_tap_out in E. destruct (TI s t eq_refl eq_refl Ht) as [E2 Hlt]. rewrite E2 in E. cbn [bind] in E.
    rewrite (vget_nth _ _ (n_zero O)) in E by (unfold vlen; lia). injection E as <-. rewrite Nat2Z.id, list_set_own. destruct s; reflexivity.
  - apply line_states. cbn [dl_run dl_step]. rewrite (refine_next O s Hi). reflexivity.
  - apply line_states. reflexivity.
  - apply line_states. reflexivity.
  - apply line_states. cbn [dl_run dl_step]. rewrite Hmx. reflexivity.
  - intros t Ht. apply line_states. cbn [dl_run dl_step]. unfold delay_tap_out. destruct (TI s t eq_refl eq_refl Ht) as [-> Hlt]. cbn [bind].
    rewrite (vget_nth _ _ (n_zero O)) by (unfold vlen; lia). reflexivity.
Qed.

(*@PROP
Example C132_delay_hyps (a b : f64) :
  exists s, dl_history O64 Debug 2 3 [DProcess a; DSetMaxDelay 5; DTapIn b 4; DProcess b] s /\ delay_get_max_delay Debug s = Ok 5.
Proof.
  eexists. split.
  - split; [easy|]. split; [easy|]. split; [easy|]. split; [repeat constructor; easy|]. eexists. vm_compute. reflexivity.
  - vm_compute. reflexivity.
Qed.
@*)

(*@PROP
(** C132, [LinearDelay] (delays in [f32], samples of any kind): the same after any session, whatever the delays asked for (negative,
    huge, infinite or NaN), with one exception: a [next_out] is not free (C25). *)
@*)
Lemma C132_linear_thm :
  forall (T : Type) (cast : f32 -> T) (O : num_ops T) (p : profile) (d : f32) (m : Z) (ops : list (dl_op f32 T))
         (s : lin_delay f32 T) (mx : Z),
    let K := f32_ctl_gen cast in
    1 <= n_size_of O -> lin_history K O p d m ops s -> lin_get_max_delay p s = Ok mx ->
    let same := line_alike (lin_run K O p) s in
    (forall a b, same [DSetDelay a; DSetDelay b] [DSetDelay b])
    /\ (forall a b, is_usize a -> is_usize b -> a <> usize_max -> b <> usize_max ->
          same [DSetMaxDelay a; DSetMaxDelay b] [DSetMaxDelay (Z.max a b)])
    /\ same [DClear; DClear] [DClear]
    /\ (forall a, same [DClear; DSetDelay a] [DSetDelay a; DClear])
    /\ (forall a, is_usize a -> a <> usize_max -> same [DClear; DSetMaxDelay a] [DSetMaxDelay a; DClear])
    /\ (forall t v v', 0 <= t <= mx -> same [DTapIn v t; DTapIn v' t] [DTapIn v' t])
    /\ (forall t t' v v', 0 <= t <= mx -> 0 <= t' <= mx -> t <> t' -> same [DTapIn v t; DTapIn v' t'] [DTapIn v' t'; DTapIn v t])
    /\ (forall t v, 0 <= t <= mx -> lin_tap_out p s t = Ok v -> same [DTapIn v t] [])
    /\ same [DLastOut] [] /\ same [DGetDelay] [] /\ same [DGetMaxDelay] []
    /\ (forall t, 0 <= t <= mx -> same [DTapOut t] []).
Proof.
  intros T cast O p d m ops s mx K Hs Hh Hmx same.
  assert (Hi : winv O s) by apply (history_winv K O p Hs d m ops s Hh).
  assert (ML := max_slots_lt O Hs). assert (Hi' := Hi). destruct Hi' as [HL HW].
  assert (HMX : vlen (ld_memory s) = mx + 1).
  { unfold lin_get_max_delay, usub in Hmx. rewrite chk_usize_ok in Hmx by (unfold two63, two64 in *; lia). injection Hmx as <-. lia. }
  assert (SD : forall a, exists sa, lin_set_delay K O p s a = Ok sa).
  { intros a. destruct (C19_set_delay_terminates_thm T cast O p s a) as [sa Ea]; [unfold two63, two64 in *; lia|lia|]. exists sa. apply (Ea 62%nat). }
  assert (TI : forall (s' : lin_delay f32 T) t, vlen (ld_memory s') = vlen (ld_memory s) -> ld_write s' = ld_write s -> 0 <= t <= mx ->
     tap_index p (ld_write s') (vlen (ld_memory s')) t
     = Ok (Z.of_nat (slot_of (length (ld_memory s)) (Z.to_nat (ld_write s)) (Z.to_nat t)))
     /\ (slot_of (length (ld_memory s)) (Z.to_nat (ld_write s)) (Z.to_nat t) < length (ld_memory s))%nat).
  { intros s' t E1 E2 Ht. rewrite E1, E2, tap_index_ok by lia. unfold vlen in *. rewrite Nat2Z.id. split; [reflexivity|].
    apply slot_lt; lia. }
  assert (TapIn : forall (s' : lin_delay f32 T) t v, vlen (ld_memory s') = vlen (ld_memory s) -> ld_write s' = ld_write s -> 0 <= t <= mx ->
     lin_tap_in p s' v t = Ok (MkLin (list_set (ld_memory s') (slot_of (length (ld_memory s)) (Z.to_nat (ld_write s)) (Z.to_nat t)) v)
                                     (ld_output s') (ld_read s') (ld_write s') (ld_delay s') (ld_do_next_out s') (ld_next_out s')
                                     (ld_alpha s') (ld_om_alpha s'))).
  { intros s' t v E1 E2 Ht. unfold lin_tap_in. destruct (TI s' t E1 E2 Ht) as [-> Hlt]. cbn [bind].
    rewrite vset_ok by (unfold vlen in *; lia). cbn [bind]. rewrite Nat2Z.id. reflexivity. }
  unfold same. repeat match goal with |- _ /\ _ => split end.
  - intros a b. apply line_states. cbn [lin_run lin_step].
    destruct (SD a) as [sa Ea]. destruct (SD b) as [sb Eb]. rewrite Ea, Eb. cbn [bind].
    unfold lin_set_delay, lin_set_delay_fuel in Ea, Eb |- *.
    apply bind_Ok in Ea. destruct Ea as [n [En Ea]]. apply bind_Ok in Ea. destruct Ea as [r [Er Ea]]. injection Ea as <-.
    cbn [ld_memory ld_write ld_output ld_do_next_out ld_next_out]. rewrite Eb. reflexivity.
  - intros a b Ha Hb Na Nb. apply line_states. cbn [lin_run lin_step].
    assert (G := grow_grow (n_size_of O) (n_zero O) (@ld_memory f32 T)
       (fun s m => MkLin m (ld_output s) (ld_read s) (ld_write s) (ld_delay s) (ld_do_next_out s) (ld_next_out s) (ld_alpha s) (ld_om_alpha s))
       p Hs ltac:(reflexivity) ltac:(reflexivity) s a b Ha Hb Na Nb).
    cbv beta in G. unfold lin_set_max_delay.
    destruct (if a <? vlen (ld_memory s) then _ else _) as [s1| |]; cbn [bind] in *; [|rewrite <- G; reflexivity|rewrite <- G; reflexivity].
    rewrite <- G. destruct (if b <? vlen (ld_memory s1) then _ else _); reflexivity.
  - apply line_states. cbn [lin_run lin_step bind]. unfold lin_clear.
    cbn [ld_memory ld_read ld_write ld_delay ld_do_next_out ld_next_out ld_alpha ld_om_alpha]. rewrite map_map. reflexivity.
  - intros a. apply line_states. cbn [lin_run lin_step]. unfold lin_set_delay, lin_set_delay_fuel, lin_clear.
    cbn [bind ld_memory ld_read ld_write ld_delay ld_output ld_do_next_out ld_next_out ld_alpha ld_om_alpha]. unfold vlen. rewrite map_length.
    destruct (usub p _ 1); cbn [bind]; try reflexivity. destruct (norm_loop _ _ _ _); reflexivity.
  - intros a Ha Na. apply line_states. cbn [lin_run lin_step]. unfold lin_set_max_delay, lin_clear.
    cbn [bind ld_memory ld_read ld_write ld_delay ld_output ld_do_next_out ld_next_out ld_alpha ld_om_alpha]. unfold vlen. rewrite map_length.
    destruct (a <? _) eqn:E; cbn [bind]; [reflexivity|]. unfold uadd. rewrite chk_usize_ok by (unfold is_usize, usize_max in *; lia). cbn [bind].
    unfold vec_resize, vlen. rewrite map_length. destruct (a + 1 <=? _) eqn:E2; [lia|].
    destruct (alloc_ok _ _); cbn [bind ld_memory ld_read ld_write ld_delay ld_output ld_do_next_out ld_next_out ld_alpha ld_om_alpha]; [|reflexivity].
    rewrite map_app, map_rep. reflexivity.
  - intros t v v' Ht. apply line_states. cbn [lin_run lin_step]. rewrite !TapIn by (reflexivity || assumption). cbn [bind].
    rewrite TapIn; [|unfold vlen; cbn [ld_memory]; rewrite list_set_length; reflexivity|reflexivity|assumption].
    cbn [bind ld_memory ld_read ld_write ld_delay ld_output ld_do_next_out ld_next_out ld_alpha ld_om_alpha].
    rewrite list_set_twice. reflexivity.
  - intros t t' v v' Ht Ht' Hne. apply line_states. cbn [lin_run lin_step]. rewrite !TapIn by (reflexivity || assumption). cbn [bind].
    rewrite !TapIn; try assumption; try reflexivity; try (unfold vlen; cbn [ld_memory]; rewrite list_set_length; reflexivity).
    cbn [bind ld_memory ld_read ld_write ld_delay ld_output ld_do_next_out ld_next_out ld_alpha ld_om_alpha]. rewrite list_set_swap; [reflexivity|].
    intros E. apply slot_inj in E; unfold vlen in *; lia.
  - intros t v Ht E. apply line_states. cbn [lin_run lin_step]. rewrite TapIn by (reflexivity || assumption). cbn [bind].
    unfold lin_tap_out in E. destruct (TI s t eq_refl eq_refl Ht) as [E2 Hlt]. rewrite E2 in E. cbn [bind] in E.
    rewrite (vget_nth _ _ (n_zero O)) in E by (unfold vlen; lia). injection E as <-. rewrite Nat2Z.id, list_set_own. destruct s; reflexivity.
  - apply line_states. reflexivity.
  - apply line_states. reflexivity.
  - apply line_states. cbn [lin_run lin_step]. rewrite Hmx. reflexivity.
  - intros t Ht. apply line_states. cbn [lin_run lin_step]. unfold lin_tap_out. destruct (TI s t eq_refl eq_refl Ht) as [-> Hlt]. cbn [bind].
    rewrite (vget_nth _ _ (n_zero O)) by (unfold vlen; lia). reflexivity.
Qed.

(*@PROP
Example C132_linear_hyps (a b : f32) :
  let ops := [DProcess a; DProcess b; DTapIn a 3; DSetDelay (fl32 5 (-1)); DProcess b; DGetDelay] ++ [DSetDelay (fl32 1 0)] in
  exists s, lin_history f32_ctl_f32 O32 Debug (fl32 3 (-1)) 7 ops s /\ lin_get_max_delay Debug s = Ok 7.
Proof.
  intros ops.
  destruct (wit_set (fl32 3 (-1)) (fl32 1 0) 7 [DProcess a; DProcess b; DTapIn a 3; DSetDelay (fl32 5 (-1)); DProcess b; DGetDelay])
    as [s [H [H1 _]]]; [easy|repeat constructor; easy|cbn; repeat split; discriminate|repeat constructor; discriminate|].
  exists s. split; [exact H|exact H1].
Qed.
@*)

(*@PROP
(** C132: setting the delay to the value the line reports changes nothing, on a [Delay] and, in exact arithmetic, on a
    [LinearDelay], as long as the line was not grown since its delay was set. *)
@*)
Lemma C132_set_what_it_reports_thm :
  (forall (T : Type) (O : num_ops T) (p : profile) (d m : Z) (ops : list (dl_op Z T)) (s : delay T),
    1 <= n_size_of O -> dl_history O p d m ops s -> timing_trusted ops ->
    line_alike (dl_run O p) s [DSetDelay (delay_get_delay s)] [])
  /\ (forall (p : profile) (d : R) (m : Z) (ops : list (dl_op R R)) (s : lin_delay R R),
    lin_history R_ctl R_ops p d m ops s -> lin_trusted ops ->
    line_alike (lin_run R_ctl R_ops p) s [DSetDelay (lin_get_delay s)] []).
Proof.
  split.
  - intros T O p d m ops s Hs Hh Ht. destruct (history_trusted O p Hs d m ops s Hh Ht) as [Hi Hlag].
    assert (ML := max_slots_lt O Hs). assert (Hi' := Hi). destruct Hi' as [HL HW HR HD].
    apply line_states. cbn [dl_run dl_step]. unfold delay_set_delay, delay_get_delay.
    unfold usub at 1. rewrite chk_usize_ok by (unfold two63, two64 in *; lia). cbn [bind].
    replace (vlen (dl_memory s) - 1 <? dl_delay s) with false by lia. unfold dl_lag, lag_of in Hlag.
    destruct (Z.leb_spec (dl_read s) (dl_write s)).
    + replace (dl_delay s <=? dl_write s) with true by lia. unfold usub. rewrite chk_usize_ok by (unfold two63, two64 in *; lia). cbn [bind].
      replace (dl_write s - dl_delay s) with (dl_read s) by lia. destruct s; reflexivity.
    + replace (dl_delay s <=? dl_write s) with false by lia. unfold uadd. rewrite chk_usize_ok by (unfold two63, two64 in *; lia). cbn [bind].
      unfold usub. rewrite chk_usize_ok by (unfold two63, two64 in *; lia). cbn [bind].
      replace (vlen (dl_memory s) + dl_write s - dl_delay s) with (dl_read s) by lia. destruct s; reflexivity.
  - intros p d m ops s Hh Ht.
    assert (Hw := history_winv R_ctl R_ops p R_size d m ops s Hh). assert (Hw' := Hw). destruct Hw' as [HL HW].
    assert (ML := max_slots_lt R_ops R_size).
    assert (Hmx : lin_get_max_delay p s = Ok (vlen (ld_memory s) - 1)).
    { unfold lin_get_max_delay, usub. apply chk_usize_ok. unfold two63, two64 in *; lia. }
    destruct (history_state_R p d m ops s _ Hh Hmx Ht) as [Hi [_ [Hc [Hlag [Ha [Ho _]]]]]]. unfold lin_get_delay in *.
    apply line_states. cbn [lin_run lin_step].
    rewrite lin_set_delay_ctl by (unfold two63, two64 in *; lia).
    destruct (ctl_R (vlen (ld_memory s)) (ld_write s) (ld_delay s)) as [r [E [Hr Hl]]]; [unfold two63, two64 in *; lia|lia|].
    rewrite (clipR_id (ld_delay s)) in E, Hl by (rewrite minus_IZR in Hc; exact Hc).
    rewrite E. cbn [bind c_cast R_ctl].
    replace r with (ld_read s).
    + cbn [n_sub n_one R_ops]. rewrite <- Ho, <- Ha. destruct s; reflexivity.
    + destruct Hi as [_ _ HR _]. cbn [dl_of dl_read dl_memory] in HR. unfold llag, lag_of in *. destruct (Z.leb_spec (ld_read s) (ld_write s)), (Z.leb_spec r (ld_write s)); lia.
Qed.

(*@PROP
Example C132_set_what_it_reports_hyps (a b : f64) :
  let ops := [DProcess a; DSetMaxDelay 5; DSetDelay 4; DProcess b] in
  (exists s, dl_history O64 Debug 2 3 ops s) /\ timing_trusted ops.
Proof.
  split; [|reflexivity]. eexists. split; [easy|]. split; [easy|]. split; [easy|]. split; [repeat constructor; easy|].
  eexists. vm_compute. reflexivity.
Qed.
@*)

(*@PROP
(** C132, refuted for [LinearDelay<f32>]: with a delay of 0.1 (the [f32] nearest to it) on a line of up to 7 samples, after one
    sample of 1.0, [set_delay(get_delay())] changes what the next silent sample returns: the fractional part is computed from the
    write position and its rounding error moves with it. *)
@*)
Lemma C132_set_what_it_reports_refuted_thm :
  ~ (forall (p : profile) (d : f32) (m : Z) (ops : list (dl_op f32 f32)) (s : lin_delay f32 f32),
       lin_history f32_ctl_f32 O32 p d m ops s -> lin_trusted ops -> unpeeked ops ->
       line_alike (lin_run f32_ctl_f32 O32 p) s [DSetDelay (lin_get_delay s)] []).
Proof.
  intros H. assert (U : is_usize 7 /\ 7 <> usize_max) by (repeat split; easy). set (one := fl32 1 0). set (d := fl32 13421773 (-27)).
  set (after1 := lin_session f32_ctl_f32 O32 Debug d 7 [DProcess one]).
  set (look := fun o : outcome (list (obs f32 f32)) =>
    match o with Ok [OSample (B754_finite _ m e _)] => (Zpos m, e) | _ => (0, 0) end).
  assert (E : match after1 with
              | Ok (s, _) =>
                  let u := look (seen_after (lin_run f32_ctl_f32 O32 Debug) s [DSetDelay (lin_get_delay s)] [DProcess (fl32 0 0)]) in
                  let v := look (seen_after (lin_run f32_ctl_f32 O32 Debug) s [] [DProcess (fl32 0 0)]) in
                  (fst u =? fst v) && (snd u =? snd v)
              | _ => true end = false) by (vm_compute; reflexivity).
  destruct after1 as [[s os]| |] eqn:A; [|discriminate E|discriminate E].
  assert (Hh : lin_history f32_ctl_f32 O32 Debug d 7 [DProcess one] s).
  { split; [apply U|]. split; [apply U|]. split; [constructor; [split; [exact I|discriminate]|constructor]|]. exists os. exact A. }
  rewrite (H Debug d 7 [DProcess one] s Hh eq_refl eq_refl [DProcess (fl32 0 0)]) in E.
  cbv zeta in E. rewrite !Z.eqb_refl in E. discriminate.
Qed.
