(** Proofs of C95. *)
From Coq Require Import ZArith Reals List Bool Lra Lia.
From Flocq Require Import Core.Core IEEE754.BinarySingleNaN.
From Verif Require Import Base Num NumF FloatSpec FloatFacts Witness CrLibm FilterM RbjM AnalysisM Device AnaFacts PoisonSpec.
Import ListNotations.
Open Scope R_scope.

Record absorbs {T} (O : num_ops T) (V : float_view T) : Prop := {
  ab_add_l x y : fin V x = false -> fin V (n_add O x y) = false;
  ab_add_r x y : fin V y = false -> fin V (n_add O x y) = false;
  ab_sub_l x y : fin V x = false -> fin V (n_sub O x y) = false;
  ab_sub_r x y : fin V y = false -> fin V (n_sub O x y) = false;
  ab_mul_l x y : fin V x = false -> fin V (n_mul O x y) = false;
  ab_mul_r x y : fin V y = false -> fin V (n_mul O x y) = false;
  ab_div x y : fin V x = false -> fin V (n_div O x y) = false;
  ab_div_0 x y : fin V y = true /\ val V y = 0 -> fin V (n_div O x y) = false;
  ab_two_0 y : fin V y = true /\ val V y = 0 -> fin V (n_mul O (n_two O) y) = true /\ val V (n_mul O (n_two O) y) = 0;
  ab_abs x : fin V x = false -> fin V (n_abs O x) = false;
  ab_sqrt x : fin V x = false -> fin V (n_sqrt O x) = false
}.

Section Absorb.
  Context (prec emax : Z) {Hp : Prec_gt_0 prec} {Hm : Prec_lt_emax prec emax}.
  Notation F := (binary_float prec emax).
  Context (pim pie sz : Z) (lm : libm F) (nn : bool).
  Notation O := (ieee_ops prec emax pim pie sz lm nn).
  Notation V := (ieee_view prec emax).

  Lemma zero_form (y : F) : is_finite y = true /\ B2R y = 0 -> exists s, y = B754_zero s.
  Proof.
    intros [H1 H2]. destruct y as [s|s| |s m e He]; try discriminate; [exists s; reflexivity|].
    exfalso. cbn in H2. destruct s; apply (F2R_neq_0 radix2) in H2; try assumption; cbn; discriminate.
  Qed.

  Lemma ieee_absorbs : is_finite (n_two O) = true -> absorbs O V.
  Proof.
    intros F2. split; cbn [fin val ieee_view n_add n_sub n_mul n_div n_abs n_sqrt ieee_ops].
    - intros x y H. destruct x as [s|s| |s m e He]; try discriminate; destruct y as [t|t| |t m' e' He']; try reflexivity.
      unfold f_add; cbn. destruct (Bool.eqb s t); reflexivity.
    - intros x y H. destruct y as [t|t| |t m' e' He']; try discriminate; destruct x as [s|s| |s m e He]; try reflexivity.
      unfold f_add; cbn. destruct (Bool.eqb s t); reflexivity.
    - intros x y H. destruct x as [s|s| |s m e He]; try discriminate; destruct y as [t|t| |t m' e' He']; try reflexivity.
      unfold f_sub, Bminus; cbn. destruct (Bool.eqb s (negb t)); reflexivity.
    - intros x y H. destruct y as [t|t| |t m' e' He']; try discriminate; destruct x as [s|s| |s m e He]; try reflexivity.
      unfold f_sub, Bminus; cbn. destruct (Bool.eqb s (negb t)); reflexivity.
    - intros x y H. destruct x as [s|s| |s m e He]; try discriminate; destruct y as [t|t| |t m' e' He']; reflexivity.
    - intros x y H. destruct y as [t|t| |t m' e' He']; try discriminate; destruct x as [s|s| |s m e He]; reflexivity.
    - intros x y H. destruct x as [s|s| |s m e He]; try discriminate; destruct y as [t|t| |t m' e' He']; reflexivity.
    - intros x y H. destruct (zero_form y H) as [t ->]. destruct x as [s|s| |s m e He]; reflexivity.
    - intros y H. destruct (zero_form y H) as [t ->]. 
      assert (G : forall z : F, is_finite z = true -> is_finite (f_mul prec emax z (B754_zero t)) = true /\ B2R (f_mul prec emax z (B754_zero t)) = 0)
        by (intros [s|s| |s m e He] Hz; try discriminate; split; reflexivity).
      exact (G _ F2).
    - intros x H. rewrite is_finite_Babs. exact H.
    - intros x H. destruct x as [s|s| |s m e He]; try discriminate; [destruct s|]; reflexivity.
  Qed.
End Absorb.

Lemma ieee_absorbing T (O : num_ops T) V : ieee O V -> absorbs O V.
Proof. intros [lm b|lm b]; apply ieee_absorbs; vm_compute; reflexivity. Qed.

Section Poison.
  Context {T} (O : num_ops T) (V : float_view T) (A : absorbs O V).
  Notation bad x := (fin V x = false).

  (** A poisoned memory, per device. *)
  Definition poisoned {S K} (D : device S K T) (P : S -> Prop) : Prop :=
    (forall s x, P s -> P (fst (d_process D s x)) /\ bad (snd (d_process D s x)))
    /\ (forall s, P s -> bad (d_last_out D s)).
  Definition set_keeps {S K} (D : device S K T) (P : S -> Prop) : Prop := forall s k, P s -> P (d_set D s k).

  Lemma poisoned_run {S K} (D : device S K T) P : poisoned D P -> forall calls s, P s -> ~ In CClear calls ->
    (set_keeps D P \/ forall k, ~ In (CSet k) calls) ->
    none_finite V (map snd (snd (d_run D s calls))).
  Proof.
    intros [H1 H3] calls. induction calls as [|c calls IH]; intros s HP Hc Hs; [constructor|].
    assert (Hc' : ~ In CClear calls) by (intros Q; apply Hc; right; exact Q).
    assert (Hs' : set_keeps D P \/ forall k, ~ In (CSet k) calls).
    { destruct Hs as [Hs|Hs]; [left; exact Hs|right; intros k Q; apply (Hs k); right; exact Q]. }
    cbn [d_run]. destruct c as [x| |k|]; cbn [d_step].
    - destruct (d_process D s x) as [s' y] eqn:E. destruct (H1 s x HP) as [Q1 Q2]. rewrite E in Q1, Q2.
      specialize (IH s' Q1 Hc' Hs'). destruct (d_run D s' calls) as [s2 log]. cbn in *. constructor; assumption.
    - exfalso. apply Hc. left. reflexivity.
    - destruct Hs as [Hs|Hs]; [|exfalso; apply (Hs k); left; reflexivity].
      specialize (IH (d_set D s k) (Hs s k HP) Hc' Hs'). destruct (d_run D (d_set D s k) calls) as [s2 log].
      cbn in *. constructor; [exact I|exact IH].
    - specialize (IH s HP Hc' Hs'). destruct (d_run D s calls) as [s2 log]. cbn in *. constructor; [apply H3; exact HP|exact IH].
  Qed.

  Ltac go := repeat first [assumption | apply (ab_add_l _ _ A); solve [go] | apply (ab_add_r _ _ A); solve [go]
    | apply (ab_sub_l _ _ A); solve [go] | apply (ab_sub_r _ _ A); solve [go]
    | apply (ab_mul_l _ _ A); solve [go] | apply (ab_mul_r _ _ A); solve [go]
    | apply (ab_abs _ _ A); solve [go] | apply (ab_sqrt _ _ A); solve [go]].

  Definition caught {S K} (D : device S K T) (P : S -> Prop) : Prop :=
    forall s x, bad x -> P (fst (d_process D s x)) /\ bad (snd (d_process D s x)).
  Definition shown {S K} (D : device S K T) (P : S -> Prop) : Prop :=
    forall s x, bad (snd (d_process D s x)) -> P (fst (d_process D s x)).

  Definition P_b2 (s : biquad2 T) : Prop := bad (b2_z1 s) /\ bad (b2_output s).

  Lemma p_one_pole : let P := fun s => bad (op_y_z1 s) in
    poisoned (dev_one_pole O) P /\ set_keeps (dev_one_pole O) P /\ caught (dev_one_pole O) P /\ shown (dev_one_pole O) P.
  Proof.
    split; [split|split; [|split]]; [intros s x H|intros s H|intros s [b a] H|intros s x H|intros s x H]; cbn in *; try split; go.
  Qed.
  Lemma p_two_pole : let P := fun s => bad (tp_y_z1 s) in
    poisoned (dev_two_pole O) P /\ set_keeps (dev_two_pole O) P /\ caught (dev_two_pole O) P /\ shown (dev_two_pole O) P.
  Proof.
    split; [split|split; [|split]]; [intros s x H|intros s H|intros s [[b a] a'] H|intros s x H|intros s x H]; cbn in *; try split; go.
  Qed.
  Lemma p_biquad1 : let P := fun s => bad (b1_y_z1 s) in
    poisoned (dev_biquad1 O) P /\ set_keeps (dev_biquad1 O) P /\ caught (dev_biquad1 O) P /\ shown (dev_biquad1 O) P.
  Proof.
    split; [split|split; [|split]]; [intros s x H|intros s H|intros s [[[[b0 b1] b2] a] a'] H|intros s x H|intros s x H]; cbn in *; try split; go.
  Qed.
  Lemma p_biquad2 : 
    poisoned (dev_biquad2 O) P_b2 /\ set_keeps (dev_biquad2 O) P_b2 /\ caught (dev_biquad2 O) P_b2 /\ shown (dev_biquad2 O) P_b2.
  Proof.
    unfold P_b2. split; [split|split; [|split]]; [intros s x [H1 H2]|intros s [H1 H2]|intros s [[[[b0 b1] b2] a] a'] H|intros s x H|intros s x H]; cbn in *.
    - assert (Y : bad (n_add O (n_mul O (b2_b0 s) x) (b2_z1 s))) by go. split; [split; go|exact Y].
    - exact H2.
    - exact H.
    - assert (Y : bad (n_add O (n_mul O (b2_b0 s) x) (b2_z1 s))) by go. split; [split; go|exact Y].
    - split; go.
  Qed.
  Lemma p_rbj k : poisoned (dev_rbj O k) P_b2 /\ caught (dev_rbj O k) P_b2 /\ shown (dev_rbj O k) P_b2.
  Proof. destruct p_biquad2 as [H1 [_ [H2 H3]]]. split; [|split]; destruct k; assumption. Qed.
  Lemma p_leaky : let P := fun s => bad (lk_y_z1 s) in
    poisoned (dev_leaky O) P /\ set_keeps (dev_leaky O) P /\ caught (dev_leaky O) P /\ shown (dev_leaky O) P.
  Proof.
    split; [split|split; [|split]]; [intros s x H|intros s H|intros s a H|intros s x H|intros s x H]; cbn in *; try solve [try split; go].
    unfold leaky_set_alpha. destruct (_ && _); exact H.
  Qed.
  Lemma p_peak : let P := fun s => bad (pk_envelope s) in
    poisoned (dev_peak O) P /\ set_keeps (dev_peak O) P /\ caught (dev_peak O) P /\ shown (dev_peak O) P.
  Proof.
    split; [split|split; [|split]]; [intros s x H|intros s H|intros s [a|a] H|intros s x H|intros s x H]; cbn in *; try solve [try split; go].
    - unfold peak_set_attack. destruct (_ && _); exact H.
    - unfold peak_set_release. destruct (_ && _); exact H.
  Qed.
  Lemma p_rms : let P := fun s => bad (rm_envelope s) in
    poisoned (dev_rms O) P /\ set_keeps (dev_rms O) P /\ caught (dev_rms O) P.
  Proof.
    split; [split|split]; [intros s x H|intros s H|intros s [a|a] H|intros s x H]; cbn in *; try solve [try split; go].
    - unfold rms_set_attack. destruct (_ && _); exact H.
    - unfold rms_set_release. destruct (_ && _); exact H.
  Qed.

  Lemma rec_poison {S K} (D : device S K T) : recursive_device O D -> exists P, poisoned D P /\ caught D P.
  Proof.
    intros []; eexists; [destruct p_one_pole as [? [? [? ?]]]|destruct p_two_pole as [? [? [? ?]]]|destruct p_biquad1 as [? [? [? ?]]]
      |destruct p_biquad2 as [? [? [? ?]]]|destruct (p_rbj k) as [? [? ?]]|destruct p_leaky as [? [? [? ?]]]|destruct p_peak as [? [? [? ?]]]
      |destruct p_rms as [? [? ?]]]; split; eassumption.
  Qed.
  Lemma mem_poison {S K} (D : device S K T) : memory_device O D -> exists P, poisoned D P /\ set_keeps D P /\ caught D P.
  Proof.
    intros []; eexists; [destruct p_one_pole as [? [? [? ?]]]|destruct p_two_pole as [? [? [? ?]]]|destruct p_biquad1 as [? [? [? ?]]]
      |destruct p_biquad2 as [? [? [? ?]]]|destruct p_leaky as [? [? [? ?]]]|destruct p_peak as [? [? [? ?]]]
      |destruct p_rms as [? [? ?]]]; (split; [|split]); eassumption.
  Qed.
  Lemma fb_poison {S K} (D : device S K T) : feedback_device O D -> exists P, poisoned D P /\ shown D P.
  Proof.
    intros []; eexists; [destruct p_one_pole as [? [? [? ?]]]|destruct p_two_pole as [? [? [? ?]]]|destruct p_biquad1 as [? [? [? ?]]]
      |destruct p_biquad2 as [? [? [? ?]]]|destruct (p_rbj k) as [? [? ?]]|destruct p_leaky as [? [? [? ?]]]|destruct p_peak as [? [? [? ?]]]];
      split; eassumption.
  Qed.

  Lemma fir_caught {S K} (D : device S K T) s x : fir_device O D -> bad x -> bad (snd (d_process D s x)).
  Proof. intros HD H. revert s. destruct HD; intros s; cbn; go. Qed.

  (** Settings with a zero q or slope, or without a valid frequency, make [a2] invalid. *)
  Lemma bad_a2 k a c : zero_q V a \/ (trig_invalid O V /\ bad_frequency V a) -> rbj_coeffs O k a = Some c -> bad (snd c).
  Proof.
    intros H E.
    assert (Al : forall sr f q, zero_q V (RbjQ sr f q) \/ (trig_invalid O V /\ bad_frequency V (RbjQ sr f q)) ->
      bad (n_div O (n_sin O (n_div O (n_mul O (n_mul O (n_two O) (n_pi O)) f) sr)) (n_mul O (n_two O) q))).
    { intros sr f q [Z|[T1 [Z|Z]]].
      - apply (ab_div_0 _ _ A), (ab_two_0 _ _ A), Z.
      - apply (ab_div _ _ A). apply T1. apply (ab_div_0 _ _ A), Z.
      - apply (ab_div _ _ A). apply T1. apply (ab_div _ _ A). go. }
    assert (Sh : forall sr f g x t t2, zero_q V (RbjGain sr f g x) \/ (trig_invalid O V /\ bad_frequency V (RbjGain sr f g x)) ->
      bad (n_mul O (n_div O (n_sin O (n_div O (n_mul O (n_mul O (n_two O) (n_pi O)) f) sr)) (n_two O))
            (n_sqrt O (n_add O (n_mul O t (n_sub O (n_div O (n_one O) x) (n_one O))) t2)))).
    { intros sr f g x t t2 [Z|[T1 [Z|Z]]].
      - apply (ab_mul_r _ _ A), (ab_sqrt _ _ A), (ab_add_l _ _ A), (ab_mul_r _ _ A), (ab_sub_l _ _ A), (ab_div_0 _ _ A), Z.
      - apply (ab_mul_l _ _ A), (ab_div _ _ A). apply T1. apply (ab_div_0 _ _ A), Z.
      - apply (ab_mul_l _ _ A), (ab_div _ _ A). apply T1. apply (ab_div _ _ A). go. }
    destruct k, a as [sr f q|sr f g x]; try discriminate; injection E as <-;
      try (specialize (Al _ _ _ H)); try (specialize (Al sr f x H)); cbn; apply (ab_div _ _ A).
    all: try (apply (ab_sub_r _ _ A); exact Al).
    - apply (ab_sub_r _ _ A), (ab_div _ _ A). exact Al.
    - apply (ab_sub_r _ _ A), (ab_mul_r _ _ A). apply (Sh _ _ g). exact H.
    - apply (ab_sub_r _ _ A), (ab_mul_r _ _ A). apply (Sh _ _ g). exact H.
  Qed.

  Lemma bad_a2_third k a c s x1 x2 x3 : rbj_coeffs O k a = Some c -> bad (snd c) ->
    P_b2 (fst (d_process (dev_rbj O k) (fst (d_process (dev_rbj O k) (fst (d_process (dev_rbj O k) (d_set (dev_rbj O k) s a) x1)) x2)) x3)).
  Proof.
    intros E H. destruct c as [[[[b0 b1] b2] a1] a2]. cbn [snd] in H.
    assert (Es : exists z1 z2 o, d_set (dev_rbj O k) s a = Biquad2 z1 z2 o b0 b1 b2 a1 a2).
    { cbn. unfold rbj_set_coefficients. rewrite E. destruct k; cbn; repeat eexists. }
    destruct Es as [z1 [z2 [o ->]]].
    replace (d_process (dev_rbj O k)) with (biquad2_process O) by (destruct k; reflexivity).
    unfold biquad2_process, P_b2. cbn [fst snd b2_z1 b2_z2 b2_output b2_b0 b2_b1 b2_b2 b2_a1 b2_a2].
    set (y1 := n_add O (n_mul O b0 x1) z1).
    assert (Z2 : bad (n_sub O (n_mul O b2 x1) (n_mul O a2 y1))) by go.
    set (w2 := n_sub O (n_mul O b2 x1) (n_mul O a2 y1)) in *.
    set (w1 := n_sub O (n_add O (n_mul O b1 x1) z2) (n_mul O a1 y1)).
    set (y2 := n_add O (n_mul O b0 x2) w1).
    assert (Z1 : bad (n_sub O (n_add O (n_mul O b1 x2) w2) (n_mul O a1 y2))) by go.
    set (v1 := n_sub O (n_add O (n_mul O b1 x2) w2) (n_mul O a1 y2)) in *.
    assert (Y3 : bad (n_add O (n_mul O b0 x3) v1)) by go.
    split; go.
  Qed.
End Poison.

(*@PROP
(** Property C95: infinities and NaN.  In [f32] and [f64] one sample that is not finite
    poisons a recursive processor until [clear].

    Vocabulary: [PoisonSpec], [Device], [FloatSpec]. *)
From Coq Require Import ZArith Reals List Bool Lra Lia.
From Flocq Require Import Core.Core IEEE754.BinarySingleNaN.
From Verif Require Import Base Num NumF FloatSpec FloatFacts Witness CrLibm FilterM RbjM AnalysisM Device PoisonSpec PoisonLemmas.
Import ListNotations.
Open Scope R_scope.
@*)

(** C95: fed an infinity or NaN, every filter, integrator and detector returns an
    infinity or NaN, whatever happened before. *)
Lemma C95_passes_on_thm :
  forall (T : Type) (O : num_ops T) (V : float_view T), ieee O V ->
  forall (S K : Type) (D : device S K T), library_device O D ->
  forall before x, fin V x = false -> none_finite V (returns D before [CProcess x]).
Proof.
  intros T O V HO S K D HD before x Hx. assert (A := ieee_absorbing T O V HO).
  rewrite returns_one. constructor; [|constructor]. cbn.
  assert (Q : fin V (snd (d_process D (after D before) x)) = false).
  { destruct HD as [HD|HD]; [|exact (fir_caught O V A D _ x HD Hx)].
    destruct (rec_poison O V A D HD) as [P [_ H]]. apply H. exact Hx. }
  destruct (d_process D (after D before) x) as [s' y]. exact Q.
Qed.

(** C95: and from then on no recursive processor returns a finite sample again, whatever
    it is fed, until [clear] or a setter is called. *)
Lemma C95_poisoned_for_ever_thm :
  forall (T : Type) (O : num_ops T) (V : float_view T), ieee O V ->
  forall (S K : Type) (D : device S K T), recursive_device O D ->
  forall before x calls, fin V x = false -> only_used calls ->
    none_finite V (returns D (before ++ [CProcess x]) calls).
Proof.
  intros T O V HO S K D HD before x calls Hx [C1 C2]. assert (A := ieee_absorbing T O V HO).
  destruct (rec_poison O V A D HD) as [P [H1 H2]]. unfold returns. rewrite after_app.
  apply (poisoned_run V D P H1); [|exact C1|right; exact C2].
  cbn. destruct (H2 (after D before) x Hx) as [Q _]. destruct (d_process D (after D before) x). exact Q.
Qed.

(** C95: the setters of the basic filters, the integrator and the detectors do not help;
    only [clear] does.  (The setters of the RBJ filters clear the filter.) *)
Lemma C95_setters_do_not_help_thm :
  forall (T : Type) (O : num_ops T) (V : float_view T), ieee O V ->
  forall (S K : Type) (D : device S K T), memory_device O D ->
  forall before x calls, fin V x = false -> ~ In CClear calls ->
    none_finite V (returns D (before ++ [CProcess x]) calls).
Proof.
  intros T O V HO S K D HD before x calls Hx C1. assert (A := ieee_absorbing T O V HO).
  destruct (mem_poison O V A D HD) as [P [H1 [H3 H2]]]. unfold returns. rewrite after_app.
  apply (poisoned_run V D P H1); [|exact C1|left; exact H3].
  cbn. destruct (H2 (after D before) x Hx) as [Q _]. destruct (d_process D (after D before) x). exact Q.
Qed.

(** C95: overflow is no different: once a filter, the integrator or the peak detector
    returned a sample that is not finite, all later ones are not finite either. *)
Lemma C95_overflow_lasts_thm :
  forall (T : Type) (O : num_ops T) (V : float_view T), ieee O V ->
  forall (S K : Type) (D : device S K T), feedback_device O D ->
  forall before x calls, none_finite V (returns D before [CProcess x]) -> only_used calls ->
    none_finite V (returns D (before ++ [CProcess x]) calls).
Proof.
  intros T O V HO S K D HD before x calls Hx [C1 C2]. assert (A := ieee_absorbing T O V HO).
  destruct (fb_poison O V A D HD) as [P [H1 H2]]. unfold returns. rewrite after_app.
  apply (poisoned_run V D P H1); [|exact C1|right; exact C2].
  rewrite returns_one in Hx. cbn in Hx |- *. assert (Q := H2 (after D before) x).
  destruct (d_process D (after D before) x). apply Q. inversion Hx; assumption.
Qed.

(** C95: the filters without feedback recover by themselves: from the second sample
    after a bad one [OneZero], and from the third [TwoZero], return exactly what they
    would have returned if the bad sample [x] had been any other sample [x']. *)
Lemma C95_fir_recovers_thm :
  forall (T : Type) (O : num_ops T) before before2 x x' u u' v calls calls2,
    returns (dev_one_zero O) (before ++ [CProcess x; CProcess u]) (CProcess v :: calls)
      = returns (dev_one_zero O) (before ++ [CProcess x'; CProcess u]) (CProcess v :: calls)
    /\ returns (dev_two_zero O) (before2 ++ [CProcess x; CProcess u; CProcess u']) (CProcess v :: calls2)
      = returns (dev_two_zero O) (before2 ++ [CProcess x'; CProcess u; CProcess u']) (CProcess v :: calls2).
Proof.
  intros T O before before2 x x' u u' v calls calls2. split; unfold returns; rewrite !after_app; reflexivity.
Qed.

(** C95: a zero q or shelf slope, or (with the usual sin and cos) a sample rate of zero or
    a frequency that is not finite, is accepted by the setters of all nine RBJ filters,
    and from the third sample on the filter never returns a finite sample. *)
Lemma C95_bad_setting_thm :
  forall (T : Type) (O : num_ops T) (V : float_view T), ieee O V ->
  forall kind a c, rbj_coeffs O kind a = Some c -> zero_q V a \/ (trig_invalid O V /\ bad_frequency V a) ->
  forall before x1 x2 x3 calls, only_used calls ->
    none_finite V (returns (dev_rbj O kind) (before ++ [CSet a; CProcess x1; CProcess x2; CProcess x3]) calls).
Proof.
  intros T O V HO kind a c E Ha before x1 x2 x3 calls [C1 C2]. assert (A := ieee_absorbing T O V HO).
  assert (B := bad_a2 O V A kind a c Ha E). destruct (p_rbj O V A kind) as [H1 _].
  assert (Q := bad_a2_third O V A kind a c (after (dev_rbj O kind) before) x1 x2 x3 E B).
  unfold returns. rewrite after_app.
  apply (poisoned_run V _ (P_b2 V) H1); [|exact C1|right; exact C2].
  set (s := after (dev_rbj O kind) before) in *.
  cbn [d_run d_step].
  destruct (d_process (dev_rbj O kind) (d_set (dev_rbj O kind) s a) x1) as [s1 y1]. cbn [fst] in Q.
  destruct (d_process (dev_rbj O kind) s1 x2) as [s2 y2]. cbn [fst] in Q.
  destruct (d_process (dev_rbj O kind) s2 x3) as [s3 y3]. exact Q.
Qed.

Lemma C95_hyps_aux :
  let O := f32_ops (cr_libm 24 128) false in let V := ieee_view 24 128 in
  ieee O V /\ trig_invalid O V /\ fin V (B754_nan : f32) = false /\ fin V (B754_infinity true : f32) = false
  /\ recursive_device O (dev_biquad2 O) /\ memory_device O (dev_rms O) /\ feedback_device O (dev_rbj O Peak)
  /\ none_finite V (returns (dev_one_pole O) [CSet (fl32 2 0, fl32 (-2) 0); CProcess (fl32 1 127)] [CProcess (fl32 1 127)])
  /\ zero_q V (RbjQ (fl32 44100 0) (fl32 1000 0) (fl32 0 0)) /\ bad_frequency V (RbjQ (fl32 0 0) (fl32 1000 0) (fl32 1 0))
  /\ only_used (K := rbj_args f32) [CProcess (fl32 1 0); CLastOut; CProcess (fl32 2 0)].
Proof.
  intros O V. split; [constructor|]. split.
  { intros [s|s| |s m e He] Hw; try discriminate; split; reflexivity. }
  split; [reflexivity|]. split; [reflexivity|]. split; [constructor|]. split; [constructor|]. split; [constructor|].
  split; [vm_compute; constructor; [reflexivity|constructor]|].
  split; [split; [vm_compute; reflexivity|vm_compute; reflexivity]|].
  split; [left; split; [vm_compute; reflexivity|vm_compute; reflexivity]|].
  split; [|intros k]; cbn; intuition discriminate.
Qed.

(*@PROP
(** The hypotheses of C95 hold, for example, in [f32] with a library with correctly
    rounded functions; 2 x + 2 y[n-1] overflows at
    2^127; a cutoff of 1 kHz at 44100 Hz with q = 0. *)
Example C95_hyps :
  let O := f32_ops (cr_libm 24 128) false in let V := ieee_view 24 128 in
  ieee O V /\ trig_invalid O V /\ fin V (B754_nan : f32) = false /\ fin V (B754_infinity true : f32) = false
  /\ recursive_device O (dev_biquad2 O) /\ memory_device O (dev_rms O) /\ feedback_device O (dev_rbj O Peak)
  /\ none_finite V (returns (dev_one_pole O) [CSet (fl32 2 0, fl32 (-2) 0); CProcess (fl32 1 127)] [CProcess (fl32 1 127)])
  /\ zero_q V (RbjQ (fl32 44100 0) (fl32 1000 0) (fl32 0 0)) /\ bad_frequency V (RbjQ (fl32 0 0) (fl32 1000 0) (fl32 1 0))
  /\ only_used (K := rbj_args f32) [CProcess (fl32 1 0); CLastOut; CProcess (fl32 2 0)].
Proof. exact C95_hyps_aux. Qed.
@*)
