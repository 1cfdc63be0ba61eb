(** Facts behind the integrator and detector properties. *)
From Coq Require Import ZArith Reals List Bool Lra Lia.
From Flocq Require Import Core.Core IEEE754.BinarySingleNaN.
From Verif Require Import Base Num NumR NumF FloatSpec FloatFacts SmoothF AnalysisM Device AnaSpec.
Import ListNotations.
Open Scope R_scope.

(** ** Running call sequences *)
Section Run.
  Context {S K T : Type} (D : device S K T).

  Lemma d_run_app cs1 : forall s cs2,
    fst (d_run D s (cs1 ++ cs2)) = fst (d_run D (fst (d_run D s cs1)) cs2).
  Proof.
    induction cs1 as [|c cs1 IH]; intros s cs2; [reflexivity|]. cbn [app d_run].
    destruct (d_step D s c) as [s1 o]. specialize (IH s1 cs2).
    destruct (d_run D s1 (cs1 ++ cs2)) as [s2 l2]. destruct (d_run D s1 cs1) as [s3 l3]. exact IH.
  Qed.

  Lemma after_app cs1 cs2 : after D (cs1 ++ cs2) = fst (d_run D (after D cs1) cs2).
  Proof. apply d_run_app. Qed.

  Lemma after_snoc cs c : after D (cs ++ [c]) = fst (d_step D (after D cs) c).
  Proof. rewrite after_app. cbn [d_run]. destruct (d_step D (after D cs) c). reflexivity. Qed.

  Lemma returns_one before c : returns D before [c] = [snd (d_step D (after D before) c)].
  Proof. unfold returns. cbn [d_run]. destruct (d_step D (after D before) c). reflexivity. Qed.

  Context (I : S -> Prop) (ok : call K T -> Prop) (Q : T -> Prop).
  Hypothesis Hstep : forall s c, I s -> ok c ->
    I (fst (d_step D s c)) /\ forall y, snd (d_step D s c) = Some y -> Q y.

  Lemma run_inv cs : forall s, I s -> Forall ok cs ->
    I (fst (d_run D s cs)) /\ all_returned Q (map snd (snd (d_run D s cs))).
  Proof.
    induction cs as [|c cs IH]; intros s Hs Hc; cbn [d_run].
    - split; [exact Hs|constructor].
    - assert (G := Hstep s c Hs (Forall_inv Hc)). destruct (d_step D s c) as [s1 o]. cbn [fst snd] in G.
      specialize (IH s1 (proj1 G) (Forall_inv_tail Hc)). destruct (d_run D s1 cs) as [s2 l].
      cbn [fst snd map] in *. split; [tauto|]. constructor; tauto.
  Qed.

  Hypothesis Hnew : I (d_new D).
  Lemma after_inv cs : Forall ok cs -> I (after D cs).
  Proof. intros H. apply (run_inv cs); assumption. Qed.
  Lemma returns_inv cs : Forall ok cs -> all_returned Q (returns D [] cs).
  Proof. intros H. apply (run_inv cs); assumption. Qed.
End Run.

(** Two devices (or one) run in lockstep. *)
Section Lockstep.
  Context {S1 K1 S2 K2 T : Type} (D1 : device S1 K1 T) (D2 : device S2 K2 T) (I : S1 -> S2 -> Prop)
    (okc : call K1 T -> call K2 T -> Prop) (Q : T -> T -> Prop).
  Definition opt_rel (o1 o2 : option T) : Prop :=
    match o1, o2 with Some a, Some b => Q a b | None, None => True | _, _ => False end.
  Hypothesis Hstep : forall s1 s2 c1 c2, I s1 s2 -> okc c1 c2 ->
    I (fst (d_step D1 s1 c1)) (fst (d_step D2 s2 c2)) /\ opt_rel (snd (d_step D1 s1 c1)) (snd (d_step D2 s2 c2)).

  Lemma lockstep cs1 : forall cs2 s1 s2, I s1 s2 -> Forall2 okc cs1 cs2 ->
    I (fst (d_run D1 s1 cs1)) (fst (d_run D2 s2 cs2))
    /\ Forall2 opt_rel (map snd (snd (d_run D1 s1 cs1))) (map snd (snd (d_run D2 s2 cs2))).
  Proof.
    induction cs1 as [|c cs1 IH]; intros cs2 s1 s2 Hs Hc; inversion Hc as [|c1 c2 l1 l2 H1 H2 E1 E2]; subst; cbn [d_run].
    - split; [exact Hs|constructor].
    - assert (G := Hstep s1 s2 c c2 Hs H1). destruct (d_step D1 s1 c) as [t1 o1]. destruct (d_step D2 s2 c2) as [t2 o2].
      cbn [fst snd] in G. specialize (IH l2 t1 t2 (proj1 G) H2).
      destruct (d_run D1 t1 cs1) as [u1 m1]. destruct (d_run D2 t2 l2) as [u2 m2].
      cbn [fst snd map] in *. split; [tauto|]. constructor; tauto.
  Qed.
End Lockstep.

(** ** Floats *)
Section F.
  Context (prec emax : Z) {Hp : Prec_gt_0 prec} {Hm : Prec_lt_emax prec emax} (Hm3 : (3 <= emax)%Z).
  Context (pim pie sz : Z) (lm : libm (binary_float prec emax)) (nn : bool).
  Notation F := (binary_float prec emax).
  Notation O := (ieee_ops prec emax pim pie sz lm nn).
  Notation V := (ieee_view prec emax).
  Notation fsmooth := (fsmooth prec emax).

  Lemma lt_fin (a b : F) : is_finite a = true -> is_finite b = true -> Bltb a b = Rlt_bool (B2R a) (B2R b).
  Proof. intros. apply Bltb_correct; assumption. Qed.

  (** The guard of [set_alpha]. *)
  Lemma alpha_guard (g : F) : n_le O (n_zero O) g && n_lt O g (n_one O) = true <-> unit_interval V g.
  Proof.
    unfold unit_interval. cbn [fin val ieee_view n_le n_lt n_zero n_one ieee_ops].
    destruct (fone_correct prec emax) as [H1 [H2 _]].
    destruct (is_finite g) eqn:Fg.
    - rewrite Bleb_correct, Bltb_correct by (assumption || reflexivity). rewrite H1. cbn [B2R].
      split.
      + intros H. apply andb_prop in H. destruct H as [Ha Hb]. split; [reflexivity|].
        split; [now apply Rle_bool_true_iff in Ha || (destruct (Rle_bool_spec 0 (B2R g)); [assumption|discriminate])
               |destruct (Rlt_bool_spec (B2R g) 1); [assumption|discriminate]].
      + intros [_ [Ha Hb]]. rewrite Rle_bool_true, Rlt_bool_true by assumption. reflexivity.
    - split; [|intros [H _]; discriminate].
      destruct g as [s|s| |s mm e Hb]; try discriminate.
      destruct s; [discriminate|].
      destruct (f_of_Z prec emax 1) as [s1|s1| |s1 m1 e1 Hb1]; try discriminate.
  Qed.

  (** The guard of the detector setters. *)
  Lemma length_guard (l : F) : n_lt O (n_zero O) l && n_is_finite O l = true <-> good_length V l.
  Proof.
    unfold good_length. cbn [fin val ieee_view n_is_finite n_lt n_zero ieee_ops].
    destruct (is_finite l) eqn:Fl.
    - rewrite Bltb_correct by (assumption || reflexivity). cbn [B2R]. rewrite andb_true_r. split.
      + intros H. split; [reflexivity|]. destruct (Rlt_bool_spec 0 (B2R l)); [assumption|discriminate].
      + intros [_ H]. apply Rlt_bool_true, H.
    - rewrite andb_false_r. split; [discriminate|intros [H _]; discriminate].
  Qed.

  Lemma if_iff {A} (b : bool) (P : Prop) (x y : A) : (b = true <-> P) ->
    (P -> (if b then x else y) = x) /\ (~ P -> (if b then x else y) = y).
  Proof. intros H. destruct b; split; intros G; auto; [exfalso; tauto|]. apply H in G. discriminate. Qed.

  (** [process] of the three processors is the smoothing step. *)
  Lemma leaky_smooth s (x : F) : leaky_process O s x = (Leaky (lk_alpha s) (fsmooth (lk_alpha s) (lk_y_z1 s) x), fsmooth (lk_alpha s) (lk_y_z1 s) x).
  Proof. reflexivity. Qed.

  Definition pk_gain (s : peak F) (x : F) : F :=
    if Bltb (pk_envelope s) (Babs x) then pk_attack_gain s else pk_release_gain s.
  Lemma peak_smooth s (x : F) :
    peak_process O s x = (PeakDet (pk_attack_gain s) (pk_release_gain s) (fsmooth (pk_gain s x) (pk_envelope s) (Babs x)),
                          fsmooth (pk_gain s x) (pk_envelope s) (Babs x)).
  Proof. reflexivity. Qed.

  Definition rm_gain (s : rms F) (x : F) : F :=
    if Bltb (rm_envelope s) (f_mul prec emax x x) then rm_attack_gain s else rm_release_gain s.
  Lemma rms_smooth s (x : F) :
    rms_process O s x = (RmsDet (rm_attack_gain s) (rm_release_gain s) (fsmooth (rm_gain s x) (rm_envelope s) (f_mul prec emax x x)),
                          f_sqrt prec emax (fsmooth (rm_gain s x) (rm_envelope s) (f_mul prec emax x x))).
  Proof. reflexivity. Qed.

  Lemma unit_zero : unit_interval V (B754_zero false : F).
  Proof. split; [reflexivity|]. cbn. lra. Qed.

  (** *** Integrator *)
  Lemma leaky_alpha_step s c : unit_interval V (lk_alpha s) ->
    unit_interval V (lk_alpha (fst (d_step (dev_leaky O) s c))).
  Proof.
    intros H. destruct c as [x| |g|]; cbn [d_step dev_leaky d_process d_clear d_set d_last_out fst].
    - rewrite leaky_smooth. exact H.
    - exact H.
    - unfold leaky_set_alpha. destruct (n_le O (n_zero O) g && n_lt O g (n_one O)) eqn:E; [|exact H].
      apply alpha_guard. exact E.
    - exact H.
  Qed.

  Lemma leaky_alpha cs : unit_interval V (lk_alpha (after (dev_leaky O) cs)).
  Proof.
    apply (after_inv (dev_leaky O) (fun s => unit_interval V (lk_alpha s)) (fun _ => True) (fun _ => True)).
    - intros s c Hs _. split; [apply leaky_alpha_step, Hs|auto].
    - apply unit_zero.
    - apply Forall_forall. auto.
  Qed.

  Lemma leaky_between cs (x : F) :
    let s := after (dev_leaky O) cs in let y0 := leaky_last_out s in
    is_finite y0 = true -> is_finite x = true -> is_finite (f_sub prec emax y0 x) = true ->
    exists y, returns (dev_leaky O) cs [CProcess x] = [Some y] /\ is_finite y = true
      /\ Rmin (B2R y0) (B2R x) <= B2R y <= Rmax (B2R y0) (B2R x).
  Proof.
    intros s y0 F0 Fx Fs. rewrite returns_one. cbn [d_step dev_leaky d_process]. fold s. rewrite leaky_smooth. cbn [snd].
    eexists. split; [reflexivity|]. destruct (leaky_alpha cs) as [A1 A2].
    apply smooth_between; assumption.
  Qed.

  Lemma leaky_range lo hi cs : lo <= 0 <= hi -> hi - lo <= fmax V -> samples_ok (within V lo hi) cs ->
    all_returned (within V lo hi) (returns (dev_leaky O) [] cs).
  Proof.
    intros H0 Hd Hs.
    apply (returns_inv (dev_leaky O) (fun s => unit_interval V (lk_alpha s) /\ within V lo hi (lk_y_z1 s))
             (fun c => match c with CProcess x => within V lo hi x | _ => True end)).
    - intros s c [Ha [Hy1 Hy2]] Hc. assert (Ha' := leaky_alpha_step s c Ha).
      destruct c as [x| |g|]; cbn [d_step dev_leaky d_process d_clear d_set d_last_out fst snd] in *.
      + rewrite leaky_smooth in *. cbn [fst snd lk_alpha lk_y_z1] in *.
        assert (G : within V lo hi (fsmooth (lk_alpha s) (lk_y_z1 s) x)).
        { destruct Ha as [A1 A2]. destruct Hc as [X1 X2]. cbn [fin val ieee_view fmax] in *.
          destruct (smooth_between prec emax Hm3 (lk_alpha s) (lk_y_z1 s) x) as [B1 B2]; try assumption.
          - apply (sub_in prec emax Hm3 _ _ lo hi); assumption.
          - split; [exact B1|]. cbn [val ieee_view]. revert B2. unfold Rmin, Rmax. repeat destruct Rle_dec; lra. }
        split; [split; assumption|]. intros y E. injection E as <-. exact G.
      + split; [split; [exact Ha|split; [reflexivity|cbn; lra]]|discriminate].
      + split; [split; [exact Ha'|]|discriminate]. unfold leaky_set_alpha.
        destruct (_ && _); split; assumption.
      + split; [split; [exact Ha|split; assumption]|]. intros y E. injection E as <-. split; assumption.
    - split; [apply unit_zero|]. split; [reflexivity|cbn; lra].
    - exact Hs.
  Qed.

  (** A new integrator passes moderate signals. *)
  Lemma leaky_new_passes cs (x : F) : (forall g, ~ In (CSet g) cs) ->
    samples_ok (within V (- (fmax V / 2)) (fmax V / 2)) cs -> within V (- (fmax V / 2)) (fmax V / 2) x ->
    exists y, returns (dev_leaky O) cs [CProcess x] = [Some y] /\ is_finite y = true /\ B2R y = B2R x.
  Proof.
    intros Hg Hs [X1 X2]. set (h := fmax V / 2) in *.
    assert (Hh : 0 <= h) by (unfold h; cbn [fmax ieee_view]; pose proof (MAX_pos prec emax); lra).
    assert (I : (fun s => is_zero prec emax (lk_alpha s) /\ within V (- h) h (lk_y_z1 s)) (after (dev_leaky O) cs)).
    { apply (after_inv (dev_leaky O) (fun s => is_zero prec emax (lk_alpha s) /\ within V (- h) h (lk_y_z1 s))
               (fun c => match c with CProcess x => within V (- h) h x | CSet _ => False | _ => True end) (fun _ => True)).
      - intros s c [Ha [Hy1 Hy2]] Hc. split; [|auto].
        destruct c as [z| |g|]; cbn [d_step dev_leaky d_process d_clear d_set d_last_out fst snd]; try contradiction.
        + rewrite leaky_smooth. cbn [fst lk_alpha lk_y_z1]. split; [exact Ha|]. destruct Hc as [Z1 Z2].
          destruct (smooth_zero prec emax (lk_alpha s) (lk_y_z1 s) z Ha Z1) as [S1 [S2 S3]].
          { apply (sub_in prec emax Hm3 _ _ (- h) h); try assumption. unfold h. cbn [fmax ieee_view]. lra. }
          split; [exact S1|]. cbn [val ieee_view] in *. rewrite S3. exact Z2.
        + split; [exact Ha|]. split; [reflexivity|]. cbn. lra.
        + split; [exact Ha|]. split; assumption.
      - split; [exists false; reflexivity|]. split; [reflexivity|]. cbn. lra.
      - apply Forall_forall. intros c Hin. assert (G := proj1 (Forall_forall _ _) Hs c Hin).
        destruct c; auto. apply (Hg k). exact Hin. }
    destruct I as [Ha [Hy1 Hy2]]. rewrite returns_one. cbn [d_step dev_leaky d_process]. rewrite leaky_smooth. cbn [snd].
    eexists. split; [reflexivity|].
    destruct (smooth_zero prec emax _ (lk_y_z1 (after (dev_leaky O) cs)) x Ha X1) as [S1 [S2 S3]].
    { apply (sub_in prec emax Hm3 _ _ (- h) h); try assumption. unfold h. cbn [fmax ieee_view]. lra. }
    auto.
  Qed.

  (** *** Detectors: gains *)
  Lemma exp_guard (l : F) : exp_sound O V -> good_length V l ->
    fin V (gain_of O l) = true /\ 0 <= val V (gain_of O l) <= 1.
  Proof. intros He [H1 H2]. apply He. apply neg_inv; assumption. Qed.

  Lemma B2R_Babs_pos (x : F) : 0 <= B2R (Babs x).
  Proof. rewrite B2R_Babs. apply Rabs_pos. Qed.

  (** Both gains in [0, 1) and a finite envelope in [0, m]. *)
  Definition pinv (m : R) (s : peak F) : Prop :=
    unit_interval V (pk_attack_gain s) /\ unit_interval V (pk_release_gain s) /\ within V 0 m (pk_envelope s).

  Lemma pk_gain_unit m s x : pinv m s -> unit_interval V (pk_gain s x).
  Proof. intros [A [B _]]. unfold pk_gain. destruct Bltb; assumption. Qed.

  Lemma peak_step_between m s (x : F) : pinv m s -> is_finite x = true ->
    is_finite (fsmooth (pk_gain s x) (pk_envelope s) (Babs x)) = true
    /\ Rmin (B2R (pk_envelope s)) (Rabs (B2R x)) <= B2R (fsmooth (pk_gain s x) (pk_envelope s) (Babs x))
       <= Rmax (B2R (pk_envelope s)) (Rabs (B2R x)).
  Proof.
    intros Hi Fx. destruct (pk_gain_unit m s x Hi) as [A1 A2]. destruct Hi as [_ [_ [E1 E2]]].
    cbn [fin val ieee_view] in *. rewrite <- B2R_Babs.
    assert (Fx' : is_finite (Babs x) = true) by (rewrite is_finite_Babs; exact Fx).
    apply smooth_between; try assumption.
    assert (M1 := abs_le_MAX prec emax (pk_envelope s)). assert (M2 := abs_le_MAX prec emax x).
    rewrite Rabs_pos_eq in M1 by lra.
    apply (sub_in prec emax Hm3 _ _ 0 ((1 - bpow radix2 (- prec)) * bpow radix2 emax)); try assumption.
    - lra.
    - rewrite B2R_Babs. split; [apply Rabs_pos|exact M2].
    - lra.
  Qed.

  Lemma peak_set_unit (l : F) (s : peak F) :
    (good_length V l -> unit_interval V (gain_of O l)) ->
    unit_interval V (pk_attack_gain s) -> unit_interval V (pk_release_gain s) ->
    (unit_interval V (pk_attack_gain (peak_set_attack O s l)) /\ unit_interval V (pk_release_gain (peak_set_attack O s l))
     /\ pk_envelope (peak_set_attack O s l) = pk_envelope s)
    /\ (unit_interval V (pk_attack_gain (peak_set_release O s l)) /\ unit_interval V (pk_release_gain (peak_set_release O s l))
     /\ pk_envelope (peak_set_release O s l) = pk_envelope s).
  Proof.
    intros Hl Ha Hr. unfold peak_set_attack, peak_set_release.
    destruct (n_lt O (n_zero O) l && n_is_finite O l) eqn:E; cbn [pk_attack_gain pk_release_gain pk_envelope];
      [|repeat split; assumption || apply Ha || apply Hr].
    apply length_guard in E. specialize (Hl E). repeat split; assumption || apply Ha || apply Hr || apply Hl.
  Qed.

  Lemma peak_step_inv m : 0 <= m -> forall s (c : call (det_set F) F), pinv m s ->
    match c with
    | CProcess x => within V (- m) m x
    | CSet k => good_length V (set_length k) -> unit_interval V (gain_of O (set_length k))
    | _ => True
    end ->
    pinv m (fst (d_step (dev_peak O) s c)) /\ forall y, snd (d_step (dev_peak O) s c) = Some y -> within V 0 m y.
  Proof.
    intros Hm0 s c Hi Hc. assert (Hi' := Hi). destruct Hi' as [Ha [Hr [E1 E2]]].
    destruct c as [x| |k|]; cbn [d_step dev_peak d_process d_clear d_set d_last_out fst snd].
    - rewrite peak_smooth. cbn [fst snd]. destruct Hc as [X1 X2]. cbn [fin val ieee_view] in *.
      assert (X3 : Rabs (B2R x) <= m) by (apply Rabs_le; exact X2).
      destruct (peak_step_between m s x Hi X1) as [B1 B2].
      assert (G : within V 0 m (fsmooth (pk_gain s x) (pk_envelope s) (Babs x))).
      { split; [exact B1|]. cbn [val ieee_view]. pose proof (Rabs_pos (B2R x)).
        revert B2. unfold Rmin, Rmax. repeat destruct Rle_dec; lra. }
      split; [split; [exact Ha|split; [exact Hr|exact G]]|]. intros y E. injection E as <-. exact G.
    - split; [|discriminate]. split; [exact Ha|split; [exact Hr|]]. split; [reflexivity|]. cbn. lra.
    - split; [|discriminate]. destruct k as [l|l]; cbn [set_length] in Hc.
      + destruct (peak_set_unit l s Hc Ha Hr) as [[G1 [G2 G3]] _]. split; [exact G1|split; [exact G2|]]. rewrite G3. split; assumption.
      + destruct (peak_set_unit l s Hc Ha Hr) as [_ [G1 [G2 G3]]]. split; [exact G1|split; [exact G2|]]. rewrite G3. split; assumption.
    - split; [exact Hi|]. intros y E. injection E as <-. split; assumption.
  Qed.

  Lemma pinv_new m : 0 <= m -> pinv m (peak_new O).
  Proof. intros H. split; [apply unit_zero|split; [apply unit_zero|]]. split; [reflexivity|]. cbn. lra. Qed.

  Lemma peak_after m cs : 0 <= m -> calls_ok O V (within V (- m) m) cs -> pinv m (after (dev_peak O) cs).
  Proof.
    intros H0 Hc. apply (after_inv (dev_peak O) (pinv m) _ (within V 0 m) (peak_step_inv m H0)); [apply pinv_new, H0|exact Hc].
  Qed.

  Lemma peak_range m cs : 0 <= m -> calls_ok O V (within V (- m) m) cs ->
    all_returned (within V 0 m) (returns (dev_peak O) [] cs).
  Proof.
    intros H0 Hc. apply (returns_inv (dev_peak O) (pinv m) _ (within V 0 m) (peak_step_inv m H0)); [apply pinv_new, H0|exact Hc].
  Qed.

  (** *** RMS *)
  Notation RN := (round radix2 (SpecFloat.fexp prec emax) (round_mode mode_NE)).
  Notation MAX := ((1 - bpow radix2 (- prec)) * bpow radix2 emax).

  Definition rinv (m : R) (s : rms F) : Prop :=
    unit_interval V (rm_attack_gain s) /\ unit_interval V (rm_release_gain s) /\ within V 0 m (rm_envelope s).

  Lemma rms_step_between m s (x : F) : rinv m s -> is_finite (f_mul prec emax x x) = true ->
    is_finite (fsmooth (rm_gain s x) (rm_envelope s) (f_mul prec emax x x)) = true
    /\ Rmin (B2R (rm_envelope s)) (B2R (f_mul prec emax x x)) <= B2R (fsmooth (rm_gain s x) (rm_envelope s) (f_mul prec emax x x))
       <= Rmax (B2R (rm_envelope s)) (B2R (f_mul prec emax x x)).
  Proof.
    intros Hi Fx. destruct Hi as [Ha [Hr [E1 E2]]].
    assert (Hg : unit_interval V (rm_gain s x)) by (unfold rm_gain; destruct Bltb; assumption).
    destruct Hg as [A1 A2]. cbn [fin val ieee_view] in *. apply smooth_between; try assumption.
    assert (M1 := abs_le_MAX prec emax (rm_envelope s)). assert (M2 := abs_le_MAX prec emax (f_mul prec emax x x)).
    rewrite Rabs_pos_eq in M1 by lra. destruct (sq_finite prec emax x Fx) as [_ Esq].
    assert (P : 0 <= B2R (f_mul prec emax x x)).
    { rewrite Esq, <- (RN_0 prec emax). apply (RN_le prec emax). nra. }
    rewrite Rabs_pos_eq in M2 by exact P.
    apply (sub_in prec emax Hm3 _ _ 0 MAX); try assumption; lra.
  Qed.

  Lemma rms_set_unit (l : F) (s : rms F) :
    (good_length V l -> unit_interval V (gain_of O l)) ->
    unit_interval V (rm_attack_gain s) -> unit_interval V (rm_release_gain s) ->
    (unit_interval V (rm_attack_gain (rms_set_attack O s l)) /\ unit_interval V (rm_release_gain (rms_set_attack O s l))
     /\ rm_envelope (rms_set_attack O s l) = rm_envelope s)
    /\ (unit_interval V (rm_attack_gain (rms_set_release O s l)) /\ unit_interval V (rm_release_gain (rms_set_release O s l))
     /\ rm_envelope (rms_set_release O s l) = rm_envelope s).
  Proof.
    intros Hl Ha Hr. unfold rms_set_attack, rms_set_release.
    destruct (n_lt O (n_zero O) l && n_is_finite O l) eqn:E; cbn [rm_attack_gain rm_release_gain rm_envelope];
      [|repeat split; assumption || apply Ha || apply Hr].
    apply length_guard in E. specialize (Hl E). repeat split; assumption || apply Ha || apply Hr || apply Hl.
  Qed.

  (** [m]: a float bounding the samples, whose square is zero or a normal number. *)
  Section Bound.
    Context (m : R) (Fm : generic_format radix2 (SpecFloat.fexp prec emax) m) (H0 : 0 <= m)
      (Hlo : fmin V <= m * m \/ m = 0) (Hhi : m * m <= fmax V).

    Lemma sq_in (x : F) : within V (- m) m x ->
      is_finite (f_mul prec emax x x) = true /\ 0 <= B2R (f_mul prec emax x x) <= RN (m * m).
    Proof.
      intros [X1 X2]. cbn [fin val fmax fmin ieee_view] in *.
      assert (X3 : B2R x * B2R x <= m * m).
      { assert (Rabs (B2R x) <= m) by (apply Rabs_le; exact X2). pose proof (Rabs_pos (B2R x)).
        rewrite <- (Rabs_pos_eq (B2R x * B2R x)) by nra. rewrite Rabs_mult. nra. }
      destruct (mul_ok prec emax x x MAX X1 X1 (MAX_fmt prec emax Hm3) (MAX_lt prec emax)) as [S1 S2].
      { rewrite Rabs_pos_eq by nra. lra. }
      split; [exact S1|]. rewrite S2. split; [rewrite <- (RN_0 prec emax) at 1|]; apply (RN_le prec emax); nra.
    Qed.

    Lemma out_in (e : F) : within V 0 (RN (m * m)) e -> within V 0 m (f_sqrt prec emax e).
    Proof.
      intros [E1 E2]. cbn [fin val ieee_view fmin] in *.
      destruct (sqrt_ok prec emax e E1 (proj1 E2)) as [S1 S2]. split; [exact S1|]. cbn [val ieee_view]. rewrite S2.
      split.
      - rewrite <- (RN_0 prec emax). apply (RN_le prec emax). apply sqrt_pos.
      - assert (Hs : RN (sqrt (RN (m * m))) = m).
        { destruct Hlo as [Hn| ->]; [apply (sqrt_sq prec emax Hm3 m Fm H0 Hn)|].
          rewrite Rmult_0_l, (RN_0 prec emax), sqrt_0. apply (RN_0 prec emax). }
        rewrite <- Hs. apply (RN_le prec emax). apply sqrt_le_1_alt. lra.
    Qed.

    Lemma RNmm : 0 <= RN (m * m).
    Proof. rewrite <- (RN_0 prec emax). apply (RN_le prec emax). nra. Qed.

    Lemma rms_step_inv : forall s (c : call (det_set F) F), rinv (RN (m * m)) s ->
      match c with
      | CProcess x => within V (- m) m x
      | CSet k => good_length V (set_length k) -> unit_interval V (gain_of O (set_length k))
      | _ => True
      end ->
      rinv (RN (m * m)) (fst (d_step (dev_rms O) s c)) /\ forall y, snd (d_step (dev_rms O) s c) = Some y -> within V 0 m y.
    Proof.
      intros s c Hi Hc. assert (Hi' := Hi). destruct Hi' as [Ha [Hr [E1 E2]]].
      destruct c as [x| |k|]; cbn [d_step dev_rms d_process d_clear d_set d_last_out fst snd].
      - rewrite rms_smooth. cbn [fst snd]. destruct (sq_in x Hc) as [X1 X2]. cbn [fin val ieee_view] in *.
        destruct (rms_step_between _ s x Hi X1) as [B1 B2].
        assert (G : within V 0 (RN (m * m)) (fsmooth (rm_gain s x) (rm_envelope s) (f_mul prec emax x x))).
        { split; [exact B1|]. cbn [val ieee_view].
          revert B2. unfold Rmin, Rmax. repeat destruct Rle_dec; lra. }
        split; [split; [exact Ha|split; [exact Hr|exact G]]|]. intros y E. injection E as <-. apply out_in, G.
      - split; [|discriminate]. split; [exact Ha|split; [exact Hr|]]. split; [reflexivity|].
        cbn. split; [lra|]. apply RNmm.
      - split; [|discriminate]. destruct k as [l|l]; cbn [set_length] in Hc.
        + destruct (rms_set_unit l s Hc Ha Hr) as [[G1 [G2 G3]] _]. split; [exact G1|split; [exact G2|]]. rewrite G3. split; assumption.
        + destruct (rms_set_unit l s Hc Ha Hr) as [_ [G1 [G2 G3]]]. split; [exact G1|split; [exact G2|]]. rewrite G3. split; assumption.
      - split; [exact Hi|]. intros y E. injection E as <-. apply out_in. split; assumption.
    Qed.

    Lemma rms_range cs : calls_ok O V (within V (- m) m) cs -> all_returned (within V 0 m) (returns (dev_rms O) [] cs).
    Proof.
      intros Hc. apply (returns_inv (dev_rms O) (rinv (RN (m * m))) _ (within V 0 m) rms_step_inv); [|exact Hc].
      split; [apply unit_zero|split; [apply unit_zero|]]. split; [reflexivity|]. cbn. split; [lra|]. apply RNmm.
    Qed.
  End Bound.
End F.
