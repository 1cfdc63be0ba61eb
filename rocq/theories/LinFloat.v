(** Facts about the two floating-point instances of [LinearDelay]. *)
From Coq Require Import ZArith Reals List Bool Lia Lra.
From Flocq Require Import Core.Core IEEE754.BinarySingleNaN.
From Verif Require Import Base BaseLemmas Num NumR NumF FloatFacts DelayM LinDelayM DelaySpec DelayRun DelayProofs
  LinSpec LinRun PlaceSpec LinFloatSpec LinProofs LinCtlR LinCtlF LinInv LinFacts.
Import ListNotations.
Open Scope R_scope.

(** What is used of the sample type. *)
Record fline {T} (K : ctl_ops f32 T) (O : num_ops T) (val : T -> R) (fin : T -> bool) (rnd : R -> R) : Prop := {
  fl_gen : exists cast, K = f32_ctl_gen cast;
  fl_size : (1 <= n_size_of O)%Z;
  fl_fits : (2 ^ 24 <= max_slots O)%Z;
  fl_cast : forall a, is_finite a = true -> fin (c_cast K a) = true /\ val (c_cast K a) = B2R a;
  fl_om : forall u, fin u = true -> Rabs (1 - val u) <= IZR (2 ^ 24) ->
      fin (n_sub O (n_one O) u) = true /\ val (n_sub O (n_one O) u) = rnd (1 - val u);
  fl_int : forall n, (Z.abs n <= 2 ^ 24)%Z -> rnd (IZR n) = IZR n;
  fl_blend0 : forall a b wo wn, fin a = true -> fin b = true -> fin wo = true -> fin wn = true ->
      val wo = 1 -> val wn = 0 ->
      fin (n_add O (n_mul O a wo) (n_mul O b wn)) = true
      /\ val (n_add O (n_mul O a wo) (n_mul O b wn)) = val a;
  fl_zero : fin (n_zero O) = true /\ val (n_zero O) = 0;
  fl_f32 : forall x, generic_format radix2 fexp32 x -> rnd x = x;
  fl_nan : forall a b, fin (n_add O (n_mul O a (n_sub O (n_one O) (c_cast K B754_nan)))
                                    (n_mul O b (c_cast K B754_nan))) = false
}.

Section Gen.
  Context (prec emax : Z) {Hp : Prec_gt_0 prec} {Hm : Prec_lt_emax prec emax}.
  Hypothesis Hprec : (24 <= prec)%Z.
  Hypothesis Hemax : (128 <= emax)%Z.
  Notation F := (binary_float prec emax).
  Notation fexp := (SpecFloat.fexp prec emax).
  Notation RN := (round radix2 fexp (round_mode mode_NE)).

  Lemma p24_ok : generic_format radix2 fexp (IZR (2 ^ 24)) /\ IZR (2 ^ 24) < bpow radix2 emax.
  Proof.
    split.
    - apply (format_IZR prec emax). rewrite Z.abs_eq by lia. apply Z.pow_le_mono_r; lia.
    - change (IZR (2 ^ 24)) with (IZR (radix2 ^ 24)). rewrite (IZR_Zpower radix2) by lia. apply bpow_lt. lia.
  Qed.

  Lemma om_ok (u : F) : is_finite u = true -> Rabs (1 - B2R u) <= IZR (2 ^ 24) ->
    is_finite (f_sub prec emax (f_of_Z prec emax 1) u) = true
    /\ B2R (f_sub prec emax (f_of_Z prec emax 1) u) = RN (1 - B2R u).
  Proof.
    intros Hu Hb. destruct p24_ok as [P1 P2].
    destruct (of_Z_exact prec emax 1) as [O1 O2].
    { change (Z.abs 1) with 1%Z. assert (0 < 2 ^ prec)%Z by (apply Z.pow_pos_nonneg; lia). lia. }
    assert (G := sub_ok prec emax (f_of_Z prec emax 1) u (IZR (2 ^ 24)) O1 Hu P1 P2).
    rewrite O2 in G. apply G. exact Hb.
  Qed.

  Lemma finite_zero (x : F) : is_finite x = true -> B2R x = 0 -> is_zero prec emax x.
  Proof.
    intros Hf Hv. destruct x as [s|s| |s m e He]; try discriminate; [eexists; reflexivity|].
    exfalso. cbn in Hv. destruct s; apply eq_0_F2R in Hv; discriminate.
  Qed.

  Lemma mul_one_r (a w : F) : is_finite a = true -> is_finite w = true -> B2R w = 1 ->
    same_value prec emax (f_mul prec emax a w) a.
  Proof.
    intros Ha Hw E. assert (H := Bmult_correct prec emax Hp Hm mode_NE a w).
    rewrite E, Rmult_1_r in H.
    rewrite round_generic in H; [|apply valid_rnd_round_mode|apply generic_format_B2R].
    rewrite Rlt_bool_true in H by apply abs_B2R_lt_emax.
    destruct H as [H1 [H2 _]]. unfold f_mul. repeat split; auto. rewrite H2, Ha, Hw. reflexivity.
  Qed.

  Lemma mul_zero_r (z x : F) : is_zero prec emax z -> is_finite x = true -> is_zero prec emax (f_mul prec emax x z).
  Proof. intros [s ->] Hx. destruct x; try discriminate; eexists; reflexivity. Qed.

  Lemma blend0_ok (a b wo wn : F) : is_finite a = true -> is_finite b = true ->
    is_finite wo = true -> is_finite wn = true -> B2R wo = 1 -> B2R wn = 0 ->
    is_finite (f_add prec emax (f_mul prec emax a wo) (f_mul prec emax b wn)) = true
    /\ B2R (f_add prec emax (f_mul prec emax a wo) (f_mul prec emax b wn)) = B2R a.
  Proof.
    intros Ha Hb Ho Hn E1 E2.
    destruct (mul_one_r a wo Ha Ho E1) as [A1 [_ A2]].
    destruct (add_zero prec emax (f_mul prec emax a wo) (f_mul prec emax b wn) A1
                (mul_zero_r wn b (finite_zero wn Hn E2) Hb)) as [B1 [_ B2]].
    split; [exact B1|]. rewrite B2. exact A2.
  Qed.

  Lemma f32_format x : generic_format radix2 fexp32 x -> (SpecFloat.emin prec emax <= -149)%Z ->
    generic_format radix2 fexp x.
  Proof.
    intros H He. apply generic_inclusion_mag with (fexp1 := fexp32); [|exact H].
    intros _. unfold SpecFloat.fexp. change (SpecFloat.emin 24 128) with (-149)%Z. lia.
  Qed.
End Gen.

Lemma f_conv_ok (x : f32) : is_finite x = true ->
  is_finite (f_conv 24 128 53 1024 x) = true /\ B2R (f_conv 24 128 53 1024 x) = B2R x.
Proof.
  intros Hx. destruct x as [s|s| |s m e He]; try discriminate; [split; reflexivity|].
  assert (Hfmt := generic_format_B2R 24 128 (B754_finite s m e He)).
  set (v := B2R (B754_finite s m e He)) in *.
  assert (Ev : F2R (Float radix2 (cond_Zopp s (Zpos m)) e) = v) by reflexivity.
  assert (Hlt : Rabs v < bpow radix2 128) by (apply abs_B2R_lt_emax).
  cbn [f_conv].
  assert (G := binary_normalize_correct 53 1024 Hprec64 Hmax64 mode_NE (cond_Zopp s (Zpos m)) e s).
  cbn zeta in G. rewrite Ev in G.
  rewrite round_generic in G; [|apply valid_rnd_round_mode|apply f32_format; [lia|exact Hfmt|reflexivity || (cbv; discriminate)]].
  rewrite Rlt_bool_true in G.
  - destruct G as [G1 [G2 _]]. split; [exact G2|exact G1].
  - apply Rlt_trans with (1 := Hlt). apply bpow_lt. lia.
Qed.

Lemma float_line_fline {T} K O val fin rnd : @float_line T K O val fin rnd -> fline K O val fin rnd.
Proof.
  intros H. destruct H as [lm b|lm b].
  - constructor.
    + eexists; reflexivity.
    + cbn. lia.
    + cbv; discriminate.
    + intros a Ha. split; [exact Ha|reflexivity].
    + intros u Hu Hb. apply (om_ok 24 128); try lia; assumption.
    + intros n Hn. apply (RN_id 24 128). apply (format_IZR 24 128). lia.
    + intros a b' wo wn. apply (blend0_ok 24 128).
    + split; reflexivity.
    + intros x Hx. apply (RN_id 24 128). exact Hx.
    + intros a b'. cbn [n_add n_mul f32_ops ieee_ops c_cast f32_ctl_f32 f32_ctl_gen].
      match goal with |- is_finite (f_add 24 128 ?x (f_mul 24 128 ?y _)) = _ => change (is_finite (f_add 24 128 x (f_mul 24 128 y B754_nan)) = false) end.
      rewrite (mul_nan 24 128 b'), (add_nan 24 128). reflexivity.
  - constructor.
    + eexists; reflexivity.
    + cbn. lia.
    + cbv; discriminate.
    + intros a Ha. apply f_conv_ok. exact Ha.
    + intros u Hu Hb. apply (om_ok 53 1024); try lia; assumption.
    + intros n Hn. apply (RN_id 53 1024). apply (format_IZR 53 1024). lia.
    + intros a b' wo wn. apply (blend0_ok 53 1024).
    + split; reflexivity.
    + intros x Hx. apply (RN_id 53 1024). apply f32_format; [lia|exact Hx|cbv; discriminate].
    + intros a b'. cbn [n_add n_mul f64_ops ieee_ops c_cast f32_ctl_f64 f32_ctl_gen f_conv].
      rewrite (mul_nan 53 1024 b'), (add_nan 53 1024). reflexivity.
Qed.

Section Line.
  Context {T : Type} (K : ctl_ops f32 T) (O : num_ops T) (val : T -> R) (fin : T -> bool) (rnd : R -> R).
  Hypothesis HF : fline K O val fin rnd.
  Context (p : profile).

  Lemma fl_ctl len w d : (1 <= len <= 2 ^ 24)%Z -> (0 <= w < len)%Z -> d <> B754_nan ->
    let c := clip32 d (IZR len - 1) in
    exists dt a, ctl K len w d = Ok (dt, read32 len w c, a)
      /\ is_finite dt = true /\ B2R dt = c
      /\ is_finite a = true /\ B2R a = pos32 len w c - IZR (read32 len w c).
  Proof. destruct (fl_gen _ _ _ _ _ HF) as [cast ->]. apply ctl_f32. Qed.

  Lemma fl_range len w d : (1 <= len <= 2 ^ 24)%Z -> (0 <= w < len)%Z ->
    exists dt r a, ctl K len w d = Ok (dt, r, a) /\ (0 <= r < len)%Z.
  Proof. destruct (fl_gen _ _ _ _ _ HF) as [cast ->]. apply ctl_f32_range. Qed.

  Lemma ctl_clip len w d dt r a : (1 <= len <= 2 ^ 24)%Z -> (0 <= w < len)%Z ->
    ctl K len w d = Ok (dt, r, a) -> is_finite dt = true ->
    0 <= B2R dt <= IZR len - 1 /\ r = read32 len w (B2R dt)
    /\ fin (c_cast K a) = true /\ val (c_cast K a) = pos32 len w (B2R dt) - IZR r.
  Proof.
    intros Hl Hw E Hf.
    assert (Ht : (2 ^ 24 < two64)%Z) by reflexivity.
    assert (Hd : d <> B754_nan).
    { intros ->. destruct (fl_gen _ _ _ _ _ HF) as [cast E']. rewrite E' in E.
      rewrite ctl_nan in E by lia. inversion E; subst. discriminate. }
    destruct (fl_ctl len w d Hl Hw Hd) as [dt' [a' [E' [Df [Dv [Af Av]]]]]]. rewrite E in E'.
    inversion E'; subst dt' r a'. rewrite Dv.
    assert (0 <= clip32 d (IZR len - 1) <= IZR len - 1).
    { apply clip32_range. assert (1 <= IZR len) by (apply IZR_le; lia). lra. }
    destruct (fl_cast _ _ _ _ _ HF a Af) as [C1 C2].
    split; [assumption|]. split; [reflexivity|]. split; [exact C1|]. rewrite C2. exact Av.
  Qed.

  (** Weights on lines of up to 2^24 slots. *)
  Lemma alpha_range len w c : (1 <= len <= 2 ^ 24)%Z -> (0 <= w < len)%Z -> 0 <= c <= IZR len - 1 ->
    (pos32 len w c < IZR len -> 0 <= pos32 len w c - IZR (read32 len w c) < 1
       /\ read32 len w c = Zfloor (pos32 len w c))
    /\ (pos32 len w c = IZR len -> read32 len w c = 0%Z).
  Proof.
    intros Hl Hw Hc. unfold read32. split.
    - intros H. assert (Hf : (Zfloor (pos32 len w c) < len)%Z).
      { apply lt_IZR. apply Rle_lt_trans with (2 := H). apply Zfloor_lb. }
      destruct (Z.eqb_spec (Zfloor (pos32 len w c)) len); [lia|].
      split; [|reflexivity]. assert (H1 := Zfloor_lb (pos32 len w c)). assert (H2 := Zfloor_ub (pos32 len w c)). lra.
    - intros ->. rewrite Zfloor_IZR, Z.eqb_refl. reflexivity.
  Qed.

  Lemma weights_fin len w d dt r a : (1 <= len <= 2 ^ 24)%Z -> (0 <= w < len)%Z ->
    ctl K len w d = Ok (dt, r, a) -> is_finite dt = true ->
    fin (n_sub O (n_one O) (c_cast K a)) = true
    /\ val (n_sub O (n_one O) (c_cast K a)) = rnd (1 - val (c_cast K a)).
  Proof.
    intros Hl Hw E Hf. destruct (ctl_clip len w d dt r a Hl Hw E Hf) as [Hc [Hr [Fa Va]]].
    apply (fl_om _ _ _ _ _ HF); [exact Fa|]. rewrite Va.
    destruct (pos32_range len w (B2R dt) Hl Hw Hc) as [[P0 P1] _].
    assert (Hrr := read32_range len w (B2R dt) Hl Hw Hc). rewrite <- Hr in Hrr.
    destruct (Rle_lt_or_eq_dec _ _ P1) as [H|H].
    - destruct (proj1 (alpha_range len w (B2R dt) Hl Hw Hc) H) as [HA _]. rewrite <- Hr in HA.
      apply Rabs_le. assert (2 <= IZR (2 ^ 24)) by (apply IZR_le; lia). lra.
    - assert (HR := proj2 (alpha_range len w (B2R dt) Hl Hw Hc) H). rewrite <- Hr in HR. subst r. rewrite HR, H.
      apply Rabs_le. assert (1 <= IZR len <= IZR (2 ^ 24)) by (split; apply IZR_le; lia). lra.
  Qed.

  (** The state of a completed history. *)
  Lemma history_state d m ops s mx :
    lin_history K O p d m ops s -> lin_trusted ops -> unpeeked ops ->
    lin_get_max_delay p s = Ok mx -> (mx < 2 ^ 24)%Z -> is_finite (lin_get_delay s) = true ->
    let c := B2R (lin_get_delay s) in
    lin_inv O s /\ ld_do_next_out s = true /\ vlen (ld_memory s) = (mx + 1)%Z
    /\ 0 <= c <= IZR mx
    /\ exists w, (0 <= w <= mx)%Z /\ llag s = lag32 (mx + 1) w c
       /\ fin (ld_alpha s) = true /\ val (ld_alpha s) = pos32 (mx + 1) w c - IZR (read32 (mx + 1) w c)
       /\ fin (ld_om_alpha s) = true /\ val (ld_om_alpha s) = rnd (1 - val (ld_alpha s)).
  Proof.
    intros Hh Ht Hu Hmx Hlim Hfin c.
    assert (Hsize := fl_size _ _ _ _ _ HF). assert (Hfits := fl_fits _ _ _ _ _ HF).
    assert (Hw := history_winv K O p Hsize d m ops s Hh).
    assert (HL := get_max_winv O p Hsize s mx Hw Hmx).
    destruct (history_hinv K O p Hsize (2 ^ 24) fl_range d m ops s Hh ltac:(lia)) as [[Hi _] [Ha Hn]].
    specialize (Ha Ht). specialize (Hn Hu).
    destruct Ha as [w0 [d0 [dt [r [a [A1 [A2 [A3 [A4 [A5 A6]]]]]]]]]]. rewrite HL in *.
    unfold lin_get_delay in *. rewrite A3 in Hfin.
    destruct Hw as [Hw _].
    assert (Hlen : (1 <= mx + 1 <= 2 ^ 24)%Z) by lia.
    destruct (ctl_clip (mx + 1) w0 d0 dt r a Hlen A1 A2 Hfin) as [Hc [Hr [Fa Va]]].
    destruct (weights_fin (mx + 1) w0 d0 dt r a Hlen A1 A2 Hfin) as [Fo Vo].
    assert (Hc' : 0 <= c <= IZR (mx + 1) - 1) by (unfold c; rewrite A3; exact Hc).
    assert (Ec : B2R dt = c) by (unfold c; now rewrite A3).
    split; [exact Hi|]. split; [exact Hn|]. split; [reflexivity|].
    split; [rewrite plus_IZR in Hc'; lra|].
    exists w0. split; [lia|]. rewrite Ec in *. subst r.
    rewrite <- lag_of_lag32 by assumption. rewrite A5, A6.
    split; [unfold llag; rewrite HL; exact A4|]. rewrite Va. rewrite Va in Vo. repeat split; assumption.
  Qed.

  (** [set_delay] with a known write position. *)
  Lemma set_state d m0 ops s d' :
    lin_history K O p d m0 ops s -> unpeeked ops -> short (2 ^ 24) (max_after m0 ops) -> d' <> B754_nan ->
    let m := max_after m0 ops in
    let w := write_after m0 ops in
    let c := clip32 d' (IZR m) in
    exists s1, lin_set_delay K O p s d' = Ok s1 /\ lin_inv O s1 /\ ld_do_next_out s1 = true
      /\ vlen (ld_memory s1) = (m + 1)%Z /\ (0 <= w < m + 1)%Z /\ 0 <= c <= IZR m
      /\ is_finite (ld_delay s1) = true /\ B2R (ld_delay s1) = c
      /\ llag s1 = lag32 (m + 1) w c
      /\ fin (ld_alpha s1) = true /\ val (ld_alpha s1) = pos32 (m + 1) w c - IZR (read32 (m + 1) w c)
      /\ fin (ld_om_alpha s1) = true /\ val (ld_om_alpha s1) = rnd (1 - val (ld_alpha s1)).
  Proof.
    intros Hh Hu Hsh Hd m w c. unfold short in Hsh. fold m in Hsh.
    assert (Hsize := fl_size _ _ _ _ _ HF). assert (Hfits := fl_fits _ _ _ _ _ HF).
    destruct (history_place K O p Hsize d m0 ops s Hh) as [HL HW]. fold m in HL. fold w in HW.
    destruct (history_hinv K O p Hsize (2 ^ 24) fl_range d m0 ops s Hh ltac:(lia)) as [[Hi _] [_ Hn]].
    specialize (Hn Hu).
    assert (Hi' := Hi). destruct Hi' as [Il0 Iw0 _ _]. cbn [dl_of dl_memory dl_write] in Il0, Iw0.
    assert (Hw : (0 <= w < m + 1)%Z) by (rewrite <- HW, <- HL; lia).
    assert (Hlen : (1 <= m + 1 <= 2 ^ 24)%Z) by lia.
    assert (EM : IZR (m + 1) - 1 = IZR m) by (rewrite plus_IZR; lra).
    destruct (fl_ctl (m + 1) w d' Hlen Hw Hd) as [dt [a [E [Df [Dv [Af Av]]]]]].
    rewrite EM in *. fold c in E, Dv, Av.
    assert (Hc : 0 <= c <= IZR m) by (apply clip32_range; apply IZR_le; lia).
    assert (Hc' : 0 <= c <= IZR (m + 1) - 1) by (rewrite EM; exact Hc).
    assert (Hr := read32_range (m + 1) w c Hlen Hw Hc').
    rewrite lin_set_delay_ctl by (rewrite HL; assert (2 ^ 24 < two64)%Z by reflexivity; lia).
    rewrite HL, HW, E. cbn [bind]. eexists. split; [reflexivity|].
    destruct (weights_fin (m + 1) w d' dt _ a Hlen Hw E Df) as [Fo Vo].
    destruct (ctl_clip (m + 1) w d' dt _ a Hlen Hw E Df) as [_ [_ [Fa Va]]]. rewrite Dv in Va.
    destruct Hi as [Il Iw Ir Id]. cbn [dl_of dl_memory dl_write dl_read dl_delay] in *.
    split.
    { constructor; cbn [dl_of dl_memory dl_write dl_read dl_delay ld_memory ld_write ld_read]; lia. }
    unfold llag. cbn [ld_memory ld_write ld_read ld_delay ld_alpha ld_om_alpha ld_do_next_out].
    rewrite HL. rewrite lag_of_lag32 by assumption.
    repeat split; try assumption; try lia; lra.
  Qed.
End Line.
