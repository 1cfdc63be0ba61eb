(** Lemmas behind property C134.  The [@PROP] blocks are copied into [PropFracEcho.v]. *)
(*@PROP
(** Property C134: echoes with a fractional delay in [f32] and [f64].

    Vocabulary: [lin_echo K O p mix d m xs] is the program "let v = line.next_out(); let y = mix(x, v); line.process(y); emit y" on
    [LinearDelay::new(d, m)] ([EchoSpec]); [float_line] says that the line is one of f32 or f64 samples, its delay an f32
    ([LinFloatSpec]); [interpolated d y n] is the value [d] samples before number [n] of [y] ([FracEchoSpec]); [feedback O g x v] is
    x + g * v; [at_ z l n] is sample [n] of the list [l]. *)
From Coq Require Import ZArith Reals List Bool Lia Lra.
From Flocq Require Import Core.Core IEEE754.BinarySingleNaN.
From Verif Require Import Base Num NumR NumF FloatSpec Witness DelayM LinDelayM DelaySpec DelayRun LinSpec LinRun LinFloatSpec EchoSpec TrackSpec
  FracEchoSpec FracEchoLemmas.
Import ListNotations.
Open Scope R_scope.
@*)
From Coq Require Import ZArith Reals List Bool Lia Lra.
From Flocq Require Import Core.Core IEEE754.BinarySingleNaN.
From Verif Require Import Base BaseLemmas Num NumR NumF FloatSpec FloatFacts AnaFacts DelayM LinDelayM DelaySpec DelayRun DelayProofs
  LinSpec LinRun LinFloatSpec LinProofs LinCtlR LinCtlF LinInv LinFacts LinFloat LinLemmas2 LinLemmas3 LinLemmas FltFilterFacts LinAccLemmas
  EchoSpec EchoLemmas TrackSpec FracEchoSpec.
Import ListNotations.
Open Scope R_scope.

Section Frac.
  Context {T : Type} (K : ctl_ops f32 T) (O : num_ops T) (val : T -> R) (fin : T -> bool) (rnd : R -> R).
  Hypothesis HFL : float_line K O val fin rnd.
  Context (p : profile) (d : f32) (m : Z).
  Hypothesis Hm : (0 <= m)%Z /\ short (2 ^ 24) m.
  Hypothesis Hf : is_finite d = true.
  Hypothesis Hd : 2 <= B2R d <= IZR m.
  Let HF := float_line_fline _ _ _ _ _ HFL.
  Local Notation zero := (n_zero O).

  Lemma low_ok : IZR (m + 1) * bpow radix2 (-23) <= B2R d <= IZR m.
  Proof using Hm Hd.
    destruct Hm as [H0 H1]. unfold short in H1. split; [|apply Hd]. apply Rle_trans with 2; [|apply Hd].
    apply Rle_trans with (IZR (2 ^ 24) * bpow radix2 (-23)); [apply Rmult_le_compat_r; [apply bpow_ge_0|apply IZR_le; exact H1]|].
    change (IZR (2 ^ 24)) with (bpow radix2 24). rewrite <- bpow_plus. cbn. lra.
  Qed.

  Let L := lag32 (m + 1) 0 (B2R d).

  (** The weights and the reported delay are those of the constructor. *)
  Lemma frac_stream : exists wn wo s0, lin_new K O p d m = Ok s0 /\ vlen (ld_memory s0) = (m + 1)%Z
    /\ is_finite (ld_delay s0) = true /\ B2R (ld_delay s0) = B2R d
    /\ fin wn = true /\ fin wo = true /\ 0 <= val wn <= 1 /\ val wo = rnd (1 - val wn)
    /\ (2 <= L)%Z /\ (Zfloor (B2R d) <= L <= Zceil (B2R d))%Z
    /\ Rabs (IZR L - val wn - B2R d) <= IZR (m + 1) * bpow radix2 (-23)
    /\ forall x n, exists s, lin_session K O p d m (map (fun i => DProcess (x i)) (seq 0 n))
         = Ok (s, map OSample (map (stream_out O (Z.to_nat m) (Z.to_nat L) wn wo x) (seq 0 n))).
  Proof using HFL Hm Hf Hd.
    destruct Hm as [Hm0 Hm1]. unfold short in Hm1.
    assert (Hsize := fl_size _ _ _ _ _ HF). assert (Hfits := fl_fits _ _ _ _ _ HF).
    assert (Hlen : (1 <= m + 1 <= 2 ^ 24)%Z) by lia.
    assert (EM : IZR (m + 1) - 1 = IZR m) by (rewrite plus_IZR; lra).
    assert (Hdn : d <> B754_nan) by (intros E; rewrite E in Hf; discriminate).
    assert (Hcd : is_finite (clip_delay K d m) = true /\ B2R (clip_delay K d m) = B2R d).
    { destruct (fl_gen _ _ _ _ _ HF) as [cast ->].
      destruct (clip_f32 cast d m ltac:(unfold two64; lia) Hdn) as [A B]. split; [exact A|]. rewrite B.
      rewrite RN32_small by lia. rewrite clip32_finite by exact Hf. unfold clipR.
      rewrite Rmin_left, Rmax_right by lra. reflexivity. }
    destruct Hcd as [Cf Cv].
    assert (Hcn : clip_delay K d m <> B754_nan) by (intros E; rewrite E in Cf; discriminate).
    destruct (fl_ctl K O val fin rnd HF (m + 1) 0 (clip_delay K d m) Hlen ltac:(lia) Hcn)
      as [dt [a [E [Df [Dv [Af Av]]]]]].
    rewrite EM, clip32_finite, Cv in E, Dv, Av by exact Cf.
    replace (clipR (B2R d) (IZR m)) with (B2R d) in E, Dv, Av
      by (unfold clipR; rewrite Rmin_left, Rmax_right by lra; reflexivity).
    assert (Hc' : 0 <= B2R d <= IZR (m + 1) - 1) by (rewrite EM; lra).
    assert (Hr := read32_range (m + 1) 0 (B2R d) Hlen ltac:(lia) Hc').
    destruct (new_ctl K O p Hsize d m dt _ a Hm0 ltac:(lia) E Hr)
      as [s0 [En [Hi [HL [Hh [Hno [Hdl [Hlg [Hal [Hom _]]]]]]]]]].
    destruct (weights_fin K O val fin rnd HF (m + 1) 0 _ dt _ a Hlen ltac:(lia) E Df) as [Fo Vo].
    destruct (ctl_clip K O val fin rnd HF (m + 1) 0 _ dt _ a Hlen ltac:(lia) E Df) as [_ [_ [Fa Va]]].
    rewrite Dv in Va.
    destruct (new_lag m (B2R d) Hm0 Hm1 (generic_format_B2R _ _ _) low_ok) as [Hq [HL1 [Hw [He HLr]]]]. fold L in HL1, He, HLr.
    exists (ld_alpha s0), (ld_om_alpha s0), s0. rewrite Hal, Hom, Hdl.
    rewrite <- Va in Hw, He.
    repeat (split; [solve [eauto]|]). split.
    { assert (2 <= Zfloor (B2R d))%Z by (apply Zfloor_lub; lra). lia. }
    split; [exact HLr|]. split; [exact He|].
    intros x n. destruct (new_stream K O p Hsize d m s0 x n En Hi Hm0 HL eq_refl Hh Hno) as [s' Es].
    rewrite Hlg, lag_of_lag32 in Es by (lia || assumption). rewrite Hal, Hom in Es. exists s'. exact Es.
  Qed.

  Definition frac_read (wn wo : T) (ys : list T) : T :=
    n_add O (n_mul O (read_back zero (Z.to_nat L) ys) wo) (n_mul O (read_back zero (Z.to_nat (L - 1)) ys) wn).

  Definition past_frac (s : lin_delay f32 T) (ys : list T) : Prop :=
    exists os, lin_session K O p d m (map DProcess ys) = Ok (s, os).

  Lemma run_keeps ys : forall s s' os, lin_run K O p s (map DProcess ys) = Ok (s', os) -> vlen (ld_memory s') = vlen (ld_memory s).
  Proof using.
    induction ys as [|y ys IH]; intros s s' os E; cbn [map lin_run lin_step] in E.
    - injection E as <- _. reflexivity.
    - apply bind_Ok in E. destruct E as [[s1 o] [E1 E]]. apply bind_Ok in E1. destruct E1 as [[s2 o2] [E2 E1]].
      injection E1 as <- _. apply bind_Ok in E. destruct E as [[s3 os3] [E3 E]]. injection E as <- _.
      rewrite (IH _ _ _ E3). clear - E2. unfold lin_process in E2.
      apply bind_Ok in E2. destruct E2 as [mem [Em E2]].
      do 2 (apply bind_Ok in E2; destruct E2 as [? [_ E2]]).
      apply bind_Ok in E2. destruct E2 as [[t2 y2] [En E2]].
      do 2 (apply bind_Ok in E2; destruct E2 as [? [_ E2]]). injection E2 as <- _. cbn [ld_memory].
      assert (Hl : vlen mem = vlen (ld_memory s)).
      { unfold vset in Em. destruct (_ <? _)%Z; [discriminate|]. destruct (_ <=? _)%Z; [discriminate|]. injection Em as <-.
        unfold vlen. rewrite list_set_length. reflexivity. }
      unfold lin_next_out in En. cbn [ld_do_next_out ld_next_out ld_memory ld_read ld_om_alpha ld_alpha ld_delay ld_output ld_write] in En.
      destruct (ld_do_next_out s).
      + do 3 (apply bind_Ok in En; destruct En as [? [_ En]]). injection En as <- _. exact Hl.
      + injection En as <- _. exact Hl.
  Qed.

  Lemma map_seq_nth_T (ys : list T) : map (fun i => @DProcess f32 T (nth i ys zero)) (seq 0 (length ys)) = map DProcess ys.
  Proof using.
    induction ys as [|y ys IH]; [reflexivity|]. cbn [length seq map nth]. f_equal. rewrite <- seq_shift, map_map. exact IH.
  Qed.

  Lemma frac_step wn wo s0 : lin_new K O p d m = Ok s0 -> vlen (ld_memory s0) = (m + 1)%Z ->
    is_finite (ld_delay s0) = true -> B2R (ld_delay s0) = B2R d -> (2 <= L)%Z ->
    (forall x n, exists s, lin_session K O p d m (map (fun i => DProcess (x i)) (seq 0 n))
         = Ok (s, map OSample (map (stream_out O (Z.to_nat m) (Z.to_nat L) wn wo x) (seq 0 n)))) ->
    forall s ys, past_frac s ys ->
    exists s1, lin_next_out O p s = Ok (s1, frac_read wn wo ys)
      /\ forall y, exists s2 o, lin_process O p s1 y = Ok (s2, o) /\ past_frac s2 (ys ++ [y]).
  Proof using HFL Hm Hf Hd.
    intros En Hlen Df Dv HL2 HS s ys [os E]. destruct Hm as [Hm0 Hm1]. unfold short in Hm1.
    assert (Hsize := fl_size _ _ _ _ _ HF).
    assert (HH : lin_history K O p d m (map DProcess ys) s).
    { split; [unfold is_usize, usize_max, two64; lia|]. split; [unfold usize_max, two64; lia|]. split; [|exists os; exact E].
      apply Forall_forall. intros op Hin. apply in_map_iff in Hin. destruct Hin as [x [<- _]]. split; [exact I|discriminate]. }
    assert (Ht : lin_trusted (map (@DProcess f32 T) ys)).
    { unfold lin_trusted. clear. induction ys as [|y ys IH]; [reflexivity|exact IH]. }
    assert (Hu : unpeeked (map (@DProcess f32 T) ys)).
    { unfold unpeeked. clear. induction ys as [|y ys IH]; [reflexivity|exact IH]. }
    assert (E' := E). unfold lin_session in E'. rewrite En in E'. cbn [bind] in E'.
    assert (HD : lin_get_delay s = ld_delay s0) by (unfold lin_get_delay; apply (lin_run_delay _ _ _ _ _ _ _ E')).
    assert (HM : lin_get_max_delay p s = Ok m).
    { rewrite (winv_get_max O p Hsize s (history_winv K O p Hsize _ _ _ _ HH)), (run_keeps ys _ _ _ E'), Hlen. f_equal. lia. }
    assert (P : forall y, exists s1 s2 v, lin_next_out O p s = Ok (s1, v)
      /\ lin_process O p s y = Ok (s2, v) /\ lin_process O p s1 y = Ok (s2, v)).
    { intros y. apply (C25_peek_harmless_float_thm T K O val fin rnd p d m (map DProcess ys) s m y HFL HH Ht Hu HM); [lia| |]; rewrite HD; [exact Df|lra]. }
    assert (App : forall y s2 v, lin_process O p s y = Ok (s2, v) ->
      lin_session K O p d m (map DProcess (ys ++ [y])) = Ok (s2, os ++ [OSample v])).
    { intros y s2 v Ep. unfold lin_session. rewrite En. cbn [bind]. rewrite map_app, lin_run_app, E'. cbn [bind map lin_run lin_step].
      rewrite Ep. reflexivity. }
    assert (V : forall y s2 v, lin_process O p s y = Ok (s2, v) -> v = frac_read wn wo ys).
    { intros y s2 v Ep. assert (A := App y s2 v Ep).
      destruct (HS (fun i => nth i (ys ++ [y]) zero) (length (ys ++ [y]))) as [s3 A'].
      rewrite map_seq_nth_T, A in A'. injection A' as _ A'.
      rewrite app_length in A'. cbn [length] in A'. rewrite Nat.add_1_r, seq_S, !map_app in A'. cbn [map plus] in A'.
      apply app_inj_tail in A'. destruct A' as [_ A']. injection A' as ->. unfold frac_read, stream_out, Nat.add.
      assert (B : forall j, (1 <= j)%nat -> behind zero (fun i => nth i (ys ++ [y]) zero) j (length ys) = read_back zero j ys).
      { intros j Hj. unfold behind, read_back. destruct (Nat.leb_spec j (length ys)); [|reflexivity].
        rewrite app_nth1 by lia. reflexivity. }
      assert (EL : Z.to_nat L = Datatypes.S (Z.to_nat (L - 1))) by lia.
      rewrite EL. cbn iota. rewrite !B by lia. reflexivity. }
    destruct (P zero) as [s1 [s2 [v [P1 [P2 P3]]]]]. exists s1. split; [rewrite P1, (V _ _ _ P2); reflexivity|].
    intros y. destruct (P y) as [s1' [s2' [v' [Q1 [Q2 Q3]]]]]. rewrite P1 in Q1. injection Q1 as <- <-.
    exists s2', v. split; [exact Q3|]. eexists. apply (App _ _ _ Q2).
  Qed.
End Frac.

Section Fb.
  Context (prec emax : Z) {Hp : Prec_gt_0 prec} {Hm : Prec_lt_emax prec emax}.
  Let fx := SpecFloat.fexp prec emax.
  Local Notation F := (binary_float prec emax).

  Lemma fb_gen (g x v : F) X G B W :
    is_finite g = true -> generic_format radix2 fx G -> generic_format radix2 fx B -> B < bpow radix2 emax ->
    0 <= X -> Rabs (B2R g) * W <= G -> X + G <= B ->
    is_finite x = true -> Rabs (B2R x) <= X -> is_finite v = true -> Rabs (B2R v) <= W ->
    let y := f_add prec emax x (f_mul prec emax g v) in
    is_finite y = true /\ Rabs (B2R y) <= B /\ Rabs (B2R y - (B2R x + B2R g * B2R v)) <= uro prec * (G + B) + 2 * eta prec emax.
  Proof.
    intros Fg GG GB MB X0 HG HX Fx Bx Fv Bv y. unfold y.
    assert (P : Rabs (B2R g * B2R v) <= G).
    { rewrite Rabs_mult. eapply Rle_trans; [apply Rmult_le_compat_l; [apply Rabs_pos|exact Bv]|exact HG]. }
    destruct (mul_ok prec emax g v G Fg Fv GG ltac:(lra) P) as [Fm Em].
    assert (Pm : Rabs (B2R (f_mul prec emax g v)) <= G) by (rewrite Em; apply RN_abs_le; assumption).
    assert (Q : Rabs (B2R x + B2R (f_mul prec emax g v)) <= B).
    { eapply Rle_trans; [apply Rabs_triang|]. lra. }
    destruct (add_ok prec emax x (f_mul prec emax g v) B Fx Fm GB MB Q) as [Fa Ea].
    split; [exact Fa|]. split; [rewrite Ea; apply RN_abs_le; assumption|].
    pose proof (RN_err prec emax (B2R g * B2R v)) as E1. pose proof (RN_err prec emax (B2R x + B2R (f_mul prec emax g v))) as E2.
    rewrite Ea. rewrite <- Em in E1.
    match type of E2 with Rabs (?a - ?b) <= _ => replace (a - (B2R x + B2R g * B2R v)) with ((a - b) + (B2R (f_mul prec emax g v) - B2R g * B2R v)) by ring end.
    eapply Rle_trans; [apply Rabs_triang|].
    assert (U := uro_pos prec).
    assert (uro prec * Rabs (B2R g * B2R v) <= uro prec * G) by (apply Rmult_le_compat_l; lra).
    assert (uro prec * Rabs (B2R x + B2R (f_mul prec emax g v)) <= uro prec * B) by (apply Rmult_le_compat_l; lra).
    lra.
  Qed.
End Fb.

Lemma fb_ok (T : Type) (O : num_ops T) (V : float_view T) (g x v : T) X G B W :
    ieee O V -> fin V g = true -> rnd V G = G -> rnd V B = B -> B <= fmax V -> 0 <= X ->
    Rabs (val V g) * W <= G -> X + G <= B ->
    fin V x = true -> Rabs (val V x) <= X -> fin V v = true -> Rabs (val V v) <= W ->
    fin V (feedback O g x v) = true /\ Rabs (val V (feedback O g x v)) <= B
    /\ Rabs (val V (feedback O g x v) - (val V x + val V g * val V v)) <= half_ulp V * (G + B) + 2 * half_tiny V.
Proof.
  intros HO Fg RG RB MB X0 HG HX Fx Bx Fv Bv.
  destruct HO; cbn [fin val rnd fmax ieee_view] in *; unfold feedback; cbn [n_add n_mul f32_ops f64_ops];
    [apply (fb_gen 24 128 g x v X G B W)|apply (fb_gen 53 1024 g x v X G B W)]; try assumption.
  1,4: rewrite <- RG; apply generic_format_round; typeclasses eauto.
  1,3: rewrite <- RB; apply generic_format_round; typeclasses eauto.
  all: match type of MB with _ <= (1 - bpow radix2 ?a) * bpow radix2 ?b =>
         assert (0 < bpow radix2 a) by apply bpow_gt_0; assert (0 < bpow radix2 b) by apply bpow_gt_0; nra end.
Qed.

(*@PROP
(** C134: an echo with any mixing function on [LinearDelay::new(d, m)], 2 <= d <= m < 2^24, never panics; each sample is the mixture of
    the input with a value [v] read from the line, and while the samples emitted so far are finite and within [B], that value is
    finite, within B (up to rounding), and within (m + 2) 2^-22 B of the ideal interpolation of the output [d] samples ago. *)
@*)
Lemma C134_fractional_echo_thm :
  forall (T : Type) (K : ctl_ops f32 T) (O : num_ops T) (val : T -> R) (fin : T -> bool) (rnd : R -> R),
    float_line K O val fin rnd ->
  forall (p : profile) (mix : T -> T -> T) (d : f32) (m : Z) (xs : list T),
    (0 <= m)%Z -> short (2 ^ 24) m -> is_finite d = true -> 2 <= B2R d <= IZR m ->
    exists s ys vs, lin_echo K O p mix d m xs = Ok (s, ys) /\ length ys = length xs /\ length vs = length xs
      /\ forall n, (n < length xs)%nat ->
           at_ (n_zero O) ys n = mix (at_ (n_zero O) xs n) (at_ (n_zero O) vs n)
           /\ forall B, 0 <= B <= bpow radix2 126 ->
                (forall j, (j < n)%nat -> fin (at_ (n_zero O) ys j) = true /\ Rabs (val (at_ (n_zero O) ys j)) <= B) ->
                let v := at_ (n_zero O) vs n in
                fin v = true
                /\ Rabs (val v) <= (1 + bpow radix2 (-22)) * B + bpow radix2 (-148)
                /\ Rabs (val v - interpolated (B2R d) (fun j => val (at_ (n_zero O) ys j)) n)
                   <= IZR (m + 2) * bpow radix2 (-22) * B + bpow radix2 (-148).
Proof.
  intros T K O val fin rnd HFL p mix d m xs Hm0 Hm1 Hf Hd.
  assert (HF := float_line_fline _ _ _ _ _ HFL). destruct (fl_zero _ _ _ _ _ HF) as [Zf Zv].
  destruct (frac_stream K O val fin rnd HFL p d m (conj Hm0 Hm1) Hf Hd)
    as (wn & wo & s0 & En & Hlen & Df & Dv & Fn & Fo & Hw & Vo & HL2 & HLr & He & HS).
  destruct (echo_gen (n_zero O) (lin_next_out O p) (lin_process O p) mix (past_frac K O p d m) (frac_read O d m wn wo)
              (frac_step K O val fin rnd HFL p d m (conj Hm0 Hm1) Hf Hd wn wo s0 En Hlen Df Dv HL2 HS) xs s0 []) as [s [ys [E [Ly N]]]].
  { exists []. unfold lin_session. rewrite En. reflexivity. }
  set (L := lag32 (m + 1) 0 (B2R d)) in *.
  exists s, ys, (map (fun n => frac_read O d m wn wo (firstn n ys)) (seq 0 (length xs))).
  unfold lin_echo. rewrite En. cbn [bind]. split; [exact E|]. split; [exact Ly|]. split; [rewrite map_length, seq_length; reflexivity|].
  intros n Hn.
  assert (Ev : at_ (n_zero O) (map (fun n => frac_read O d m wn wo (firstn n ys)) (seq 0 (length xs))) n = frac_read O d m wn wo (firstn n ys)).
  { unfold at_. rewrite (nth_indep _ _ (frac_read O d m wn wo (firstn 0 ys))) by (rewrite map_length, seq_length; exact Hn).
    rewrite (map_nth (fun n => frac_read O d m wn wo (firstn n ys)) (seq 0 (length xs)) 0%nat n), seq_nth by exact Hn. reflexivity. }
  rewrite Ev. split; [unfold at_; rewrite (N n Hn); reflexivity|].
  intros B [HB0 HB] HI.
  assert (W : forall j, (1 <= j)%nat -> let b := behind (n_zero O) (at_ (n_zero O) ys) j n in fin b = true /\ Rabs (val b) <= B).
  { intros j Hj b. unfold b, behind. destruct (Nat.leb_spec j n); [apply HI; lia|]. split; [exact Zf|]. rewrite Zv, Rabs_R0. exact HB0. }
  unfold frac_read. fold L. rewrite !read_behind by lia.
  set (a := behind (n_zero O) (at_ (n_zero O) ys) (Z.to_nat L) n). set (b := behind (n_zero O) (at_ (n_zero O) ys) (Z.to_nat (L - 1)) n).
  destruct (W (Z.to_nat L) ltac:(lia)) as [Fa Ba]. destruct (W (Z.to_nat (L - 1)) ltac:(lia)) as [Fb Bb]. fold a in Fa, Ba. fold b in Fb, Bb.
  destruct (line_blend K O val fin rnd HFL a b wo wn B Fa Fb Fo Fn Ba Bb HB Hw Vo) as [B1 B2].
  split; [exact B1|]. split.
  - assert (C : Rabs ((1 - val wn) * val a + val wn * val b) <= B).
    { eapply Rle_trans; [apply Rabs_triang|]. rewrite !Rabs_mult, (Rabs_pos_eq (1 - val wn)), (Rabs_pos_eq (val wn)) by lra.
      assert ((1 - val wn) * Rabs (val a) <= (1 - val wn) * B) by (apply Rmult_le_compat_l; lra).
      assert (val wn * Rabs (val b) <= val wn * B) by (apply Rmult_le_compat_l; lra). lra. }
    match goal with |- Rabs ?y <= _ => match type of B2 with Rabs (_ - ?w) <= _ => replace y with ((y - w) + w) by ring end end.
    eapply Rle_trans; [apply Rabs_triang|]. lra.
  - set (Y := fun j => val (at_ (n_zero O) ys j)).
    set (XX := fun j : Z => if (1 <=? j)%Z then behind 0 Y (Z.to_nat j) n else 0).
    assert (HXX : forall j, Rabs (XX j) <= B).
    { intros j. unfold XX. destruct (Z.leb_spec 1 j); [|rewrite Rabs_R0; exact HB0]. unfold Y.
      rewrite <- (behind_val val (n_zero O)) by exact Zv. apply W. lia. }
    assert (G := interp_lipschitz XX B (B2R d) (IZR (m + 1) * bpow radix2 (-23)) (val wn) L HXX HLr (proj1 Hw) He).
    assert (Hk0 : (2 <= Zfloor (B2R d))%Z) by (apply Zfloor_lub; lra).
    unfold XX in G.
    replace (1 <=? L)%Z with true in G by (symmetry; apply Z.leb_le; lia). replace (1 <=? L - 1)%Z with true in G by (symmetry; apply Z.leb_le; lia).
    replace (1 <=? Zfloor (B2R d))%Z with true in G by (symmetry; apply Z.leb_le; lia).
    replace (1 <=? Zfloor (B2R d) + 1)%Z with true in G by (symmetry; apply Z.leb_le; lia).
    replace (Z.to_nat (Zfloor (B2R d) + 1)) with (S (Z.to_nat (Zfloor (B2R d)))) in G by lia.
    unfold a, b in B2 |- *. rewrite !(behind_val val) in B2 by exact Zv. fold Y in B2. unfold interpolated. cbv zeta.
    replace (IZR (m + 2)) with (IZR (m + 1) + 1) by (rewrite !plus_IZR; ring).
    replace (bpow radix2 (-22)) with (2 * bpow radix2 (-23)) in * by (cbn; lra).
    match goal with |- Rabs (?y - ?z) <= _ => match type of B2 with Rabs (_ - ?w) <= _ =>
      replace (y - z) with ((y - w) + (w - z)) by ring end end.
    eapply Rle_trans; [apply Rabs_triang|]. eapply Rle_trans; [apply Rplus_le_compat; [exact B2|exact G]|]. lra.
Qed.

(*@PROP
(** C134: the feedback comb y[n] = x[n] + g y[n - d] with a fractional delay.  If numbers [G] and [B] of the type leave room for the
    input and the rounding of the interpolation, every output is finite and within [B], for ever; and the output stays within a fixed
    distance of the exact comb [z], for ever. *)
@*)
Lemma C134_comb_thm :
  forall (T : Type) (K : ctl_ops f32 T) (O : num_ops T) (V : float_view T),
    ieee O V -> float_line K O (val V) (fin V) (rnd V) ->
  forall (p : profile) (g : T) (d : f32) (m : Z) (xs : list T) (X G B : R),
    (0 <= m)%Z -> short (2 ^ 24) m -> is_finite d = true -> 2 <= B2R d <= IZR m ->
    fin V g = true -> rnd V G = G -> rnd V B = B -> 0 <= X -> 0 <= B <= bpow radix2 126 ->
    Rabs (val V g) * ((1 + bpow radix2 (-22)) * B + bpow radix2 (-148)) <= G -> X + G <= B ->
    (forall x, In x xs -> fin V x = true /\ Rabs (val V x) <= X) ->
    exists s ys, lin_echo K O p (feedback O g) d m xs = Ok (s, ys) /\ length ys = length xs
      /\ (forall y, In y ys -> fin V y = true /\ Rabs (val V y) <= B)
      /\ forall z : nat -> R, Rabs (val V g) < 1 ->
           (forall n, z n = val V (at_ (n_zero O) xs n) + val V g * interpolated (B2R d) z n) ->
           forall n, (n < length xs)%nat ->
             Rabs (val V (at_ (n_zero O) ys n) - z n)
             <= (Rabs (val V g) * (IZR (m + 2) * bpow radix2 (-22) * B + bpow radix2 (-148))
                 + half_ulp V * (G + B) + 2 * half_tiny V) / (1 - Rabs (val V g)).
Proof.
  intros T K O V HO HFL p g d m xs X G B Hm0 Hm1 Hf Hd Fg RG RB X0 [B0 B1] HG HX HI.
  destruct (C134_fractional_echo_thm T K O (val V) (fin V) (rnd V) HFL p (feedback O g) d m xs Hm0 Hm1 Hf Hd) as (s & ys & vs & E & Ly & Lv & N).
  assert (MB : B <= fmax V).
  { eapply Rle_trans; [exact B1|]. destruct HO; cbn [fmax ieee_view].
    - assert (bpow radix2 127 = 2 * bpow radix2 126) by (change 127%Z with (1 + 126)%Z; rewrite bpow_plus; reflexivity).
      assert (bpow radix2 128 = 2 * bpow radix2 127) by (change 128%Z with (1 + 127)%Z; rewrite bpow_plus; reflexivity).
      assert (0 < bpow radix2 126) by apply bpow_gt_0.
      assert (bpow radix2 (- (24)) <= / 2) by (change (/ 2) with (bpow radix2 (-1)); apply bpow_le; lia). nra.
    - assert (bpow radix2 126 <= bpow radix2 1000) by (apply bpow_le; lia).
      assert (bpow radix2 1024 = bpow radix2 24 * bpow radix2 1000) by (rewrite <- bpow_plus; reflexivity).
      assert (0 < bpow radix2 1000) by apply bpow_gt_0. change (bpow radix2 24) with 16777216 in *.
      assert (bpow radix2 (- (53)) <= / 2) by (change (/ 2) with (bpow radix2 (-1)); apply bpow_le; lia). nra. }
  set (W := (1 + bpow radix2 (-22)) * B + bpow radix2 (-148)) in *.
  assert (A : forall n, (n < length xs)%nat -> fin V (at_ (n_zero O) ys n) = true /\ Rabs (val V (at_ (n_zero O) ys n)) <= B
     /\ Rabs (val V (at_ (n_zero O) ys n) - (val V (at_ (n_zero O) xs n) + val V g * val V (at_ (n_zero O) vs n))) <= half_ulp V * (G + B) + 2 * half_tiny V).
  { intros n. induction n as [n IH] using lt_wf_ind. intros Hn. destruct (N n Hn) as [Ey Hv].
    destruct (Hv B (conj B0 B1)) as (F1 & F2 & _).
    { intros j Hj. destruct (IH j Hj ltac:(lia)) as (Q1 & Q2 & _). auto. }
    rewrite Ey. destruct (HI (at_ (n_zero O) xs n)) as [Fx Bx]; [apply nth_In, Hn|].
    apply (fb_ok T O V g _ _ X G B W); assumption. }
  exists s, ys. split; [exact E|]. split; [exact Ly|]. split.
  { intros y Hy. destruct (In_nth ys y (n_zero O) Hy) as [n [Hn <-]]. destruct (A n ltac:(lia)) as (Q1 & Q2 & _). auto. }
  intros z Hg Hz. set (a := Rabs (val V g)) in *. set (dl := IZR (m + 2) * bpow radix2 (-22) * B + bpow radix2 (-148)) in *.
  set (rh := half_ulp V * (G + B) + 2 * half_tiny V) in *.
  set (Q := (a * dl + half_ulp V * (G + B) + 2 * half_tiny V) / (1 - a)).
  assert (EQ : a * dl + rh = Q * (1 - a)) by (unfold Q, rh; field; lra).
  assert (Ha : 0 <= a) by apply Rabs_pos.
  assert (Q0 : 0 <= Q).
  { unfold Q. apply Rmult_le_pos; [|left; apply Rinv_0_lt_compat; lra].
    assert (0 <= dl).
    { unfold dl. apply Rplus_le_le_0_compat; [|apply bpow_ge_0]. apply Rmult_le_pos; [|exact B0]. apply Rmult_le_pos; [apply IZR_le; lia|apply bpow_ge_0]. }
    assert (0 <= a * dl) by (apply Rmult_le_pos; lra).
    assert (0 <= W). { unfold W. assert (0 <= bpow radix2 (-22)) by apply bpow_ge_0. assert (0 <= bpow radix2 (-148)) by apply bpow_ge_0. nra. }
    assert (0 <= G) by (eapply Rle_trans; [|exact HG]; apply Rmult_le_pos; lra).
    assert (0 <= half_ulp V) by apply bpow_ge_0. assert (0 <= half_tiny V) by (apply Rmult_le_pos; [apply bpow_ge_0|destruct HO; apply bpow_ge_0]). nra. }
  intros n. induction n as [n IH] using lt_wf_ind. intros Hn.
  destruct (A n Hn) as (_ & _ & R1). destruct (N n Hn) as [_ Hv].
  destruct (Hv B (conj B0 B1)) as (_ & _ & R2).
  { intros j Hj. destruct (A j ltac:(lia)) as (Q1 & Q2 & _). auto. }
  fold dl in R2. set (Y := fun j => val V (at_ (n_zero O) ys j)) in *. change (val V (at_ (n_zero O) ys n)) with (Y n) in *.
  assert (R3 : Rabs (interpolated (B2R d) Y n - interpolated (B2R d) z n) <= Q).
  { unfold interpolated. cbv zeta. set (k := Z.to_nat (Zfloor (B2R d))). set (f := B2R d - IZR (Zfloor (B2R d))).
    assert (Hk : (1 <= k)%nat). { assert (2 <= Zfloor (B2R d))%Z by (apply Zfloor_lub; lra). unfold k. lia. }
    assert (Fr : 0 <= f <= 1). { unfold f. assert (A1 := Zfloor_lb (B2R d)). assert (A2 := Zfloor_ub (B2R d)). lra. }
    assert (D : forall j, (1 <= j)%nat -> Rabs (behind 0 Y j n - behind 0 z j n) <= Q).
    { intros j Hj. unfold behind. destruct (Nat.leb_spec j n); [apply IH; lia|]. rewrite Rminus_0_r, Rabs_R0. exact Q0. }
    assert (D1 := D k Hk). assert (D2 := D (S k) ltac:(lia)).
    match goal with |- Rabs ?e <= _ => replace e with ((1 - f) * (behind 0 Y k n - behind 0 z k n) + f * (behind 0 Y (S k) n - behind 0 z (S k) n)) by ring end.
    eapply Rle_trans; [apply Rabs_triang|]. rewrite !Rabs_mult, (Rabs_pos_eq (1 - f)), (Rabs_pos_eq f) by lra. nra. }
  set (v := val V (at_ (n_zero O) vs n)) in *. rewrite (Hz n). set (x := val V (at_ (n_zero O) xs n)) in *. set (g' := val V g) in *.
  replace (Y n - (x + g' * interpolated (B2R d) z n)) with ((Y n - (x + g' * v)) + g' * ((v - interpolated (B2R d) Y n) + (interpolated (B2R d) Y n - interpolated (B2R d) z n))) by ring.
  eapply Rle_trans; [apply Rabs_triang|]. rewrite Rabs_mult. fold a.
  assert (R4 : Rabs ((v - interpolated (B2R d) Y n) + (interpolated (B2R d) Y n - interpolated (B2R d) z n)) <= dl + Q) by (eapply Rle_trans; [apply Rabs_triang|]; lra).
  assert (a * Rabs ((v - interpolated (B2R d) Y n) + (interpolated (B2R d) Y n - interpolated (B2R d) z n)) <= a * (dl + Q)) by (apply Rmult_le_compat_l; lra).
  assert (a * dl + rh = Q - Q * a) by lra. lra.
Qed.

(*@PROP
(** C134: the exact comb of [C134_comb] exists, for every input, gain and delay of at least 1, and is unique. *)
@*)
Lemma C134_exact_comb_thm :
  forall (x : nat -> R) (g d : R), 1 <= d ->
    (exists z : nat -> R, forall n, z n = x n + g * interpolated d z n)
    /\ (forall z z' : nat -> R, (forall n, z n = x n + g * interpolated d z n) -> (forall n, z' n = x n + g * interpolated d z' n) ->
          forall n, z n = z' n).
Proof.
  intros x g d Hd.
  assert (Hk : (1 <= Z.to_nat (Zfloor d))%nat). { assert (1 <= Zfloor d)%Z by (apply Zfloor_lub; lra). lia. }
  assert (Loc : forall y y' n, (forall j, (j < n)%nat -> y j = y' j) -> interpolated d y n = interpolated d y' n).
  { intros y y' n H. unfold interpolated, behind. cbv zeta.
    destruct (Nat.leb_spec (Z.to_nat (Zfloor d)) n); destruct (Nat.leb_spec (S (Z.to_nat (Zfloor d))) n); rewrite ?H by lia; reflexivity. }
  split.
  - set (build := fix build (n : nat) : list R := match n with O => [] | S k => let l := build k in l ++ [x k + g * interpolated d (fun j => nth j l 0) k] end).
    assert (Len : forall n, length (build n) = n).
    { induction n as [|n IH]; [reflexivity|]. cbn [build]. cbv zeta. fold build. rewrite app_length, IH. cbn. lia. }
    assert (Pre : forall n k j, (j < n)%nat -> nth j (build (n + k)%nat) 0 = nth j (build n) 0).
    { intros n k j Hj. induction k as [|k IH]; [rewrite Nat.add_0_r; reflexivity|]. rewrite Nat.add_succ_r. cbn [build]. cbv zeta. fold build.
      rewrite app_nth1 by (rewrite Len; lia). exact IH. }
    exists (fun n => nth n (build (S n)) 0). intros n.
    transitivity (x n + g * interpolated d (fun j => nth j (build n) 0) n).
    + cbn [build]. cbv zeta. fold build. rewrite app_nth2 by (rewrite Len; lia). rewrite Len, Nat.sub_diag. reflexivity.
    + f_equal. f_equal. apply Loc. intros j Hj. replace n with (S j + (n - S j))%nat by lia. apply Pre. lia.
  - intros z z' H H' n. induction n as [n IH] using lt_wf_ind. rewrite H, H'. f_equal. f_equal. apply Loc. exact IH.
Qed.

(*@PROP
(** The premises of the theorems above on a line of 8 f32 samples with a delay of 5/2, a feedback of 1/2 and samples within 1. *)
Example C134_hyps :
  ieee O32 (ieee_view 24 128)
  /\ float_line f32_ctl_f32 O32 (val (ieee_view 24 128)) (fin (ieee_view 24 128)) (rnd (ieee_view 24 128))
  /\ short (2 ^ 24) 7 /\ is_finite (fl32 5 (-1)) = true /\ 2 <= B2R (fl32 5 (-1)) <= IZR 7
  /\ is_finite (fl32 1 (-1)) = true /\ Rabs (B2R (fl32 1 (-1))) < 1
  /\ rnd (ieee_view 24 128) 3 = 3 /\ rnd (ieee_view 24 128) 4 = 4 /\ 0 <= 4 <= bpow radix2 126
  /\ Rabs (B2R (fl32 1 (-1))) * ((1 + bpow radix2 (-22)) * 4 + bpow radix2 (-148)) <= 3 /\ 1 + 3 <= 4
  /\ is_finite (fl32 1 0) = true /\ Rabs (B2R (fl32 1 0)) <= 1.
Proof.
  replace (B2R (fl32 5 (-1))) with (5 / 2) by (cbn; unfold F2R; cbn; lra).
  replace (B2R (fl32 1 (-1))) with (/ 2) by (cbn; unfold F2R; cbn; lra).
  replace (B2R (fl32 1 0)) with 1 by (cbn; unfold F2R; cbn; lra).
  rewrite Rabs_R1, (Rabs_pos_eq (/ 2)) by lra.
  assert (bpow radix2 (-22) <= / 16) by (change (/ 16) with (bpow radix2 (-4)); apply bpow_le; lia).
  assert (bpow radix2 (-148) <= / 16) by (change (/ 16) with (bpow radix2 (-4)); apply bpow_le; lia).
  assert (4 <= bpow radix2 126) by (change 4 with (bpow radix2 2); apply bpow_le; lia).
  repeat match goal with |- _ /\ _ => split end; try lra; try reflexivity; try (unfold short; lia); try constructor.
  - replace 3 with (B2R (fl32 3 0)) by (cbn; unfold F2R; cbn; lra). apply round_generic; [typeclasses eauto|]. apply (generic_format_B2R 24 128).
  - replace 4 with (B2R (fl32 1 2)) by (cbn; unfold F2R; cbn; lra). apply round_generic; [typeclasses eauto|]. apply (generic_format_B2R 24 128).
Qed.
@*)
