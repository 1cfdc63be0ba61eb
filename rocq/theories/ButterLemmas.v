(** Proofs of C140.  The [@PROP] blocks are copied into [PropButter.v]. *)
(*@PROP
(** Property C140: Butterworth filters of any even order, in exact arithmetic.

    Vocabulary: [butter_q], [butterworth], [butter_gain] ([ButterSpec]); [valid_band], [omega]
    ([RbjSpec]); [warped w0 w]: the analog frequency of [w], 1 at the corner ([EqSpec]). *)
From Coq Require Import Reals List Lra Lia.
From Coquelicot Require Import Coquelicot.
From Verif Require Import Num NumR FilterM RbjM Device Signal RbjSpec EqSpec ButterSpec ButterLemmas.
Import ListNotations.
Open Scope R_scope.
@*)
From Coq Require Import Reals List Lra Lia ZArith.
From Coquelicot Require Import Coquelicot.
From Verif Require Import Num NumR FilterM RbjM Device Signal SignalFacts CoreLemmas FilterFacts
  FilterLemmas RbjSpec RbjFacts RbjLemmas SysSpec SysLemmas EqSpec EqFacts EqLemmas CrossLemmas ButterSpec.
Import ListNotations.
Open Scope R_scope.

(** ** Monic polynomials: [ev [c0; ...; c(n-1)] z] = c0 + c1 z + ... + z^n *)
Fixpoint ev (l : list C) (z : C) : C :=
  match l with [] => RtoC 1 | a :: l => (a + z * ev l z)%C end.

Fixpoint quot (l : list C) (r : C) : list C :=
  match l with
  | [] => []
  | a :: l' => match l' with [] => [] | _ => ev l' r :: quot l' r end
  end.

Lemma quot_length l r : length (quot l r) = pred (length l).
Proof. induction l as [|a [|b l] IH]; try reflexivity. cbn [quot length pred] in *. rewrite IH. reflexivity. Qed.

Lemma quot_ev l r z : l <> [] -> ev l z = (ev l r + (z - r) * ev (quot l r) z)%C.
Proof.
  induction l as [|a [|b l] IH]; intros Hl; [contradiction| |].
  - cbn [ev quot]. ring.
  - specialize (IH ltac:(discriminate)). set (l' := b :: l) in *.
    change (ev (a :: l') z) with (a + z * ev l' z)%C. change (ev (a :: l') r) with (a + r * ev l' r)%C.
    change (ev (quot (a :: l') r) z) with (ev l' r + z * ev (quot l' r) z)%C. rewrite IH. ring.
Qed.

Definition cprod (l : list C) : C := fold_right Cmult (RtoC 1) l.

Lemma factors rs : forall l, NoDup rs -> length rs = length l -> (forall r, In r rs -> ev l r = RtoC 0) ->
  forall z, ev l z = cprod (map (fun r => z - r)%C rs).
Proof.
  induction rs as [|r rs IH]; intros l Hd Hl Hr z.
  - destruct l; [reflexivity|discriminate].
  - assert (Hn : l <> []) by (destruct l; [discriminate|congruence]). inversion Hd as [|? ? Hni Hd']; subst.
    rewrite (quot_ev l r z Hn), (Hr r) by (left; reflexivity). cbn [map cprod fold_right].
    fold (cprod (map (fun r => z - r)%C rs)). rewrite <- (IH (quot l r)); [ring|exact Hd'| |].
    + rewrite quot_length, <- Hl. reflexivity.
    + intros s Hs. assert (Hs0 := Hr s (or_intror Hs)). rewrite (quot_ev l r s Hn), (Hr r) in Hs0 by (left; reflexivity).
      rewrite Cplus_0_l in Hs0. destruct (Ceq_dec (s - r)%C (RtoC 0)) as [E|E].
      * exfalso. apply Hni. replace r with s; [exact Hs|]. transitivity ((s - r) + r)%C; [ring|rewrite E; ring].
      * assert (X : ((s - r) * / (s - r) = RtoC 1)%C) by (apply Cinv_r, E).
        transitivity (((s - r) * / (s - r)) * ev (quot l r) s)%C; [rewrite X; ring|].
        transitivity (/ (s - r) * ((s - r) * ev (quot l r) s))%C; [ring|rewrite Hs0; ring].
Qed.

Lemma nodup_map {A B} (f : A -> B) l : (forall a b, In a l -> In b l -> f a = f b -> a = b) -> NoDup l -> NoDup (map f l).
Proof.
  induction l as [|a l IH]; intros Hf Hd; [constructor|]. inversion Hd; subst. cbn [map]. constructor.
  - intros Hin. apply in_map_iff in Hin. destruct Hin as [b [E Hb]].
    assert (b = a) by (apply Hf; [right; exact Hb|left; reflexivity|exact E]). subst. contradiction.
  - apply IH; [|assumption]. intros x y Hx Hy. apply Hf; right; assumption.
Qed.

Lemma nodup_app {A} (l l' : list A) : NoDup l -> NoDup l' -> (forall a, In a l -> In a l' -> False) -> NoDup (l ++ l').
Proof.
  induction l as [|a l IH]; intros H H' D; [exact H'|]. inversion H; subst. cbn [app]. constructor.
  - intros Hin. apply in_app_or in Hin. destruct Hin as [Hin|Hin]; [contradiction|].
    apply (D a); [left; reflexivity|exact Hin].
  - apply IH; [assumption|exact H'|]. intros b Hb. apply D. right. exact Hb.
Qed.

(** ** The roots of z^(2N) = -1 *)
Fixpoint cpow (z : C) (n : nat) : C := match n with 0%nat => RtoC 1 | S n => (z * cpow z n)%C end.

Lemma cpow_cis n : forall t, cpow (cis t) n = cis (INR n * t).
Proof.
  induction n as [|n IH]; intros t.
  - cbn [cpow INR]. rewrite Rmult_0_l. unfold cis, RtoC. rewrite cos_0, sin_0. reflexivity.
  - cbn [cpow]. rewrite IH, S_INR, <- cis_plus. f_equal. ring.
Qed.

Lemma ev_zeros n z : ev (repeat (RtoC 0) n) z = cpow z n.
Proof. induction n as [|n IH]; [reflexivity|]. cbn [repeat ev cpow]. rewrite IH. ring. Qed.

Lemma cpow_real u n : cpow (RtoC u) n = RtoC (u ^ n).
Proof. induction n as [|n IH]; [reflexivity|]. cbn [cpow pow]. rewrite IH, RtoC_mult. reflexivity. Qed.

Lemma cpow_add z n m : cpow z (n + m) = (cpow z n * cpow z m)%C.
Proof. induction n as [|n IH]; cbn [cpow Nat.add]; [ring|rewrite IH; ring]. Qed.

Definition psi (N k : nat) : R := (2 * INR k + 1) * PI / (2 * INR N).

Lemma psi_range N k : (k < N)%nat -> 0 < psi N k < PI.
Proof.
  intros H. assert (P := PI_RGT_0). assert (K0 := pos_INR k). assert (K1 : INR k + 1 <= INR N) by (rewrite <- S_INR; apply le_INR; lia).
  unfold psi. split; [apply Rdiv_lt_0_compat; nra|].
  apply Rmult_lt_reg_r with (2 * INR N); [lra|]. replace ((2 * INR k + 1) * PI / (2 * INR N) * (2 * INR N)) with ((2 * INR k + 1) * PI) by (field; lra).
  nra.
Qed.

Lemma psi_inj N j k : (j < N)%nat -> (k < N)%nat -> cos (psi N j) = cos (psi N k) -> j = k.
Proof.
  intros Hj Hk E. assert (Rj := psi_range N j Hj). assert (Rk := psi_range N k Hk). assert (P := PI_RGT_0).
  assert (Ne : psi N j = psi N k).
  { destruct (Rtotal_order (psi N j) (psi N k)) as [L|[L|L]]; [exfalso|exact L|exfalso].
    - assert (X := cos_decreasing_1 (psi N j) (psi N k)). lra.
    - assert (X := cos_decreasing_1 (psi N k) (psi N j)). lra. }
  unfold psi in Ne. assert (N0 : 0 < INR N) by (apply lt_0_INR; lia). apply INR_eq.
  assert (D : forall m, (2 * INR m + 1) * PI / (2 * INR N) * (2 * INR N) / PI = 2 * INR m + 1) by (intros m; field; lra).
  assert (Dj := D j). assert (Dk := D k). rewrite Ne in Dj. lra.
Qed.

Lemma unity_root N t k : (0 < N)%nat -> t = psi N k \/ t = - psi N k -> cpow (- cis t)%C (2 * N) = RtoC (-1).
Proof.
  intros HN Ht. assert (N0 : 0 < INR N) by (apply lt_0_INR; lia).
  replace (- cis t)%C with (cis (t + PI)).
  2: { unfold cis, Copp. cbn [fst snd]. rewrite neg_cos, neg_sin. reflexivity. }
  rewrite cpow_cis.
  assert (E : exists z : Z, INR (2 * N) * (t + PI) = IZR (2 * z + 1) * PI).
  { rewrite mult_INR. replace (INR 2) with 2 by (cbn; ring). unfold psi in Ht. destruct Ht as [-> | ->].
    - exists (Z.of_nat k + Z.of_nat N)%Z. rewrite plus_IZR, mult_IZR, plus_IZR, <- !INR_IZR_INZ. field. lra.
    - exists (Z.of_nat N - Z.of_nat k - 1)%Z. rewrite plus_IZR, mult_IZR, !minus_IZR, <- !INR_IZR_INZ. field. lra. }
  destruct E as [z ->]. unfold cis, RtoC. rewrite plus_IZR, mult_IZR.
  replace ((2 * IZR z + 1) * PI) with (PI + 2 * IZR z * PI) by ring.
  rewrite cos_plus, sin_plus, cos_PI, sin_PI.
  assert (S0 : sin (2 * IZR z * PI) = 0) by (apply sin_eq_0_1; exists (2 * z)%Z; rewrite mult_IZR; reflexivity).
  assert (C1 : cos (2 * IZR z * PI) = 1).
  { replace (2 * IZR z * PI) with (2 * (IZR z * PI)) by ring. rewrite cos_2a_sin.
    replace (sin (IZR z * PI)) with 0; [ring|]. symmetry. apply sin_eq_0_1. exists z. reflexivity. }
  rewrite S0, C1. f_equal; ring.
Qed.

Definition rprod (l : list R) : R := fold_right Rmult 1 l.

Lemma cprod_app l l' : cprod (l ++ l') = (cprod l * cprod l')%C.
Proof.
  induction l as [|a l IH]; [change (cprod []) with (RtoC 1); cbn [app]; ring|].
  change (cprod ((a :: l) ++ l')) with (a * cprod (l ++ l'))%C. change (cprod (a :: l)) with (a * cprod l)%C. rewrite IH. ring.
Qed.

Lemma butter_product N u : (0 < N)%nat ->
  rprod (map (fun k => 1 + 2 * cos (psi N k) * u + u * u) (seq 0 N)) = 1 + u ^ (2 * N).
Proof.
  intros HN.
  set (A := fun k => (- cis (psi N k))%C). set (B := fun k => (- cis (- psi N k))%C).
  assert (F := factors (map A (seq 0 N) ++ map B (seq 0 N)) (RtoC 1 :: repeat (RtoC 0) (pred (2 * N)))).
  assert (Inj : forall a b, In a (seq 0 N) -> In b (seq 0 N) -> cos (psi N a) = cos (psi N b) -> a = b).
  { intros a b Ha Hb. apply in_seq in Ha, Hb. apply psi_inj; lia. }
  assert (X : ev (RtoC 1 :: repeat (RtoC 0) (pred (2 * N))) (RtoC u) = cprod (map (fun r => RtoC u - r)%C (map A (seq 0 N) ++ map B (seq 0 N)))).
  { apply F.
    - apply nodup_app.
      + apply nodup_map; [|apply seq_NoDup]. intros a b Ha Hb E. apply Inj; try assumption.
        apply (f_equal fst) in E. unfold A, cis, Copp in E. cbn [fst snd] in E. lra.
      + apply nodup_map; [|apply seq_NoDup]. intros a b Ha Hb E. apply Inj; try assumption.
        apply (f_equal fst) in E. unfold B, cis, Copp in E. cbn [fst snd] in E. rewrite !cos_neg in E. lra.
      + intros z Hz Hz'. apply in_map_iff in Hz, Hz'. destruct Hz as [a [Ea Ha]]. destruct Hz' as [b [Eb Hb]].
        apply in_seq in Ha, Hb. subst z. apply (f_equal snd) in Eb. unfold A, B, cis, Copp in Eb. cbn [fst snd] in Eb.
        rewrite sin_neg in Eb. assert (Ra := psi_range N a ltac:(lia)). assert (Rb := psi_range N b ltac:(lia)).
        assert (0 < sin (psi N a)) by (apply sin_gt_0; lra). assert (0 < sin (psi N b)) by (apply sin_gt_0; lra). lra.
    - rewrite app_length, !map_length, seq_length. cbn [length]. rewrite repeat_length. lia.
    - intros r Hr. cbn [ev]. rewrite ev_zeros.
      change (r * cpow r (pred (2 * N)))%C with (cpow r (S (pred (2 * N)))). replace (S (pred (2 * N))) with (2 * N)%nat by lia.
      assert (E : cpow r (2 * N) = RtoC (-1)).
      { apply in_app_or in Hr. destruct Hr as [Hr|Hr]; apply in_map_iff in Hr; destruct Hr as [k [<- _]].
        - apply (unity_root N _ k HN). left. reflexivity.
        - apply (unity_root N _ k HN). right. reflexivity. }
      rewrite E, <- RtoC_plus. f_equal. ring. }
  cbn [ev] in X. rewrite ev_zeros in X.
  change (RtoC u * cpow (RtoC u) (pred (2 * N)))%C with (cpow (RtoC u) (S (pred (2 * N)))) in X.
  replace (S (pred (2 * N))) with (2 * N)%nat in X by lia. rewrite cpow_real, <- RtoC_plus, map_app, cprod_app, !map_map in X.
  assert (Y : forall l, (cprod (map (fun k => RtoC u - A k) l) * cprod (map (fun k => RtoC u - B k) l)
    = RtoC (rprod (map (fun k => 1 + 2 * cos (psi N k) * u + u * u)%R l)))%C).
  { induction l as [|k l IH]; cbn [map cprod rprod fold_right]; [ring|].
    fold (cprod (map (fun k => RtoC u - A k)%C l)). fold (cprod (map (fun k => RtoC u - B k)%C l)).
    fold (rprod (map (fun k => 1 + 2 * cos (psi N k) * u + u * u) l)). rewrite RtoC_mult, <- IH.
    assert (Z : ((RtoC u - A k) * (RtoC u - B k) = RtoC (1 + 2 * cos (psi N k) * u + u * u)%R)%C).
    { unfold A, B, cis, RtoC, Cmult, Cminus, Cplus, Copp. cbn [fst snd]. rewrite cos_neg, sin_neg.
      assert (Q := sin2_cos2 (psi N k)). unfold Rsqr in Q. f_equal; [|ring].
      transitivity (u * u + 2 * cos (psi N k) * u + (sin (psi N k) * sin (psi N k) + cos (psi N k) * cos (psi N k))); [ring|rewrite Q; ring]. }
    rewrite <- Z. ring. }
  rewrite Y in X. apply RtoC_inj in X. symmetry. exact X.
Qed.

(** ** The cascade *)
Lemma butter_q_facts N k : (k < N)%nat -> 0 < butter_q N k /\ 1 / (butter_q N k * butter_q N k) - 2 = 2 * cos (psi N k).
Proof.
  intros H. assert (R := psi_range N k H). assert (N0 : 0 < INR N) by (apply lt_0_INR; lia).
  assert (E : (2 * INR k + 1) * PI / (4 * INR N) = psi N k / 2) by (unfold psi; field; lra).
  unfold butter_q. rewrite E. assert (C0 : 0 < cos (psi N k / 2)) by (apply cos_gt_0; lra).
  split; [apply Rdiv_lt_0_compat; lra|].
  replace (psi N k) with (2 * (psi N k / 2)) at 3 by field. rewrite cos_2a_cos. field. lra.
Qed.

Lemma cascade_passes kind sr f w qs : q_kind kind -> valid_band sr f -> 0 < w < PI -> (forall q, In q qs -> 0 < q) ->
  let O := warped (omega sr f) w in
  exists g theta, 0 <= g
    /\ g * g * rprod (map (fun q => 1 + (1 / (q * q) - 2) * (O * O) + O * O * (O * O)) qs)
       = rprod (map (fun q => m2 (sq_terms kind q O)) qs)
    /\ forall A phi u, approaches u (sinusoid A w phi) ->
        approaches (cascade kind sr f qs u) (sinusoid (g * A) w (phi + theta)).
Proof.
  intros Hk Hb Hw Hq O. induction qs as [|q qs IH].
  - exists 1, 0. split; [lra|]. split; [cbn; ring|]. intros A phi u Hu. cbn. rewrite Rmult_1_l, Rplus_0_r. exact Hu.
  - destruct IH as [g [th [G0 [E P]]]]; [intros; apply Hq; right; assumption|].
    assert (Q0 : 0 < q) by (apply Hq; left; reflexivity).
    assert (Va := valid_q kind sr f q Hk Hb Q0).
    assert (Ga := analog_gain kind (RbjQ sr f q) w Va ltac:(lra)). set (h := Cmod _) in Ga.
    destruct (gain_q2 _ _ _ _ _ _ Ga Hk Hb Q0 Hw) as [_ [_ [H0 [_ Eh]]]]. fold O in Eh. destruct Ga as [_ [ph Ph]].
    exists (g * h), (ph + th). split; [apply Rmult_le_pos; assumption|]. split.
    + cbn [map rprod fold_right]. fold (rprod (map (fun q => 1 + (1 / (q * q) - 2) * (O * O) + O * O * (O * O)) qs)).
      fold (rprod (map (fun q => m2 (sq_terms kind q O)) qs)). rewrite <- Eh, <- E. ring.
    + intros A phi u Hu. cbn [cascade fold_left]. fold (cascade kind sr f qs (rbj_out kind (RbjQ sr f q) u)).
      replace (g * h * A) with (g * (h * A)) by ring. replace (phi + (ph + th)) with (phi + ph + th) by ring.
      apply P. apply approaches_trans with (rbj_out kind (RbjQ sr f q) (sinusoid A w phi)); [|apply Ph].
      destruct (norm_stable kind (RbjQ sr f q) Va) as [b0 [b1 [b2 [a1 [a2 [F St]]]]]].
      exact (settle _ _ _ _ _ _ _ _ _ _ _ F St Hu).
Qed.

Lemma butter_unique kind N sr f w g g' : 0 < w < PI -> butter_gain kind N sr f w g -> butter_gain kind N sr f w g' -> g = g'.
Proof.
  intros Hw [Hg [th Hp]] [Hg' [th' Hp']].
  specialize (Hp 1 0). specialize (Hp' 1 0). unfold approaches in *.
  assert (H := is_lim_seq_minus' _ _ _ _ Hp' Hp).
  assert (H2 : is_lim_seq (fun n => (g * cos th - g' * cos th') * cos (INR n * w)
                                   - (g * sin th - g' * sin th') * sin (INR n * w)) 0).
  { replace (Finite 0) with (Finite (0 - 0)) by (f_equal; ring).
    eapply is_lim_seq_ext; [|exact H]. intros n. cbv beta. unfold sinusoid.
    replace (INR n * w + (0 + th)) with (INR n * w + th) by ring.
    replace (INR n * w + (0 + th')) with (INR n * w + th') by ring.
    rewrite !cos_plus. ring. }
  destruct (sinus_unique w _ _ Hw H2) as [E1 E2].
  assert (S1 := sin2_cos2 th). assert (S2 := sin2_cos2 th'). unfold Rsqr in S1, S2.
  assert (E : g * g = g' * g').
  { transitivity ((g * cos th) * (g * cos th) + (g * sin th) * (g * sin th)).
    - transitivity (g * g * (sin th * sin th + cos th * cos th)); [rewrite S1|]; ring.
    - replace (g * cos th) with (g' * cos th') by lra. replace (g * sin th) with (g' * sin th') by lra.
      transitivity (g' * g' * (sin th' * sin th' + cos th' * cos th')); [|rewrite S2]; ring. }
  nra.
Qed.

(** C140: LowPass (HighPass) filters in series with one corner and the q of the Butterworth table
    have the maximally flat gain of order 2 N, for every N: at the warped frequency O it is
    1 / sqrt (1 + O^(4 N)), and O^(2 N) / sqrt (1 + O^(4 N)) for HighPass. *)
Lemma C140_gain_thm :
  forall N sr f w g, (0 < N)%nat -> valid_band sr f -> 0 < w < PI ->
    let O := warped (omega sr f) w in
    (butter_gain LowPass N sr f w g <-> g = 1 / sqrt (1 + O ^ (4 * N)))
    /\ (butter_gain HighPass N sr f w g <-> g = O ^ (2 * N) / sqrt (1 + O ^ (4 * N))).
Proof.
  intros N sr f w g HN Hb Hw O.
  assert (O0 := warped_pos _ _ (omega_range _ _ Hb) Hw). fold O in O0.
  assert (Qs : forall q, In q (map (butter_q N) (seq 0 N)) -> 0 < q).
  { intros q Hq. apply in_map_iff in Hq. destruct Hq as [k [<- Hk]]. apply in_seq in Hk. apply butter_q_facts. lia. }
  assert (P4 : 0 < O ^ (4 * N)) by (apply pow_lt, O0). assert (P2 : 0 < O ^ (2 * N)) by (apply pow_lt, O0).
  assert (Sr : 0 < sqrt (1 + O ^ (4 * N))) by (apply sqrt_lt_R0; lra).
  assert (Ss := sqrt_sqrt (1 + O ^ (4 * N)) ltac:(lra)).
  assert (Den : rprod (map (fun q => 1 + (1 / (q * q) - 2) * (O * O) + O * O * (O * O)) (map (butter_q N) (seq 0 N))) = 1 + O ^ (4 * N)).
  { rewrite map_map. transitivity (rprod (map (fun k => 1 + 2 * cos (psi N k) * (O * O) + O * O * (O * O)) (seq 0 N))).
    - f_equal. apply map_ext_in. intros k Hk. apply in_seq in Hk. destruct (butter_q_facts N k ltac:(lia)) as [_ ->]. reflexivity.
    - rewrite butter_product by exact HN. f_equal. replace (O * O) with (O ^ 2) by ring. rewrite <- pow_mult. f_equal. lia. }
  assert (Num : forall a l, rprod (map (fun _ : R => a) l) = a ^ length l).
  { intros a l. induction l as [|q l IH]; [reflexivity|]. cbn [map length pow]. rewrite <- IH. reflexivity. }
  assert (Main : forall kind c, q_kind kind -> 0 <= c -> (forall q, m2 (sq_terms kind q O) = c * c) ->
    (butter_gain kind N sr f w g <-> g = c ^ N / sqrt (1 + O ^ (4 * N)))).
  { intros kind c Hk Hc Ec. destruct (cascade_passes kind sr f w (map (butter_q N) (seq 0 N)) Hk Hb Hw Qs) as [h [th [H0 [E P]]]].
    fold O in E. rewrite Den in E.
    assert (En : rprod (map (fun q => m2 (sq_terms kind q O)) (map (butter_q N) (seq 0 N))) = c ^ N * c ^ N).
    { transitivity (rprod (map (fun _ => c * c) (map (butter_q N) (seq 0 N)))).
      - f_equal. apply map_ext. exact Ec.
      - rewrite Num, map_length, seq_length. apply Rpow_mult_distr. }
    rewrite En in E. assert (C0 : 0 <= c ^ N) by (apply pow_le, Hc).
    assert (Eh : h = c ^ N / sqrt (1 + O ^ (4 * N))).
    { apply sq_eq_nneg; [exact H0|apply Rmult_le_pos; [exact C0|left; apply Rinv_0_lt_compat, Sr]|].
      apply Rmult_eq_reg_r with (1 + O ^ (4 * N)); [|lra]. rewrite E. rewrite <- Ss at 3. field. lra. }
    assert (Bh : butter_gain kind N sr f w h).
    { split; [exact H0|]. exists th. intros A phi. apply P. unfold approaches.
      eapply is_lim_seq_ext; [|apply is_lim_seq_const]. intros n. cbv beta. ring. }
    rewrite <- Eh. split; [intros Hg; exact (butter_unique _ _ _ _ _ _ _ Hw Hg Bh)|intros ->; exact Bh]. }
  split.
  - rewrite (Main LowPass 1 I ltac:(lra)); [rewrite pow1; reflexivity|]. intros q. unfold m2. cbn. ring.
  - rewrite (Main HighPass (O * O) I ltac:(nra)).
    + replace ((O * O) ^ N) with (O ^ (2 * N)) by (replace (O * O) with (O ^ 2) by ring; rewrite pow_mult; reflexivity). reflexivity.
    + intros q. unfold m2. cbn. ring.
Qed.
(*@PROP
Example C140_gain_hyps : (0 < 3)%nat /\ valid_band 48000 1000 /\ 0 < 1 < PI.
Proof. assert (X := PI2_1). split; [lia|]. split; [unfold valid_band; lra|lra]. Qed.
@*)

Lemma low_lt a b : 0 <= a -> a < b -> 1 / sqrt (1 + b) < 1 / sqrt (1 + a).
Proof.
  intros Ha Hab. assert (0 < sqrt (1 + a)) by (apply sqrt_lt_R0; lra).
  unfold Rdiv. rewrite !Rmult_1_l. apply Rinv_lt_contravar.
  - apply Rmult_lt_0_compat; [assumption|]. apply sqrt_lt_R0; lra.
  - apply sqrt_lt_1; lra.
Qed.

Lemma pow_strict a b n : 0 <= a < b -> (0 < n)%nat -> a ^ n < b ^ n.
Proof.
  intros H Hn. destruct n as [|n]; [lia|]. clear Hn. induction n as [|n IH]; [lra|].
  change (a * a ^ S n < b * b ^ S n). assert (0 <= a ^ S n) by (apply pow_le; lra). nra.
Qed.

Lemma pow_fall x n m : 0 < x < 1 -> (n < m)%nat -> x ^ m < x ^ n.
Proof.
  intros H Hn. replace m with (n + (m - n))%nat by lia. rewrite pow_add. assert (0 < x ^ n) by (apply pow_lt; lra).
  assert (X := pow_lt_1_compat x (m - n) ltac:(lra) ltac:(lia)). nra.
Qed.

Lemma side sr f w : valid_band sr f -> 0 < w < PI ->
  let O := warped (omega sr f) w in (w < omega sr f -> 0 < O < 1) /\ (w = omega sr f -> O = 1) /\ (omega sr f < w -> 1 < O).
Proof.
  intros Hb Hw O. assert (R := omega_range sr f Hb). assert (O0 := warped_pos _ _ R Hw). fold O in O0.
  assert (E := warped_centre _ R). split; [|split]; intros H.
  - split; [exact O0|]. unfold O. rewrite <- E. apply warped_lt; lra.
  - unfold O. rewrite H. exact E.
  - unfold O. rewrite <- E. apply warped_lt; lra.
Qed.

(** C140: of whatever order, the low and the high pass with one corner share the power at every
    frequency; at the corner both have the gain 1 / sqrt 2 (-3 dB); the low pass stays strictly
    between -3 dB and unity below its corner, strictly under -3 dB above it, and its gain falls
    with the frequency. *)
Lemma C140_shape_thm :
  forall N sr f w gl gh, (0 < N)%nat -> valid_band sr f -> 0 < w < PI ->
    butter_gain LowPass N sr f w gl -> butter_gain HighPass N sr f w gh ->
    gl ^ 2 + gh ^ 2 = 1
    /\ (w = omega sr f -> gl = 1 / sqrt 2 /\ gh = 1 / sqrt 2)
    /\ (w < omega sr f -> 1 / sqrt 2 < gl < 1)
    /\ (omega sr f < w -> 0 < gl < 1 / sqrt 2)
    /\ (forall w' gl', w < w' < PI -> butter_gain LowPass N sr f w' gl' -> gl' < gl).
Proof.
  intros N sr f w gl gh HN Hb Hw Hl Hh.
  destruct (C140_gain_thm N sr f w gl HN Hb Hw) as [L _]. apply L in Hl. clear L.
  destruct (C140_gain_thm N sr f w gh HN Hb Hw) as [_ L]. apply L in Hh. clear L.
  destruct (side sr f w Hb Hw) as [S1 [S2 S3]]. assert (R := omega_range sr f Hb). assert (O0 := warped_pos _ _ R Hw).
  cbv zeta in *. set (O := warped (omega sr f) w) in *.
  assert (P4 : 0 < O ^ (4 * N)) by (apply pow_lt, O0).
  assert (Sr : 0 < sqrt (1 + O ^ (4 * N))) by (apply sqrt_lt_R0; lra).
  assert (Ss := sqrt_sqrt (1 + O ^ (4 * N)) ltac:(lra)).
  assert (E1 : 1 / sqrt (1 + 1) = 1 / sqrt 2) by (f_equal; f_equal; ring).
  assert (E0 : 1 / sqrt (1 + 0) = 1) by (rewrite Rplus_0_r, sqrt_1; field).
  split; [|split; [|split; [|split]]].
  - rewrite Hl, Hh. replace (O ^ (4 * N)) with (O ^ (2 * N) * O ^ (2 * N)) in * by (rewrite <- pow_add; f_equal; lia).
    set (a := O ^ (2 * N)) in *. set (s := sqrt _) in *. apply Rmult_eq_reg_r with (s * s); [|nra].
    replace (((1 / s) ^ 2 + (a / s) ^ 2) * (s * s)) with (1 + a * a) by (field; lra). lra.
  - intros H. rewrite Hl, Hh, (S2 H), !pow1. split; exact E1.
  - intros H. specialize (S1 H). rewrite Hl. split.
    + rewrite <- E1. apply low_lt; [lra|]. apply (pow_lt_1_compat O (4 * N)); [lra|lia].
    + apply Rlt_le_trans with (1 / sqrt (1 + 0)); [apply low_lt; lra|right; exact E0].
  - intros H. specialize (S3 H). rewrite Hl. split; [apply Rdiv_lt_0_compat; lra|].
    rewrite <- E1. apply low_lt; [lra|]. apply Rlt_pow_R1; [exact S3|lia].
  - intros w' gl' Hw' Hg. assert (Hw2 : 0 < w' < PI) by lra.
    destruct (C140_gain_thm N sr f w' gl' HN Hb Hw2) as [L _]. apply L in Hg. rewrite Hl, Hg.
    apply low_lt; [lra|]. apply pow_strict; [|lia]. split; [lra|]. apply warped_lt; lra.
Qed.
(*@PROP
Example C140_shape_hyps : exists gl gh, butter_gain LowPass 3 48000 1000 1 gl /\ butter_gain HighPass 3 48000 1000 1 gh.
Proof.
  assert (X := PI2_1). assert (V : valid_band 48000 1000) by (unfold valid_band; lra).
  eexists _, _. split.
  - destruct (C140_gain_thm 3 48000 1000 1 (1 / sqrt (1 + warped (omega 48000 1000) 1 ^ (4 * 3)))) as [[_ P] _]; [lia|exact V|lra|].
    exact (P eq_refl).
  - destruct (C140_gain_thm 3 48000 1000 1 (warped (omega 48000 1000) 1 ^ (2 * 3) / sqrt (1 + warped (omega 48000 1000) 1 ^ (4 * 3)))) as [_ [_ P]];
      [lia|exact V|lra|].
    exact (P eq_refl).
Qed.
@*)

(** C140: every further section brings the low pass nearer to the ideal one at every frequency
    but the corner, and in the limit it is ideal: unity below the corner, nothing above it. *)
Lemma C140_sharper_thm :
  forall sr f w (g : nat -> R), valid_band sr f -> 0 < w < PI ->
    (forall N, (0 < N)%nat -> butter_gain LowPass N sr f w (g N)) ->
    (w < omega sr f -> (forall N N', (0 < N < N')%nat -> g N < g N') /\ is_lim_seq g 1)
    /\ (omega sr f < w -> (forall N N', (0 < N < N')%nat -> g N' < g N) /\ is_lim_seq g 0).
Proof.
  intros sr f w g Hb Hw Hg.
  destruct (side sr f w Hb Hw) as [S1 [_ S3]]. assert (R := omega_range sr f Hb). assert (O0 := warped_pos _ _ R Hw).
  cbv zeta in *. set (O := warped (omega sr f) w) in *.
  assert (G : forall N, (0 < N)%nat -> g N = 1 / sqrt (1 + O ^ (4 * N))).
  { intros N HN. destruct (C140_gain_thm N sr f w (g N) HN Hb Hw) as [L _]. apply L. apply Hg, HN. }
  assert (Pw : forall N, O ^ (4 * N) = (O ^ 4) ^ N) by (intros N; apply pow_mult).
  assert (P4 : 0 < O ^ 4) by (apply pow_lt, O0).
  split; intros H.
  - specialize (S1 H). split.
    + intros N N' HN. rewrite (G N), (G N') by lia. apply low_lt; [apply pow_le; lra|]. apply pow_fall; [exact S1|lia].
    + assert (Q := pow_lt_1_compat O 4 ltac:(lra) ltac:(lia)).
      assert (L := is_lim_seq_geom (O ^ 4) ltac:(rewrite Rabs_pos_eq; lra)).
      apply is_lim_seq_le_le_loc with (u := fun N => 1 - (O ^ 4) ^ N) (w := fun _ => 1).
      * exists 1%nat. intros N HN. rewrite (G N), Pw by lia. assert (Z : 0 < (O ^ 4) ^ N) by (apply pow_lt; lra).
        set (t := (O ^ 4) ^ N) in *. assert (Sr : 0 < sqrt (1 + t)) by (apply sqrt_lt_R0; lra).
        assert (Ss := sqrt_sqrt (1 + t) ltac:(lra)). set (s := sqrt (1 + t)) in *.
        assert (S2 : 1 <= s) by nra. split.
        -- apply Rmult_le_reg_r with s; [exact Sr|]. replace (1 / s * s) with 1 by (field; lra). nra.
        -- apply Rmult_le_reg_r with s; [exact Sr|]. replace (1 / s * s) with 1 by (field; lra). lra.
      * replace (Finite 1) with (Finite (1 - 0)) by (f_equal; ring). apply is_lim_seq_minus'; [apply is_lim_seq_const|exact L].
      * apply is_lim_seq_const.
  - specialize (S3 H). split.
    + intros N N' HN. rewrite (G N), (G N') by lia. apply low_lt; [apply pow_le; lra|]. apply Rlt_pow; [exact S3|lia].
    + assert (I1 : 0 < / (O * O) < 1).
      { split; [apply Rinv_0_lt_compat; nra|]. rewrite <- Rinv_1. apply Rinv_lt_contravar; nra. }
      assert (L := is_lim_seq_geom (/ (O * O)) ltac:(rewrite Rabs_pos_eq; lra)).
      apply is_lim_seq_le_le_loc with (u := fun _ => 0) (w := fun N => (/ (O * O)) ^ N).
      * exists 1%nat. intros N HN. rewrite (G N) by lia.
        replace (O ^ (4 * N)) with ((O * O) ^ N * (O * O) ^ N).
        2: { replace (O * O) with (O ^ 2) by ring. rewrite <- pow_mult, <- pow_add. f_equal. lia. }
        rewrite pow_inv. assert (Z : 0 < (O * O) ^ N) by (apply pow_lt; nra). set (t := (O * O) ^ N) in *.
        assert (Sr : t <= sqrt (1 + t * t)) by (rewrite <- (sqrt_square t) at 1 by lra; apply sqrt_le_1; nra).
        unfold Rdiv. rewrite Rmult_1_l. split; [left; apply Rinv_0_lt_compat; lra|]. apply Rinv_le_contravar; lra.
      * apply is_lim_seq_const.
      * exact L.
Qed.
(*@PROP
Example C140_sharper_hyps : valid_band 48000 1000 /\ 0 < 1 < PI
  /\ forall N, (0 < N)%nat -> butter_gain LowPass N 48000 1000 1 (1 / sqrt (1 + warped (omega 48000 1000) 1 ^ (4 * N))).
Proof.
  assert (X := PI2_1). assert (V : valid_band 48000 1000) by (unfold valid_band; lra). split; [exact V|]. split; [lra|].
  intros N HN.
  destruct (C140_gain_thm N 48000 1000 1 (1 / sqrt (1 + warped (omega 48000 1000) 1 ^ (4 * N)))) as [[_ P] _]; [exact HN|exact V|lra|].
  exact (P eq_refl).
Qed.
@*)
