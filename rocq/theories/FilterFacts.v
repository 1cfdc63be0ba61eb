(** Each filter of the library obeys its difference equation, in exact
    arithmetic. *)
From Coq Require Import Reals Lra Lia List Arith.
From Coquelicot Require Import Coquelicot.
From Verif Require Import Num NumR FilterM RbjM Device Signal SignalFacts CoreLemmas.
Import ListNotations.
Open Scope R_scope.

(** What the induction over calls needs to know about a filter whose
    coefficients are [c]. *)
Definition sos {S K} (D : device S K R) (k : K) (c : (R * R * R * R * R)%type) (P : S -> Prop) : Prop :=
  (forall s, P (d_set D s k))
  /\ (forall s x, P s -> P (fst (d_process D s x)))
  /\ (forall s, P s -> P (d_clear D s))
  /\ (forall s x, P s -> recur c x (out D s x))
  /\ (forall s x, P s -> obeys c x (out D (d_clear D s) x))
  /\ d_clear D (d_set D (d_new D) k) = d_set D (d_new D) k.

Lemma state_inv {S K} (D : device S K R) (P : S -> Prop) :
  (forall s x, P s -> P (fst (d_process D s x))) ->
  forall s x n, P s -> P (state_at D s x n).
Proof. intros Hp s x n Hs. induction n as [|n IH]; cbn; auto. Qed.

Lemma one_pole_sos b0 a1 : sos (dev_one_pole R_ops) (b0, a1) (b0, 0, 0, a1, 0)
  (fun s => op_b0 s = b0 /\ op_a1 s = a1).
Proof.
  set (D := dev_one_pole R_ops).
  set (P := fun s : one_pole R => op_b0 s = b0 /\ op_a1 s = a1).
  assert (Hp : forall s x, P s -> P (fst (d_process D s x))) by (intros s x H; exact H).
  split; [|split; [|split; [|split; [|split]]]]; auto.
  - intros s. split; reflexivity.
  - intros s x Hs n. destruct (state_inv D P Hp s x n Hs) as [E0 E1].
    unfold out. cbn. rewrite ?E0, ?E1. ring.
  - intros s x Hs n. assert (Hs' : P (d_clear D s)) by exact Hs.
    destruct (state_inv D P Hp _ x n Hs') as [E0 E1].
    enough (E : op_y_z1 (state_at D (d_clear D s) x n) = back 1 (out D (d_clear D s) x) n).
    { transitivity (op_b0 (state_at D (d_clear D s) x n) * x n
        - op_a1 (state_at D (d_clear D s) x n) * op_y_z1 (state_at D (d_clear D s) x n));
        [reflexivity|]. rewrite E0, E1, E. ring. }
    destruct n; rewrite ?back_SS, ?back_0, ?back_S0; reflexivity.
Qed.

Lemma one_zero_sos b0 b1 : sos (dev_one_zero R_ops) (b0, b1) (b0, b1, 0, 0, 0)
  (fun s => oz_b0 s = b0 /\ oz_b1 s = b1).
Proof.
  set (D := dev_one_zero R_ops).
  set (P := fun s : one_zero R => oz_b0 s = b0 /\ oz_b1 s = b1).
  assert (Hp : forall s x, P s -> P (fst (d_process D s x))) by (intros s x H; exact H).
  split; [|split; [|split; [|split; [|split]]]]; auto.
  - intros s. split; reflexivity.
  - intros s x Hs n. destruct (state_inv D P Hp s x n Hs) as [E0 E1].
    unfold out. cbn. rewrite ?E0, ?E1. ring.
  - intros s x Hs n. assert (Hs' : P (d_clear D s)) by exact Hs.
    destruct (state_inv D P Hp _ x n Hs') as [E0 E1].
    enough (E : oz_x_z1 (state_at D (d_clear D s) x n) = back 1 x n).
    { transitivity (oz_b0 (state_at D (d_clear D s) x n) * x n
        + oz_b1 (state_at D (d_clear D s) x n) * oz_x_z1 (state_at D (d_clear D s) x n));
        [reflexivity|]. rewrite E0, E1, E. ring. }
    destruct n; [reflexivity|]. rewrite back_SS, back_0. reflexivity.
Qed.

Lemma two_pole_sos b0 a1 a2 : sos (dev_two_pole R_ops) (b0, a1, a2) (b0, 0, 0, a1, a2)
  (fun s => tp_b0 s = b0 /\ tp_a1 s = a1 /\ tp_a2 s = a2).
Proof.
  set (D := dev_two_pole R_ops).
  set (P := fun s : two_pole R => tp_b0 s = b0 /\ tp_a1 s = a1 /\ tp_a2 s = a2).
  assert (Hp : forall s x, P s -> P (fst (d_process D s x))) by (intros s x H; exact H).
  split; [|split; [|split; [|split; [|split]]]]; auto.
  - intros s. repeat split; reflexivity.
  - intros s x Hs n. destruct (state_inv D P Hp s x n Hs) as [E0 [E1 E2]].
    unfold out. cbn. rewrite ?E0, ?E1, ?E2. ring.
  - intros s x Hs n. assert (Hs' : P (d_clear D s)) by exact Hs.
    destruct (state_inv D P Hp _ x n Hs') as [E0 [E1 E2]].
    enough (E : tp_y_z1 (state_at D (d_clear D s) x n) = back 1 (out D (d_clear D s) x) n
             /\ tp_y_z2 (state_at D (d_clear D s) x n) = back 2 (out D (d_clear D s) x) n).
    { destruct E as [Ea Eb]. set (t := state_at D (d_clear D s) x n) in *.
      transitivity (tp_b0 t * x n - tp_a1 t * tp_y_z1 t - tp_a2 t * tp_y_z2 t);
        [reflexivity|]. rewrite E0, E1, E2, Ea, Eb. ring. }
    destruct n as [|[|n]]; rewrite ?back_SS, ?back_0, ?back_S0; split; reflexivity.
Qed.

Lemma two_zero_sos b0 b1 b2 : sos (dev_two_zero R_ops) (b0, b1, b2) (b0, b1, b2, 0, 0)
  (fun s => tz_b0 s = b0 /\ tz_b1 s = b1 /\ tz_b2 s = b2).
Proof.
  set (D := dev_two_zero R_ops).
  set (P := fun s : two_zero R => tz_b0 s = b0 /\ tz_b1 s = b1 /\ tz_b2 s = b2).
  assert (Hp : forall s x, P s -> P (fst (d_process D s x))) by (intros s x H; exact H).
  split; [|split; [|split; [|split; [|split]]]]; auto.
  - intros s. repeat split; reflexivity.
  - intros s x Hs n. destruct (state_inv D P Hp s x n Hs) as [E0 [E1 E2]].
    unfold out. cbn. rewrite ?E0, ?E1, ?E2. ring.
  - intros s x Hs n. assert (Hs' : P (d_clear D s)) by exact Hs.
    destruct (state_inv D P Hp _ x n Hs') as [E0 [E1 E2]].
    enough (E : tz_x_z1 (state_at D (d_clear D s) x n) = back 1 x n
             /\ tz_x_z2 (state_at D (d_clear D s) x n) = back 2 x n).
    { destruct E as [Ea Eb]. set (t := state_at D (d_clear D s) x n) in *.
      transitivity (tz_b0 t * x n + tz_b1 t * tz_x_z1 t + tz_b2 t * tz_x_z2 t);
        [reflexivity|]. rewrite E0, E1, E2, Ea, Eb. ring. }
    destruct n as [|[|n]]; rewrite ?back_SS, ?back_0, ?back_S0; split; reflexivity.
Qed.

Lemma biquad1_sos b0 b1 b2 a1 a2 :
  sos (dev_biquad1 R_ops) (b0, b1, b2, a1, a2) (b0, b1, b2, a1, a2)
  (fun s => b1_b0 s = b0 /\ b1_b1 s = b1 /\ b1_b2 s = b2 /\ b1_a1 s = a1 /\ b1_a2 s = a2).
Proof.
  set (D := dev_biquad1 R_ops).
  set (P := fun s : biquad1 R => b1_b0 s = b0 /\ b1_b1 s = b1 /\ b1_b2 s = b2
                                 /\ b1_a1 s = a1 /\ b1_a2 s = a2).
  assert (Hp : forall s x, P s -> P (fst (d_process D s x))) by (intros s x H; exact H).
  split; [|split; [|split; [|split; [|split]]]]; auto.
  - intros s. repeat split; reflexivity.
  - intros s x Hs n. destruct (state_inv D P Hp s x n Hs) as [E0 [E1 [E2 [E3 E4]]]].
    unfold out. cbn. rewrite ?E0, ?E1, ?E2, ?E3, ?E4. ring.
  - intros s x Hs n. assert (Hs' : P (d_clear D s)) by exact Hs.
    destruct (state_inv D P Hp _ x n Hs') as [E0 [E1 [E2 [E3 E4]]]].
    enough (E : b1_x_z1 (state_at D (d_clear D s) x n) = back 1 x n
             /\ b1_x_z2 (state_at D (d_clear D s) x n) = back 2 x n
             /\ b1_y_z1 (state_at D (d_clear D s) x n) = back 1 (out D (d_clear D s) x) n
             /\ b1_y_z2 (state_at D (d_clear D s) x n) = back 2 (out D (d_clear D s) x) n).
    { destruct E as [Ea [Eb [Ec Ed]]]. set (t := state_at D (d_clear D s) x n) in *.
      transitivity (b1_b0 t * x n + b1_b1 t * b1_x_z1 t + b1_b2 t * b1_x_z2 t
        - b1_a1 t * b1_y_z1 t - b1_a2 t * b1_y_z2 t); [reflexivity|].
      rewrite E0, E1, E2, E3, E4, Ea, Eb, Ec, Ed. ring. }
    destruct n as [|[|n]]; rewrite ?back_SS, ?back_0, ?back_S0; repeat split; reflexivity.
Qed.

Lemma biquad2_sos b0 b1 b2 a1 a2 :
  sos (dev_biquad2 R_ops) (b0, b1, b2, a1, a2) (b0, b1, b2, a1, a2)
  (fun s => b2_b0 s = b0 /\ b2_b1 s = b1 /\ b2_b2 s = b2 /\ b2_a1 s = a1 /\ b2_a2 s = a2).
Proof.
  set (D := dev_biquad2 R_ops).
  set (P := fun s : biquad2 R => b2_b0 s = b0 /\ b2_b1 s = b1 /\ b2_b2 s = b2
                                 /\ b2_a1 s = a1 /\ b2_a2 s = a2).
  assert (Hp : forall s x, P s -> P (fst (d_process D s x))) by (intros s x H; exact H).
  split; [|split; [|split; [|split; [|split]]]]; auto.
  - intros s. repeat split; reflexivity.
  - intros s x Hs n. destruct (state_inv D P Hp s x n Hs) as [E0 [E1 [E2 [E3 E4]]]].
    unfold out. cbn. rewrite ?E0, ?E1, ?E2, ?E3, ?E4. ring.
  - intros s x Hs n. assert (Hs' : P (d_clear D s)) by exact Hs.
    destruct (state_inv D P Hp _ x n Hs') as [E0 [E1 [E2 [E3 E4]]]].
    set (y := out D (d_clear D s) x).
    assert (Hy : forall m, y m = b0 * x m + b2_z1 (state_at D (d_clear D s) x m)).
    { intros m. destruct (state_inv D P Hp _ x m Hs') as [F0 _]. rewrite <- F0. reflexivity. }
    assert (Hz2 : forall m, b2_z2 (state_at D (d_clear D s) x m) = b2 * back 1 x m - a2 * back 1 y m).
    { intros m. destruct m as [|m].
      - rewrite !back_S0. cbn. ring.
      - rewrite !back_SS, !back_0. unfold y, out.
        destruct (state_inv D P Hp _ x m Hs') as [F0 [F1 [F2 [F3 F4]]]].
        rewrite <- F2, <- F4. reflexivity. }
    enough (E : b2_z1 (state_at D (d_clear D s) x n)
                = b1 * back 1 x n + b2 * back 2 x n - a1 * back 1 y n - a2 * back 2 y n).
    { rewrite Hy, E. ring. }
    destruct n as [|n].
    + rewrite !back_S0. cbn. ring.
    + rewrite !back_SS, !back_0.
      destruct (state_inv D P Hp _ x n Hs') as [F0 [F1 [F2 [F3 F4]]]].
      transitivity (b1 * x n + b2_z2 (state_at D (d_clear D s) x n) - a1 * y n).
      * rewrite <- F1, <- F3. reflexivity.
      * rewrite Hz2. ring.
Qed.

Lemma rbj_sos kind a c : rbj_coeffs R_ops kind a = Some c ->
  exists P, sos (dev_rbj R_ops kind) a c P.
Proof.
  intros Ha. destruct c as [[[[b0 b1] b2] a1] a2].
  destruct (biquad2_sos b0 b1 b2 a1 a2) as [_ [Hp [Hc [Hr [Ho _]]]]].
  exists (fun s => b2_b0 s = b0 /\ b2_b1 s = b1 /\ b2_b2 s = b2 /\ b2_a1 s = a1 /\ b2_a2 s = a2).
  assert (Ep : forall s x, d_process (dev_rbj R_ops kind) s x = d_process (dev_biquad2 R_ops) s x)
    by (destruct kind; reflexivity).
  assert (Ec : forall s, d_clear (dev_rbj R_ops kind) s = d_clear (dev_biquad2 R_ops) s)
    by (destruct kind; reflexivity).
  assert (Es : forall s, d_set (dev_rbj R_ops kind) s a = Biquad2 0 0 0 b0 b1 b2 a1 a2).
  { intros s. cbn. unfold rbj_set_coefficients. rewrite Ha. destruct kind; reflexivity. }
  assert (Est : forall s x n, state_at (dev_rbj R_ops kind) s x n = state_at (dev_biquad2 R_ops) s x n).
  { intros s x n. induction n as [|n IH]; [reflexivity|]. cbn [state_at]. rewrite IH, Ep. reflexivity. }
  assert (Eo : forall s x n, out (dev_rbj R_ops kind) s x n = out (dev_biquad2 R_ops) s x n).
  { intros s x n. unfold out. rewrite Est, Ep. reflexivity. }
  split; [|split; [|split; [|split; [|split]]]].
  - intros s. rewrite Es. repeat split; reflexivity.
  - intros s x. rewrite Ep. apply Hp.
  - intros s. rewrite Ec. apply Hc.
  - intros s x Hs n. rewrite !Eo. apply (Hr s x Hs n).
  - intros s x Hs n. rewrite Ec. unfold back. rewrite !Eo. apply (Ho s x Hs n).
  - rewrite Es, Ec. reflexivity.
Qed.

Lemma filter_sos {S K} (D : device S K R) k c : filter_eq D k c -> exists P, sos D k c P.
Proof.
  intros H. destruct H.
  - eexists. apply one_pole_sos.
  - eexists. apply one_zero_sos.
  - eexists. apply two_pole_sos.
  - eexists. apply two_zero_sos.
  - destruct c as [[[[? ?] ?] ?] ?]. eexists. apply biquad1_sos.
  - destruct c as [[[[? ?] ?] ?] ?]. eexists. apply biquad2_sos.
  - apply rbj_sos. assumption.
Qed.

Lemma configured_eq {S K} (D : device S K R) k : configured D k = d_set D (d_new D) k.
Proof. reflexivity. Qed.

(** The equation from a freshly configured filter ... *)
Lemma filter_obeys {S K} (D : device S K R) k c : filter_eq D k c ->
  forall x, obeys c x (out D (configured D k) x).
Proof.
  intros H x. destruct (filter_sos D k c H) as [P [H1 [H2 [H3 [H4 [H5 H6]]]]]].
  rewrite configured_eq, <- H6. apply H5, H1.
Qed.

(** ... and without boundary from any later state. *)
Lemma after_app {S K} (D : device S K R) h1 h2 :
  after D (h1 ++ h2) = fst (d_run D (after D h1) h2).
Proof.
  unfold after. rewrite run_app. destruct (d_run D (d_new D) h1) as [s l]. cbn [fst].
  destruct (d_run D s h2); reflexivity.
Qed.

Lemma filter_recur {S K} (D : device S K R) k c : filter_eq D k c ->
  forall h cs x, no_set cs -> recur c x (out D (after D (h ++ [CSet k] ++ cs)) x).
Proof.
  intros H h cs x Hcs. destruct (filter_sos D k c H) as [P [H1 [H2 [H3 [H4 [H5 H6]]]]]].
  apply H4. rewrite app_assoc, after_app, after_snoc. cbn [d_step fst].
  generalize (H1 (after D h)). generalize (d_set D (after D h) k). clear - H2 H3 Hcs.
  induction Hcs as [|c0 cs Hc Hcs IH]; intros s Hs; [exact Hs|].
  cbn [d_run]. destruct c0; try discriminate; cbn [d_step].
  - specialize (H2 s x Hs). destruct (d_process D s x) as [s' y]. cbn [fst] in H2.
    specialize (IH s' H2). destruct (d_run D s' cs). exact IH.
  - specialize (IH _ (H3 s Hs)). destruct (d_run D (d_clear D s) cs). exact IH.
  - specialize (IH _ Hs). destruct (d_run D s cs). exact IH.
Qed.
