(** Property C125: filtering a block forwards and backwards.

    Vocabulary: [both_ways], [play], [dot] ([BothSpec]); [filter_eq], [configured], [stable], [passes], [sinusoid] ([Signal]);
    [d_outputs D s xs]: what the samples [xs] give from the state [s], one by one ([Device]). *)
From Coq Require Import Reals List Lra Lia.
From Verif Require Import Base Num NumR FilterM RbjM Traits Device Signal SysSpec RbjSpec RbjLemmas BothSpec BothLemmas.
Import ListNotations.
Open Scope R_scope.

(** C125: forwards and backwards never fails on a block that is not empty, keeps its length and forgets
    everything before.  It treats the two directions of time alike: the output for [u] compared with [v] is
    the output for [v] compared with [u], namely the comparison of the two filtered once.  In particular the
    output for [u] never opposes [u]. *)
Theorem C125_symmetric :
  forall (S K : Type) (D : device S K R) (k : K) (c : R * R * R * R * R),
    filter_eq D k c ->
  forall (history rest : list (call K R)) (u v : list R), no_set rest -> u <> [] -> length u = length v ->
    let filter := after D (history ++ [CSet k] ++ rest) in
    let once := d_outputs D (configured D k) in
    exists filter_u filter_v uu vv,
      both_ways D filter u = Ok (filter_u, uu) /\ both_ways D filter v = Ok (filter_v, vv)
      /\ length uu = length u
      /\ dot uu v = dot (once u) (once v) /\ dot vv u = dot (once u) (once v)
      /\ dot uu u = dot (once u) (once u) /\ 0 <= dot uu u.
Proof. exact C125_symmetric_thm. Qed.
Print Assumptions C125_symmetric.

Example C125_symmetric_hyps :
  filter_eq (dev_one_pole R_ops) (/ 2, - / 2) (/ 2, 0, 0, - / 2, 0)
  /\ no_set (K := R * R) [CProcess 3; CClear; CLastOut] /\ [1; 2; -3] <> [] /\ length [1; 2; -3] = length [0; 5; 1].
Proof. split; [constructor|]. split; [repeat constructor|]. split; [discriminate|reflexivity]. Qed.

(** C125: a sinusoid that a stable filter passes with gain [g] and any phase shift comes out, forwards and
    backwards, with gain g^2 and no phase shift, as closely as wished once [n] is far enough from both ends of
    the block. *)
Theorem C125_zero_phase :
  forall (S K : Type) (D : device S K R) (k : K) (b0 b1 b2 a1 a2 : R),
    filter_eq D k (b0, b1, b2, a1, a2) -> stable a1 a2 ->
  forall w g theta : R, passes D (configured D k) w g theta ->
  forall A phi eps : R, 0 < eps ->
    exists margin : nat, forall (history rest : list (call K R)) (N : nat), no_set rest -> (0 < N)%nat ->
      exists filter zs,
        both_ways D (after D (history ++ [CSet k] ++ rest)) (map (sinusoid A w phi) (seq 0 N)) = Ok (filter, zs)
        /\ length zs = N
        /\ forall n, (margin <= n)%nat -> (n + margin < N)%nat ->
           Rabs (nth n zs 0 - sinusoid (g * g * A) w phi n) <= eps.
Proof. exact C125_zero_phase_thm. Qed.
Print Assumptions C125_zero_phase.

(* a LowPass at 1 kHz, and any frequency *)
Example C125_zero_phase_hyps : forall w, exists b0 b1 b2 a1 a2 g theta,
  filter_eq (dev_rbj R_ops LowPass) (RbjQ 48000 1000 0.7) (b0, b1, b2, a1, a2) /\ stable a1 a2
  /\ passes (dev_rbj R_ops LowPass) (configured (dev_rbj R_ops LowPass) (RbjQ 48000 1000 0.7)) w g theta.
Proof.
  intros w. assert (Hv : valid LowPass (RbjQ 48000 1000 0.7)) by (split; [unfold valid_band; lra|lra]).
  destruct (C37_rbj_stable_thm _ _ Hv) as [b0 [b1 [b2 [a1 [a2 [E Hs]]]]]].
  destruct (C37_rbj_sinusoid_thm _ _ w Hv) as [g [theta [_ Hp]]].
  exists b0, b1, b2, a1, a2, g, theta. split; [constructor; exact E|]. split; [exact Hs|exact Hp].
Qed.
