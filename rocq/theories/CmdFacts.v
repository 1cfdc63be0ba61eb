From Coq Require Import ZArith List Bool Lia.
From Verif Require Import Base BaseLemmas Traits Num NumR NumF FloatFacts DelayM LinDelayM DelaySpec DelayRun DelayProofs DelayFacts
  LinSpec LinRun LinProofs LinInv LinFacts CmdM CmdSpec Witness.
Import ListNotations.
Open Scope Z_scope.

Lemma c_call_agrees {T} (O : num_ops T) p op s : ends_as (dl_step O p s op) (c_call O p op s).
Proof.
  destruct op; cbn [dl_step c_call].
  - unfold delay_process, c_process, andthen, assign, eval. 
    destruct (vset (dl_memory s) (dl_write s) x) as [mem| |]; cbn -[uadd urem vget]; try reflexivity.
    destruct (uadd p (dl_write s) 1) as [w| |]; cbn -[uadd urem vget]; try reflexivity.
    destruct (urem w (vlen mem)) as [w'| |]; cbn -[uadd urem vget]; try reflexivity.
    destruct (vget mem (dl_read s)) as [y| |]; cbn -[uadd urem vget]; try reflexivity.
    destruct (uadd p (dl_read s) 1) as [r| |]; cbn -[uadd urem vget]; try reflexivity.
    destruct (urem r (vlen mem)) as [r'| |]; cbn -[uadd urem vget]; try reflexivity.
  - reflexivity.
  - unfold delay_set_delay, c_set_delay, andthen, assign, eval.
    destruct (usub p (vlen (dl_memory s)) 1) as [k| |]; cbn -[uadd usub Z.ltb Z.leb]; try reflexivity.
    set (t := if k <? d then k else d). clearbody t.
    destruct (t <=? dl_write s).
    + destruct (usub p (dl_write s) t); reflexivity.
    + destruct (uadd p (vlen (dl_memory s)) (dl_write s)) as [u| |]; cbn -[usub]; try reflexivity.
      destruct (usub p u t); reflexivity.
  - unfold delay_set_max_delay, c_set_max_delay, andthen, assign, eval. cbn -[uadd vec_resize Z.ltb].
    destruct (m <? vlen (dl_memory s)); [cbn; destruct s; reflexivity|].
    destruct (uadd p m 1) as [n| |]; cbn -[vec_resize]; try reflexivity.
    destruct (vec_resize _ _ _ _); reflexivity.
  - reflexivity.
  - unfold eval. destruct (delay_get_max_delay p s); reflexivity.
  - unfold eval. destruct (delay_next_out s); reflexivity.
  - reflexivity.
  - unfold eval. destruct (delay_tap_out p s t); reflexivity.
  - unfold delay_tap_in, c_tap_in, c_tap, andthen, assign, eval.
    destruct (tap_index p (dl_write s) (vlen (dl_memory s)) t) as [i| |]; cbn -[vset]; try reflexivity.
    destruct (vset _ _ _); reflexivity.
  - unfold delay_add_to, c_add_to, c_tap, andthen, assign, eval.
    destruct (tap_index p (dl_write s) (vlen (dl_memory s)) t) as [i| |]; cbn -[vset vget]; try reflexivity.
    destruct (vget (dl_memory s) i) as [old| |]; cbn -[vset vget]; try reflexivity.
    destruct (vset (dl_memory s) i (n_add O old v)) as [mem| |]; cbn -[vset vget]; try reflexivity.
    destruct (vget mem i); reflexivity.
Qed.

Section Lin.
  Context {C T : Type} (K : ctl_ops C T) (O : num_ops T) (p : profile).

  Lemma cl_next_agrees (s : lin_delay C T) : ends_as (lin_next_out O p s) (cl_next_out (C:=C) O p s).
  Proof.
    unfold lin_next_out, cl_next_out, andthen, assign, eval. cbn -[uadd usub vget Z.ltb].
    destruct (ld_do_next_out s) eqn:En; [|reflexivity].
    destruct (vget (ld_memory s) (ld_read s)) as [m0| |]; cbn -[uadd usub vget Z.ltb]; try reflexivity.
    destruct (usub p (vlen (ld_memory s)) 1) as [l| |]; cbn -[uadd usub vget Z.ltb]; try reflexivity.
    destruct (ld_read s <? l); cbn -[uadd usub vget].
    - destruct (uadd p (ld_read s) 1) as [r1| |]; cbn -[vget]; try reflexivity.
      destruct (vget (ld_memory s) r1); reflexivity.
    - destruct (vget (ld_memory s) 0); reflexivity.
  Qed.

  Lemma cl_call_agrees op s : ends_as (lin_step K O p s op) (cl_call K O p op s).
  Proof.
    destruct op; cbn [lin_step cl_call].
    - unfold lin_process, cl_process. unfold andthen at 1 2 3 4, assign at 1 2 3.
      destruct (vset (ld_memory s) (ld_write s) x) as [mem| |]; cbn -[uadd urem lin_next_out cl_next_out]; try reflexivity.
      unfold andthen, assign.
      destruct (uadd p (ld_write s) 1) as [w| |]; cbn -[uadd urem lin_next_out cl_next_out]; try reflexivity.
      destruct (urem w (vlen mem)) as [w'| |]; cbn -[uadd urem lin_next_out cl_next_out]; try reflexivity.
      set (s1 := lput_write _ w'). 
      change (MkLin mem (ld_output s) (ld_read s) w' (ld_delay s) (ld_do_next_out s) (ld_next_out s) (ld_alpha s) (ld_om_alpha s)) with s1.
      pose proof (cl_next_agrees s1) as A. destruct (lin_next_out O p s1) as [[s2 y]| |]; cbn [ends_as] in A.
      + rewrite A. cbn -[uadd urem]. 
        destruct (uadd p (ld_read s2) 1) as [r| |]; cbn -[urem]; try reflexivity.
        destruct (urem r (vlen (ld_memory s2))); reflexivity.
      + destruct (cl_next_out (C:=C) O p s1) as [s2 r]. cbn in A. subst r. reflexivity.
      + destruct (cl_next_out (C:=C) O p s1) as [s2 r]. cbn in A. subst r. reflexivity.
    - reflexivity.
    - unfold lin_set_delay, lin_set_delay_fuel, cl_set_delay, andthen, assign, eval.
      destruct (usub p (vlen (ld_memory s)) 1) as [k| |]; cbn -[norm_loop clip_delay Z.eqb]; try reflexivity.
      destruct (norm_loop K 64 _ _) as [pos| |]; cbn -[Z.eqb]; reflexivity.
    - unfold lin_set_max_delay, cl_set_max_delay, andthen, assign, eval. cbn -[uadd vec_resize Z.ltb].
      destruct (m <? vlen (ld_memory s)); [reflexivity|].
      destruct (uadd p m 1) as [n| |]; cbn -[vec_resize]; try reflexivity.
      destruct (vec_resize _ _ _ _); reflexivity.
    - reflexivity.
    - unfold eval. destruct (lin_get_max_delay p s); reflexivity.
    - unfold andthen, eval. pose proof (cl_next_agrees s) as A.
      destruct (lin_next_out O p s) as [[s2 y]| |]; cbn [ends_as] in A.
      + rewrite A. reflexivity.
      + destruct (cl_next_out (C:=C) O p s) as [s2 r]. cbn in A. subst r. reflexivity.
      + destruct (cl_next_out (C:=C) O p s) as [s2 r]. cbn in A. subst r. reflexivity.
    - reflexivity.
    - unfold eval. destruct (lin_tap_out p s t); reflexivity.
    - unfold lin_tap_in, cl_tap_in, cl_tap, andthen, assign, eval.
      destruct (tap_index p (ld_write s) (vlen (ld_memory s)) t) as [i| |]; cbn -[vset]; try reflexivity.
      destruct (vset _ _ _); reflexivity.
    - unfold lin_add_to, cl_add_to, cl_tap, andthen, assign, eval.
      destruct (tap_index p (ld_write s) (vlen (ld_memory s)) t) as [i| |]; cbn -[vset vget]; try reflexivity.
      destruct (vget (ld_memory s) i) as [old| |]; cbn -[vset vget]; try reflexivity.
      destruct (vset (ld_memory s) i (n_add O old v)) as [mem| |]; cbn -[vset vget]; try reflexivity.
      destruct (vget mem i); reflexivity.
  Qed.
End Lin.
Lemma vset_nh {T} (v : list T) i x : vset v i x <> Hang.
Proof. unfold vset. destruct (i <? 0); [discriminate|]. destruct (vlen v <=? i); discriminate. Qed.
Lemma vget_nh {T} (v : list T) i : vget v i <> Hang.
Proof.
  unfold vget. destruct (i <? 0); [discriminate|]. destruct (vlen v <=? i); [discriminate|].
  destruct (nth_error v (Z.to_nat i)); discriminate.
Qed.
Lemma uadd_nh p a b : uadd p a b <> Hang.
Proof. unfold uadd, chk_usize. destruct (_ && _); [discriminate|]. destruct p; discriminate. Qed.
Lemma resize_nh {T} sz (v : list T) n x : vec_resize sz v n x <> Hang.
Proof. unfold vec_resize. destruct (_ <=? _); [discriminate|]. destruct (alloc_ok _ _); discriminate. Qed.
Lemma tap_nh p a b c : tap_index p a b c <> Hang.
Proof.
  unfold tap_index, isub, iadd, chk_isize.
  repeat (match goal with |- context [if ?x then _ else _] => destruct x end; cbn [bind]; try discriminate);
    destruct p; cbn [bind]; try discriminate;
    repeat (match goal with |- context [if ?x then _ else _] => destruct x end; cbn [bind]; try discriminate).
Qed.

(** A length request that panics cannot be allocated. *)
Lemma resize_fits {T} (O : num_ops T) p (v : list T) m :
  is_usize m -> m <> usize_max -> vlen v <= m ->
  (let* n := uadd p m 1 in vec_resize (n_size_of O) v n (n_zero O)) = Panic -> ~ fits O m.
Proof.
  intros Hm Hx Hv. unfold is_usize, usize_max in *. unfold uadd. rewrite chk_usize_ok by lia. cbn [bind].
  unfold vec_resize. destruct (Z.leb_spec (m + 1) (vlen v)); [discriminate|].
  unfold alloc_ok. destruct (Z.leb_spec ((m + 1) * n_size_of O) isize_max); [discriminate|].
  intros _. unfold fits. lia.
Qed.

Section DelayPanic.
  Context {T : Type} (O : num_ops T) (p : profile).
  Hypothesis Hsize : 1 <= n_size_of O.

  (** A call on a reachable line returns, or panics and changes nothing. *)
  Lemma c_call_cases s op : dl_inv O s -> op_sane op ->
    (exists s' o, c_call O p op s = (s', Ok o) /\ dl_step O p s op = Ok (s', o) /\ dl_inv O s')
    \/ (c_call O p op s = (s, Panic) /\ may_panic O op).
  Proof.
    intros Hi Hs. pose proof (c_call_agrees O p op s) as A.
    destruct (dl_step O p s op) as [[s' o]| |] eqn:E; cbn [ends_as] in A.
    - left. exists s', o. split; [exact A|]. split; [reflexivity|].
      destruct (step_ok_frame O p Hsize s op s' o Hi Hs E) as [F1 _ _ _]. exact F1.
    - right. destruct Hs as [Hu Hx].
      destruct op; cbn [dl_step c_call may_panic op_usize] in *.
      + destruct (refine_process O p Hsize s x Hi) as [s2 [E2 _]]. rewrite E2 in E. discriminate.
      + discriminate.
      + destruct (refine_set_delay O p Hsize s d Hi Hu) as [s2 [E2 _]]. rewrite E2 in E. discriminate.
      + unfold delay_set_max_delay in E. unfold c_set_max_delay, andthen, assign, eval in *. cbn -[Z.ltb uadd vec_resize] in *.
        destruct (Z.ltb_spec m (vlen (dl_memory s))) as [Hl|Hl]; [discriminate|].
        pose proof (resize_fits O p (dl_memory s) m Hu) as RF.
        destruct (uadd p m 1) as [n| |] eqn:EU; cbn -[vec_resize] in *.
        * destruct (vec_resize _ _ _ _) eqn:ER; try discriminate. split; [reflexivity|].
          apply RF; auto. intros ->. apply Hx. reflexivity.
        * split; [reflexivity|]. apply RF; auto. intros ->. apply Hx. reflexivity.
        * discriminate.
      + discriminate.
      + unfold delay_get_max_delay, usub in E. destruct Hi as [Hl _ _ _]. pose proof (max_slots_lt O Hsize).
        rewrite chk_usize_ok in E by (unfold two63, two64 in *; lia). discriminate.
      + unfold delay_next_out in E. destruct Hi as [Hl _ Hr _].
        rewrite (vget_nth _ _ (n_zero O)) in E by lia. discriminate.
      + discriminate.
      + unfold eval in *. cbn in A |- *. rewrite A. auto.
      + unfold c_tap_in, c_tap, andthen, assign, eval in *. cbn -[tap_index vset] in *.
        destruct (tap_index _ _ _ _) as [i| |]; cbn -[vset] in *; try discriminate; auto.
        destruct (vset _ _ _) eqn:EV; try discriminate; auto.
      + unfold c_add_to, c_tap, andthen, assign, eval in *. cbn -[tap_index vset vget] in *.
        unfold delay_add_to in E.
        destruct (tap_index _ _ _ _) as [i| |]; cbn -[vset vget] in *; try discriminate; auto.
        destruct (vget (dl_memory s) i) as [old| |] eqn:EG; cbn -[vset vget] in *; try discriminate; auto.
        destruct (vset _ _ _) as [mem| |] eqn:EV; cbn -[vget] in *; try discriminate; auto.
        exfalso. pose proof (vset_length _ _ _ _ EV) as HL.
        assert (Hb : 0 <= i < vlen (dl_memory s)).
        { unfold vget in EG. destruct (Z.ltb_spec i 0); [discriminate|].
          destruct (Z.leb_spec (vlen (dl_memory s)) i); [discriminate|]. lia. }
        rewrite (vget_nth mem i (n_zero O)) in E by lia. discriminate.
    - exfalso. destruct op; cbn [dl_step] in E; try discriminate.
      + destruct (refine_process O p Hsize s x Hi) as [s2 [E2 _]]. rewrite E2 in E. discriminate.
      + destruct (refine_set_delay O p Hsize s d Hi (proj1 Hs)) as [s2 [E2 _]]. rewrite E2 in E. discriminate.
      + unfold delay_set_max_delay in E. destruct (_ <? _); [discriminate|].
        destruct (uadd p m 1) eqn:EU; cbn -[vec_resize] in E; try discriminate.
        * destruct (vec_resize _ _ _ _) eqn:ER; try discriminate. apply (resize_nh _ _ _ _ ER).
        * apply (uadd_nh _ _ _ EU).
      + unfold delay_get_max_delay, usub in E. destruct Hi as [Hl _ _ _]. pose proof (max_slots_lt O Hsize).
        rewrite chk_usize_ok in E by (unfold two63, two64 in *; lia). discriminate.
      + unfold delay_next_out in E. destruct (vget _ _) eqn:EG; try discriminate. apply (vget_nh _ _ EG).
      + unfold delay_tap_out in E. destruct (tap_index _ _ _ _) eqn:ET; cbn -[vget] in E; try discriminate.
        * destruct (vget _ _) eqn:EG; try discriminate. apply (vget_nh _ _ EG).
        * apply (tap_nh _ _ _ _ ET).
      + unfold delay_tap_in in E. destruct (tap_index _ _ _ _) eqn:ET; cbn -[vset] in E; try discriminate.
        * destruct (vset _ _ _) eqn:EG; try discriminate. apply (vset_nh _ _ _ EG).
        * apply (tap_nh _ _ _ _ ET).
      + unfold delay_add_to in E. destruct (tap_index _ _ _ _) eqn:ET; cbn -[vset vget] in E; try discriminate.
        * destruct (vget (dl_memory s) a) eqn:EG; cbn -[vset vget] in E; try discriminate; [|apply (vget_nh _ _ EG)].
          destruct (vset _ _ _) eqn:EV; cbn -[vget] in E; try discriminate; [|apply (vset_nh _ _ _ EV)].
          destruct (vget a1 a) eqn:EG2; try discriminate. apply (vget_nh _ _ EG2).
        * apply (tap_nh _ _ _ _ ET).
  Qed.

  Lemma caught_delay ops : forall s s' rs ks vs,
    dl_inv O s -> List.Forall op_sane ops -> caught (c_call O p) s ops = (s', rs) ->
    returned ops rs = (ks, vs) ->
    dl_run O p s ks = Ok (s', vs)
    /\ Forall2 (fun op r => r <> Hang /\ (r = Panic -> may_panic O op)) ops rs.
  Proof.
    induction ops as [|op ops IH]; intros s s' rs ks vs Hi Hs E R; cbn [caught] in E.
    - inversion E; subst. cbn in R. inversion R; subst. cbn. auto.
    - inversion Hs as [|? ? Hs1 Hs2]; subst.
      destruct (c_call_cases s op Hi Hs1) as [[s1 [o [E1 [E2 Hi1]]]]|[E1 Hp]]; rewrite E1 in E.
      + destruct (caught (c_call O p) s1 ops) as [s2 rs2] eqn:EC. inversion E; subst. cbn [returned] in R.
        destruct (returned ops rs2) as [ks2 vs2] eqn:ER. inversion R; subst.
        destruct (IH _ _ _ _ _ Hi1 Hs2 EC ER) as [I1 I2]. cbn [dl_run]. rewrite E2. cbn [bind]. rewrite I1. cbn [bind].
        split; [reflexivity|]. constructor; [split; discriminate|exact I2].
      + destruct (caught (c_call O p) s ops) as [s2 rs2] eqn:EC. inversion E; subst. cbn [returned] in R.
        destruct (IH _ _ _ _ _ Hi Hs2 EC R) as [I1 I2]. split; [exact I1|].
        constructor; [split; [discriminate|auto]|exact I2].
  Qed.
End DelayPanic.

Section LinPanic.
  Context {C T : Type} (K : ctl_ops C T) (O : num_ops T) (p : profile).
  Hypothesis Hsize : 1 <= n_size_of O.
  Context (lim : Z) (aim : nat -> nat -> C -> C * nat * T * T).
  Hypothesis Hlim : lim <= max_slots O.
  Hypothesis Hctl : aims K O lim aim.

  Lemma cl_call_cases (s : lin_delay C T) op : lin_inv' O lim s -> modest O lim op ->
    (exists s' o, cl_call K O p op s = (s', Ok o) /\ lin_step K O p s op = Ok (s', o) /\ lin_inv' O lim s')
    \/ (cl_call K O p op s = (s, Panic) /\ may_panic O op).
  Proof.
    intros Hi [[Hu Hx] Hm]. pose proof (cl_call_agrees K O p op s) as A.
    pose proof (lin_step_ok K O p Hsize lim aim Hlim Hctl s op Hi Hu) as G.
    destruct op; cbn [may_panic] in *;
      try (destruct G as [s' [o [E [Hi' _]]]]; [exact I|]; left; exists s', o;
           rewrite E in A; cbn [ends_as] in A; auto; fail).
    - destruct (Z.ltb_spec m (vlen (ld_memory s))) as [Hl|Hl].
      + destruct G as [s' [o [E [Hi' _]]]]; [lia|]. left; exists s', o. rewrite E in A. auto.
      + destruct Hm as [Hm|Hm].
        * destruct G as [s' [o [E [Hi' _]]]]; [unfold short in Hm; lia|]. left; exists s', o. rewrite E in A. auto.
        * right. cbn [cl_call op_usize_lin] in *. unfold cl_set_max_delay, andthen, assign, eval.
          cbn -[Z.ltb uadd vec_resize]. destruct (Z.ltb_spec m (vlen (ld_memory s))); [lia|].
          unfold is_usize in Hu. unfold uadd. assert (m <> usize_max) by (intros ->; apply Hx; reflexivity).
          rewrite chk_usize_ok by (unfold usize_max in *; lia). cbn -[vec_resize]. unfold vec_resize, alloc_ok.
          destruct (Z.leb_spec (m + 1) (vlen (ld_memory s))); [lia|].
          destruct (Z.leb_spec ((m + 1) * n_size_of O) isize_max); [unfold fits in Hm; lia|]. auto.
    - destruct (lin_step K O p s (DTapOut t)) as [[s' o]| |] eqn:E; cbn [ends_as] in A.
      + left. exists s', o. split; [exact A|]. split; [reflexivity|].
        cbn [lin_step] in E. destruct (lin_tap_out p s t); inversion E; subst. exact Hi.
      + right. cbn [cl_call] in *. unfold eval in *. cbn -[lin_tap_out] in *. rewrite A. auto.
      + exfalso. cbn [lin_step] in E. unfold lin_tap_out in E.
        destruct (tap_index _ _ _ _) eqn:ET; cbn -[vget] in E; try discriminate.
        * destruct (vget _ _) eqn:EG; try discriminate. apply (vget_nh _ _ EG).
        * apply (tap_nh _ _ _ _ ET).
    - destruct (lin_step K O p s (DTapIn v t)) as [[s' o]| |] eqn:E; cbn [ends_as] in A.
      + left. exists s', o. split; [exact A|]. split; [reflexivity|].
        cbn [lin_step] in E. unfold lin_tap_in in E.
        destruct (tap_index _ _ _ _) as [i| |] eqn:ET; cbn -[vset] in E; try discriminate.
        destruct (vset _ _ _) as [mem| |] eqn:EG; try discriminate. cbn in E. inversion E; subst.
        destruct Hi as [[H1 H2 H3 H4] H5]. pose proof (vset_length _ _ _ _ EG) as HL.
        split; [constructor|]; cbn [dl_of dl_memory dl_write dl_read dl_delay ld_memory ld_read ld_write] in *; rewrite HL; auto.
      + right. cbn [cl_call] in *. unfold cl_tap_in, cl_tap, andthen, assign, eval in *. cbn -[tap_index vset] in *.
        destruct (tap_index _ _ _ _) as [i| |]; cbn -[vset] in *; try discriminate; auto.
        destruct (vset _ _ _) eqn:EV; try discriminate; auto.
      + exfalso. cbn [lin_step] in E. unfold lin_tap_in in E.
        destruct (tap_index _ _ _ _) eqn:ET; cbn -[vset] in E; try discriminate.
        * destruct (vset _ _ _) eqn:EG; try discriminate. apply (vset_nh _ _ _ EG).
        * apply (tap_nh _ _ _ _ ET).
    - destruct (lin_step K O p s (DAddTo v t)) as [[s' o]| |] eqn:E; cbn [ends_as] in A.
      + left. exists s', o. split; [exact A|]. split; [reflexivity|].
        cbn [lin_step] in E. unfold lin_add_to in E.
        destruct (tap_index _ _ _ _) as [i| |] eqn:ET; cbn -[vset vget] in E; try discriminate.
        destruct (vget (ld_memory s) i) as [old| |] eqn:EG0; cbn -[vset vget] in E; try discriminate.
        destruct (vset _ _ _) as [mem| |] eqn:EG; cbn -[vget] in E; try discriminate.
        destruct (vget mem i) as [r| |]; try discriminate. cbn in E. inversion E; subst.
        destruct Hi as [[H1 H2 H3 H4] H5]. pose proof (vset_length _ _ _ _ EG) as HL.
        split; [constructor|]; cbn [dl_of dl_memory dl_write dl_read dl_delay ld_memory ld_read ld_write] in *; rewrite HL; auto.
      + right. cbn [cl_call lin_step] in *. unfold cl_add_to, cl_tap, andthen, assign, eval in *. cbn -[tap_index vset vget] in *.
        unfold lin_add_to in E.
        destruct (tap_index _ _ _ _) as [i| |]; cbn -[vset vget] in *; try discriminate; auto.
        destruct (vget (ld_memory s) i) as [old| |] eqn:EG; cbn -[vset vget] in *; try discriminate; auto.
        destruct (vset _ _ _) as [mem| |] eqn:EV; cbn -[vget] in *; try discriminate; auto.
        exfalso. pose proof (vset_length _ _ _ _ EV) as HL.
        assert (Hb : 0 <= i < vlen (ld_memory s)).
        { unfold vget in EG. destruct (Z.ltb_spec i 0); [discriminate|].
          destruct (Z.leb_spec (vlen (ld_memory s)) i); [discriminate|]. lia. }
        rewrite (vget_nth mem i (n_zero O)) in E by lia. discriminate.
      + exfalso. cbn [lin_step] in E. unfold lin_add_to in E.
        destruct (tap_index _ _ _ _) eqn:ET; cbn -[vset vget] in E; try discriminate.
        * destruct (vget (ld_memory s) a) eqn:EG; cbn -[vset vget] in E; try discriminate; [|apply (vget_nh _ _ EG)].
          destruct (vset _ _ _) eqn:EV; cbn -[vget] in E; try discriminate; [|apply (vset_nh _ _ _ EV)].
          destruct (vget a1 a) eqn:EG2; try discriminate. apply (vget_nh _ _ EG2).
        * apply (tap_nh _ _ _ _ ET).
  Qed.

  Lemma caught_lin ops : forall (s : lin_delay C T) s' rs ks vs,
    lin_inv' O lim s -> List.Forall (modest O lim) ops -> caught (cl_call K O p) s ops = (s', rs) ->
    returned ops rs = (ks, vs) ->
    lin_run K O p s ks = Ok (s', vs)
    /\ Forall2 (fun op r => r <> Hang /\ (r = Panic -> may_panic O op)) ops rs.
  Proof.
    induction ops as [|op ops IH]; intros s s' rs ks vs Hi Hs E R; cbn [caught] in E.
    - inversion E; subst. cbn in R. inversion R; subst. cbn. auto.
    - inversion Hs as [|? ? Hs1 Hs2]; subst.
      destruct (cl_call_cases s op Hi Hs1) as [[s1 [o [E1 [E2 Hi1]]]]|[E1 Hp]]; rewrite E1 in E.
      + destruct (caught (cl_call K O p) s1 ops) as [s2 rs2] eqn:EC. inversion E; subst. cbn [returned] in R.
        destruct (returned ops rs2) as [ks2 vs2] eqn:ER. inversion R; subst.
        destruct (IH _ _ _ _ _ Hi1 Hs2 EC ER) as [I1 I2]. cbn [lin_run]. rewrite E2. cbn [bind]. rewrite I1. cbn [bind].
        split; [reflexivity|]. constructor; [split; discriminate|exact I2].
      + destruct (caught (cl_call K O p) s ops) as [s2 rs2] eqn:EC. inversion E; subst. cbn [returned] in R.
        destruct (IH _ _ _ _ _ Hi Hs2 EC R) as [I1 I2]. split; [exact I1|].
        constructor; [split; [discriminate|auto]|exact I2].
  Qed.
End LinPanic.

Section BlockPanic.
  Context {S T : Type} (P : S -> T -> outcome (S * T)) (process : T -> cmd S T).
  Hypothesis HP : forall x s, ends_as (P s x) (process x s).

  Lemma c_each_agrees xs : forall s,
    match process_each P s xs with
    | Ok (s', ys) => c_each process s xs = (s', ys, Ok tt)
    | Panic => snd (c_each process s xs) = Panic
    | Hang => snd (c_each process s xs) = Hang
    end.
  Proof.
    induction xs as [|x xs IH]; intros s; cbn [process_each c_each]; [reflexivity|].
    pose proof (HP x s) as A. destruct (P s x) as [[s1 y]| |]; cbn [ends_as bind] in *.
    - rewrite A. specialize (IH s1). destruct (process_each P s1 xs) as [[s2 ys]| |]; cbn [bind].
      + rewrite IH. reflexivity.
      + destruct (c_each process s1 xs) as [[s2 ys] r]. cbn in *. exact IH.
      + destruct (c_each process s1 xs) as [[s2 ys] r]. cbn in *. exact IH.
    - destruct (process x s) as [s1 r]. cbn in A. subst r. reflexivity.
    - destruct (process x s) as [s1 r]. cbn in A. subst r. reflexivity.
  Qed.

  Lemma c_block_agrees s xs :
    match process_block P s xs with
    | Ok (s', ys, y) => c_block process s xs = (s', ys, Ok y)
    | Panic => snd (c_block process s xs) = Panic
    | Hang => snd (c_block process s xs) = Hang
    end.
  Proof.
    unfold process_block, c_block. pose proof (c_each_agrees xs s) as A.
    destruct (process_each P s xs) as [[s' ys]| |]; cbn [bind].
    - rewrite A. destruct ys; reflexivity.
    - destruct (c_each process s xs) as [[s' ys] r]. cbn in A. subst r. reflexivity.
    - destruct (c_each process s xs) as [[s' ys] r]. cbn in A. subst r. reflexivity.
  Qed.
End BlockPanic.

Lemma c_each_panic {S T} (process : T -> cmd S T) xs : forall s s' ys,
  c_each process s xs = (s', ys, Panic) ->
  exists done x rest outs s1,
    xs = done ++ x :: rest /\ ys = outs ++ x :: rest
    /\ caught process s done = (s1, map Ok outs) /\ process x s1 = (s', Panic).
Proof.
  induction xs as [|x xs IH]; intros s s' ys E; cbn [c_each] in E; [discriminate|].
  destruct (process x s) as [s1 [y| |]] eqn:EP.
  - destruct (c_each process s1 xs) as [[s2 ys2] r] eqn:EC. inversion E; subst.
    destruct (IH _ _ _ EC) as (dn & x' & rest & outs & s3 & -> & -> & HC & HPx).
    exists (x :: dn), x', rest, (y :: outs), s3. cbn [caught map app]. rewrite EP, HC. auto.
  - inversion E; subst. exists [], x, xs, [], s. cbn. auto.
  - discriminate.
Qed.

Lemma c_each_ok {S T} (process : T -> cmd S T) xs : forall s s' ys u,
  c_each process s xs = (s', ys, Ok u) -> length ys = length xs /\ (xs = [] -> s' = s).
Proof.
  induction xs as [|x xs IH]; intros s s' ys u E; cbn [c_each] in E.
  - inversion E; subst. auto.
  - destruct (process x s) as [s1 [y| |]] eqn:EP; try discriminate.
    destruct (c_each process s1 xs) as [[s2 ys2] r] eqn:EC. inversion E; subst.
    destruct (IH _ _ _ _ EC) as [H _]. cbn. split; [lia|discriminate].
Qed.


Lemma cl_next_frame {C T} (O : num_ops T) p (s s2 : lin_delay C T) r :
  cl_next_out O p s = (s2, r) -> ld_memory s2 = ld_memory s /\ ld_write s2 = ld_write s.
Proof.
  intros EN. unfold cl_next_out, andthen, assign, eval in EN.
  destruct (ld_do_next_out s); [|inversion EN; auto].
  destruct (vget (ld_memory s) (ld_read s)); cbn -[vget usub uadd Z.ltb] in EN; [|inversion EN; auto|inversion EN; auto].
  destruct (usub p (vlen (ld_memory s)) 1); cbn -[vget usub uadd Z.ltb] in EN; [|inversion EN; auto|inversion EN; auto].
  destruct (ld_read s <? a0); cbn -[vget usub uadd] in EN.
  - destruct (uadd p (ld_read s) 1); cbn -[vget] in EN; [|inversion EN; auto|inversion EN; auto].
    destruct (vget (ld_memory s) a1); cbn in EN; inversion EN; auto.
  - destruct (vget (ld_memory s) 0); cbn in EN; inversion EN; auto.
Qed.
