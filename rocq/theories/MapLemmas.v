(** Lemmas behind property C133.  The [@PROP] blocks are copied into [PropMap.v]. *)
(*@PROP
(** Property C133: the same program with another sample type.

    Vocabulary ([MapSpec]): [map_call h], [map_answer h]: the same call or answer with [h x] for every sample [x]; [answers]: what
    the calls of a session return, or that one panics; [moves_only]: not an [add_to]; [allocates size]: the length asked for can be
    allocated; [same_number V V' x x']: [x] and [x'] denote the same number in two float types; [stream D k x n]: what a new filter
    configured with [k] returns for sample [n] of [x]; [has_coeffs]: the coefficients it works with ([FltFilterSpec]). *)
From Coq Require Import ZArith Reals List Bool Lia Lra.
From Flocq Require Import IEEE754.BinarySingleNaN Core.Core.
From Verif Require Import Base Num NumR NumF FloatSpec FilterM RbjM AnalysisM Device Signal FltFilterSpec AnaSpec TrackSpec DelayM LinDelayM DelaySpec
  DelayRun LinRun MapSpec CrLibm Witness MapLemmas.
Import ListNotations.
Open Scope R_scope.
@*)
From Coq Require Import ZArith Reals List Bool Lia Lra.
From Flocq Require Import IEEE754.BinarySingleNaN Core.Core.
From Verif Require Import Base Num NumR NumF FloatSpec FilterM RbjM AnalysisM Device Signal FltFilterSpec AnaSpec TrackSpec DelayM LinDelayM DelaySpec
  DelayRun LinRun BaseLemmas SettingLemmas StringLemmas FltFilterLemmas TrackLemmas AnaLemmas SmoothF CrLibm Witness MapSpec.
Import ListNotations.
Open Scope R_scope.

(** ** Delay lines *)
Section Map.
  Context {T T' : Type} (O : num_ops T) (O' : num_ops T') (p : profile) (h : T -> T').
  Hypothesis h0 : h (n_zero O) = n_zero O'.

  Definition omap {A B} (f : A -> B) (o : outcome A) : outcome B := let* a := o in Ok (f a).
  Lemma omap_bind {A B C} (f : B -> C) (o : outcome A) (k : A -> outcome B) : omap f (let* a := o in k a) = let* a := o in omap f (k a).
  Proof. destruct o; reflexivity. Qed.
  Lemma bind_omap {A B C} (f : A -> B) (o : outcome A) (k : B -> outcome C) : (let* b := omap f o in k b) = let* a := o in k (f a).
  Proof. destruct o; reflexivity. Qed.
  Lemma bind_ext {A B} (o : outcome A) (k k' : A -> outcome B) : (forall a, k a = k' a) -> (let* a := o in k a) = let* a := o in k' a.
  Proof. intros H. destruct o; cbn [bind]; auto. Qed.

  Lemma vlen_map (v : list T) : vlen (map h v) = vlen v.
  Proof. unfold vlen. rewrite map_length. reflexivity. Qed.
  Lemma vget_map (v : list T) i : vget (map h v) i = omap h (vget v i).
  Proof.
    unfold vget. rewrite vlen_map. destruct (_ <? _)%Z; [reflexivity|]. destruct (_ <=? _)%Z; [reflexivity|].
    rewrite nth_error_map. destruct (nth_error v (Z.to_nat i)); reflexivity.
  Qed.
  Lemma list_set_map (v : list T) : forall i x, list_set (map h v) i (h x) = map h (list_set v i x).
  Proof. induction v as [|a v IH]; intros i x; [reflexivity|]. destruct i; cbn [list_set map]; [reflexivity|]. rewrite IH. reflexivity. Qed.
  Lemma vset_map (v : list T) i x : vset (map h v) i (h x) = omap (map h) (vset v i x).
  Proof.
    unfold vset. rewrite vlen_map. destruct (_ <? _)%Z; [reflexivity|]. destruct (_ <=? _)%Z; [reflexivity|].
    cbn. rewrite list_set_map. reflexivity.
  Qed.
  Lemma resize_map (v : list T) n : alloc_ok (n_size_of O) n = true -> alloc_ok (n_size_of O') n = true ->
    vec_resize (n_size_of O') (map h v) n (n_zero O') = omap (map h) (vec_resize (n_size_of O) v n (n_zero O)).
  Proof using h0.
    intros A A'. unfold vec_resize. rewrite vlen_map, A, A'. destruct (_ <=? _)%Z; cbn [omap bind].
    - rewrite firstn_map. reflexivity.
    - rewrite map_app, map_rep, h0. reflexivity.
  Qed.

  Lemma grown_ok size m n : is_usize m -> alloc_ok size (m + 1) = true -> uadd p m 1 = Ok n -> alloc_ok size n = true.
  Proof using.
    intros Hm A. unfold uadd, chk_usize. destruct ((0 <=? m + 1)%Z && (m + 1 <? two64)%Z) eqn:E.
    - intros H. injection H as <-. exact A.
    - destruct p; [discriminate|]. intros H. injection H as <-.
      assert (m + 1 = two64)%Z.
      { apply andb_false_iff in E. unfold is_usize, usize_max, two64 in *. destruct E as [E|E]; [apply Z.leb_gt in E|apply Z.ltb_ge in E]; lia. }
      rewrite H. reflexivity.
  Qed.

  Definition hmap (s : delay T) : delay T' := MkDelay (map h (dl_memory s)) (h (dl_output s)) (dl_read s) (dl_write s) (dl_delay s).

  Lemma hset_delay s d : delay_set_delay p (hmap s) d = omap hmap (delay_set_delay p s d).
  Proof.
    unfold delay_set_delay. cbn [hmap dl_memory dl_output dl_read dl_write dl_delay]. rewrite vlen_map, omap_bind. apply bind_ext. intros n.
    rewrite omap_bind. apply bind_ext. intros r. reflexivity.
  Qed.

  Lemma hstep s op : (moves_only op \/ forall x y, h (n_add O x y) = n_add O' (h x) (h y)) -> op_usize op ->
    allocates (n_size_of O) op -> allocates (n_size_of O') op ->
    dl_step O' p (hmap s) (map_call h op) = omap (fun r => (hmap (fst r), map_answer h (snd r))) (dl_step O p s op).
  Proof using h0.
    intros Ha Hu A A'. destruct op; cbn [map_call dl_step map_answer]; rewrite ?omap_bind.
    - unfold delay_process. cbn [hmap dl_memory dl_output dl_read dl_write dl_delay]. rewrite vset_map.
      destruct (vset (dl_memory s) (dl_write s) x) as [mem| |]; cbn [omap bind]; try reflexivity. rewrite vlen_map.
      destruct (uadd p (dl_write s) 1) as [w| |]; cbn [bind]; try reflexivity.
      destruct (urem w (vlen mem)) as [w'| |]; cbn [bind]; try reflexivity. rewrite vget_map.
      destruct (vget mem (dl_read s)) as [y| |]; cbn [omap bind]; try reflexivity.
      destruct (uadd p (dl_read s) 1) as [r| |]; cbn [bind]; try reflexivity.
      destruct (urem r (vlen mem)) as [r'| |]; reflexivity.
    - unfold delay_clear, hmap, omap; cbn [bind fst snd dl_memory dl_output dl_read dl_write dl_delay map_answer]. rewrite !map_map.
      do 3 f_equal; [|rewrite h0; reflexivity]. apply map_ext. intros _. rewrite h0. reflexivity.
    - rewrite hset_delay, bind_omap. destruct (delay_set_delay p s d); reflexivity.
    - cbn [allocates] in A, A'. cbn [op_usize] in Hu. unfold delay_set_max_delay. cbn [hmap dl_memory dl_output dl_read dl_write dl_delay]. rewrite vlen_map.
      destruct (m <? vlen (dl_memory s))%Z; [reflexivity|].
      destruct (uadd p m 1) as [n| |] eqn:E; cbn [bind]; try reflexivity.
      rewrite (resize_map _ n (grown_ok _ m n Hu A E) (grown_ok _ m n Hu A' E)).
      destruct (vec_resize (n_size_of O) (dl_memory s) n (n_zero O)); reflexivity.
    - reflexivity.
    - unfold delay_get_max_delay. cbn [hmap dl_memory]. rewrite vlen_map. destruct (usub p (vlen (dl_memory s)) 1); reflexivity.
    - unfold delay_next_out. cbn [hmap dl_memory dl_read]. rewrite vget_map. destruct (vget (dl_memory s) (dl_read s)); reflexivity.
    - reflexivity.
    - unfold delay_tap_out. cbn [hmap dl_memory dl_write]. rewrite vlen_map.
      destruct (tap_index p (dl_write s) (vlen (dl_memory s)) t) as [i| |]; cbn [bind]; try reflexivity. rewrite vget_map.
      destruct (vget (dl_memory s) i); reflexivity.
    - unfold delay_tap_in. cbn [hmap dl_memory dl_write]. rewrite vlen_map.
      destruct (tap_index p (dl_write s) (vlen (dl_memory s)) t) as [i| |]; cbn [bind]; try reflexivity. rewrite vset_map.
      destruct (vset (dl_memory s) i v); reflexivity.
    - destruct Ha as [Ha|Ha]; [exfalso; apply (Ha v t); reflexivity|].
      unfold delay_add_to. cbn [hmap dl_memory dl_write]. rewrite vlen_map.
      destruct (tap_index p (dl_write s) (vlen (dl_memory s)) t) as [i| |]; cbn [bind]; try reflexivity. rewrite vget_map.
      destruct (vget (dl_memory s) i) as [a| |]; cbn [omap bind]; try reflexivity. rewrite <- Ha, vset_map.
      destruct (vset (dl_memory s) i (n_add O a v)) as [mem| |]; cbn [omap bind]; try reflexivity. rewrite vget_map.
      destruct (vget mem i); reflexivity.
  Qed.

  Lemma hrun ops : (Forall moves_only ops \/ forall x y, h (n_add O x y) = n_add O' (h x) (h y)) -> Forall op_usize ops ->
    Forall (allocates (n_size_of O)) ops -> Forall (allocates (n_size_of O')) ops ->
    forall s, dl_run O' p (hmap s) (map (map_call h) ops) = omap (fun r => (hmap (fst r), map (map_answer h) (snd r))) (dl_run O p s ops).
  Proof using h0.
    induction ops as [|op ops IH]; intros Ha Hu A A' s; [reflexivity|].
    pose proof (Forall_inv Hu) as U1. pose proof (Forall_inv A) as A1. pose proof (Forall_inv A') as A1'.
    apply Forall_inv_tail in Hu, A, A'. cbn [map dl_run].
    assert (H1 : moves_only op \/ forall x y, h (n_add O x y) = n_add O' (h x) (h y)).
    { destruct Ha as [Ha|Ha]; [left; exact (Forall_inv Ha)|right; exact Ha]. }
    assert (H2 : Forall moves_only ops \/ forall x y, h (n_add O x y) = n_add O' (h x) (h y)).
    { destruct Ha as [Ha|Ha]; [left; exact (Forall_inv_tail Ha)|right; exact Ha]. }
    rewrite (hstep s op H1 U1 A1 A1'). destruct (dl_step O p s op) as [[s1 o]| |]; cbn [omap bind fst snd]; try reflexivity.
    rewrite (IH H2 Hu A A' s1). destruct (dl_run O p s1 ops) as [[s2 os]| |]; reflexivity.
  Qed.

  Lemma hnew d m : is_usize m -> alloc_ok (n_size_of O) (m + 1) = true -> alloc_ok (n_size_of O') (m + 1) = true ->
    delay_new O' p d m = omap hmap (delay_new O p d m).
  Proof using h0.
    intros Hu A A'. unfold delay_new. destruct (uadd p m 1) as [n| |] eqn:E; cbn [bind omap]; try reflexivity.
    unfold vec_repeat. rewrite (grown_ok _ m n Hu A E), (grown_ok _ m n Hu A' E). cbn [bind]. rewrite <- hset_delay.
    f_equal. unfold hmap. cbn [dl_memory dl_output dl_read dl_write dl_delay]. rewrite map_rep, h0. reflexivity.
  Qed.

  Lemma hsession d m ops : is_usize m -> alloc_ok (n_size_of O) (m + 1) = true -> alloc_ok (n_size_of O') (m + 1) = true ->
    (Forall moves_only ops \/ forall x y, h (n_add O x y) = n_add O' (h x) (h y)) -> Forall op_usize ops ->
    Forall (allocates (n_size_of O)) ops -> Forall (allocates (n_size_of O')) ops ->
    answers (dl_session O' p d m (map (map_call h) ops)) = map_answers h (answers (dl_session O p d m ops)).
  Proof using h0.
    intros Hu A A' Ha Hops B B'. unfold dl_session. rewrite (hnew d m Hu A A').
    destruct (delay_new O p d m) as [s| |]; cbn [omap bind]; try reflexivity. rewrite (hrun ops Ha Hops B B').
    destruct (dl_run O p s ops) as [[s2 os]| |]; reflexivity.
  Qed.
End Map.

(** ** [LinearDelay] *)
Section Lin.
  Context {C T : Type} (K : ctl_ops C T) (O : num_ops T) (p : profile) (h : T -> T).
  Hypothesis h0 : h (n_zero O) = n_zero O.
  Hypothesis hadd : forall x y, h (n_add O x y) = n_add O (h x) (h y).
  Hypothesis hmul : forall x w, h (n_mul O x w) = n_mul O (h x) w.

  Definition lmap (s : lin_delay C T) : lin_delay C T :=
    MkLin (map h (ld_memory s)) (h (ld_output s)) (ld_read s) (ld_write s) (ld_delay s) (ld_do_next_out s) (h (ld_next_out s)) (ld_alpha s) (ld_om_alpha s).

  Lemma lresize (v : list T) n : vec_resize (n_size_of O) (map h v) n (n_zero O) = omap (map h) (vec_resize (n_size_of O) v n (n_zero O)).
  Proof using h0.
    unfold vec_resize. rewrite vlen_map. destruct (_ <=? _)%Z; cbn [omap bind].
    - rewrite firstn_map. reflexivity.
    - destruct (alloc_ok _ _); [|reflexivity]. cbn [omap bind]. rewrite map_app, map_rep, h0. reflexivity.
  Qed.

  Lemma lset_delay s d : lin_set_delay K O p (lmap s) d = omap lmap (lin_set_delay K O p s d).
  Proof using.
    unfold lin_set_delay, lin_set_delay_fuel. cbn [lmap ld_memory ld_output ld_read ld_write ld_delay ld_do_next_out ld_next_out]. rewrite vlen_map.
    destruct (usub p (vlen (ld_memory s)) 1) as [n| |]; cbn [omap bind]; try reflexivity.
    destruct (norm_loop K 64 (vlen (ld_memory s)) _) as [q| |]; reflexivity.
  Qed.

  Lemma lnext s : lin_next_out O p (lmap s) = omap (fun r => (lmap (fst r), h (snd r))) (lin_next_out O p s).
  Proof using hadd hmul.
    unfold lin_next_out. cbn [lmap ld_memory ld_output ld_read ld_write ld_delay ld_do_next_out ld_next_out ld_alpha ld_om_alpha].
    destruct (ld_do_next_out s); [|reflexivity]. rewrite vget_map, vlen_map.
    destruct (vget (ld_memory s) (ld_read s)) as [m0| |]; cbn [omap bind]; try reflexivity.
    destruct (usub p (vlen (ld_memory s)) 1) as [l| |]; cbn [omap bind]; try reflexivity.
    destruct (ld_read s <? l)%Z.
    - destruct (uadd p (ld_read s) 1) as [r1| |]; cbn [omap bind]; try reflexivity. rewrite vget_map.
      destruct (vget (ld_memory s) r1) as [m1| |]; cbn [omap bind]; try reflexivity.
      rewrite <- !hmul, <- hadd. reflexivity.
    - rewrite vget_map. destruct (vget (ld_memory s) 0) as [m1| |]; cbn [omap bind]; try reflexivity.
      rewrite <- !hmul, <- hadd. reflexivity.
  Qed.

  Lemma lstep s op : lin_step K O p (lmap s) (map_call h op) = omap (fun r => (lmap (fst r), map_answer h (snd r))) (lin_step K O p s op).
  Proof using h0 hadd hmul.
    destruct op; cbn [map_call lin_step map_answer].
    - unfold lin_process. cbn [lmap ld_memory ld_output ld_read ld_write ld_delay ld_do_next_out ld_next_out ld_alpha ld_om_alpha]. rewrite vset_map.
      destruct (vset (ld_memory s) (ld_write s) x) as [mem| |]; cbn [omap bind]; try reflexivity. rewrite vlen_map.
      destruct (uadd p (ld_write s) 1) as [w| |]; cbn [bind]; try reflexivity.
      destruct (urem w (vlen mem)) as [w'| |]; cbn [bind]; try reflexivity.
      set (s1 := MkLin mem (ld_output s) (ld_read s) w' (ld_delay s) (ld_do_next_out s) (ld_next_out s) (ld_alpha s) (ld_om_alpha s)).
      change (MkLin (map h mem) (h (ld_output s)) (ld_read s) w' (ld_delay s) (ld_do_next_out s) (h (ld_next_out s)) (ld_alpha s) (ld_om_alpha s)) with (lmap s1).
      rewrite lnext. destruct (lin_next_out O p s1) as [[s2 y]| |]; cbn [omap bind fst snd]; try reflexivity.
      cbn [lmap ld_memory ld_output ld_read ld_write ld_delay ld_do_next_out ld_next_out ld_alpha ld_om_alpha]. rewrite vlen_map.
      destruct (uadd p (ld_read s2) 1) as [r| |]; cbn [bind]; try reflexivity.
      destruct (urem r (vlen (ld_memory s2))) as [r'| |]; reflexivity.
    - unfold lin_clear, lmap, omap; cbn [bind fst snd map_answer ld_memory ld_output ld_read ld_write ld_delay ld_do_next_out ld_next_out ld_alpha ld_om_alpha].
      rewrite !map_map. do 3 f_equal; [|rewrite h0; reflexivity]. apply map_ext. intros _. rewrite h0. reflexivity.
    - rewrite lset_delay. destruct (lin_set_delay K O p s d); reflexivity.
    - unfold lin_set_max_delay. cbn [lmap ld_memory ld_output ld_read ld_write ld_delay ld_do_next_out ld_next_out ld_alpha ld_om_alpha]. rewrite vlen_map.
      destruct (m <? vlen (ld_memory s))%Z; [reflexivity|].
      destruct (uadd p m 1) as [n| |]; cbn [bind]; try reflexivity. rewrite lresize.
      destruct (vec_resize (n_size_of O) (ld_memory s) n (n_zero O)); reflexivity.
    - reflexivity.
    - unfold lin_get_max_delay. cbn [lmap ld_memory]. rewrite vlen_map. destruct (usub p (vlen (ld_memory s)) 1); reflexivity.
    - rewrite lnext. destruct (lin_next_out O p s) as [[s' y]| |]; reflexivity.
    - reflexivity.
    - unfold lin_tap_out. cbn [lmap ld_memory ld_write]. rewrite vlen_map.
      destruct (tap_index p (ld_write s) (vlen (ld_memory s)) t) as [i| |]; cbn [bind]; try reflexivity. rewrite vget_map.
      destruct (vget (ld_memory s) i); reflexivity.
    - unfold lin_tap_in. cbn [lmap ld_memory ld_output ld_read ld_write ld_delay ld_do_next_out ld_next_out ld_alpha ld_om_alpha]. rewrite vlen_map.
      destruct (tap_index p (ld_write s) (vlen (ld_memory s)) t) as [i| |]; cbn [bind]; try reflexivity. rewrite vset_map.
      destruct (vset (ld_memory s) i v); reflexivity.
    - unfold lin_add_to. cbn [lmap ld_memory ld_output ld_read ld_write ld_delay ld_do_next_out ld_next_out ld_alpha ld_om_alpha]. rewrite vlen_map.
      destruct (tap_index p (ld_write s) (vlen (ld_memory s)) t) as [i| |]; cbn [bind]; try reflexivity. rewrite vget_map.
      destruct (vget (ld_memory s) i) as [a| |]; cbn [omap bind]; try reflexivity. rewrite <- hadd, vset_map.
      destruct (vset (ld_memory s) i (n_add O a v)) as [mem| |]; cbn [omap bind]; try reflexivity. rewrite vget_map.
      destruct (vget mem i); reflexivity.
  Qed.

  Lemma lrun ops : forall s, lin_run K O p (lmap s) (map (map_call h) ops) = omap (fun r => (lmap (fst r), map (map_answer h) (snd r))) (lin_run K O p s ops).
  Proof using h0 hadd hmul.
    induction ops as [|op ops IH]; intros s; [reflexivity|]. cbn [map lin_run]. rewrite lstep.
    destruct (lin_step K O p s op) as [[s1 o]| |]; cbn [omap bind fst snd]; try reflexivity.
    rewrite IH. destruct (lin_run K O p s1 ops) as [[s2 os]| |]; reflexivity.
  Qed.

  Lemma lsession d m ops : answers (lin_session K O p d m (map (map_call h) ops)) = map_answers h (answers (lin_session K O p d m ops)).
  Proof using h0 hadd hmul.
    unfold lin_session.
    assert (E : lin_new K O p d m = omap lmap (lin_new K O p d m)).
    { unfold lin_new, lin_new_fuel. destruct (uadd p m 1) as [n| |]; cbn [bind omap]; try reflexivity.
      unfold vec_repeat. destruct (alloc_ok _ _); cbn [bind omap]; try reflexivity. fold (lin_set_delay K O p). rewrite <- lset_delay.
      f_equal. unfold lmap. cbn [ld_memory ld_output ld_read ld_write ld_delay ld_do_next_out ld_next_out ld_alpha ld_om_alpha]. rewrite map_rep, h0. reflexivity. }
    rewrite E at 1. destruct (lin_new K O p d m) as [s| |]; cbn [omap bind]; try reflexivity. rewrite lrun.
    destruct (lin_run K O p s ops) as [[s2 os]| |]; reflexivity.
  Qed.
End Lin.

(** ** The delay line *)
(*@PROP
(** C133: a delay line only moves samples.  Let [h] be any function between two sample types that keeps zero: widening f32 to f64,
    a gain, a wave shaper.  Then a line of the second type given [h] of every sample gives [h] of every answer of the line of the
    first type, for the same calls and in the same build profile, panics included.  The exception is [add_to], the only call that
    computes: with it, [h] must also respect addition.  Lengths must be small enough to allocate in both types. *)
@*)
Lemma C133_delay_moves_samples_thm :
  forall (T T' : Type) (O : num_ops T) (O' : num_ops T') (p : profile) (h : T -> T'), h (n_zero O) = n_zero O' ->
  forall (d m : Z) (ops : list (dl_op Z T)), is_usize m -> Forall op_usize ops ->
    alloc_ok (n_size_of O) (m + 1) = true -> alloc_ok (n_size_of O') (m + 1) = true ->
    Forall (allocates (n_size_of O)) ops -> Forall (allocates (n_size_of O')) ops ->
    (Forall moves_only ops \/ forall x y, h (n_add O x y) = n_add O' (h x) (h y)) ->
    answers (dl_session O' p d m (map (map_call h) ops)) = map_answers h (answers (dl_session O p d m ops)).
Proof. intros T T' O O' p h h0 d m ops Hm Hu A A' B B' Ha. apply hsession; assumption. Qed.

(*@PROP
(** C133: [LinearDelay] computes weighted means.  In exact arithmetic, multiplying every sample by [k] multiplies every answer by
    [k], for every delay time, history, build profile, panics included. *)
@*)
Lemma C133_linear_scales_thm :
  forall (p : profile) (k : R) (d : R) (m : Z) (ops : list (dl_op R R)),
    answers (lin_session R_ctl R_ops p d m (map (map_call (Rmult k)) ops)) = map_answers (Rmult k) (answers (lin_session R_ctl R_ops p d m ops)).
Proof. intros p k d m ops. apply lsession; cbn; intros; ring. Qed.

(** ** Filters and detectors in two float types *)
Lemma close_both a b z e f : Rabs (a - z) <= e -> Rabs (b - z) <= f -> Rabs (a - b) <= e + f.
Proof.
  intros A B. replace (a - b) with ((a - z) + - (b - z)) by ring. eapply Rle_trans; [apply Rabs_triang|]. rewrite Rabs_Ropp. lra.
Qed.

(*@PROP
(** C133: filters in two float types.  [D] and [D'] are filters of the library in float types with the same coefficients: the same
    filter in f32 and f64, or two structures for one transfer function, such as the two biquads.  Given the same samples, their
    outputs stay for ever within a fixed distance, the sum of the errors of the two types. *)
@*)
Lemma C133_filters_agree_thm :
  forall (T T' : Type) (O : num_ops T) (V : float_view T) (O' : num_ops T') (V' : float_view T'), ieee O V -> ieee O' V' ->
  forall (S K S' K' : Type) (D : device S K T) (D' : device S' K' T') (k : K) (k' : K') (c : T * T * T * T * T) (c' : T' * T' * T' * T' * T'),
    has_coeffs O D k c -> has_coeffs O' D' k' c' -> all_finite V c -> all_finite V' c' ->
  forall (b0 b1 b2 a1 a2 G M A L L' : R) (x : nat -> T) (x' : nat -> T'),
    vals V c = (b0, b1, b2, a1, a2) -> vals V' c' = (b0, b1, b2, a1, a2) ->
    A = Rabs a1 + Rabs a2 ->
    L = (Rabs b0 + Rabs b1 + Rabs b2) * M + fmin V -> L' = (Rabs b0 + Rabs b1 + Rabs b2) * M + fmin V' ->
    peak_gain a1 a2 G ->
    (forall n, fin V (x n) = true /\ fin V' (x' n) = true /\ same_number V V' (x n) (x' n) /\ Rabs (val V (x n)) <= M) ->
    A * G <= bpow radix2 (fprec V - 5) -> A * G <= bpow radix2 (fprec V' - 5) ->
    4 * (1 + 4 * A * G) * L <= fmax V -> 4 * (1 + 4 * A * G) * L' <= fmax V' ->
    forall n, fin V (stream D k x n) = true /\ fin V' (stream D' k' x' n) = true
      /\ Rabs (val V (stream D k x n) - val V' (stream D' k' x' n))
         <= bpow radix2 (3 - fprec V) * G * (1 + 4 * A * G) * L + bpow radix2 (3 - fprec V') * G * (1 + 4 * A * G) * L'.
Proof.
  intros T T' O V O' V' I I' S K S' K' D D' k k' c c' Hc Hc' F F' b0 b1 b2 a1 a2 G M A L L' x x' E E' HA HL HL' HG Hx P P' Q Q' n.
  set (v := fun n => val V (x n)). set (z := stream (dev_biquad1 R_ops) (b0, b1, b2, a1, a2) v).
  assert (Hz : obeys (b0, b1, b2, a1, a2) v z) by (apply stream_obeys; constructor).
  destruct (C81_float_tracks_exact_thm T O V I S K D k c Hc F b0 b1 b2 a1 a2 G M A L x z E HA HL HG) with (n := n) as [f e]; try assumption.
  { intros i. destruct (Hx i) as (A1 & _ & _ & A4). split; assumption. }
  destruct (C81_float_tracks_exact_thm T' O' V' I' S' K' D' k' c' Hc' F' b0 b1 b2 a1 a2 G M A L' x' z E' HA HL' HG) with (n := n) as [f' e']; try assumption.
  { intros i. destruct (Hx i) as (_ & A2 & A3 & A4). unfold same_number in A3. rewrite <- A3. split; assumption. }
  { assert (W : forall i, v i = val V' (x' i)) by (intros i; apply (Hx i)).
    intros i. specialize (Hz i). unfold obeys, back in *. destruct i as [|[|i]]; cbn in Hz |- *; rewrite <- ?W; exact Hz. }
  split; [exact f|]. split; [exact f'|]. exact (close_both _ _ _ _ _ e e').
Qed.

Section Twins.
  Context {T T' : Type} (V : float_view T) (V' : float_view T').

  Lemma twin_envelope mag cs cs' : Forall2 (same_detector_call V V') cs cs' -> ideal_envelope V mag cs = ideal_envelope V' mag cs'.
  Proof.
    unfold ideal_envelope. generalize (Follower 0 0 0). intros s H. revert s.
    induction H as [|c c' cs cs' Hc _ IH]; intros s; [reflexivity|]. cbn [fold_left].
    assert (E : follow V mag s c = follow V' mag s c').
    { destruct c as [x| |[l|l]|], c' as [x'| |[l'|l']|]; cbn in Hc; try contradiction; cbn [follow]; unfold same_number in Hc; rewrite ?Hc; reflexivity. }
    rewrite E. apply IH.
  Qed.
  Lemma twin_leaky cs cs' : Forall2 (same_leaky_call V V') cs cs' -> ideal_leaky V cs = ideal_leaky V' cs'.
  Proof.
    unfold ideal_leaky. generalize (0, 0). intros s H. revert s.
    induction H as [|c c' cs cs' Hc _ IH]; intros s; [reflexivity|]. cbn [fold_left].
    assert (E : leak V s c = leak V' s c').
    { destruct c as [x| |l|], c' as [x'| |l'|]; cbn in Hc; try contradiction; cbn [leak]; unfold same_number in Hc; rewrite ?Hc; reflexivity. }
    rewrite E. apply IH.
  Qed.
End Twins.

(*@PROP
(** C133: envelope detectors in two float types.  After the same history of samples, clears and lengths, the envelopes of two
    [PeakEnvDetector]s, and the mean squares of two [RmsEnvDetector]s, differ at most by the errors of the two types. *)
@*)
Lemma C133_detectors_agree_thm :
  forall (T T' : Type) (O : num_ops T) (V : float_view T) (O' : num_ops T') (V' : float_view T'),
    ieee O V -> ieee O' V' -> exp_rounded O V -> exp_rounded O' V' ->
  forall (M L : R) (history : list (call (det_set T) T)) (history' : list (call (det_set T') T')),
    Forall2 (same_detector_call V V') history history' ->
    detector_calls V M L history -> detector_calls V' M L history' ->
    1 <= L <= bpow radix2 (fprec V - 2) -> L <= bpow radix2 (fprec V' - 2) ->
    let near := fun m => half_ulp V * m + half_tiny V + (half_ulp V' * m + half_tiny V') in
    (0 <= M <= fmax V -> M <= fmax V' ->
     let y := peak_last_out (after (dev_peak O) history) in let y' := peak_last_out (after (dev_peak O') history') in
     Rabs (val V y - val V' y') <= 8 * (L + 1) * near M)
    /\ (M * M <= fmax V -> M * M <= fmax V' ->
        let y := rms_last_out O (after (dev_rms O) history) in let y' := rms_last_out O' (after (dev_rms O') history') in
        Rabs (val V y * val V y - val V' y' * val V' y') <= 16 * (L + 1) * near (M * M)).
Proof.
  intros T T' O V O' V' I I' X X' M L cs cs' H B B' [HL1 HL2] HL2' near. subst near. cbv beta. split.
  - intros [HM1 HM2] HM2' y y'.
    destruct (C90_peak_tracks_thm T O V I X M L cs (conj HM1 HM2) (conj HL1 HL2) B) as [_ e].
    destruct (C90_peak_tracks_thm T' O' V' I' X' M L cs' (conj HM1 HM2') (conj HL1 HL2') B') as [_ e'].
    rewrite <- (twin_envelope V V' Rabs cs cs' H) in e'. pose proof (close_both _ _ _ _ _ e e') as Q. fold y y' in Q. lra.
  - intros HM2 HM2' y y'.
    destruct (C90_rms_tracks_thm T O V I X M L cs HM2 (conj HL1 HL2) B) as [_ e].
    destruct (C90_rms_tracks_thm T' O' V' I' X' M L cs' HM2' (conj HL1 HL2') B') as [_ e'].
    rewrite <- (twin_envelope V V' Rsqr cs cs' H) in e'. pose proof (close_both _ _ _ _ _ e e') as Q. fold y y' in Q. lra.
Qed.

(*@PROP
(** C133: the same for two [LeakyIntegrator]s with gains up to [g] < 1. *)
@*)
Lemma C133_leaky_agree_thm :
  forall (T T' : Type) (O : num_ops T) (V : float_view T) (O' : num_ops T') (V' : float_view T'), ieee O V -> ieee O' V' ->
  forall (M g : R) (history : list (call T T)) (history' : list (call T' T')),
    Forall2 (same_leaky_call V V') history history' ->
    leaky_calls V M g history -> leaky_calls V' M g history' ->
    0 <= M -> 2 * M <= fmax V -> 2 * M <= fmax V' -> 0 <= g < 1 ->
    let y := leaky_last_out (after (dev_leaky O) history) in let y' := leaky_last_out (after (dev_leaky O') history') in
    Rabs (val V y - val V' y') <= 9 * (half_ulp V * M + half_tiny V) / (1 - g) + 9 * (half_ulp V' * M + half_tiny V') / (1 - g).
Proof.
  intros T T' O V O' V' I I' M g cs cs' H B B' HM Q Q' Hg y y'.
  destruct (C90_leaky_tracks_thm T O V I M g cs HM Q Hg B) as [_ e].
  destruct (C90_leaky_tracks_thm T' O' V' I' M g cs' HM Q' Hg B') as [_ e'].
  rewrite <- (twin_leaky V V' cs cs' H) in e'. exact (close_both _ _ _ _ _ e e').
Qed.

(** ** Widening and examples *)
(*@PROP
(** C133: widening an f32 sample to f64 keeps zero, finiteness and the number, so the theorems above apply to [x] and [widen x]. *)
@*)
Lemma C133_widen_thm :
  forall (lm : libm f32) (b : bool) (lm' : libm f64) (b' : bool), widen (n_zero (f32_ops lm b)) = n_zero (f64_ops lm' b')
  /\ forall x : f32, fin (ieee_view 53 1024) (widen x) = fin (ieee_view 24 128) x /\ same_number (ieee_view 24 128) (ieee_view 53 1024) x (widen x).
Proof.
  intros lm b lm' b'. split; [reflexivity|]. intros x. destruct x as [s|s| |s m e B]; try (split; reflexivity).
  unfold same_number. cbn [widen ieee_view val fin].
  pose proof (binary_normalize_correct 53 1024 eq_refl eq_refl mode_NE (cond_Zopp s (Zpos m)) e s) as H. cbv zeta in H.
  set (x := @B754_finite 24 128 s m e B).
  assert (Ex : F2R (Float radix2 (cond_Zopp s (Zpos m)) e) = B2R x) by reflexivity.
  assert (Fx : generic_format radix2 (SpecFloat.fexp 53 1024) (B2R x)).
  { apply (generic_inclusion_mag radix2 (SpecFloat.fexp 24 128)); [|apply generic_format_B2R].
    intros _. unfold SpecFloat.fexp, SpecFloat.emin. lia. }
  rewrite Ex, round_generic in H by (auto with typeclass_instances).
  rewrite Rlt_bool_true in H.
  - destruct H as (H1 & H2 & _). split; [exact H2|]. symmetry. exact H1.
  - apply (Rlt_le_trans _ (bpow radix2 128)); [apply (abs_B2R_lt_emax 24 128 x)|apply bpow_le; lia].
Qed.

(*@PROP
(** Beside the theorems: a session with growth, taps and a clear on a line of f32 and on the widened line of f64. *)
Example C133_delay_hypotheses_met :
  forall a b c e : f32,
  let ops := [DProcess a; DProcess b; DSetMaxDelay 4; DTapIn c 1; DTapOut 0; DProcess e; DLastOut; DClear; DNextOut] in
  Forall op_usize ops /\ Forall (allocates 4) ops /\ Forall (allocates 8) ops /\ Forall moves_only ops
  /\ n_size_of O32 = 4%Z /\ n_size_of O64 = 8%Z /\ alloc_ok 4 (2 + 1) = true /\ alloc_ok 8 (2 + 1) = true
  /\ answers (dl_session O32 Debug 1 2 ops)
     = Ok [OSample (n_zero O32); OSample a; ONone; ONone; OSample b; OSample b; OSample b; ONone; OSample (n_zero O32)].
Proof.
  intros a b c e ops. split; [repeat (constructor; [cbn; unfold is_usize, usize_max, two64; try exact I; lia|]); constructor|].
  split; [repeat (constructor; [first [exact I|reflexivity]|]); constructor|]. split; [repeat (constructor; [first [exact I|reflexivity]|]); constructor|].
  split; [repeat (constructor; [intros ? ?; discriminate|]); constructor|]. repeat (split; [reflexivity|]). vm_compute. reflexivity.
Qed.
(** ... a one-pole filter in f32 and a biquad in f64 with the same coefficients stay within 10^-5 of each other for ever ... *)
Example C133_filters_example :
  forall n, Rabs (val V90 (stream (dev_one_pole O90) (fl32 1 0, fl32 (-1) (-1)) (fun _ => fl32 1 0) n)
                  - val V133 (stream (dev_biquad2 O133) (fl64 1 0, fl64 0 0, fl64 0 0, fl64 (-1) (-1), fl64 0 0) (fun _ => fl64 1 0) n)) <= 1 / 100000.
Proof. exact filters_example. Qed.
(** ... and a peak detector with times of one second at 48 kHz gives the same envelope in both types up to 0.023. *)
Example C133_detectors_example :
  Rabs (val V90 (peak_last_out (after (dev_peak O90) history90)) - val V133 (peak_last_out (after (dev_peak O133) history133))) <= 23 / 1000.
Proof. exact detectors_example. Qed.
@*)
Ltac lit := repeat match goal with |- context[B2R ?x] => rewrite <- (SF2R_B2SF _ _ x);
  let v := eval vm_compute in (B2SF x) in
  replace (B2SF x) with v by (vm_compute; reflexivity); cbn [SF2R cond_Zopp] end; unfold F2R; cbn.

Lemma filters_example :
  forall n, Rabs (val V90 (stream (dev_one_pole O90) (fl32 1 0, fl32 (-1) (-1)) (fun _ => fl32 1 0) n)
                  - val V133 (stream (dev_biquad2 O133) (fl64 1 0, fl64 0 0, fl64 0 0, fl64 (-1) (-1), fl64 0 0) (fun _ => fl64 1 0) n)) <= 1 / 100000.
Proof.
  assert (E1 : B2R (fl32 1 0) = 1) by (lit; lra). assert (E2 : B2R (fl32 (-1) (-1)) = - (1 / 2)) by (lit; lra).
  assert (E3 : B2R (fl64 1 0) = 1) by (lit; lra). assert (E4 : B2R (fl64 (-1) (-1)) = - (1 / 2)) by (lit; lra).
  assert (E5 : B2R (fl64 0 0) = 0) by (lit; lra).
  destruct C81_hyps_aux as (_ & _ & _ & HG & _).
  assert (T1 : 0 < bpow radix2 (2 - 128) <= / 16) by (split; [apply bpow_gt_0|change (/ 16) with (bpow radix2 (-4)); apply bpow_le; lia]).
  assert (T2 : 0 < bpow radix2 (2 - 1024) <= / 16) by (split; [apply bpow_gt_0|change (/ 16) with (bpow radix2 (-4)); apply bpow_le; lia]).
  intros n.
  destruct (C133_filters_agree_thm f32 f64 O90 V90 O133 V133 (ieee_f32 _ _) (ieee_f64 _ _) _ _ _ _ _ _ _ _ _ _
    (hc_one_pole O90 (fl32 1 0) (fl32 (-1) (-1))) (hc_biquad2 O133 (fl64 1 0, fl64 0 0, fl64 0 0, fl64 (-1) (-1), fl64 0 0))) with
    (b0 := 1) (b1 := 0) (b2 := 0) (a1 := - (1 / 2)) (a2 := 0) (G := 2) (M := 1) (A := 1 / 2) (L := 1 + fmin V90) (L' := 1 + fmin V133)
    (x := fun _ : nat => fl32 1 0) (x' := fun _ : nat => fl64 1 0) (n := n) as (_ & _ & Q).
  - repeat split.
  - repeat split.
  - cbn [vals val V90 ieee_view]. rewrite E1, E2. reflexivity.
  - cbn [vals val V133 ieee_view]. rewrite E3, E4, E5. reflexivity.
  - rewrite Rabs_Ropp, Rabs_R0, Rabs_pos_eq; lra.
  - rewrite Rabs_R1, Rabs_R0. ring.
  - rewrite Rabs_R1, Rabs_R0. ring.
  - exact HG.
  - intros _. unfold same_number. cbn [val V90 V133 ieee_view]. rewrite E1, E3, Rabs_R1. repeat split. lra.
  - cbn [fprec V90 ieee_view]. change (bpow radix2 (24 - 5)) with 524288. lra.
  - cbn [fprec V133 ieee_view]. assert (bpow radix2 0 <= bpow radix2 (53 - 5)) by (apply bpow_le; lia). change (bpow radix2 0) with 1 in *. lra.
  - unfold V90. cbn [fmin fmax ieee_view].
    assert (bpow radix2 10 <= bpow radix2 128) by (apply bpow_le; lia). change (bpow radix2 10) with 1024 in *.
    assert (bpow radix2 (- (24)) <= / 2) by (change (/ 2) with (bpow radix2 (-1)); apply bpow_le; lia). nra.
  - unfold V133. cbn [fmin fmax ieee_view].
    assert (bpow radix2 10 <= bpow radix2 1024) by (apply bpow_le; lia). change (bpow radix2 10) with 1024 in *.
    assert (bpow radix2 (- (53)) <= / 2) by (change (/ 2) with (bpow radix2 (-1)); apply bpow_le; lia). nra.
  - eapply Rle_trans; [exact Q|]. unfold V90, V133. cbn [fprec fmin ieee_view].
    change (bpow radix2 (3 - 24)) with (/ 2097152).
    assert (0 < bpow radix2 (3 - 53) <= / 4294967296) by (split; [apply bpow_gt_0|change (/ 4294967296) with (bpow radix2 (-32)); apply bpow_le; lia]). nra.
Qed.

Lemma cr64 : exp_rounded O133 V133.
Proof.
  intros x Fx Hr. unfold O133, V133 in *. cbn [fin val rnd fmax n_exp f64_ops ieee_ops m_exp cr_libm ieee_view] in *.
  unfold cr_exp. destruct x as [s|s| |s m e Hb]; try discriminate;
    apply (R2F_ok 53 1024); apply Rle_lt_trans with (1 := Hr); apply (MAX_lt 53 1024).
Qed.

Lemma detectors_example :
  Rabs (val V90 (peak_last_out (after (dev_peak O90) history90)) - val V133 (peak_last_out (after (dev_peak O133) history133))) <= 23 / 1000.
Proof.
  destruct track_met as (I1 & X1 & HM & HL & HC & _).
  assert (E0 := one_second_val). assert (E1 : B2R (fl32 1 0) = 1) by (lit; lra). assert (E2 : B2R (fl32 (-1) (-1)) = - (1 / 2)) by (lit; lra).
  assert (E3 : B2R (fl64 1 0) = 1) by (lit; lra). assert (E4 : B2R (fl64 (-1) (-1)) = - (1 / 2)) by (lit; lra).
  assert (E5 : B2R (fl64 48000 0) = 48000) by (lit; lra).
  assert (F : 1 <= fmax V133).
  { unfold V133. cbn [fmax ieee_view]. assert (bpow radix2 10 <= bpow radix2 1024) by (apply bpow_le; lia). change (bpow radix2 10) with 1024 in *.
    assert (bpow radix2 (- (53)) <= / 2) by (change (/ 2) with (bpow radix2 (-1)); apply bpow_le; lia). nra. }
  destruct (C133_detectors_agree_thm f32 f64 O90 V90 O133 V133 I1 (ieee_f64 _ _) X1 cr64 1 48000 history90 history133) as [Q _].
  - unfold history90, history133. repeat constructor; cbn [same_detector_call]; unfold same_number; cbn [val V90 V133 ieee_view]; rewrite ?E0, ?E1, ?E2, ?E3, ?E4, ?E5; reflexivity.
  - exact HC.
  - repeat apply List.Forall_cons; try apply List.Forall_nil; try exact I; (split; [reflexivity|]); cbn [val V133 ieee_view]; rewrite ?E3, ?E4, ?E5; try lra; apply Rabs_le; lra.
  - exact HL.
  - cbn [fprec V133 ieee_view]. assert (bpow radix2 20 <= bpow radix2 (53 - 2)) by (apply bpow_le; lia). change (bpow radix2 20) with 1048576 in *. lra.
  - eapply Rle_trans; [apply Q; assumption|]. unfold half_tiny, half_ulp, V90, V133. cbn [fprec fmin ieee_view].
    change (bpow radix2 (- (24))) with (/ 16777216).
    assert (0 < bpow radix2 (2 - 128) <= / 4294967296) by (split; [apply bpow_gt_0|change (/ 4294967296) with (bpow radix2 (-32)); apply bpow_le; lia]).
    assert (0 < bpow radix2 (2 - 1024) <= / 4294967296) by (split; [apply bpow_gt_0|change (/ 4294967296) with (bpow radix2 (-32)); apply bpow_le; lia]).
    assert (0 < bpow radix2 (- (53)) <= / 4294967296) by (split; [apply bpow_gt_0|change (/ 4294967296) with (bpow radix2 (-32)); apply bpow_le; lia]). nra.
Qed.
