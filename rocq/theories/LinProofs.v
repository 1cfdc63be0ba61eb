(** Refinement of the model of [LinearDelay] to the specification [LinSpec]. *)
From Coq Require Import ZArith List Bool Lia ZifyBool ZifyNat.
From Verif Require Import Base BaseLemmas Num DelayM LinDelayM DelaySpec DelayRun DelayProofs
  LinSpec LinRun.
Import ListNotations.
Open Scope Z_scope.

Section Refine.
  Context {C T : Type} (K : ctl_ops C T) (O : num_ops T) (p : profile).
  Local Notation zero := (n_zero O).

  (** What [set_delay] computes: reported delay, read position, fraction. *)
  Definition ctl (len w : Z) (d : C) : outcome (C * Z * C) :=
    let dt := clip_delay K d (len - 1) in
    let* pos := norm_loop K 64 len (c_sub K (c_of_usize K w) dt) in
    let read0 := c_to_usize K pos in
    let read := if read0 =? len then 0 else read0 in
    Ok (dt, read, c_sub K pos (c_of_usize K read)).

  Lemma lin_set_delay_ctl s d :
    1 <= vlen (ld_memory s) < two64 ->
    lin_set_delay K O p s d =
    let* t := ctl (vlen (ld_memory s)) (ld_write s) d in
    let '(dt, read, a) := t in
    Ok (MkLin (ld_memory s) (ld_output s) read (ld_write s) dt
              (ld_do_next_out s) (ld_next_out s) (c_cast K a) (n_sub O (n_one O) (c_cast K a))).
  Proof.
    intros H. unfold lin_set_delay, lin_set_delay_fuel, ctl, usub.
    rewrite chk_usize_ok by lia. cbn [bind].
    destruct (norm_loop K 64 _ _); reflexivity.
  Qed.

  (** The tapped line inside a [LinearDelay]. *)
  Definition dl_of (s : lin_delay C T) : delay T :=
    MkDelay (ld_memory s) (ld_output s) (ld_read s) (ld_write s) 0.

  Hypothesis Hsize : 1 <= n_size_of O.

  Definition lin_inv (s : lin_delay C T) : Prop := dl_inv O (dl_of s).

  Definition lin_abs (s : lin_delay C T) : ilin C T :=
    ILin (dl_abs (dl_of s)) (ld_alpha s) (ld_om_alpha s) (ld_delay s)
         (if ld_do_next_out s then None else Some (ld_next_out s)).

  Lemma lin_abs_slots s : slots (i_line (lin_abs s)) = length (ld_memory s).
  Proof. apply (dl_abs_slots (dl_of s)). Qed.

  (** Reading the line at slot [r] and its successor, with [w] the write position
      and [t] the age of slot [r]. *)
  Definition age (len w r : nat) : nat := (if r <? w then w - 1 - r else len + w - 1 - r)%nat.

  Lemma blend_ring mem (w r : nat) wn wo :
    (w <= length mem)%nat -> (r < length mem)%nat ->
    blend zero (n_add O) (n_mul O) (ring_hist mem w) (age (length mem) w r) wn wo
    = n_add O (n_mul O (nth r mem zero) wo)
        (n_mul O (nth (if S r <? length mem then S r else 0)%nat mem zero) wn).
  Proof.
    intros Hw Hr. unfold blend. rewrite ring_hist_length.
    assert (Ha : (age (length mem) w r < length mem)%nat).
    { unfold age. destruct (Nat.ltb_spec r w); lia. }
    f_equal.
    - rewrite nth_ring_hist by lia. f_equal. f_equal. unfold slot_of, age.
      destruct (Nat.ltb_spec r w).
      + destruct (Nat.ltb_spec (w - 1 - r) w); lia.
      + destruct (Nat.ltb_spec (length mem + w - 1 - r) w); lia.
    - rewrite nth_ring_hist.
      + f_equal. f_equal. unfold slot_of, age.
        destruct (Nat.ltb_spec r w); destruct (Nat.ltb_spec (S r) (length mem));
          match goal with |- context [match ?a with 0%nat => _ | S k => k end] => destruct a eqn:E end;
          match goal with |- context [(?a <? ?b)%nat] => destruct (Nat.ltb_spec a b) end; try lia.
      + lia.
      + destruct (age (length mem) w r); lia.
  Qed.

  Lemma next_out_ok s :
    lin_inv s -> ld_do_next_out s = true ->
    let v := blend zero (n_add O) (n_mul O) (ring_hist (ld_memory s) (Z.to_nat (ld_write s)))
               (age (length (ld_memory s)) (Z.to_nat (ld_write s)) (Z.to_nat (ld_read s)))
               (ld_alpha s) (ld_om_alpha s) in
    lin_next_out O p s = Ok (MkLin (ld_memory s) (ld_output s) (ld_read s) (ld_write s) (ld_delay s)
                false v (ld_alpha s) (ld_om_alpha s), v).
  Proof.
    intros [Hl Hw Hr Hd] Hn v. pose proof (max_slots_lt O Hsize) as Hms.
    cbn [dl_of dl_memory dl_write dl_read dl_delay] in *.
    unfold lin_next_out. rewrite Hn.
    rewrite (vget_nth _ _ zero) by lia. cbn [bind].
    unfold usub. rewrite chk_usize_ok by (unfold two63, two64 in *; lia). cbn [bind].
    assert (Ev : v = n_add O (n_mul O (nth (Z.to_nat (ld_read s)) (ld_memory s) zero) (ld_om_alpha s))
        (n_mul O (nth (if S (Z.to_nat (ld_read s)) <? length (ld_memory s)
                       then S (Z.to_nat (ld_read s)) else 0)%nat (ld_memory s) zero) (ld_alpha s))).
    { unfold v. apply blend_ring; unfold vlen in *; lia. }
    rewrite Ev. clearbody v. clear Ev.
    destruct (Z.ltb_spec (ld_read s) (vlen (ld_memory s) - 1)).
    - unfold uadd. rewrite chk_usize_ok by (unfold two63, two64 in *; lia). cbn [bind].
      rewrite (vget_nth _ _ zero) by lia. cbn [bind].
      destruct (Nat.ltb_spec (S (Z.to_nat (ld_read s))) (length (ld_memory s)));
        [|unfold vlen in *; lia].
      replace (Z.to_nat (ld_read s + 1)) with (S (Z.to_nat (ld_read s))) by lia. reflexivity.
    - rewrite (vget_nth _ _ zero) by lia. cbn [bind].
      destruct (Nat.ltb_spec (S (Z.to_nat (ld_read s))) (length (ld_memory s)));
        [unfold vlen in *; lia|]. reflexivity.
  Qed.

  Lemma refine_lnext s :
    lin_inv s ->
    exists s', lin_next_out O p s = Ok (s', snd (ilin_next zero (n_add O) (n_mul O) (lin_abs s)))
      /\ lin_inv s' /\ lin_abs s' = fst (ilin_next zero (n_add O) (n_mul O) (lin_abs s))
      /\ ld_memory s' = ld_memory s /\ ld_write s' = ld_write s.
  Proof.
    intros Hi. destruct (ld_do_next_out s) eqn:En.
    - rewrite next_out_ok by assumption.
      set (v := blend _ _ _ _ _ _ _).
      assert (Ev : v = snd (ilin_next zero (n_add O) (n_mul O) (lin_abs s))).
      { unfold ilin_next, lin_abs. cbn [i_peek i_line i_new i_old fst snd]. rewrite En.
        unfold v. cbn [dl_of dl_abs l_hist l_lag dl_memory dl_write dl_read].
        rewrite (dl_abs_slots (dl_of s)). cbn [dl_of dl_memory].
        f_equal. destruct Hi as [Hl Hw Hr Hd]. cbn [dl_of dl_memory dl_write dl_read dl_delay] in *.
        unfold age, lag_of, vlen in *.
        destruct (Nat.ltb_spec (Z.to_nat (ld_read s)) (Z.to_nat (ld_write s)));
        destruct (Z.leb_spec (ld_read s) (ld_write s));
        match goal with |- context [match ?a with 0%nat => _ | S k => k end] => destruct a eqn:E end; lia. }
      eexists; split; [rewrite <- Ev; reflexivity|]. split; [exact Hi|]. split; [|split; reflexivity].
      unfold ilin_next. cbn [fst]. unfold lin_abs at 1. cbn [ld_alpha ld_om_alpha ld_delay ld_do_next_out ld_next_out].
      rewrite Ev. unfold ilin_next. cbn [snd]. reflexivity.
    - unfold lin_next_out. rewrite En. exists s. unfold ilin_next, lin_abs. cbn [i_peek i_line i_new i_old i_delay fst snd].
      rewrite En. cbn. auto.
  Qed.

  Lemma refine_lprocess s x :
    lin_inv s ->
    exists s', lin_process O p s x = Ok (s', snd (ilin_process zero (n_add O) (n_mul O) (lin_abs s) x))
      /\ lin_inv s' /\ lin_abs s' = fst (ilin_process zero (n_add O) (n_mul O) (lin_abs s) x).
  Proof.
    intros Hi. assert (Hi0 := Hi). destruct Hi as [Hl Hw Hr Hd]. pose proof (max_slots_lt O Hsize) as Hms.
    cbn [dl_of dl_memory dl_write dl_read dl_delay] in *.
    unfold lin_process.
    rewrite vset_ok by lia. cbn [bind].
    set (mem' := list_set (ld_memory s) (Z.to_nat (ld_write s)) x).
    assert (HL : vlen mem' = vlen (ld_memory s)) by apply list_set_vlen.
    assert (HLn : length mem' = length (ld_memory s)) by (unfold vlen in HL; lia).
    unfold uadd at 1. rewrite chk_usize_ok by (unfold two63, two64 in *; lia). cbn [bind].
    rewrite urem_ok by lia. cbn [bind]. rewrite HL.
    set (w' := (ld_write s + 1) mod vlen (ld_memory s)).
    assert (Hw' : 0 <= w' < vlen (ld_memory s)) by (apply Z.mod_pos_bound; lia).
    assert (Hpush : ring_hist mem' (Z.to_nat w') = push x (ring_hist (ld_memory s) (Z.to_nat (ld_write s)))).
    { rewrite <- ring_push by (unfold vlen in *; lia). fold mem'. f_equal. unfold w', vlen.
      rewrite Z2Nat.inj_mod by lia. f_equal; lia. }
    set (s1 := MkLin mem' (ld_output s) (ld_read s) w' (ld_delay s) (ld_do_next_out s)
                     (ld_next_out s) (ld_alpha s) (ld_om_alpha s)).
    set (r' := (ld_read s + 1) mod vlen (ld_memory s)).
    assert (Hr' : 0 <= r' < vlen (ld_memory s)) by (apply Z.mod_pos_bound; lia).
    assert (Hi1 : lin_inv s1).
    { constructor; cbn [dl_of s1 dl_memory ld_memory dl_write ld_write dl_read ld_read dl_delay]; lia. }
    set (y := snd (ilin_process zero (n_add O) (n_mul O) (lin_abs s) x)).
    assert (Hcase : exists nx, lin_next_out O p s1
      = Ok (MkLin mem' (ld_output s) (ld_read s) w' (ld_delay s) false nx (ld_alpha s) (ld_om_alpha s), y)).
    { unfold y, ilin_process, lin_abs. cbn [snd i_peek i_line i_new i_old].
      destruct (ld_do_next_out s) eqn:En.
      - rewrite (next_out_ok s1 Hi1) by reflexivity. cbn [s1 ld_memory ld_write ld_read ld_alpha ld_om_alpha ld_output ld_delay].
        eexists. f_equal. f_equal. rewrite Hpush. unfold dl_abs. cbn [dl_of l_hist l_lag dl_memory dl_write dl_read].
        f_equal. rewrite HLn. unfold age, lag_of, w', vlen in *. rewrite succ_mod by lia.
        destruct (Z.eqb_spec (ld_write s + 1) (Z.of_nat (length (ld_memory s))));
        destruct (Z.leb_spec (ld_read s) (ld_write s));
        match goal with |- context [(?a <? ?b)%nat] => destruct (Nat.ltb_spec a b) end; lia.
      - unfold lin_next_out, s1. cbn [ld_do_next_out ld_next_out]. eexists. reflexivity. }
    destruct Hcase as [nx ->]. cbn [bind ld_read ld_memory].
    unfold uadd at 1. rewrite chk_usize_ok by (unfold two63, two64 in *; lia). cbn [bind].
    rewrite HL. rewrite urem_ok by lia. cbn [bind ld_write ld_delay ld_next_out ld_alpha ld_om_alpha].
    fold r'. eexists; split; [reflexivity|]. split.
    - constructor; cbn [dl_of dl_memory ld_memory dl_write ld_write dl_read ld_read dl_delay]; lia.
    - unfold y, ilin_process. cbn [fst snd]. unfold lin_abs at 1.
      cbn [ld_alpha ld_om_alpha ld_delay ld_do_next_out]. f_equal.
      unfold dl_abs at 1. cbn [dl_of dl_memory ld_memory dl_write ld_write dl_read ld_read dl_delay dl_output ld_output].
      rewrite Hpush. f_equal.
      + rewrite lin_abs_slots. unfold lin_abs, dl_abs; cbn [i_line l_phase dl_of dl_write].
        unfold w', vlen in *. rewrite Z2Nat.inj_mod by lia. f_equal; lia.
      + rewrite HL. unfold lin_abs, dl_abs; cbn [i_line l_lag dl_of dl_memory dl_write dl_read].
        unfold w', r'. rewrite !succ_mod by lia. unfold lag_of.
        destruct (Z.eqb_spec (ld_write s + 1) (vlen (ld_memory s)));
          destruct (Z.eqb_spec (ld_read s + 1) (vlen (ld_memory s)));
          destruct (Z.leb_spec (ld_read s) (ld_write s));
          repeat match goal with |- context [?a <=? ?b] => destruct (Z.leb_spec a b) end; lia.
  Qed.

  (** ** [set_delay], given that the control arithmetic stays in range on lines of
      at most [lim] slots *)
  Context (lim : Z) (aim : nat -> nat -> C -> C * nat * T * T).
  Hypothesis Hlim : lim <= max_slots O.

  (** [aim] describes the control arithmetic. *)
  Definition aims : Prop := forall len w d, 1 <= len <= lim -> 0 <= w < len ->
    exists dt r a, ctl len w d = Ok (dt, r, a) /\ 0 <= r < len
      /\ aim (Z.to_nat len) (Z.to_nat w) d
         = (dt, Z.to_nat (lag_of len w r), c_cast K a, n_sub O (n_one O) (c_cast K a)).
  Hypothesis Hctl : aims.

  (** Within the limit. *)
  Definition lin_inv' (s : lin_delay C T) : Prop := lin_inv s /\ vlen (ld_memory s) <= lim.

  Lemma refine_lset s d :
    lin_inv' s ->
    exists s', lin_set_delay K O p s d = Ok s' /\ lin_inv' s'
      /\ lin_abs s' = ilin_aim aim (i_line (lin_abs s)) d (l_last (i_line (lin_abs s))) (i_peek (lin_abs s)).
  Proof.
    intros [Hi Hs]. destruct Hi as [Hl Hw Hr Hd]. pose proof (max_slots_lt O Hsize) as Hms.
    cbn [dl_of dl_memory dl_write dl_read dl_delay] in *.
    rewrite lin_set_delay_ctl by (unfold two63, two64 in *; lia).
    unfold ilin_aim. rewrite lin_abs_slots.
    change (l_phase (i_line (lin_abs s))) with (Z.to_nat (ld_write s)).
    replace (length (ld_memory s)) with (Z.to_nat (vlen (ld_memory s))) by (unfold vlen; lia).
    destruct (Hctl (vlen (ld_memory s)) (ld_write s) d) as [dt [r [a [E [Hr' Ea]]]]]; [lia|lia|].
    rewrite E, Ea. cbn [bind]. eexists; split; [reflexivity|]. split.
    - split; [|exact Hs]. constructor; cbn [dl_of dl_memory ld_memory dl_write ld_write dl_read ld_read dl_delay]; lia.
    - unfold lin_abs. cbn [i_line i_peek ld_alpha ld_om_alpha ld_delay ld_do_next_out ld_next_out].
      unfold dl_abs. cbn [dl_of dl_memory ld_memory dl_write ld_write dl_read ld_read dl_delay dl_output ld_output l_hist l_phase l_last].
      reflexivity.
  Qed.

  Lemma refine_lnew d m :
    0 <= m -> m + 1 <= lim ->
    exists s, lin_new K O p d m = Ok s /\ lin_inv' s
      /\ lin_abs s = ilin_new zero aim (clip_delay K d m) (Z.to_nat m).
  Proof.
    intros Hm Ha. pose proof (max_slots_lt O Hsize) as Hms.
    unfold lin_new, lin_new_fuel. fold (lin_set_delay K O p). unfold uadd at 1. rewrite chk_usize_ok by (unfold two63, two64 in *; lia). cbn [bind].
    unfold vec_repeat. rewrite alloc_ok_iff by exact Hsize.
    replace (m + 1 <=? max_slots O) with true by lia. cbn [bind].
    set (s0 := MkLin (repeat zero (Z.to_nat (m + 1))) zero 0 0 (c_zero K) true zero zero zero).
    assert (HL : vlen (ld_memory s0) = m + 1).
    { unfold s0, vlen; cbn [ld_memory]. rewrite repeat_length. lia. }
    assert (Hi : lin_inv' s0).
    { split; [|lia]. constructor; cbn [dl_of dl_memory dl_write dl_read dl_delay]; rewrite ?HL;
        cbn [s0 ld_write ld_read]; lia. }
    destruct (refine_lset s0 (clip_delay K d m) Hi) as [s' [E [Hi' Habs]]].
    exists s'. split; [exact E|]. split; [exact Hi'|]. rewrite Habs. unfold ilin_new.
    assert (El : i_line (lin_abs s0) = line_new zero 0 (Z.to_nat m)).
    { unfold s0, lin_abs, dl_abs, line_new. cbn [i_line dl_of dl_memory dl_write dl_read dl_delay dl_output ld_memory ld_write ld_read ld_output].
      f_equal.
      unfold ring_hist. cbn [Z.to_nat firstn skipn rev app].
      replace (Z.to_nat (m + 1)) with (S (Z.to_nat m)) by lia.
      generalize (S (Z.to_nat m)). clear. intros n. induction n as [|n IH]; [reflexivity|].
      cbn [repeat rev]. rewrite IH, repeat_cons. reflexivity. }
    rewrite El. reflexivity.
  Qed.

  Lemma with_lin_abs s (l : delay T) :
    lin_abs (MkLin (dl_memory l) (dl_output l) (dl_read l) (dl_write l) (ld_delay s)
                   (ld_do_next_out s) (ld_next_out s) (ld_alpha s) (ld_om_alpha s))
    = with_line (lin_abs s) (dl_abs (MkDelay (dl_memory l) (dl_output l) (dl_read l) (dl_write l) 0)).
  Proof. reflexivity. Qed.

  Lemma refine_lclear s :
    lin_inv' s -> lin_inv' (lin_clear O s)
      /\ lin_abs (lin_clear O s) = with_line (lin_abs s) (line_clear zero (i_line (lin_abs s))).
  Proof.
    intros [Hi Hs]. destruct Hi as [Hl Hw Hr Hd]. cbn [dl_of dl_memory dl_write dl_read dl_delay] in *.
    assert (HL : vlen (map (fun _ : T => zero) (ld_memory s)) = vlen (ld_memory s))
      by (unfold vlen; rewrite map_length; reflexivity).
    split.
    - split; [constructor|]; cbn [lin_clear dl_of dl_memory ld_memory dl_write ld_write dl_read ld_read dl_delay];
        rewrite ?HL; lia.
    - unfold lin_clear, lin_abs, with_line, line_clear. cbn [i_line i_new i_old i_delay i_peek ld_do_next_out ld_next_out ld_alpha ld_om_alpha ld_delay].
      f_equal. rewrite (dl_abs_slots (dl_of s)). unfold dl_abs.
      cbn [dl_of dl_memory ld_memory dl_write ld_write dl_read ld_read dl_delay dl_output ld_output l_hist l_phase l_lag l_delay l_last].
      rewrite HL, ring_clear. reflexivity.
  Qed.

  Lemma lin_set_max_dl s m :
    lin_set_max_delay O p s m =
    let* s' := delay_set_max_delay O p (dl_of s) m in
    Ok (MkLin (dl_memory s') (dl_output s') (dl_read s') (dl_write s') (ld_delay s)
              (ld_do_next_out s) (ld_next_out s) (ld_alpha s) (ld_om_alpha s)).
  Proof.
    unfold lin_set_max_delay, delay_set_max_delay. cbn [dl_of dl_memory].
    destruct (m <? vlen (ld_memory s)).
    - destruct s; reflexivity.
    - destruct (uadd p m 1); [|reflexivity|reflexivity]. cbn [bind].
      destruct (vec_resize (n_size_of O) (ld_memory s) a zero); reflexivity.
  Qed.

  Lemma lin_tap_in_dl s v t :
    lin_tap_in p s v t =
    let* s' := delay_tap_in p (dl_of s) v t in
    Ok (MkLin (dl_memory s') (dl_output s') (dl_read s') (dl_write s') (ld_delay s)
              (ld_do_next_out s) (ld_next_out s) (ld_alpha s) (ld_om_alpha s)).
  Proof.
    unfold lin_tap_in, delay_tap_in. cbn [dl_of dl_memory dl_write].
    destruct (tap_index _ _ _ _); [|reflexivity|reflexivity]. cbn [bind].
    destruct (vset _ _ _); reflexivity.
  Qed.

  Lemma lin_add_to_dl s v t :
    lin_add_to O p s v t =
    let* (s', r) := delay_add_to O p (dl_of s) v t in
    Ok (MkLin (dl_memory s') (dl_output s') (dl_read s') (dl_write s') (ld_delay s)
              (ld_do_next_out s) (ld_next_out s) (ld_alpha s) (ld_om_alpha s), r).
  Proof.
    unfold lin_add_to, delay_add_to. cbn [dl_of dl_memory dl_write].
    destruct (tap_index _ _ _ _) as [i| |]; [|reflexivity|reflexivity]. cbn [bind].
    destruct (vget _ _) as [o| |]; [|reflexivity|reflexivity]. cbn [bind].
    destruct (vset _ _ _) as [mem| |]; [|reflexivity|reflexivity]. cbn [bind].
    destruct (vget _ _); reflexivity.
  Qed.

  Lemma lin_step_ok s op :
    lin_inv' s -> op_usize_lin op ->
    match op with
    | DSetMaxDelay m => vlen (ld_memory s) <= m -> m + 1 <= lim
    | DTapOut t | DTapIn _ t | DAddTo _ t => t < vlen (ld_memory s)
    | _ => True
    end ->
    exists s' o, lin_step K O p s op = Ok (s', o) /\ lin_inv' s'
      /\ ilin_step zero (n_add O) (n_mul O) lim aim (lin_abs s) op = Some (lin_abs s', o)
      /\ vlen (ld_memory s') = match op with DSetMaxDelay m => Z.max (vlen (ld_memory s)) (m + 1)
                                        | _ => vlen (ld_memory s) end.
  Proof.
    intros Hi' Hu Hdom. assert (Hi'' := Hi'). destruct Hi'' as [Hi Hs].
    assert (Hsl : Z.of_nat (slots (i_line (lin_abs s))) = vlen (ld_memory s))
      by (rewrite lin_abs_slots; reflexivity).
    assert (Hsl2 : slots (i_line (lin_abs s)) = length (dl_memory (dl_of s)))
      by (rewrite lin_abs_slots; reflexivity).
    assert (HLx : forall s', vlen (ld_memory s') = Z.of_nat (slots (i_line (lin_abs s'))))
      by (intros s'; rewrite lin_abs_slots; reflexivity).
    destruct op; cbn [lin_step ilin_step op_usize_lin] in *.
    - destruct (refine_lprocess s x Hi) as [s' [E [Hi1 Ea]]]. rewrite E. cbn [bind].
      assert (HL : vlen (ld_memory s') = vlen (ld_memory s)).
      { rewrite HLx, Ea. unfold ilin_process. cbn [fst i_line]. unfold slots. cbn [l_hist].
        rewrite push_length; [rewrite <- Hsl; reflexivity|].
        destruct Hi as [Hl _ _ _]. cbn [dl_of dl_memory] in Hl. unfold slots in Hsl. unfold vlen in *. lia. }
      do 2 eexists. split; [reflexivity|]. split; [split; [exact Hi1|lia]|]. split; [|exact HL].
      destruct (ilin_process _ _ _ _ _) eqn:Ep. cbn [fst snd] in *. rewrite Ea. reflexivity.
    - destruct (refine_lclear s Hi') as [Hi1 Ea]. do 2 eexists. split; [reflexivity|]. split; [exact Hi1|].
      rewrite Ea. split; [reflexivity|]. unfold lin_clear, vlen. cbn [ld_memory]. rewrite map_length. reflexivity.
    - destruct (refine_lset s d Hi') as [s' [E [Hi1 Ea]]]. rewrite E. cbn [bind].
      do 2 eexists. split; [reflexivity|]. split; [exact Hi1|]. rewrite Ea. split; [reflexivity|].
      rewrite HLx, Ea. unfold ilin_aim. destruct (aim _ _ d) as [[[? ?] ?] ?]. unfold slots; cbn [i_line l_hist]. exact Hsl.
    - rewrite Hsl. destruct (Z.ltb_spec m (vlen (ld_memory s))).
      + unfold lin_set_max_delay. replace (m <? vlen (ld_memory s)) with true by lia. cbn [bind].
        do 2 eexists. split; [reflexivity|]. split; [exact Hi'|]. split; [reflexivity|]. lia.
      + specialize (Hdom H). replace (m + 1 <=? lim) with true by lia.
        rewrite lin_set_max_dl.
        destruct (refine_grow O p Hsize (dl_of s) m Hi Hu H ltac:(lia)) as [d' [E [Hi1 Ea]]].
        rewrite E. cbn [bind].
        assert (Hd0 : dl_delay d' = 0).
        { unfold delay_set_max_delay in E. destruct (m <? vlen (dl_memory (dl_of s))); [inversion E; reflexivity|].
          apply bind_Ok in E. destruct E as [? [_ E]]. apply bind_Ok in E. destruct E as [? [_ E]].
          inversion E; reflexivity. }
        assert (Ed : MkDelay (dl_memory d') (dl_output d') (dl_read d') (dl_write d') 0 = d')
          by (destruct d'; cbn in *; subst; reflexivity).
        assert (HL : vlen (dl_memory d') = m + 1).
        { transitivity (Z.of_nat (slots (dl_abs d'))); [rewrite dl_abs_slots; reflexivity|].
          rewrite Ea. unfold slots, line_grow. cbn [l_hist].
          rewrite !app_length, repeat_length, firstn_length, skipn_length.
          change (length (l_hist (dl_abs (dl_of s)))) with (slots (dl_abs (dl_of s))).
          rewrite (dl_abs_slots (dl_of s)). unfold vlen in *. cbn [dl_of dl_memory] in *. lia. }
        do 2 eexists. split; [reflexivity|]. split; [split|].
        * unfold lin_inv, dl_of. cbn [ld_memory ld_output ld_read ld_write]. rewrite Ed. exact Hi1.
        * cbn [ld_memory]. lia.
        * rewrite with_lin_abs, Ed, Ea. split; [rewrite Hsl2; reflexivity|]. cbn [ld_memory]. lia.
    - do 2 eexists. split; [reflexivity|]. split; [exact Hi'|]. split; reflexivity.
    - unfold lin_get_max_delay, usub. destruct Hi as [Hl Hw Hr Hd]. pose proof (max_slots_lt O Hsize) as Hms.
      cbn [dl_of dl_memory] in Hl.
      rewrite chk_usize_ok by (unfold two63, two64 in *; lia). cbn [bind].
      do 2 eexists. split; [reflexivity|]. split; [exact Hi'|]. rewrite Hsl. split; reflexivity.
    - destruct (refine_lnext s Hi) as [s' [E [Hi1 [Ea [Em Ew]]]]]. rewrite E. cbn [bind].
      do 2 eexists. split; [reflexivity|]. split; [split; [exact Hi1|rewrite Em; exact Hs]|].
      split; [|rewrite Em; reflexivity].
      destruct (ilin_next _ _ _ _) eqn:Ep. cbn [fst snd] in *. rewrite Ea. reflexivity.
    - do 2 eexists. split; [reflexivity|]. split; [exact Hi'|]. split; reflexivity.
    - rewrite Hsl. replace (t <? vlen (ld_memory s)) with true by lia.
      assert (E := refine_tap_out O p Hsize (dl_of s) t Hi ltac:(unfold is_usize in Hu; cbn [dl_of dl_memory]; lia)).
      change (lin_tap_out p s t) with (delay_tap_out p (dl_of s) t). rewrite E. cbn [bind].
      do 2 eexists. split; [reflexivity|]. split; [exact Hi'|]. split; reflexivity.
    - rewrite Hsl. replace (t <? vlen (ld_memory s)) with true by lia.
      rewrite lin_tap_in_dl.
      destruct (refine_tap_in O p Hsize (dl_of s) v t Hi ltac:(unfold is_usize in Hu; cbn [dl_of dl_memory]; lia))
        as [d' [E [Hi1 Ea]]].
      rewrite E. cbn [bind].
      assert (Hd0 : dl_delay d' = 0).
      { unfold delay_tap_in in E. apply bind_Ok in E. destruct E as [? [_ E]].
        apply bind_Ok in E. destruct E as [? [_ E]]. inversion E; reflexivity. }
      assert (Ed : MkDelay (dl_memory d') (dl_output d') (dl_read d') (dl_write d') 0 = d')
        by (destruct d'; cbn in *; subst; reflexivity).
      assert (HL : vlen (dl_memory d') = vlen (ld_memory s)).
      { transitivity (Z.of_nat (slots (dl_abs d'))); [rewrite dl_abs_slots; reflexivity|].
        rewrite Ea. unfold slots, line_put. cbn [l_hist].
        rewrite put_length by (fold (slots (dl_abs (dl_of s))); rewrite (dl_abs_slots (dl_of s)); unfold vlen, is_usize in *; cbn [dl_of dl_memory] in *; lia).
        fold (slots (dl_abs (dl_of s))). rewrite (dl_abs_slots (dl_of s)). reflexivity. }
      do 2 eexists. split; [reflexivity|]. split; [split|].
      + unfold lin_inv, dl_of. cbn [ld_memory ld_output ld_read ld_write]. rewrite Ed. exact Hi1.
      + cbn [ld_memory]. lia.
      + rewrite with_lin_abs, Ed, Ea. split; [reflexivity|]. cbn [ld_memory]. lia.
    - rewrite Hsl. replace (t <? vlen (ld_memory s)) with true by lia.
      rewrite lin_add_to_dl.
      destruct (refine_add_to O p Hsize (dl_of s) v t Hi ltac:(unfold is_usize in Hu; cbn [dl_of dl_memory]; lia))
        as [d' [E [Hi1 Ea]]].
      rewrite E. cbn [bind].
      assert (Hd0 : dl_delay d' = 0).
      { unfold delay_add_to in E. apply bind_Ok in E. destruct E as [? [_ E]].
        apply bind_Ok in E. destruct E as [? [_ E]]. apply bind_Ok in E. destruct E as [? [_ E]].
        apply bind_Ok in E. destruct E as [? [_ E]]. inversion E; reflexivity. }
      assert (Ed : MkDelay (dl_memory d') (dl_output d') (dl_read d') (dl_write d') 0 = d')
        by (destruct d'; cbn in *; subst; reflexivity).
      assert (HL : vlen (dl_memory d') = vlen (ld_memory s)).
      { transitivity (Z.of_nat (slots (dl_abs d'))); [rewrite dl_abs_slots; reflexivity|].
        rewrite Ea. unfold slots, line_put. cbn [l_hist].
        rewrite put_length by (fold (slots (dl_abs (dl_of s))); rewrite (dl_abs_slots (dl_of s)); unfold vlen, is_usize in *; cbn [dl_of dl_memory] in *; lia).
        fold (slots (dl_abs (dl_of s))). rewrite (dl_abs_slots (dl_of s)). reflexivity. }
      do 2 eexists. split; [reflexivity|]. split; [split|].
      + unfold lin_inv, dl_of. cbn [ld_memory ld_output ld_read ld_write]. rewrite Ed. exact Hi1.
      + cbn [ld_memory]. lia.
      + rewrite with_lin_abs, Ed, Ea. split; [reflexivity|]. cbn [ld_memory]. lia.
  Qed.

  Lemma lin_run_ok s ops :
    lin_inv' s -> Forall op_usize_lin ops -> lin_use lim (vlen (ld_memory s) - 1) ops ->
    exists s' os, lin_run K O p s ops = Ok (s', os) /\ lin_inv' s'
      /\ ilin_run zero (n_add O) (n_mul O) lim aim (lin_abs s) ops = Some (lin_abs s', os).
  Proof.
    revert s; induction ops as [|op ops IH]; intros s Hi Hu Hn.
    - exists s, []. auto.
    - inversion Hu as [|? ? Hu1 Hu2]; subst.
      destruct (lin_step_ok s op Hi Hu1) as [s1 [o [E [Hi1 [Es HL]]]]].
      { destruct op; cbn [lin_use] in Hn; auto; unfold short in *; lia. }
      destruct (IH s1 Hi1 Hu2) as [s2 [os [E2 [Hi2 Es2]]]].
      { rewrite HL. destruct op; cbn [lin_use] in Hn; try tauto; try (destruct Hn; assumption).
        destruct Hn as [_ Hn]. replace (Z.max (vlen (ld_memory s)) (m + 1) - 1) with (Z.max (vlen (ld_memory s) - 1) m) by lia.
        exact Hn. }
      exists s2, (o :: os). cbn [lin_run ilin_run]. rewrite E. cbn [bind]. rewrite E2. cbn [bind].
      rewrite Es, Es2. auto.
  Qed.
End Refine.

(** The control arithmetic itself as an aim. *)
Definition aim_ctl {C T} (K : ctl_ops C T) (O : num_ops T) (sl ph : nat) (d : C) : C * nat * T * T :=
  match ctl K (Z.of_nat sl) (Z.of_nat ph) d with
  | Ok (dt, r, a) => (dt, Z.to_nat (lag_of (Z.of_nat sl) (Z.of_nat ph) r),
                      c_cast K a, n_sub O (n_one O) (c_cast K a))
  | _ => (c_zero K, 0%nat, n_zero O, n_zero O)
  end.

Lemma aims_ctl {C T} (K : ctl_ops C T) (O : num_ops T) lim :
  (forall len w d, 1 <= len <= lim -> 0 <= w < len ->
    exists dt r a, ctl K len w d = Ok (dt, r, a) /\ 0 <= r < len) ->
  aims K O lim (aim_ctl K O).
Proof.
  intros H len w d Hl Hw. destruct (H len w d Hl Hw) as [dt [r [a [E Hr]]]].
  exists dt, r, a. split; [exact E|]. split; [exact Hr|]. unfold aim_ctl.
  rewrite !Z2Nat.id by lia. rewrite E. reflexivity.
Qed.

(** [new] clips before [set_delay] clips again. *)
Lemma ilin_new_ext {C T} (zero : T) aim (d d' : C) m :
  aim (S m) 0%nat d = aim (S m) 0%nat d' -> ilin_new zero aim d m = ilin_new zero aim d' m.
Proof.
  intros H. unfold ilin_new, ilin_aim, slots. cbn [line_new l_hist l_phase].
  rewrite repeat_length, H. reflexivity.
Qed.
