(** The taps and [clear] of [LinearDelay], and block processing (C01, C13, C14, C16-C18). *)
From Coq Require Import ZArith Reals List Bool Lia Lra ZifyBool.
From Flocq Require Import Core.Core IEEE754.BinarySingleNaN.
From Verif Require Import Base BaseLemmas Num NumR NumF Witness FloatFacts Traits DelayM LinDelayM DelaySpec DelayRun DelayProofs DelayFacts
  LinSpec LinRun PlaceSpec LinFloatSpec LinProofs LinCtlR LinCtlF LinInv LinFacts LinFloat LinLemmas LinLemmas2 DelayLemmas GrowLemmas CoreLemmas.
Import ListNotations.
Open Scope Z_scope.

(*@PROP
(** Properties C01, C13, C14, C16, C17 and C18 for [LinearDelay].

    Vocabulary: [lin_history K O p d m ops s]: [LinearDelay::new(d, m)] followed by the
    calls [ops] completed and left [s] ([LinRun]); [write_after m ops] and
    [max_after m ops]: the write position and the maximum delay after them
    ([PlaceSpec]); [lin_trusted ops]: no growth since the delay was set, [unpeeked
    ops]: no [next_out] since the last [process] ([LinRun]); [R_ctl], [R_ops]: exact
    arithmetic, [f32_ctl_gen cast]: [f32] delays and any sample type. *)
From Coq Require Import ZArith Reals List Bool Lia Lra.
From Flocq Require Import Core.Core IEEE754.BinarySingleNaN.
From Verif Require Import Base Num NumR NumF Witness Traits DelayM LinDelayM DelaySpec DelayRun
  LinSpec LinRun PlaceSpec LinFloatSpec LinLemmas LinLemmas2 LinWit LinTapLemmas.
Import ListNotations.
Open Scope Z_scope.

(** A completed session on a [LinearDelay<f32>]: [new(1.5, 7)], three samples, a tap. *)
Definition tap_ops (a b : f32) : list (dl_op f32 f32) :=
  [DProcess a; DProcess b; DTapIn a 3; DProcess b; DGetDelay] ++ [DSetDelay (fl32 5 (-1))].
Lemma tap_ops_ok (a b : f32) :
  exists s, lin_history f32_ctl_f32 O32 Debug (fl32 3 (-1)) 7 (tap_ops a b) s
    /\ lin_get_max_delay Debug s = Ok 7.
Proof.
  destruct (wit_set (fl32 3 (-1)) (fl32 5 (-1)) 7 [DProcess a; DProcess b; DTapIn a 3; DProcess b; DGetDelay])
    as [s [H1 [H2 _]]]; [lia|repeat constructor; easy|cbn; repeat split; discriminate| |].
  - repeat constructor; discriminate.
  - exists s. split; assumption.
Qed.
@*)

(*@PROP
(** C01 for [LinearDelay]: after any history on a line of at most 2^24 slots, a
    non-empty block never panics, whatever the [f32] delay. *)
@*)
Lemma C01_block_linear_delay_thm :
  forall (T : Type) (cast : f32 -> T) (O : num_ops T) (p : profile) (d : f32) (m : Z)
         (ops : list (dl_op f32 T)) (s : lin_delay f32 T) (mx : Z) (xs : list T),
    1 <= n_size_of O -> lin_history (f32_ctl_gen cast) O p d m ops s ->
    lin_get_max_delay p s = Ok mx -> short (2 ^ 24) mx ->
    (process_block (lin_process O p) s xs = Panic <-> xs = []).
Proof.
  intros T cast O p d m ops s mx xs Hs Hh Hmx Hsh. unfold short in Hsh.
  assert (Hw := history_winv _ O p Hs d m ops s Hh).
  assert (HL := get_max_winv O p Hs s mx Hw Hmx).
  destruct (history_hinv (f32_ctl_gen cast) O p Hs (2 ^ 24) (ctl_f32_range cast) d m ops s Hh ltac:(lia)) as [[Hi _] _].
  apply (C01_block_panics_only_empty_thm _ _ (lin_process O p) (lin_inv O)); [|exact Hi].
  intros s0 x Hi0. destruct (refine_lprocess O p Hs s0 x Hi0) as [s1 [E [Hi1 _]]]. eauto.
Qed.
(*@PROP
Example C01_block_linear_delay_hyps (a b : f32) :
  exists s, lin_history f32_ctl_f32 O32 Debug (fl32 3 (-1)) 7 (tap_ops a b) s
    /\ lin_get_max_delay Debug s = Ok 7 /\ short (2 ^ 24) 7.
Proof. destruct (tap_ops_ok a b) as [s [H1 H2]]. exists s. split; [exact H1|]. split; [exact H2|easy]. Qed.
@*)

Section Mem.
  Context {C T : Type} (K : ctl_ops C T) (O : num_ops T) (p : profile).
  Hypothesis Hsize : 1 <= n_size_of O.

  Lemma tap_out_mem (s : lin_delay C T) t : lin_tap_out p s t = delay_tap_out p (mem_of s) t.
  Proof. reflexivity. Qed.

  (** Taps read the memory and the write position only. *)
  Lemma tap_out_ext (s t : delay T) k :
    dl_memory s = dl_memory t -> dl_write s = dl_write t -> delay_tap_out p s k = delay_tap_out p t k.
  Proof. unfold delay_tap_out. intros -> ->. reflexivity. Qed.

  Lemma process_mem (s s' : lin_delay C T) x y : winv O s -> lin_process O p s x = Ok (s', y) ->
    exists u z, delay_process p (mem_of s) x = Ok (u, z) /\ dl_memory u = ld_memory s' /\ dl_write u = ld_write s'.
  Proof.
    intros Hw E. destruct (refine_process O p Hsize (mem_of s) x (mem_inv O s Hw)) as [u [Eu _]].
    exists u. eexists. split; [exact Eu|]. revert E Eu. unfold lin_process, delay_process.
    cbn [mem_of dl_memory dl_write dl_read dl_delay].
    destruct (vset (ld_memory s) (ld_write s) x) as [mem| |]; cbn [bind]; try discriminate.
    destruct (uadd p (ld_write s) 1) as [w1| |]; cbn [bind]; try discriminate.
    destruct (urem w1 (vlen mem)) as [w| |]; cbn [bind]; try discriminate.
    intros E Eu. apply bind_Ok in Eu. destruct Eu as [o [_ Eu]]. apply bind_Ok in Eu. destruct Eu as [r1 [_ Eu]].
    apply bind_Ok in Eu. destruct Eu as [r [_ Eu]]. injection Eu as <- _. cbn [dl_memory dl_write].
    apply bind_Ok in E. destruct E as [[s2 y2] [E2 E]].
    assert (G : ld_memory s2 = mem /\ ld_write s2 = w).
    { unfold lin_next_out in E2. cbn [ld_do_next_out ld_memory ld_read ld_next_out ld_write] in E2.
      destruct (ld_do_next_out s).
      - apply bind_Ok in E2. destruct E2 as [m0 [_ E2]]. apply bind_Ok in E2. destruct E2 as [la [_ E2]].
        apply bind_Ok in E2. destruct E2 as [va [_ E2]]. injection E2 as <- _. split; reflexivity.
      - injection E2 as <- _. split; reflexivity. }
    destruct G as [G1 G2].
    apply bind_Ok in E. destruct E as [r2 [_ E]]. apply bind_Ok in E. destruct E as [r3 [_ E]].
    injection E as <- _. cbn [ld_memory ld_write]. auto.
  Qed.

  Lemma inv_process_taps (s s' : delay T) x y : dl_inv O s -> delay_process p s x = Ok (s', y) ->
    delay_tap_out p s' 0 = Ok x
    /\ forall t, 0 <= t < vlen (dl_memory s) - 1 -> delay_tap_out p s' (t + 1) = delay_tap_out p s t.
  Proof.
    intros Hi E. destruct (refine_process O p Hsize s x Hi) as [s1 [E1 [Hi1 Hab]]].
    rewrite E in E1. inversion E1; subst. clear E1.
    apply (f_equal l_hist) in Hab. unfold line_process in Hab; cbn [fst l_hist] in Hab.
    assert (HL : vlen (dl_memory s1) = vlen (dl_memory s)).
    { apply (f_equal (@length T)) in Hab. rewrite hist_len, push_length, hist_len in Hab;
        [unfold vlen; lia|rewrite hist_len; destruct Hi; unfold vlen in *; lia]. }
    split.
    - rewrite (refine_tap_out O p Hsize s1) by (auto; destruct Hi1; lia). rewrite Hab. reflexivity.
    - intros t Ht. rewrite (refine_tap_out O p Hsize s1) by (auto; lia).
      rewrite (refine_tap_out O p Hsize s) by (auto; lia). rewrite Hab.
      rewrite nth_push by (rewrite hist_len; unfold vlen in *; lia).
      replace (Z.to_nat (t + 1)) with (S (Z.to_nat t)) by lia. reflexivity.
  Qed.

  Lemma inv_tap_in (s : delay T) v t : dl_inv O s -> 0 <= t < vlen (dl_memory s) ->
    exists s', delay_tap_in p s v t = Ok s' /\ delay_tap_out p s' t = Ok v
      /\ (forall u, 0 <= u < vlen (dl_memory s) -> u <> t -> delay_tap_out p s' u = delay_tap_out p s u)
      /\ vlen (dl_memory s') = vlen (dl_memory s).
  Proof.
    intros Hi Ht. destruct (refine_tap_in O p Hsize s v t Hi Ht) as [s' [E [Hi' Hab]]].
    exists s'. split; [exact E|].
    destruct (tap_in_frame p s v t s' E) as [i [_ Hfr]].
    assert (HL : vlen (dl_memory s') = vlen (dl_memory s)).
    { rewrite Hfr; cbn [dl_memory]. apply list_set_vlen. }
    apply (f_equal l_hist) in Hab. unfold line_put in Hab; cbn [l_hist] in Hab.
    rewrite (refine_tap_out O p Hsize s') by (auto; lia). rewrite Hab.
    rewrite nth_put by (rewrite hist_len; unfold vlen in *; lia). rewrite Nat.eqb_refl.
    split; [reflexivity|]. split; [|exact HL].
    intros u Hu Hne. rewrite (refine_tap_out O p Hsize s') by (auto; lia).
    rewrite (refine_tap_out O p Hsize s) by (auto; lia). rewrite Hab.
    rewrite nth_put by (rewrite hist_len; unfold vlen in *; lia).
    replace (Z.to_nat u =? Z.to_nat t)%nat with false by lia. reflexivity.
  Qed.

  Lemma inv_add_to (s : delay T) v t : dl_inv O s -> 0 <= t < vlen (dl_memory s) ->
    exists s' old, delay_tap_out p s t = Ok old /\ delay_add_to O p s v t = Ok (s', n_add O old v)
      /\ delay_tap_out p s' t = Ok (n_add O old v)
      /\ (forall u, 0 <= u < vlen (dl_memory s) -> u <> t -> delay_tap_out p s' u = delay_tap_out p s u)
      /\ vlen (dl_memory s') = vlen (dl_memory s).
  Proof.
    intros Hi Ht. destruct (refine_add_to O p Hsize s v t Hi Ht) as [s' [E [Hi' Hab]]].
    eexists s', _. split; [apply (refine_tap_out O p Hsize s); auto; lia|]. split; [exact E|].
    destruct (add_to_frame O p s v t s' _ E) as [i [x [_ Hfr]]].
    assert (HL : vlen (dl_memory s') = vlen (dl_memory s)).
    { rewrite Hfr; cbn [dl_memory]. apply list_set_vlen. }
    apply (f_equal l_hist) in Hab. unfold line_put in Hab; cbn [l_hist] in Hab.
    rewrite (refine_tap_out O p Hsize s') by (auto; lia). rewrite Hab at 1.
    rewrite nth_put by (rewrite hist_len; unfold vlen in *; lia). rewrite Nat.eqb_refl.
    split; [reflexivity|]. split; [|exact HL].
    intros u Hu Hne. rewrite (refine_tap_out O p Hsize s') by (auto; lia).
    rewrite (refine_tap_out O p Hsize s) by (auto; lia). rewrite Hab.
    rewrite nth_put by (rewrite hist_len; unfold vlen in *; lia).
    replace (Z.to_nat u =? Z.to_nat t)%nat with false by lia. reflexivity.
  Qed.

  Lemma tap_in_mem (s : lin_delay C T) v t u : delay_tap_in p (mem_of s) v t = Ok u ->
    exists s', lin_tap_in p s v t = Ok s' /\ mem_of s' = u /\ lin_get_delay s' = lin_get_delay s /\ lin_last_out s' = lin_last_out s.
  Proof.
    unfold delay_tap_in, lin_tap_in. cbn [mem_of dl_memory dl_write dl_output dl_read dl_delay].
    destruct (tap_index p (ld_write s) (vlen (ld_memory s)) t) as [i| |]; cbn [bind]; try discriminate.
    destruct (vset (ld_memory s) i v) as [mem| |]; cbn [bind]; try discriminate.
    intros E. injection E as <-. eexists. repeat split.
  Qed.

  Lemma add_to_mem (s : lin_delay C T) v t u r : delay_add_to O p (mem_of s) v t = Ok (u, r) ->
    exists s', lin_add_to O p s v t = Ok (s', r) /\ mem_of s' = u /\ lin_get_delay s' = lin_get_delay s /\ lin_last_out s' = lin_last_out s.
  Proof.
    unfold delay_add_to, lin_add_to. cbn [mem_of dl_memory dl_write dl_output dl_read dl_delay].
    destruct (tap_index p (ld_write s) (vlen (ld_memory s)) t) as [i| |]; cbn [bind]; try discriminate.
    destruct (vget (ld_memory s) i) as [old| |]; cbn [bind]; try discriminate.
    destruct (vset (ld_memory s) i (n_add O old v)) as [mem| |]; cbn [bind]; try discriminate.
    destruct (vget mem i) as [r'| |]; cbn [bind]; try discriminate.
    intros E. injection E as <- <-. eexists. repeat split.
  Qed.

  Lemma get_max_mem (s : lin_delay C T) : lin_get_max_delay p s = delay_get_max_delay p (mem_of s).
  Proof. reflexivity. Qed.
End Mem.

Lemma short_process (T : Type) (cast : f32 -> T) (O : num_ops T) (p : profile) (d : f32) (m : Z)
    (ops : list (dl_op f32 T)) (s : lin_delay f32 T) (mx : Z) (x : T) :
  1 <= n_size_of O -> lin_history (f32_ctl_gen cast) O p d m ops s ->
  lin_get_max_delay p s = Ok mx -> short (2 ^ 24) mx ->
  exists s' y, lin_process O p s x = Ok (s', y).
Proof.
  intros Hs Hh Hmx Hsh. unfold short in Hsh.
  assert (Hw := history_winv _ O p Hs d m ops s Hh).
  assert (HL := get_max_winv O p Hs s mx Hw Hmx).
  destruct (history_hinv (f32_ctl_gen cast) O p Hs (2 ^ 24) (ctl_f32_range cast) d m ops s Hh ltac:(lia)) as [[Hi _] _].
  destruct (refine_lprocess O p Hs s x Hi) as [s1 [E _]]. eauto.
Qed.

(*@PROP
(** C13: [process(x)] makes [x] the newest tap and shifts the others by one. *)
@*)
Lemma C13_linear_process_shifts_taps_thm :
  forall (C T : Type) (K : ctl_ops C T) (O : num_ops T) (p : profile) (d : C) (m : Z)
         (ops : list (dl_op C T)) (s s' : lin_delay C T) (x y : T),
    1 <= n_size_of O -> lin_history K O p d m ops s -> lin_process O p s x = Ok (s', y) ->
    lin_tap_out p s' 0 = Ok x
    /\ exists mx, lin_get_max_delay p s = Ok mx
       /\ forall t, 0 <= t < mx -> lin_tap_out p s' (t + 1) = lin_tap_out p s t.
Proof.
  intros C T K O p d m ops s s' x y Hs Hh E.
  assert (Hw := history_winv K O p Hs d m ops s Hh).
  destruct (process_mem O p Hs s s' x y Hw E) as [u [z [Eu [Em Ew]]]].
  destruct (inv_process_taps O p Hs _ u x z (mem_inv O s Hw) Eu) as [H1 H2].
  assert (Q : forall k, lin_tap_out p s' k = delay_tap_out p u k).
  { intros k. rewrite tap_out_mem. apply tap_out_ext; symmetry; assumption. }
  split; [rewrite Q; exact H1|]. eexists. split; [apply (winv_get_max O p Hs); exact Hw|].
  intros t Ht. rewrite Q. apply H2. cbn [mem_of dl_memory]. lia.
Qed.
(*@PROP
Example C13_linear_process_shifts_taps_hyps (a b : f32) :
  exists s s' y, lin_history f32_ctl_f32 O32 Debug (fl32 3 (-1)) 7 (tap_ops a b) s
    /\ lin_process O32 Debug s a = Ok (s', y).
Proof.
  destruct (tap_ops_ok a b) as [s [H1 H2]].
  destruct (short_process f32 (fun x => x) O32 Debug _ _ _ s 7 a ltac:(easy) H1 H2 ltac:(easy)) as [s' [y E]].
  exists s, s', y. split; [exact H1|exact E].
Qed.
@*)

(*@PROP
(** C13: after processing [xs], [tap_out(t)] is the sample [t + 1] calls ago, or zero. *)
@*)
Lemma C13_linear_tap_out_reads_back_thm :
  forall (C T : Type) (K : ctl_ops C T) (O : num_ops T) (p : profile) (d : C) (m : Z)
         (xs : list T) (s : lin_delay C T) (t : Z),
    1 <= n_size_of O -> lin_history K O p d m (map DProcess xs) s -> 0 <= t <= m ->
    lin_tap_out p s t = Ok (nth (Z.to_nat t) (rev xs) (n_zero O)).
Proof.
  intros C T K O p d m xs. induction xs as [|x xs IH] using rev_ind; intros s t Hs Hh Ht.
  - destruct Hh as [Hm [Hne [_ [os E]]]]. cbn [map] in E. unfold lin_session in E.
    apply bind_Ok in E. destruct E as [s0 [E0 E]]. injection E as <- _.
    unfold lin_new, lin_new_fuel in E0. unfold uadd in E0.
    rewrite chk_usize_ok in E0 by (unfold is_usize, usize_max in *; lia). cbn [bind] in E0.
    apply bind_Ok in E0. destruct E0 as [mem [Em E0]].
    unfold vec_repeat in Em. destruct (alloc_ok (n_size_of O) (m + 1)) eqn:Ea; [|discriminate]. injection Em as <-.
    rewrite (alloc_ok_iff O Hs) in Ea.
    unfold lin_set_delay_fuel in E0. apply bind_Ok in E0. destruct E0 as [? [_ E0]]. apply bind_Ok in E0. destruct E0 as [? [_ E0]].
    injection E0 as <-. rewrite tap_out_mem. cbn [mem_of ld_memory ld_write ld_output].
    set (r := repeat (n_zero O) (Z.to_nat (m + 1))).
    assert (HL : vlen r = m + 1) by (unfold r, vlen; rewrite repeat_length; unfold is_usize in Hm; lia).
    rewrite (refine_tap_out O p Hs) by (try constructor; cbn [mem_of dl_memory dl_write dl_read dl_delay ld_memory ld_write]; unfold is_usize in *; lia).
    cbn [rev]. rewrite (nth_overflow []) by (cbn; lia). f_equal. unfold dl_abs. cbn [l_hist mem_of dl_memory dl_write ld_memory ld_write].
    unfold ring_hist. cbn [Z.to_nat firstn skipn rev app]. unfold r.
    generalize (Z.to_nat (m + 1)) (Z.to_nat t). clear. intros n k.
    assert (Q : In (nth k (rev (repeat (n_zero O) n)) (n_zero O)) [n_zero O]).
    { destruct (Nat.ltb_spec k (length (rev (repeat (n_zero O) n)))) as [H|H].
      - apply (nth_In _ (n_zero O)) in H. apply in_rev in H. apply repeat_spec in H. rewrite H. left. reflexivity.
      - rewrite nth_overflow by exact H. left. reflexivity. }
    destruct Q as [Q|[]]. symmetry. exact Q.
  - destruct Hh as [Hm [Hne [Hsn [os E]]]]. rewrite map_app in *. cbn [map] in *.
    unfold lin_session in E. apply bind_Ok in E. destruct E as [s0 [E0 E]].
    rewrite (lin_run_app K O p) in E. apply bind_Ok in E. destruct E as [[s1 os1] [E1 E]].
    apply bind_Ok in E. destruct E as [[s2' os2] [E2 E]]. injection E as -> _.
    apply Forall_app in Hsn. destruct Hsn as [Hsn _].
    assert (Hh1 : lin_history K O p d m (map DProcess xs) s1).
    { split; [exact Hm|]. split; [exact Hne|]. split; [exact Hsn|]. exists os1. unfold lin_session. rewrite E0. exact E1. }
    cbn [lin_run lin_step] in E2. apply bind_Ok in E2. destruct E2 as [[s2 o2] [E2 E3]].
    apply bind_Ok in E2. destruct E2 as [[s3 y] [E2 E4]]. injection E4 as -> <-. cbn [bind] in E3. injection E3 as -> _.
    destruct (C13_linear_process_shifts_taps_thm C T K O p d m (map DProcess xs) s1 s x y Hs Hh1 E2) as [H1 [mx [Hmx H2]]].
    rewrite rev_app_distr. cbn [rev app].
    destruct (Z.eq_dec t 0) as [->|Hn]; [exact H1|].
    assert (HM : mx = m).
    { destruct (LinInv.history_place K O p Hs d m _ s1 Hh1) as [HL _].
      assert (Hw := history_winv K O p Hs d m _ s1 Hh1).
      assert (HL' := get_max_winv O p Hs s1 mx Hw Hmx). assert (Q : forall w, fst (fold_left (@place_step C T) (map DProcess xs) (m, w)) = m).
      { clear. induction xs as [|x xs IH]; intros w; cbn [map fold_left]; [reflexivity|]. apply IH. }
      unfold max_after in HL. rewrite Q in HL. lia. }
    replace t with (t - 1 + 1) at 1 by lia. rewrite H2 by lia. rewrite (IH s1 (t - 1) Hs Hh1) by lia.
    replace (Z.to_nat t) with (Datatypes.S (Z.to_nat (t - 1))) by lia. reflexivity.
Qed.
(*@PROP
Example C13_linear_tap_out_reads_back_hyps (a b : R) :
  exists s, lin_history R_ctl R_ops Debug (5 / 2)%R 4 (map DProcess [a; b; a; a; b; b]) s.
Proof.
  destruct (C22_refines_ideal_thm Debug (5 / 2)%R 4 (map DProcess [a; b; a; a; b; b])) as [s [os [_ [E _]]]].
  - easy.
  - discriminate.
  - repeat constructor; easy.
  - cbn. repeat split; discriminate.
  - exists s. split; [easy|]. split; [discriminate|]. split; [repeat constructor; easy|]. exists os. exact E.
Qed.
@*)

(*@PROP
(** C14: [tap_in] edits exactly one position. *)
@*)
Lemma C14_linear_tap_in_edits_one_thm :
  forall (C T : Type) (K : ctl_ops C T) (O : num_ops T) (p : profile) (d : C) (m : Z)
         (ops : list (dl_op C T)) (s : lin_delay C T) (mx t : Z) (v : T),
    1 <= n_size_of O -> lin_history K O p d m ops s ->
    lin_get_max_delay p s = Ok mx -> 0 <= t <= mx ->
    exists s', lin_tap_in p s v t = Ok s'
      /\ lin_tap_out p s' t = Ok v
      /\ (forall u, 0 <= u <= mx -> u <> t -> lin_tap_out p s' u = lin_tap_out p s u)
      /\ lin_get_max_delay p s' = Ok mx
      /\ lin_get_delay s' = lin_get_delay s
      /\ lin_last_out s' = lin_last_out s.
Proof.
  intros C T K O p d m ops s mx t v Hs Hh Hmx Ht.
  assert (Hw := history_winv K O p Hs d m ops s Hh).
  assert (HL := get_max_winv O p Hs s mx Hw Hmx).
  destruct (inv_tap_in O p Hs (mem_of s) v t (mem_inv O s Hw)) as [u [E [H1 [H2 H3]]]]; [cbn [mem_of dl_memory]; lia|].
  destruct (tap_in_mem p s v t u E) as [s' [E' [Hu [Hd Hl]]]]. subst u.
  exists s'. split; [exact E'|]. split; [exact H1|].
  split. { intros u Hu Hne. apply H2; [cbn [mem_of dl_memory]; lia|exact Hne]. }
  split; [|split; assumption].
  unfold lin_get_max_delay in *. cbn [mem_of dl_memory] in H3. rewrite H3. exact Hmx.
Qed.
(*@PROP
Example C14_linear_tap_in_edits_one_hyps (a b : f32) :
  exists s, lin_history f32_ctl_f32 O32 Debug (fl32 3 (-1)) 7 (tap_ops a b) s
    /\ lin_get_max_delay Debug s = Ok 7 /\ 0 <= 5 <= 7 /\ 1 <= n_size_of O32.
Proof. destruct (tap_ops_ok a b) as [s [H1 H2]]. exists s. split; [exact H1|]. repeat split; try assumption; easy. Qed.
@*)

(*@PROP
(** C14: [add_to] adds to exactly one position and returns the sum. *)
@*)
Lemma C14_linear_add_to_edits_one_thm :
  forall (C T : Type) (K : ctl_ops C T) (O : num_ops T) (p : profile) (d : C) (m : Z)
         (ops : list (dl_op C T)) (s : lin_delay C T) (mx t : Z) (v : T),
    1 <= n_size_of O -> lin_history K O p d m ops s ->
    lin_get_max_delay p s = Ok mx -> 0 <= t <= mx ->
    exists s' old, lin_tap_out p s t = Ok old
      /\ lin_add_to O p s v t = Ok (s', n_add O old v)
      /\ lin_tap_out p s' t = Ok (n_add O old v)
      /\ (forall u, 0 <= u <= mx -> u <> t -> lin_tap_out p s' u = lin_tap_out p s u)
      /\ lin_get_max_delay p s' = Ok mx
      /\ lin_get_delay s' = lin_get_delay s
      /\ lin_last_out s' = lin_last_out s.
Proof.
  intros C T K O p d m ops s mx t v Hs Hh Hmx Ht.
  assert (Hw := history_winv K O p Hs d m ops s Hh).
  assert (HL := get_max_winv O p Hs s mx Hw Hmx).
  destruct (inv_add_to O p Hs (mem_of s) v t (mem_inv O s Hw)) as [u [old [H0 [E [H1 [H2 H3]]]]]]; [cbn [mem_of dl_memory]; lia|].
  destruct (add_to_mem O p s v t u _ E) as [s' [E' [Hu [Hd Hl]]]]. subst u.
  exists s', old. split; [exact H0|]. split; [exact E'|]. split; [exact H1|].
  split. { intros u Hu Hne. apply H2; [cbn [mem_of dl_memory]; lia|exact Hne]. }
  split; [|split; assumption].
  unfold lin_get_max_delay in *. cbn [mem_of dl_memory] in H3. rewrite H3. exact Hmx.
Qed.
(*@PROP
Example C14_linear_add_to_edits_one_hyps (a b : f32) :
  exists s, lin_history f32_ctl_f32 O32 Debug (fl32 3 (-1)) 7 (tap_ops a b) s
    /\ lin_get_max_delay Debug s = Ok 7 /\ 0 <= 5 <= 7 /\ 1 <= n_size_of O32.
Proof. destruct (tap_ops_ok a b) as [s [H1 H2]]. exists s. split; [exact H1|]. repeat split; try assumption; easy. Qed.
@*)

(*@PROP
(** C16: taps beyond the line act as an in-range tap or panic, as those of a [Delay]. *)
@*)
Lemma C16_linear_taps_beyond_line_thm :
  forall (C T : Type) (K : ctl_ops C T) (O : num_ops T) (p : profile) (d : C) (m : Z)
         (ops : list (dl_op C T)) (s : lin_delay C T) (t : Z),
    2 <= n_size_of O -> lin_history K O p d m ops s -> is_usize t ->
    let mx := max_after m ops in
    let w := write_after m ops in
    mx < t ->
    (t <= mx + w ->
       lin_tap_out p s t = lin_tap_out p s (t - mx - 1)
       /\ (forall v, lin_tap_in p s v t = lin_tap_in p s v (t - mx - 1))
       /\ (forall v, lin_add_to O p s v t = lin_add_to O p s v (t - mx - 1)))
    /\ (mx + w < t < two63 ->
       lin_tap_out p s t = Panic
       /\ (forall v, lin_tap_in p s v t = Panic)
       /\ (forall v, lin_add_to O p s v t = Panic))
    /\ (two63 <= t -> w + (two64 - t) <= mx + 1 ->
       lin_tap_out p s t = lin_tap_out p s (mx + 1 - (two64 - t))
       /\ (forall v, lin_tap_in p s v t = lin_tap_in p s v (mx + 1 - (two64 - t)))
       /\ (forall v, lin_add_to O p s v t = lin_add_to O p s v (mx + 1 - (two64 - t))))
    /\ (two63 <= t -> mx + 1 < w + (two64 - t) ->
       lin_tap_out p s t = Panic
       /\ (forall v, lin_tap_in p s v t = Panic)
       /\ (forall v, lin_add_to O p s v t = Panic)).
Proof.
  intros C T K O p d m ops s t Hs2 Hh Hu mx w Hgt.
  assert (Hs : 1 <= n_size_of O) by lia.
  assert (HW := history_winv K O p Hs d m ops s Hh). destruct HW as [W1 W2].
  destruct (LinInv.history_place K O p Hs d m ops s Hh) as [Hlen Hw]. fold mx in Hlen. fold w in Hw.
  pose proof (max_slots_lt O Hs) as Hms. unfold is_usize in Hu.
  assert (0 <= w <= mx) by lia.
  assert (2 * (mx + 1) < two63).
  { assert (fits O mx) by (apply fits_iff; [assumption|lia]).
    unfold fits, isize_max in *. nia. }
  assert (A : forall t', tap_index p w (mx + 1) t = tap_index p w (mx + 1) t' ->
       lin_tap_out p s t = lin_tap_out p s t'
       /\ (forall v, lin_tap_in p s v t = lin_tap_in p s v t')
       /\ (forall v, lin_add_to O p s v t = lin_add_to O p s v t')).
  { intros t' E. unfold lin_tap_out, lin_tap_in, lin_add_to. rewrite Hlen, Hw, E. auto. }
  assert (B : tap_index p w (mx + 1) t = Panic
     \/ (exists i, tap_index p w (mx + 1) t = Ok i /\ mx + 1 <= i) ->
       lin_tap_out p s t = Panic
       /\ (forall v, lin_tap_in p s v t = Panic)
       /\ (forall v, lin_add_to O p s v t = Panic)).
  { intros [E|[i [E Hi]]]; unfold lin_tap_out, lin_tap_in, lin_add_to; rewrite Hlen, Hw, E; cbn [bind].
    - auto.
    - rewrite !vget_out by lia. split; [reflexivity|]. split; [|reflexivity].
      intros v. rewrite vset_out by lia. reflexivity. }
  split; [|split; [|split]].
  - intros Ht. apply A. apply tap_index_alias; lia.
  - intros Ht. apply B. right. apply tap_index_beyond; lia.
  - intros Ht Hk. apply A. apply tap_index_high_alias; lia.
  - intros Ht Hk. apply B. apply tap_index_high_beyond; lia.
Qed.
(*@PROP
Example C16_linear_taps_beyond_line_hyps (a b : f32) :
  exists s, lin_history f32_ctl_f32 O32 Debug (fl32 3 (-1)) 7 (tap_ops a b) s /\ 2 <= n_size_of O32
    /\ max_after 7 (tap_ops a b) = 7 /\ write_after 7 (tap_ops a b) = 3.
Proof. destruct (tap_ops_ok a b) as [s [H1 H2]]. exists s. split; [exact H1|]. repeat split; try assumption; easy. Qed.
@*)

(*@PROP
(** C17: [clear] empties the line and keeps the settings (but not a peeked value
    handed out earlier, which survives: C26). *)
@*)
Lemma C17_linear_clear_empties_line_thm :
  forall (C T : Type) (K : ctl_ops C T) (O : num_ops T) (p : profile) (d : C) (m : Z)
         (ops : list (dl_op C T)) (s : lin_delay C T),
    1 <= n_size_of O -> lin_history K O p d m ops s ->
    exists mx, lin_get_max_delay p s = Ok mx
      /\ lin_get_max_delay p (lin_clear O s) = Ok mx
      /\ lin_get_delay (lin_clear O s) = lin_get_delay s
      /\ lin_last_out (lin_clear O s) = n_zero O
      /\ (forall t, 0 <= t <= mx -> lin_tap_out p (lin_clear O s) t = Ok (n_zero O)).
Proof.
  intros C T K O p d m ops s Hs Hh.
  assert (Hw := history_winv K O p Hs d m ops s Hh).
  destruct (refine_clear O (mem_of s) (mem_inv O s Hw)) as [Hi' Hab].
  assert (HL : vlen (ld_memory (lin_clear O s)) = vlen (ld_memory s)).
  { unfold lin_clear, vlen; cbn [ld_memory]. rewrite map_length. reflexivity. }
  exists (vlen (ld_memory s) - 1). split; [apply (winv_get_max O p Hs), Hw|].
  split. { unfold lin_get_max_delay. rewrite HL. apply (winv_get_max O p Hs), Hw. }
  split; [reflexivity|]. split; [reflexivity|].
  intros t Ht.
  rewrite tap_out_mem, (tap_out_ext p _ (delay_clear O (mem_of s))) by reflexivity.
  rewrite (refine_tap_out O p Hs _ t Hi').
  - rewrite Hab. unfold line_clear; cbn [l_hist]. f_equal. apply nth_repeat.
  - unfold delay_clear, vlen in *; cbn [dl_memory mem_of]. rewrite map_length. lia.
Qed.
(*@PROP
Example C17_linear_clear_empties_line_hyps (a b : f32) :
  exists s, lin_history f32_ctl_f32 O32 Debug (fl32 3 (-1)) 7 (tap_ops a b) s /\ 1 <= n_size_of O32.
Proof. destruct (tap_ops_ok a b) as [s [H1 H2]]. exists s. split; [exact H1|]. repeat split; try assumption; easy. Qed.
@*)

(** Ideal lines that differ only in their phase. *)
Definition same_ilin {C T} (i j : ilin C T) : Prop :=
  l_hist (i_line i) = l_hist (i_line j) /\ l_lag (i_line i) = l_lag (i_line j)
  /\ l_delay (i_line i) = l_delay (i_line j) /\ l_last (i_line i) = l_last (i_line j)
  /\ i_new i = i_new j /\ i_old i = i_old j /\ i_delay i = i_delay j /\ i_peek i = i_peek j.

Section SameIlin.
  Context {C T : Type} (zero : T) (add mul : T -> T -> T) (ms : Z) (aim : nat -> nat -> C -> C * nat * T * T).
  Hypothesis Haim : forall n w w' d, aim n w d = aim n w' d.

  Lemma same_ilin_step i j op i' o : same_ilin i j -> (forall m, op <> DSetMaxDelay m) ->
    ilin_step zero add mul ms aim i op = Some (i', o) ->
    exists j', ilin_step zero add mul ms aim j op = Some (j', o) /\ same_ilin i' j'.
  Proof.
    destruct i as [[h1 f1 g1 d1 o1] n1 w1 e1 k1], j as [[h2 f2 g2 d2 o2] n2 w2 e2 k2].
    unfold same_ilin. cbn [i_line i_new i_old i_delay i_peek l_hist l_lag l_delay l_last].
    intros [-> [-> [-> [-> [-> [-> [-> ->]]]]]]] Hne E.
    destruct op; cbn [ilin_step i_line] in *; unfold ilin_process, ilin_next, ilin_aim, with_line, line_clear, line_put, slots in *;
      cbn [i_line i_new i_old i_delay i_peek l_hist l_lag l_delay l_last l_phase] in *;
      try (injection E as <- <-; eexists; split; [reflexivity|]; cbn; auto 10; fail).
    - rewrite (Haim _ f1 f2) in E. destruct (aim (length h2) f2 d) as [[[a b] c] e].
      injection E as <- <-. eexists. split; [reflexivity|]. cbn. auto 10.
    - exfalso. eapply Hne; reflexivity.
    - destruct (t <? _); [|discriminate]. injection E as <- <-. eexists; split; [reflexivity|]; cbn; auto 10.
    - destruct (t <? _); [|discriminate]. injection E as <- <-. eexists; split; [reflexivity|]; cbn; auto 10.
    - destruct (t <? _); [|discriminate]. injection E as <- <-. eexists; split; [reflexivity|]; cbn; auto 10.
  Qed.

  Lemma same_ilin_run ops : forall i j i' os, same_ilin i j -> Forall (fun op => forall m, op <> DSetMaxDelay m) ops ->
    ilin_run zero add mul ms aim i ops = Some (i', os) ->
    exists j', ilin_run zero add mul ms aim j ops = Some (j', os) /\ same_ilin i' j'.
  Proof.
    induction ops as [|op ops IH]; intros i j i' os HS Hf E; cbn [ilin_run] in *.
    - injection E as <- <-. eauto.
    - inversion Hf as [|? ? Hop Hrest]; subst.
      destruct (ilin_step zero add mul ms aim i op) as [[i1 o]|] eqn:E1; [|discriminate].
      destruct (ilin_run zero add mul ms aim i1 ops) as [[i2 os2]|] eqn:E2; [|discriminate].
      injection E as <- <-.
      destruct (same_ilin_step i j op i1 o HS Hop E1) as [j1 [F1 HS1]]. rewrite F1.
      destruct (IH i1 j1 i2 os2 HS1 Hrest E2) as [j2 [F2 HS2]]. rewrite F2. eauto.
  Qed.
End SameIlin.

(*@PROP
(** C17: in exact arithmetic a cleared line without a pending peek, not grown since
    its delay was set, behaves as a new one with the same settings, for every further
    sequence of calls that does not change the maximum. *)
@*)
Lemma C17_linear_clear_is_new_thm :
  forall (p : profile) (d : R) (m : Z) (ops ops' : list (dl_op R R)) (s : lin_delay R R) (mx : Z),
    lin_history R_ctl R_ops p d m ops s -> lin_trusted ops -> unpeeked ops ->
    lin_get_max_delay p s = Ok mx ->
    Forall op_usize_lin ops' -> Forall (fun op => forall m, op <> DSetMaxDelay m) ops' ->
    lin_use (max_slots R_ops) mx ops' ->
    exists s1 s2 os,
      lin_run R_ctl R_ops p (lin_clear R_ops s) ops' = Ok (s1, os)
      /\ lin_session R_ctl R_ops p (lin_get_delay s) mx ops' = Ok (s2, os).
Proof.
  intros p d m ops ops' s mx Hh Htr Hun Hmx Hu Hf Hn.
  assert (HA := aims_R (max_slots R_ops) R_slots64).
  assert (Hw := history_winv R_ctl R_ops p R_size d m ops s Hh).
  assert (HL := get_max_winv R_ops p R_size s mx Hw Hmx).
  assert (Hw2 := Hw). destruct Hw2 as [W1 W2]. pose proof (max_slots_lt R_ops R_size) as Hms.
  assert (Hctl : forall len w d, 1 <= len <= max_slots R_ops -> 0 <= w < len ->
    exists dt r a, ctl R_ctl len w d = Ok (dt, r, a) /\ 0 <= r < len).
  { intros len w d0 H1 H2. destruct (HA len w d0 H1 H2) as [dt [r [a [E [Hr _]]]]]. eauto 6. }
  destruct (history_hinv R_ctl R_ops p R_size (max_slots R_ops) Hctl d m ops s Hh) as [Hi [Hag Hnx]]; [lia|].
  specialize (Hag Htr). specialize (Hnx Hun).
  destruct Hag as [w0 [d0 [dt [r [a [Hw0 [Ec [Ed [Elag [Eal Eom]]]]]]]]]].
  destruct (ctl_R (vlen (ld_memory s)) w0 d0) as [r' [Ec' [Hr' Hlag]]]; [unfold two63, two64 in *; lia|exact Hw0|].
  cbv zeta in Ec', Hlag. set (c := clipR d0 (IZR (vlen (ld_memory s)) - 1)) in *.
  rewrite Ec in Ec'. injection Ec' as -> -> ->.
  destruct (refine_lclear R_ops (max_slots R_ops) s Hi) as [Hi' Hab].
  destruct (refine_lnew R_ctl R_ops p R_size (max_slots R_ops) _ (Z.le_refl _) HA (ld_delay s) mx) as [s0 [E0 [Hi0 Ha0]]]; [lia|lia|].
  assert (Hc : (0 <= c <= IZR mx)%R).
  { unfold c. rewrite HL, plus_IZR. replace (IZR mx + 1 - 1)%R with (IZR mx) by ring. apply clipR_range. apply IZR_le. lia. }
  assert (Hclip : clip_delay R_ctl (ld_delay s) mx = c).
  { rewrite R_clip by lia. rewrite Ed. apply clipR_id. exact Hc. }
  rewrite Hclip in Ha0.
  assert (HS : same_ilin (lin_abs (lin_clear R_ops s)) (lin_abs s0)).
  { rewrite Hab, Ha0. unfold same_ilin, with_line, ilin_new, ilin_aim, ideal_aim.
    assert (HSl : slots (line_new (n_zero R_ops) 0 (Z.to_nat mx)) = S (Z.to_nat mx)) by apply repeat_length.
    rewrite HSl.
    replace (Rmax 0 (Rmin c (INR (S (Z.to_nat mx)) - 1))) with c.
    2:{ rewrite S_INR, INR_IZR_INZ, Z2Nat.id by lia. replace (IZR mx + 1 - 1)%R with (IZR mx) by ring.
        symmetry. apply (clipR_id c (IZR mx) Hc). }
    cbn [i_line i_new i_old i_delay i_peek l_hist l_lag l_delay l_last line_clear line_new lin_abs].
    rewrite dl_abs_slots. unfold dl_abs. cbn [l_hist l_lag l_delay l_last dl_of dl_memory dl_write dl_read dl_delay].
    rewrite Elag, Hlag, Eal, Eom, Ed, Hnx. cbn [c_cast R_ctl n_sub n_one R_ops].
    replace (length (ld_memory s)) with (S (Z.to_nat mx)) by (unfold vlen in *; lia). repeat split; reflexivity. }
  destruct (lin_run_ok R_ctl R_ops p R_size (max_slots R_ops) _ (Z.le_refl _) HA (lin_clear R_ops s) ops' Hi' Hu) as [s1 [os [R1 [_ J1]]]].
  { replace (vlen (ld_memory (lin_clear R_ops s)) - 1) with mx; [exact Hn|].
    unfold lin_clear, vlen in *. cbn [ld_memory]. rewrite map_length. lia. }
  assert (HL0 : vlen (ld_memory s0) - 1 = mx).
  { assert (G := f_equal (fun i => slots (i_line i)) Ha0). cbn beta in G. rewrite lin_abs_slots in G.
    unfold vlen. rewrite G. unfold ilin_new, ilin_aim. destruct (ideal_aim _ _ _) as [[[? ?] ?] ?]. cbn [i_line].
    unfold slots. cbn [l_hist line_new]. rewrite repeat_length. lia. }
  destruct (lin_run_ok R_ctl R_ops p R_size (max_slots R_ops) _ (Z.le_refl _) HA s0 ops' Hi0 Hu) as [s2 [os2 [R2 [_ J2]]]].
  { rewrite HL0. exact Hn. }
  destruct (same_ilin_run _ _ _ _ ideal_aim (fun _ _ _ _ => eq_refl) ops' _ _ _ _ HS Hf J1) as [j [J3 _]].
  rewrite J2 in J3. injection J3 as _ ->.
  exists s1, s2, os. split; [exact R1|]. unfold lin_session, lin_get_delay. rewrite E0. exact R2.
Qed.
(*@PROP
Example C17_linear_clear_is_new_hyps (a b : R) :
  let ops := [DProcess a; DNextOut; DProcess b; DSetMaxDelay 6; DSetDelay (7 / 2)%R; DTapIn a 2] in
  let ops' := [DProcess a; DNextOut; DSetDelay b; DTapOut 6; DProcess b] in
  exists s, lin_history R_ctl R_ops Debug (5 / 2)%R 4 ops s /\ lin_trusted ops /\ unpeeked ops
    /\ lin_get_max_delay Debug s = Ok 6
    /\ Forall op_usize_lin ops' /\ Forall (fun op => forall m, op <> DSetMaxDelay m) ops'
    /\ lin_use (max_slots R_ops) 6 ops'.
Proof.
  intros ops ops'.
  destruct (C22_refines_ideal_thm Debug (5 / 2)%R 4 ops) as [s [os [_ [E _]]]].
  - easy.
  - discriminate.
  - repeat constructor; easy.
  - cbn. repeat split; discriminate.
  - assert (H : lin_history R_ctl R_ops Debug (5 / 2)%R 4 ops s).
    { split; [easy|]. split; [discriminate|]. split; [repeat constructor; easy|]. exists os. exact E. }
    exists s. split; [exact H|]. split; [reflexivity|]. split; [reflexivity|].
    split; [apply (history_max R_ctl R_ops Debug (5 / 2)%R 4 ops s ltac:(easy) H)|].
    split; [repeat constructor; easy|]. split; [repeat constructor; intros; discriminate|].
    cbn. repeat split; discriminate.
Qed.
@*)

(*@PROP
(** C18: a length whose buffer cannot be allocated panics in [new], in every profile. *)
@*)
Lemma C18_linear_new_too_large_thm :
  forall (C T : Type) (K : ctl_ops C T) (O : num_ops T) (p : profile) (d : C) (m : Z),
    is_usize m -> m <> usize_max -> ~ fits O m -> lin_new K O p d m = Panic.
Proof.
  intros C T K O p d m Hm Hne Hf. unfold lin_new, lin_new_fuel, is_usize, usize_max in *.
  unfold uadd. rewrite chk_usize_ok by lia. cbn [bind].
  unfold vec_repeat, alloc_ok. unfold fits in Hf.
  replace ((m + 1) * n_size_of O <=? isize_max) with false by lia. reflexivity.
Qed.
(*@PROP
Example C18_linear_new_too_large_hyps :
  is_usize (usize_max - 1) /\ usize_max - 1 <> usize_max /\ ~ fits O64 (usize_max - 1).
Proof. repeat split; easy. Qed.
@*)

(** After a completed session the maximum delay is the one computed from the calls. *)
Lemma history_max {C T} (K : ctl_ops C T) (O : num_ops T) (p : profile) (d : C) (m : Z) (ops : list (dl_op C T)) s :
  1 <= n_size_of O -> lin_history K O p d m ops s -> lin_get_max_delay p s = Ok (max_after m ops).
Proof.
  intros Hs Hh. destruct (LinInv.history_place K O p Hs d m ops s Hh) as [HL _].
  rewrite (winv_get_max O p Hs) by apply (history_winv K O p Hs d m ops s Hh). f_equal. lia.
Qed.
