(** Lemmas behind property C102.  The [@PROP] blocks are copied into
    [PropCmd.v]. *)
(*@PROP
(** Property C102: what a panicking call leaves behind.

    Vocabulary: [c_call]/[cl_call] are the calls of [Delay]/[LinearDelay] statement
    by statement ([CmdM]): they return the state left behind and how the call ended.
    [caught] runs calls on one object, catching every panic; [returned] keeps the
    calls that returned, with their results ([CmdSpec]). *)
From Coq Require Import ZArith List Bool.
From Verif Require Import Base Num NumF Witness Traits DelayM LinDelayM DelaySpec DelayRun LinSpec LinRun
  LinFloatSpec CmdM CmdSpec CmdLemmas.
Import ListNotations.
Open Scope Z_scope.
@*)
From Coq Require Import ZArith List Bool Lia.
From Flocq Require Import IEEE754.BinarySingleNaN.
From Verif Require Import Base BaseLemmas Traits Num NumR NumF FloatFacts DelayM LinDelayM DelaySpec DelayRun DelayProofs DelayFacts
  LinSpec LinRun LinProofs LinInv LinFacts LinFloatSpec LinCtlF LinLemmas CmdM CmdSpec CmdFacts Witness.
Import ListNotations.
Open Scope Z_scope.

(** C102: the statement-by-statement model and the model of the other theorems are
    the same program: a call that returns leaves the same state and value, and a
    call fails in one exactly when it fails in the other. *)
Lemma C102_same_program_thm :
  forall (C T : Type) (K : ctl_ops C T) (O : num_ops T) (p : profile),
    (forall op s, ends_as (dl_step O p s op) (c_call O p op s))
    /\ (forall op s, ends_as (lin_step K O p s op) (cl_call K O p op s))
    /\ (forall (S : Type) (P : S -> T -> outcome (S * T)) (process : T -> cmd S T),
          (forall x s, ends_as (P s x) (process x s)) ->
          forall s xs, ends_as (process_block P s xs) (c_block process s xs)).
Proof.
  intros C T K O p. split; [intros; apply c_call_agrees|]. split; [intros; apply cl_call_agrees|].
  intros S P process HP s xs. pose proof (c_block_agrees P process HP s xs) as A.
  destruct (process_block P s xs) as [[[s' ys] y]| |]; exact A.
Qed.

(** C102: on a [Delay], panics are harmless.  Whatever calls are made and whichever
    of them panic, the line is in the state, and the other calls returned the values,
    of the session without the panicking calls.  Only taps and length requests that
    cannot be allocated ever panic. *)
Lemma C102_delay_panics_are_harmless_thm :
  forall (T : Type) (O : num_ops T) (p : profile) (d m : Z) (ops : list (dl_op Z T))
         (s0 s : delay T) (rs : list (outcome (obs Z T))) (ks : list (dl_op Z T)) (vs : list (obs Z T)),
    1 <= n_size_of O -> is_usize d -> is_usize m -> m <> usize_max -> Forall op_sane ops ->
    delay_new O p d m = Ok s0 ->
    caught (c_call O p) s0 ops = (s, rs) -> returned ops rs = (ks, vs) ->
    dl_session O p d m ks = Ok (s, vs)
    /\ Forall2 (fun op r => r <> Hang /\ (r = Panic -> may_panic O op)) ops rs.
Proof.
  intros T O p d m ops s0 s rs ks vs Hs Hd Hm Hx Ha E0 E R.
  destruct (new_ok_inv O p Hs d m s0 Hd Hm Hx E0) as [_ [Hi _]].
  unfold dl_session. rewrite E0. cbn [bind]. exact (caught_delay O p Hs ops s0 s rs ks vs Hi Ha E R).
Qed.
(*@PROP
(** Two of the six calls panic (a tap and a length of 2^63 samples); the others go on. *)
Example C102_delay_panics_are_harmless_hyps (a b : f64) :
  exists s0 s,
    Forall op_sane [DProcess a; DTapIn b 9; DProcess b; DSetMaxDelay two63; DTapOut 1; DProcess a]
    /\ delay_new O64 Debug 1 3 = Ok s0
    /\ caught (c_call O64 Debug) s0
         [DProcess a; DTapIn b 9; DProcess b; DSetMaxDelay two63; DTapOut 1; DProcess a]
       = (s, [Ok (OSample (n_zero O64)); Panic; Ok (OSample a); Panic; Ok (OSample a); Ok (OSample b)]).
Proof.
  do 2 eexists. split; [repeat constructor; try easy; try discriminate|].
  split; [vm_compute; reflexivity|]. vm_compute. reflexivity.
Qed.
@*)

(** A session with two panics on [LinearDelay::new(d, 3)]. *)
Lemma lin_witness {T : Type} (cast : f32 -> T) (O : num_ops T) (d : f32) (b : T) :
  1 <= n_size_of O -> n_size_of O * 2 ^ 24 <= isize_max ->
  exists s0 s,
    lin_new (f32_ctl_gen cast) O Debug d 3 = Ok s0
    /\ caught (cl_call (f32_ctl_gen cast) O Debug) s0
         [DTapIn b 9; DTapIn b 1; DSetMaxDelay two63; DTapOut 1]
       = (s, [Panic; Ok ONone; Panic; Ok (OSample b)]).
Proof.
  intros Hs Hsz.
  destruct (C21_never_panics_thm T cast O Debug d 3 [] Hs Hsz) as [s0 [os E]];
    [easy|discriminate|constructor|exact I|].
  unfold lin_session in E. cbn [lin_run] in E. apply bind_Ok in E. destruct E as [s1 [E0 E]].
  exists s1. assert (Em : ld_memory s1 = [n_zero O; n_zero O; n_zero O; n_zero O] /\ ld_write s1 = 0).
  { clear E. unfold lin_new, lin_new_fuel in E0. cbn -[vec_repeat lin_set_delay_fuel clip_delay n_size_of] in E0.
    unfold vec_repeat in E0. destruct (alloc_ok _ _); [|discriminate]. cbn -[lin_set_delay_fuel clip_delay] in E0.
    unfold lin_set_delay_fuel in E0. apply bind_Ok in E0. destruct E0 as [k [_ E0]].
    apply bind_Ok in E0. destruct E0 as [r [_ E0]]. inversion E0. split; reflexivity. }
  clear E. destruct s1 as [mem out rd wr dd b0 nx al om]. cbn [ld_memory ld_write] in Em. destruct Em as [-> ->].
  exists (MkLin [n_zero O; n_zero O; b; n_zero O] out rd 0 dd b0 nx al om). split; [exact E0|].
  set (z := n_zero O) in *.
  set (L v := MkLin [z; z; v; z] out rd 0 dd b0 nx al om).
  assert (H1 : cl_call (f32_ctl_gen cast) O Debug (DTapIn b 9) (L z) = (L z, Panic)) by reflexivity.
  assert (H2 : cl_call (f32_ctl_gen cast) O Debug (DTapIn b 1) (L z) = (L b, Ok ONone)) by reflexivity.
  assert (H4 : cl_call (f32_ctl_gen cast) O Debug (DTapOut 1) (L b) = (L b, Ok (OSample b)))
    by reflexivity.
  assert (H3 : cl_call (f32_ctl_gen cast) O Debug (DSetMaxDelay two63) (L b) = (L b, Panic)).
  { assert (V : vec_resize (n_size_of O) [z; z; b; z] (two63 + 1) z = Panic).
    { unfold vec_resize. change (two63 + 1 <=? vlen [z; z; b; z]) with false. cbv iota.
      destruct (alloc_ok (n_size_of O) (two63 + 1)) eqn:A; [|reflexivity]. exfalso.
      unfold alloc_ok in A. apply Z.leb_le in A. unfold isize_max in A.
      assert (0 < two63) by reflexivity. nia. }
    assert (B : forall s : lin_delay f32 T, ld_memory s = [z; z; b; z] ->
                cl_set_max_delay O Debug two63 s = (s, Panic)).
    { intros s Es. unfold cl_set_max_delay, andthen, eval, assign. rewrite Es.
      change (two63 <? vlen [z; z; b; z]) with false. cbv iota.
      change (uadd Debug two63 1) with (Ok (two63 + 1)). cbn [bind]. rewrite Es. fold z. rewrite V. reflexivity. }
    cbn [cl_call]. unfold andthen. rewrite (B (L b) eq_refl). reflexivity. }
  change (MkLin [z; z; z; z] out rd 0 dd b0 nx al om) with (L z).
  change (MkLin [z; z; b; z] out rd 0 dd b0 nx al om) with (L b).
  cbn [caught]. rewrite H1, H2, H3, H4. reflexivity.
Qed.

(** C102: the same for a [LinearDelay] that never has more than 2^24 slots. *)
Lemma C102_linear_delay_panics_are_harmless_thm :
  forall (T : Type) (cast : f32 -> T) (O : num_ops T) (p : profile) (d : f32) (m : Z)
         (ops : list (dl_op f32 T)) (s0 s : lin_delay f32 T) (rs : list (outcome (obs f32 T)))
         (ks : list (dl_op f32 T)) (vs : list (obs f32 T)),
    1 <= n_size_of O -> n_size_of O * 2 ^ 24 <= isize_max ->
    is_usize m -> short (2 ^ 24) m -> Forall (modest O (2 ^ 24)) ops ->
    lin_new (f32_ctl_gen cast) O p d m = Ok s0 ->
    caught (cl_call (f32_ctl_gen cast) O p) s0 ops = (s, rs) -> returned ops rs = (ks, vs) ->
    lin_session (f32_ctl_gen cast) O p d m ks = Ok (s, vs)
    /\ Forall2 (fun op r => r <> Hang /\ (r = Panic -> may_panic O op)) ops rs.
Proof.
  intros T cast O p d m ops s0 s rs ks vs Hs Hsz Hm Hsh Ha E0 E R. unfold is_usize in Hm. unfold short in Hsh.
  assert (Hlim : 2 ^ 24 <= max_slots O).
  { unfold max_slots. apply Z.div_le_lower_bound; lia. }
  assert (HA := aims_ctl (f32_ctl_gen cast) O (2 ^ 24) (ctl_f32_range cast)).
  destruct (refine_lnew (f32_ctl_gen cast) O p Hs (2 ^ 24) _ Hlim HA d m) as [s1 [E1 [Hi Ha0]]]; [lia|lia|].
  rewrite E0 in E1. inversion E1; subst s1.
  unfold lin_session. rewrite E0. cbn [bind].
  exact (caught_lin (f32_ctl_gen cast) O p Hs (2 ^ 24) _ Hlim HA ops s0 s rs ks vs Hi Ha E R).
Qed.
(*@PROP
Example C102_linear_delay_panics_are_harmless_hyps (b : f64) :
  exists s0 s,
    Forall (modest (C:=f32) O64 (2 ^ 24)) [DTapIn b 9; DTapIn b 1; DSetMaxDelay two63; DTapOut 1]
    /\ short (2 ^ 24) 3
    /\ lin_new f32_ctl_f64 O64 Debug (fl32 1 0) 3 = Ok s0
    /\ caught (cl_call f32_ctl_f64 O64 Debug) s0
         [DTapIn b 9; DTapIn b 1; DSetMaxDelay two63; DTapOut 1]
       = (s, [Panic; Ok ONone; Panic; Ok (OSample b)]).
Proof.
  destruct (lin_witness (f_conv 24 128 53 1024) O64 (fl32 1 0) b) as (s0 & s & E0 & E);
    [discriminate|discriminate|].
  exists s0, s. split.
  { constructor; [|constructor; [|constructor; [|constructor; [|constructor]]]];
      (split; [split; [easy|discriminate]|]); try exact I. right. intros H; exact (H eq_refl). }
  split; [discriminate|]. split; [exact E0|exact E].
Qed.
@*)

(** C102: a panic inside [process_block], for any processor: either the slice was
    empty and nothing changed, or the samples before the panicking one were
    processed and replaced, the panicking sample and those behind it are as they
    were, and the processor is as the panicking call left it. *)
Lemma C102_block_panic_thm :
  forall (S T : Type) (process : T -> cmd S T) (s s' : S) (samples ys : list T),
    c_block process s samples = (s', ys, Panic) ->
    (samples = [] /\ ys = [] /\ s' = s)
    \/ exists done x rest outs s1,
         samples = done ++ x :: rest /\ ys = outs ++ x :: rest
         /\ caught process s done = (s1, map Ok outs) /\ process x s1 = (s', Panic).
Proof.
  intros S T process s s' samples ys E. unfold c_block in E.
  destruct (c_each process s samples) as [[s1 zs] [u| |]] eqn:EC.
  - left. destruct (c_each_ok process samples s s1 zs u EC) as [HL HN].
    destruct zs as [|z zs]; [|discriminate]. destruct samples; [|discriminate].
    inversion E; subst. rewrite HN by reflexivity. auto.
  - right. inversion E; subst. exact (c_each_panic process samples s s' ys EC).
  - discriminate.
Qed.
(*@PROP
Example C102_block_panic_hyps (a b : f64) (s : delay f64) :
  snd (c_block (c_process Debug) s []) = Panic
  /\ fst (c_block (c_process Debug) (MkDelay [a] b 1 0 0) [b]) = (MkDelay [b] b 1 0 0, [b]).
Proof. split; vm_compute; reflexivity. Qed.
@*)

(** C102, the exception for [Delay]: in release builds [set_max_delay(usize::MAX)]
    empties the line and leaves its positions behind.  After [set_max_delay(1)] every
    [process] panics, and every panicking [process] has stored its sample and moved
    the write position. *)
Lemma C102_panics_are_harmless_refuted_thm :
  forall (T : Type) (O : num_ops T) (x y : T),
    1 <= n_size_of O -> 4 * n_size_of O <= isize_max ->
    exists s0 s,
      delay_new O Release 1 3 = Ok s0
      /\ caught (c_call O Release) s0
           [DSetMaxDelay usize_max; DSetMaxDelay 1; DProcess x; DTapOut 0; DProcess y; DTapOut 0; DTapOut 1]
         = (s, [Ok ONone; Ok ONone; Panic; Ok (OSample x); Panic; Ok (OSample y); Ok (OSample x)]).
Proof.
  intros T O x y Hs H4.
  exists (MkDelay [n_zero O; n_zero O; n_zero O; n_zero O] (n_zero O) 3 0 1).
  exists (MkDelay [x; y] (n_zero O) 3 0 1).
  split.
  - unfold delay_new. cbn -[vec_repeat alloc_ok]. unfold vec_repeat, alloc_ok.
    destruct (Z.leb_spec (4 * n_size_of O) isize_max); [|lia]. reflexivity.
  - cbn [caught c_call]. unfold c_set_max_delay, andthen, assign, eval.
    change (let* n := uadd Release usize_max 1 in ?k n) with (k 0).
    assert (U0 : uadd Release usize_max 1 = Ok 0) by reflexivity.
    assert (U1 : uadd Release 1 1 = Ok 2) by reflexivity.
    cbn -[uadd vec_resize usize_max c_process delay_tap_out].
    change (usize_max <? 4) with false. cbn -[uadd vec_resize usize_max c_process delay_tap_out].
    rewrite U0. cbn -[uadd usize_max c_process alloc_ok delay_tap_out]. rewrite U1. cbn -[c_process alloc_ok delay_tap_out].
    unfold alloc_ok. destruct (Z.leb_spec (2 * n_size_of O) isize_max); [|lia].
    reflexivity.
Qed.
(*@PROP
Example C102_panics_are_harmless_refuted_hyps : 1 <= n_size_of O64 /\ 4 * n_size_of O64 <= isize_max.
Proof. split; discriminate. Qed.
@*)

(** A history whose next [process] panics. *)
Lemma long_line_witness (T : Type) (cast : f32 -> T) (O : num_ops T) (p : profile) (d : f32) (m : Z) (x : T) :
    1 <= n_size_of O -> n_size_of O * 2 ^ 25 <= isize_max ->
    m = 2 ^ 24 + 2 -> d = f_of_Z 24 128 1 ->
    exists s0 s, lin_new (f32_ctl_gen cast) O p d m = Ok s0
      /\ lin_history (f32_ctl_gen cast) O p d m [] s0
      /\ cl_call (f32_ctl_gen cast) O p (DProcess x) s0 = (s, Panic).
Proof.
  intros Hs Hsz Hm Hd.
  destruct (C21_long_line_panics_refuted_thm T cast O p d m Hs Hsz Hm Hd) as [s0 [E0 [_ EP]]].
  assert (Hh : lin_history (f32_ctl_gen cast) O p d m [] s0).
  { split; [unfold is_usize; rewrite Hm; split; [discriminate|reflexivity]|].
    split; [rewrite Hm; discriminate|]. split; [constructor|].
    exists []. unfold lin_session. rewrite E0. reflexivity. }
  pose proof (cl_call_agrees (f32_ctl_gen cast) O p (DProcess x) s0) as A.
  cbn [lin_step] in A. rewrite EP in A. cbn [bind ends_as] in A.
  destruct (cl_call (f32_ctl_gen cast) O p (DProcess x) s0) as [s r] eqn:E. cbn [snd] in A. subst r.
  exists s0, s. split; [exact E0|]. split; [exact Hh|exact E].
Qed.

(** C102: in every [LinearDelay] history, a [process] that panics has stored its
    sample: [tap_out(0)] shows it. *)
Lemma C102_panicking_process_stores_thm :
  forall (C T : Type) (K : ctl_ops C T) (O : num_ops T) (p : profile) (d : C) (m : Z)
         (ops : list (dl_op C T)) (s s' : lin_delay C T) (x : T),
    1 <= n_size_of O -> lin_history K O p d m ops s ->
    cl_call K O p (DProcess x) s = (s', Panic) ->
    lin_tap_out p s' 0 = Ok x /\ lin_get_max_delay p s' = lin_get_max_delay p s.
Proof.
  intros C T K O p d m ops s s' x Hs Hh E. pose proof (history_winv K O p Hs d m ops s Hh) as [Hl Hw].
  pose proof (max_slots_lt O Hs) as Hms.
  assert (Key : ld_memory s' = list_set (ld_memory s) (Z.to_nat (ld_write s)) x
                /\ ld_write s' = (ld_write s + 1) mod vlen (ld_memory s)).
  { cbn [cl_call] in E. unfold cl_process in E. unfold andthen, assign in E.
    rewrite vset_ok in E by lia. cbn -[uadd urem cl_next_out] in E. unfold uadd at 1 in E.
    rewrite chk_usize_ok in E by (unfold two63, two64 in *; lia). cbn -[uadd urem cl_next_out] in E.
    rewrite list_set_vlen, urem_ok in E by lia.
    set (s1 := lput_write _ ((ld_write s + 1) mod vlen (ld_memory s))) in E.
    destruct (cl_next_out O p s1) as [s2 r] eqn:EN.
    assert (K2 : ld_memory s2 = ld_memory s1 /\ ld_write s2 = ld_write s1).
    { exact (cl_next_frame O p s1 s2 r EN). }
    assert (K3 : ld_memory s' = ld_memory s2 /\ ld_write s' = ld_write s2).
    { destruct r as [y| |]; [|inversion E; auto|inversion E; auto].
      cbn -[uadd urem] in E. destruct (uadd _ _ _); cbn -[urem] in E; [|inversion E; auto|inversion E; auto].
      destruct (urem _ _); cbn in E; inversion E; auto. }
    destruct K2 as [M2 W2]. destruct K3 as [M3 W3]. rewrite M3, W3, M2, W2. split; reflexivity. }
  destruct Key as [Em Ew]. split; [|unfold lin_get_max_delay; rewrite Em, list_set_vlen; reflexivity].
  unfold lin_tap_out. rewrite Em, Ew, list_set_vlen.
  rewrite tap_index_ok by (try apply Z.mod_pos_bound; lia). cbn [bind].
  replace (Z.of_nat (slot_of (Z.to_nat (vlen (ld_memory s))) (Z.to_nat ((ld_write s + 1) mod vlen (ld_memory s))) (Z.to_nat 0)))
    with (ld_write s).
  - rewrite (vget_nth _ _ x) by (rewrite list_set_vlen; lia). f_equal.
    apply nth_list_set_eq. unfold vlen in *. lia.
  - rewrite succ_mod by lia. unfold slot_of.
    destruct (Z.eqb_spec (ld_write s + 1) (vlen (ld_memory s))); match goal with |- context [(?a <? ?b)%nat] => destruct (Nat.ltb_spec a b) end; lia.
Qed.

(*@PROP
Example C102_panicking_process_stores_hyps (x : f32) :
  exists s s', lin_history f32_ctl_f32 O32 Debug (f_of_Z 24 128 1) (2 ^ 24 + 2) [] s
    /\ cl_call f32_ctl_f32 O32 Debug (DProcess x) s = (s', Panic).
Proof.
  destruct (long_line_witness f32 (fun x => x) O32 Debug (f_of_Z 24 128 1) (2 ^ 24 + 2) x)
    as (s & s' & _ & H1 & H2); [discriminate|discriminate|reflexivity|reflexivity|].
  exists s, s'. split; [exact H1|exact H2].
Qed.
@*)

(** C102, the exception for [LinearDelay]: such panics exist.  On a line of 2^24 + 3
    slots every first [process] panics (theorem C21) and leaves its sample in the
    line. *)
Lemma C102_long_line_refuted_thm :
  forall (T : Type) (cast : f32 -> T) (O : num_ops T) (p : profile) (d : f32) (m : Z) (x : T),
    1 <= n_size_of O -> n_size_of O * 2 ^ 25 <= isize_max ->
    m = 2 ^ 24 + 2 -> d = f_of_Z 24 128 1 ->
    exists s0 s,
      lin_new (f32_ctl_gen cast) O p d m = Ok s0
      /\ caught (cl_call (f32_ctl_gen cast) O p) s0 [DProcess x; DTapOut 0]
         = (s, [Panic; Ok (OSample x)]).
Proof.
  intros T cast O p d m x Hs Hsz Hm Hd.
  destruct (long_line_witness T cast O p d m x Hs Hsz Hm Hd) as (s0 & s & E0 & Hh & E).
  destruct (C102_panicking_process_stores_thm _ _ _ _ _ _ _ _ _ _ _ Hs Hh E) as [Ht _].
  exists s0, s. split; [exact E0|]. cbn [caught]. rewrite E. cbn [cl_call]. unfold eval. rewrite Ht. reflexivity.
Qed.
(*@PROP
Example C102_long_line_refuted_hyps : 1 <= n_size_of O32 /\ n_size_of O32 * 2 ^ 25 <= isize_max.
Proof. split; discriminate. Qed.
@*)
