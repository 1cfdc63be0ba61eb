(** Properties C57-C63, C72, C73: windows.

    Vocabulary ([WinSpec]): [nexts O k p it m] makes [m] calls of [next] on the
    iterator [it] of kind [k]; [yields O k p n i g] says that the iterator made by
    [new(n)] yields [g] as sample number [i]; [R_ops] is exact arithmetic. *)
From Coq Require Import ZArith Reals List Bool Lra Lia.
From Verif Require Import Base Num NumR NumF Witness WindowM WinSpec WinLemmas.
Import ListNotations.
Open Scope R_scope.

(** C57: whatever the arithmetic, the build profile and the size [n], [m] calls of
    [next] on a new iterator complete, and the i-th (from 0) yields a sample
    exactly when i < n. *)
Theorem C57_count :
  forall (T : Type) (O : num_ops T) (k : win_kind) (p : profile) (n : Z) (m : nat),
    is_size n ->
    exists it rs, nexts O k p (win_new k n) m = Ok (it, rs) /\ length rs = m
      /\ forall i r, nth_error rs i = Some r -> (r <> None <-> (Z.of_nat i < n)%Z).
Proof. exact C57_count_thm. Qed.
Print Assumptions C57_count.

(** C57: the i-th sample depends only on the kind of window, i and n: not on the
    build profile, nor on how many samples are drawn. *)
Theorem C57_same_samples :
  forall (T : Type) (O : num_ops T) (k : win_kind) (p p' : profile) (n : Z) (i m : nat) (g : T)
         (it : win_iter) (rs : list (option T)),
    is_size n -> yields O k p n i g ->
    nexts O k p' (win_new k n) m = Ok (it, rs) -> (i < m)%nat ->
    nth_error rs i = Some (Some g).
Proof. exact C57_same_samples_thm. Qed.
Print Assumptions C57_same_samples.

Example C57_hyps : is_size 0 /\ is_size 1 /\ is_size usize_max
  /\ exists g, yields O32 WTriangular Debug 4 1 g.
Proof.
  unfold is_size, usize_max. repeat split; try (vm_compute; discriminate).
  eexists. eexists. eexists. split; reflexivity.
Qed.

(** C58: after any number of calls of [next], [len()] is still [n]; so it is the
    number of samples still to come ([rs']) only if none has been yielded yet. *)
Theorem C58_len :
  forall (T : Type) (O : num_ops T) (k : win_kind) (p : profile) (n : Z) (m m' : nat)
         (it it' : win_iter) (rs rs' : list (option T)),
    is_size n ->
    nexts O k p (win_new k n) m = Ok (it, rs) ->
    nexts O k p it m' = Ok (it', rs') -> (n <= Z.of_nat m')%Z ->
    win_len k it = n
    /\ (yielded rs + yielded rs' = n)%Z
    /\ (win_len k it = yielded rs' <-> yielded rs = 0%Z).
Proof. exact C58_len_thm. Qed.
Print Assumptions C58_len.

(** C58: the contract of [ExactSizeIterator] (len() is the number of samples to
    come) fails after the first sample, for every non-empty window. *)
Theorem C58_exact_size_refuted :
  forall (T : Type) (O : num_ops T) (k : win_kind) (p : profile) (n : Z),
    is_size n -> (1 <= n)%Z ->
    exists it g, win_next O k p (win_new k n) = Ok (it, Some g)
      /\ forall m' it' rs', (n <= Z.of_nat m')%Z -> nexts O k p it m' = Ok (it', rs') ->
         win_len k it <> yielded rs'.
Proof. exact C58_exact_size_refuted_thm. Qed.
Print Assumptions C58_exact_size_refuted.

(** C59: [apply_window] never panics and keeps the length of the slice; [Rectangular]
    leaves it alone, every other window replaces sample [x] number i by [g * x],
    [g] being sample i of the window of the slice's size. *)
Theorem C59_apply_window :
  forall (T : Type) (O : num_ops T) (p : profile) (samples : list T) (w : window),
    is_size (vlen samples) ->
    exists samples', apply_window O p samples w = Ok samples' /\ length samples' = length samples
      /\ match window_iter w with
         | None => samples' = samples
         | Some k => forall i x, nth_error samples i = Some x ->
             exists g, yields O k p (vlen samples) i g /\ nth_error samples' i = Some (n_mul O g x)
         end.
Proof. exact C59_apply_window_thm. Qed.
Print Assumptions C59_apply_window.

Example C59_hyps : is_size (vlen [fl32 1 0; fl32 3 (-1); fl32 (-2) 0]).
Proof. split; discriminate. Qed.

(** C72: in exact arithmetic, from the smallest size for which it is defined, every
    window is the textbook one. *)
Theorem C72_textbook :
  forall (k : win_kind) (p : profile) (n : Z) (i : nat) (g : R),
    (min_size k <= n <= usize_max)%Z -> yields R_ops k p n i g ->
    g = textbook k (IZR n) (INR i).
Proof. exact C72_textbook_thm. Qed.
Print Assumptions C72_textbook.

Example C72_hyps : (min_size WBlackman <= 512 <= usize_max)%Z /\ exists g, yields R_ops WBlackman Debug 512 1 g.
Proof.
  split; [vm_compute; split; discriminate|]. eexists. eexists. eexists. split; reflexivity.
Qed.

(** C60: windows are symmetric: samples i and n-1-i are equal. *)
Theorem C60_symmetric :
  forall (k : win_kind) (p : profile) (n : Z) (i i' : nat) (g g' : R),
    (min_size k <= n <= usize_max)%Z ->
    yields R_ops k p n i g -> yields R_ops k p n i' g' -> (Z.of_nat i + Z.of_nat i' = n - 1)%Z ->
    g = g'.
Proof. exact C60_symmetric_thm. Qed.
Print Assumptions C60_symmetric.

(** C61: every sample is in [0, 1]; the ends are as documented; the middle of an
    odd-sized window is 1. *)
Theorem C61_range :
  forall (k : win_kind) (p : profile) (n : Z) (i : nat) (g : R),
    (min_size k <= n <= usize_max)%Z -> yields R_ops k p n i g ->
    0 <= g <= 1
    /\ (i = 0%nat \/ (Z.of_nat i = n - 1)%Z -> g = end_value k (IZR n))
    /\ ((2 * Z.of_nat i = n - 1)%Z -> g = 1).
Proof. exact C61_range_thm. Qed.
Print Assumptions C61_range.

(** C62: each window rises, strictly, up to its middle. *)
Theorem C62_rising :
  forall (k : win_kind) (p : profile) (n : Z) (i : nat) (g g' : R),
    (min_size k <= n <= usize_max)%Z ->
    yields R_ops k p n i g -> yields R_ops k p n (i + 1) g' -> (2 * Z.of_nat (i + 1) <= n - 1)%Z ->
    g < g'.
Proof. exact C62_rising_thm. Qed.
Print Assumptions C62_rising.

Example C60_C62_hyps :
  (min_size WHann <= 6 <= usize_max)%Z
  /\ (exists g, yields R_ops WHann Debug 6 1 g) /\ (exists g, yields R_ops WHann Debug 6 (1 + 1) g)
  /\ (exists g, yields R_ops WHann Debug 6 4 g) /\ (2 * Z.of_nat (1 + 1) <= 6 - 1)%Z /\ (Z.of_nat 1 + Z.of_nat 4 = 6 - 1)%Z.
Proof.
  split; [vm_compute; split; discriminate|].
  repeat split; try discriminate; eexists; eexists; eexists; split; reflexivity.
Qed.

(** C63: with 50% overlap, Triangular (even size 2h, hop h) and Bartlett and Hann (odd
    size 2h+1, hop h) sum to exactly 1, Hamming (odd size) to 1.08. *)
Theorem C63_overlap :
  forall (p : profile) (h i : nat) (g g' : R),
    (1 <= h)%nat -> (2 * Z.of_nat h + 1 <= usize_max)%Z ->
    let even := (2 * Z.of_nat h)%Z in let odd := (2 * Z.of_nat h + 1)%Z in
    (yields R_ops WTriangular p even i g -> yields R_ops WTriangular p even (i + h) g' -> g + g' = 1)
    /\ (yields R_ops WBartlett p odd i g -> yields R_ops WBartlett p odd (i + h) g' -> g + g' = 1)
    /\ (yields R_ops WHann p odd i g -> yields R_ops WHann p odd (i + h) g' -> g + g' = 1)
    /\ (yields R_ops WHamming p odd i g -> yields R_ops WHamming p odd (i + h) g' -> g + g' = 1.08).
Proof. exact C63_overlap_thm. Qed.
Print Assumptions C63_overlap.

Example C63_overlap_hyps :
  (exists g, yields R_ops WTriangular Debug (2 * Z.of_nat 4) 1 g)
  /\ (exists g, yields R_ops WTriangular Debug (2 * Z.of_nat 4) (1 + 4) g)
  /\ (exists g, yields R_ops WHann Debug (2 * Z.of_nat 4 + 1) 1 g)
  /\ (exists g, yields R_ops WHann Debug (2 * Z.of_nat 4 + 1) (1 + 4) g).
Proof. repeat split; eexists; eexists; eexists; split; reflexivity. Qed.

(** C63: the source note says that 50%-overlapped Bartlett, Hann and Hamming windows
    sum to 1.  For Bartlett and Hann of every even size 2h, overlapped by h, the first
    sum differs from 1; for Hamming of every odd size 2h+1, overlapped by h, every
    sum does. *)
Theorem C63_note_refuted :
  forall (p : profile) (k : win_kind) (h i : nat) (g g' : R),
    (1 <= h)%nat -> (2 * Z.of_nat h + 1 <= usize_max)%Z ->
    let even := (2 * Z.of_nat h)%Z in let odd := (2 * Z.of_nat h + 1)%Z in
    (k = WBartlett \/ k = WHann ->
     yields R_ops k p even 0 g -> yields R_ops k p even h g' -> g + g' <> 1)
    /\ (yields R_ops WHamming p odd i g -> yields R_ops WHamming p odd (i + h) g' -> g + g' <> 1).
Proof. exact C63_note_refuted_thm. Qed.
Print Assumptions C63_note_refuted.

Example C63_note_refuted_hyps :
  (exists g, yields R_ops WHann Debug (2 * Z.of_nat 4) 0 g)
  /\ (exists g, yields R_ops WHann Debug (2 * Z.of_nat 4) 4 g)
  /\ (exists g, yields R_ops WHamming Debug (2 * Z.of_nat 4 + 1) 2 g)
  /\ (exists g, yields R_ops WHamming Debug (2 * Z.of_nat 4 + 1) (2 + 4) g).
Proof. repeat split; eexists; eexists; eexists; split; reflexivity. Qed.

(** C73: overlap-add: for a window of m*h + 1 samples moved by hops of h samples, the
    sum of the m overlapping samples is the constant m times the mean of the
    window, for Hann and Hamming (m >= 2), Blackman (m >= 3) and Blackman-Harris
    (m >= 4). *)
Theorem C73_overlap_add :
  forall (k : win_kind) (p : profile) (m h i : nat) (g : nat -> R),
    k <> WTriangular -> k <> WBartlett -> (1 <= h)%nat -> (terms k < m)%nat ->
    let n := (Z.of_nat m * Z.of_nat h + 1)%Z in
    (n <= usize_max)%Z ->
    (forall j, (j < m)%nat -> yields R_ops k p n (i + j * h) (g j)) ->
    total g m = INR m * mean k.
Proof. exact C73_overlap_add_thm. Qed.
Print Assumptions C73_overlap_add.

(* Blackman, 13 samples, hop 4 *)
Example C73_overlap_add_hyps :
  exists g, forall j, (j < 3)%nat -> yields R_ops WBlackman Release (Z.of_nat 3 * Z.of_nat 4 + 1) (2 + j * 4) (g j).
Proof.
  exists (fun j => match nexts R_ops WBlackman Release (win_new WBlackman 13) (2 + j * 4 + 1) with
                   | Ok (_, rs) => match nth_error rs (2 + j * 4) with Some (Some g) => g | _ => 0 end | _ => 0 end).
  intros j Hj. destruct j as [|[|[|j]]]; [| | |lia]; eexists; eexists; split; reflexivity.
Qed.
