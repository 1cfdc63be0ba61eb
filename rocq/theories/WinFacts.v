(** Facts behind the window properties. *)
From Coq Require Import ZArith Reals List Bool Lra Lia.
From Verif Require Import Base Num NumR WindowM WinSpec.
Import ListNotations.

Section Gen.
  Context {T : Type} (O : num_ops T).
  Local Notation one := (n_one O).
  Local Notation two := (n_two O).
  Local Notation pi := (n_pi O).
  Local Infix "+" := (n_add O).
  Local Infix "-" := (n_sub O).
  Local Infix "*" := (n_mul O).
  Local Infix "/" := (n_div O).

  (** Sample [j] of window [k] of size [n], without the outcome. *)
  Definition win_val (k : win_kind) (n j : Z) : T :=
    let i := n_of_usize O j in
    let N := n_of_usize O n in
    let M := n_of_usize O (n - 1)%Z in
    match k with
    | WTriangular => one - n_abs O ((i - M / two) / (N / two))
    | WBartlett => one - n_abs O ((i - M / two) / (M / two))
    | WHann => n_of_f64 O (F64lit 5 10) * (one - n_cos O (two * pi * i / M))
    | WHamming => n_of_f64 O (F64lit 54 100)
                  - (one - n_of_f64 O (F64lit 54 100)) * n_cos O (two * pi * i / M)
    | WBlackman =>
        n_of_f64 O (F64div (F64sub (F64lit 1 1) (F64lit 16 100)) (F64lit 2 1))
        - n_of_f64 O (F64lit 5 10) * n_cos O (two * pi * i / M)
        + n_of_f64 O (F64div (F64lit 16 100) (F64lit 2 1)) * n_cos O (two * (two * pi * i / M))
    | WBlackmanHarris =>
        n_of_f64 O (F64lit 35875 100000) - n_of_f64 O (F64lit 48829 100000) * n_cos O (two * pi * i / M)
        + n_of_f64 O (F64lit 14128 100000) * n_cos O (two * (two * pi * i / M))
        - n_of_f64 O (F64lit 1168 100000) * n_cos O (n_of_f64 O (F64lit 3 1) * (two * pi * i / M))
    end.

  Lemma chk_ok p z : (0 <= z < two64)%Z -> chk_usize p z = Ok z.
  Proof.
    intros H. unfold chk_usize. replace (0 <=? z)%Z with true by lia. replace (z <? two64)%Z with true by lia.
    reflexivity.
  Qed.

  Lemma generate_ok k p j n : (1 <= n <= usize_max)%Z -> win_generate O k p (WinIter j n) = Ok (win_val k n j).
  Proof.
    intros H. unfold usize_max in H.
    assert (E : usub p n 1 = Ok (n - 1)%Z) by (apply chk_ok; lia).
    destruct k; cbn [win_generate wi_index wi_size];
      unfold triangular_gen, bartlett_gen, hann_gen, hamming_gen, blackman_gen, blackman_harris_gen;
      rewrite E; reflexivity.
  Qed.

  Lemma next_lt k p j n : (0 <= j < n)%Z -> (n <= usize_max)%Z ->
    win_next O k p (WinIter j n) = Ok (WinIter (j + 1) n, Some (win_val k n j)).
  Proof.
    intros H Hn. unfold win_next. cbn [wi_index wi_size]. replace (j <? n)%Z with true by lia.
    rewrite generate_ok by lia. unfold uadd. unfold usize_max in Hn.
    cbn [bind]. rewrite chk_ok by lia. reflexivity.
  Qed.
  Lemma next_ge k p j n : (n <= j)%Z -> win_next O k p (WinIter j n) = Ok (WinIter j n, None).
  Proof. intros H. unfold win_next. cbn [wi_index wi_size]. replace (j <? n)%Z with false by lia. reflexivity. Qed.

  Definition item k n (j : Z) : option T := if (j <? n)%Z then Some (win_val k n j) else None.

  Lemma nexts_eq k p n m : (n <= usize_max)%Z -> forall j, (0 <= j)%Z -> (j <= n \/ n < 0)%Z ->
    nexts O k p (WinIter j n) m
    = Ok (WinIter (Z.max j (Z.min n (j + Z.of_nat m))) n,
          map (fun t => item k n (j + Z.of_nat t)) (seq 0 m)).
  Proof.
    intros Hn. induction m as [|m IH]; intros j Hj Hjn.
    - cbn. do 2 f_equal. f_equal. lia.
    - cbn [nexts seq map]. destruct (Z.ltb_spec j n) as [H|H].
      + rewrite next_lt by lia. cbn [bind]. rewrite IH by lia. cbn [bind]. do 2 f_equal; [f_equal; lia|].
        f_equal.
        * unfold item. rewrite Z.add_0_r. replace (j <? n)%Z with true by lia. reflexivity.
        * rewrite <- seq_shift, map_map. apply map_ext. intros t. f_equal. lia.
      + rewrite next_ge by lia. cbn [bind]. rewrite IH by lia. cbn [bind]. do 2 f_equal; [f_equal; lia|].
        f_equal.
        * unfold item. rewrite Z.add_0_r. replace (j <? n)%Z with false by lia. reflexivity.
        * rewrite <- seq_shift, map_map. apply map_ext. intros t. unfold item.
          rewrite (proj2 (Z.ltb_ge (j + Z.of_nat t) n)), (proj2 (Z.ltb_ge (j + Z.of_nat (S t)) n)) by lia. reflexivity.
  Qed.

  Lemma nexts_new k p n m : is_size n ->
    nexts O k p (win_new k n) m
    = Ok (WinIter (Z.min n (Z.of_nat m)) n, map (fun t => item k n (Z.of_nat t)) (seq 0 m)).
  Proof.
    intros [H1 H2]. unfold win_new. rewrite nexts_eq by lia. do 2 f_equal. f_equal. lia.
  Qed.

  Lemma nth_items k n m i : (i < m)%nat ->
    nth_error (map (fun t => item k n (Z.of_nat t)) (seq 0 m)) i = Some (item k n (Z.of_nat i)).
  Proof.
    intros H. rewrite nth_error_map. rewrite (nth_error_nth' _ 0%nat) by (rewrite seq_length; exact H).
    cbn. rewrite seq_nth by exact H. reflexivity.
  Qed.

  Lemma yields_iff k p n i g : is_size n ->
    yields O k p n i g <-> (Z.of_nat i < n)%Z /\ g = win_val k n (Z.of_nat i).
  Proof.
    intros H. unfold yields. split.
    - intros [it [rs [E1 E2]]]. rewrite nexts_new in E1 by exact H. injection E1 as <- <-.
      rewrite nth_items in E2 by lia. injection E2 as E2. unfold item in E2.
      destruct (Z.ltb_spec (Z.of_nat i) n); [|discriminate]. injection E2 as <-. auto.
    - intros [H1 ->]. eexists. eexists. split; [apply nexts_new, H|]. rewrite nth_items by lia.
      unfold item. replace (Z.of_nat i <? n)%Z with true by lia. reflexivity.
  Qed.

  (** [zip_apply] *)
  Lemma zip_eq k p n xs : (n <= usize_max)%Z -> forall j, (0 <= j)%Z -> (j + vlen xs = n)%Z ->
    zip_apply O k p (WinIter j n) xs
    = Ok (map (fun ix => win_val k n (j + Z.of_nat (fst ix)) * snd ix) (combine (seq 0 (length xs)) xs)).
  Proof.
    intros Hn. induction xs as [|x xs IH]; intros j Hj Hl; [reflexivity|].
    unfold vlen in *. cbn [length] in Hl. cbn [zip_apply]. rewrite next_lt by lia. cbn [bind].
    rewrite IH by lia. cbn [bind length seq combine map fst snd]. f_equal. f_equal.
    - rewrite Z.add_0_r. reflexivity.
    - rewrite <- seq_shift. clear. revert j. generalize (seq 0 (length xs)). intros l.
      revert l. induction xs as [|y ys IHy]; intros [|a l] j; cbn; try reflexivity.
      f_equal; [f_equal; f_equal; lia|]. apply IHy.
  Qed.
End Gen.
