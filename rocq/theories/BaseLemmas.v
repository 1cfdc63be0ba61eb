(** Lemmas about the base vocabulary ([Vec] access, machine integers). *)
From Coq Require Import ZArith List Bool Lia ZifyBool ZifyNat.
From Verif Require Import Base.
Import ListNotations.
Open Scope Z_scope.

Lemma bind_Ok {A B} (m : outcome A) (k : A -> outcome B) b :
  bind m k = Ok b -> exists a, m = Ok a /\ k a = Ok b.
Proof. destruct m; simpl; intros H; try discriminate. eauto. Qed.

Lemma chk_usize_ok p z : 0 <= z < two64 -> chk_usize p z = Ok z.
Proof.
  intros H. unfold chk_usize.
  replace ((0 <=? z) && (z <? two64)) with true by lia. reflexivity.
Qed.

Lemma chk_isize_ok p z : - two63 <= z < two63 -> chk_isize p z = Ok z.
Proof.
  intros H. unfold chk_isize.
  replace ((- two63 <=? z) && (z <? two63)) with true by lia. reflexivity.
Qed.

Lemma as_isize_small z : - two63 <= z < two63 -> as_isize z = z.
Proof.
  intros H. unfold as_isize. rewrite Z.mod_small by (unfold two63, two64 in *; lia). lia.
Qed.

Lemma as_usize_small z : 0 <= z < two64 -> as_usize z = z.
Proof. intros H. unfold as_usize. apply Z.mod_small. lia. Qed.

Lemma vlen_nonneg {T} (v : list T) : 0 <= vlen v.
Proof. unfold vlen; lia. Qed.

Lemma vget_nth {T} (v : list T) (i : Z) d :
  0 <= i < vlen v -> vget v i = Ok (nth (Z.to_nat i) v d).
Proof.
  intros H. unfold vget.
  replace (i <? 0) with false by lia. replace (vlen v <=? i) with false by lia.
  rewrite (nth_error_nth' v d) by (unfold vlen in H; lia). reflexivity.
Qed.

Lemma vget_out {T} (v : list T) (i : Z) : ~ (0 <= i < vlen v) -> vget v i = Panic.
Proof.
  intros H. unfold vget.
  destruct (Z.ltb_spec i 0); [reflexivity|].
  destruct (Z.leb_spec (vlen v) i); [reflexivity|]. lia.
Qed.

Lemma vset_ok {T} (v : list T) (i : Z) x :
  0 <= i < vlen v -> vset v i x = Ok (list_set v (Z.to_nat i) x).
Proof.
  intros H. unfold vset.
  replace (i <? 0) with false by lia. replace (vlen v <=? i) with false by lia. reflexivity.
Qed.

Lemma vset_out {T} (v : list T) (i : Z) x : ~ (0 <= i < vlen v) -> vset v i x = Panic.
Proof.
  intros H. unfold vset.
  destruct (Z.ltb_spec i 0); [reflexivity|].
  destruct (Z.leb_spec (vlen v) i); [reflexivity|]. lia.
Qed.

Lemma list_set_length {T} (v : list T) i x : length (list_set v i x) = length v.
Proof. revert i; induction v; destruct i; simpl; auto. Qed.

Lemma list_set_vlen {T} (v : list T) i x : vlen (list_set v i x) = vlen v.
Proof. unfold vlen. rewrite list_set_length. reflexivity. Qed.

Lemma list_set_split {T} (v : list T) i x :
  (i < length v)%nat -> list_set v i x = firstn i v ++ x :: skipn (S i) v.
Proof.
  revert i; induction v as [|a v IH]; destruct i; simpl; intros H; try lia; auto.
  rewrite IH by lia. reflexivity.
Qed.

Lemma nth_list_set_eq {T} (v : list T) i x d :
  (i < length v)%nat -> nth i (list_set v i x) d = x.
Proof. revert i; induction v; destruct i; simpl; intros; try lia; auto. apply IHv; lia. Qed.

Lemma nth_list_set_neq {T} (v : list T) i j x d :
  i <> j -> nth j (list_set v i x) d = nth j v d.
Proof.
  revert i j; induction v; destruct i, j; simpl; intros; auto; try lia.
Qed.

Lemma urem_ok a b : b <> 0 -> urem a b = Ok (a mod b).
Proof. intros H. unfold urem. destruct (Z.eqb_spec b 0); [lia|reflexivity]. Qed.

(** Successor modulo [n]. *)
Lemma succ_mod i n : 0 <= i < n -> (i + 1) mod n = if i + 1 =? n then 0 else i + 1.
Proof.
  intros H. destruct (Z.eqb_spec (i + 1) n) as [->|].
  - apply Z.mod_same; lia.
  - apply Z.mod_small; lia.
Qed.
