(** Facts about the real instance of the numbers: floor, truncation, sums, L1. *)
From Coq Require Import ZArith List Bool Reals Lra Lia Permutation.
From Verif Require Import Prelude Num Kernel Spec KernelProofs.
Import ListNotations.
Open Scope R_scope.

Lemma Rfloor_spec x : IZR (Rfloor x) <= x < IZR (Rfloor x) + 1.
Proof. unfold Rfloor. pose proof (base_Int_part x). lra. Qed.

Lemma Rfloor_unique x z : IZR z <= x < IZR z + 1 -> Rfloor x = z.
Proof.
  intros H. pose proof (Rfloor_spec x) as H1.
  assert (IZR (Rfloor x) < IZR (z + 1)) by (rewrite plus_IZR; lra).
  assert (IZR z < IZR (Rfloor x + 1)) by (rewrite plus_IZR; lra).
  apply lt_IZR in H0, H2. lia.
Qed.

Lemma Rfloor_IZR z : Rfloor (IZR z) = z.
Proof. apply Rfloor_unique. lra. Qed.

Lemma Rfloor_le x y : x <= y -> (Rfloor x <= Rfloor y)%Z.
Proof.
  intros H. pose proof (Rfloor_spec x). pose proof (Rfloor_spec y).
  assert (IZR (Rfloor x) < IZR (Rfloor y + 1)) by (rewrite plus_IZR; lra).
  apply lt_IZR in H2. lia.
Qed.

Lemma Rtrunc_nonneg x : 0 <= x -> Rtrunc x = Rfloor x.
Proof. intros H. unfold Rtrunc. destruct (Rlt_dec x 0); [lra|]. reflexivity. Qed.

Lemma Rtrunc_sqrt n : (0 <= n)%Z -> Rtrunc (R_sqrt.sqrt (IZR n)) = Z.sqrt n.
Proof.
  intros H. rewrite Rtrunc_nonneg by apply sqrt_pos. apply Rfloor_unique.
  pose proof (Z.sqrt_spec n H) as [H1 H2]. pose proof (Z.sqrt_nonneg n).
  assert (0 <= IZR (Z.sqrt n)) by (apply IZR_le; lia).
  split.
  - rewrite <- (sqrt_square (IZR (Z.sqrt n))) by assumption. apply sqrt_le_1_alt.
    rewrite <- mult_IZR. apply IZR_le. lia.
  - rewrite <- plus_IZR. rewrite <- (sqrt_square (IZR (Z.sqrt n + 1))) by (rewrite plus_IZR; lra).
    apply sqrt_lt_1_alt. split; [apply IZR_le; lia|].
    rewrite <- mult_IZR. apply IZR_lt. lia.
Qed.

(** ** Sums *)

Fixpoint rsum (l : list R) : R := match l with [] => 0 | x :: t => x + rsum t end.

Lemma fold_rsum l s : fold_left Rplus l s = s + rsum l.
Proof. revert s. induction l as [|x t IH]; intros s; simpl; [lra|]. rewrite IH. lra. Qed.

Lemma sumF_rsum l : sumF RN l = rsum l.
Proof. unfold sumF. simpl. rewrite fold_rsum. lra. Qed.

Lemma nsum_rsum l : nsum RN l = rsum l.
Proof. unfold nsum. simpl. rewrite fold_rsum. lra. Qed.

Lemma rsum_app l1 l2 : rsum (l1 ++ l2) = rsum l1 + rsum l2.
Proof. induction l1; simpl; [lra|]. rewrite IHl1. lra. Qed.

Lemma rsum_perm l1 l2 : Permutation l1 l2 -> rsum l1 = rsum l2.
Proof. induction 1; simpl; lra. Qed.

Lemma rsum_nonneg l : (forall x, In x l -> 0 <= x) -> 0 <= rsum l.
Proof.
  induction l as [|x t IH]; simpl; intros H; [lra|].
  specialize (H x (or_introl eq_refl)) as Hx. assert (0 <= rsum t) by auto. lra.
Qed.

Lemma rsum_pos l : l <> [] -> (forall x, In x l -> 0 < x) -> 0 < rsum l.
Proof.
  intros Hl H. destruct l as [|x t]; [congruence|]. simpl.
  assert (0 <= rsum t) by (apply rsum_nonneg; intros; left; apply H; simpl; auto).
  specialize (H x (or_introl eq_refl)). lra.
Qed.

Lemma rsum_zero l : (forall x, In x l -> 0 <= x) -> rsum l = 0 -> forall x, In x l -> x = 0.
Proof.
  induction l as [|y t IH]; simpl; intros H E x Hx; [contradiction|].
  specialize (H y (or_introl eq_refl)) as Hy.
  assert (0 <= rsum t) by (apply rsum_nonneg; intros; apply H; auto).
  destruct Hx as [<-|Hx]; [lra|]. apply IH; auto. lra.
Qed.

Lemma rsum_map_plus {A} (f g : A -> R) l :
  rsum (map (fun x => f x + g x) l) = rsum (map f l) + rsum (map g l).
Proof. induction l; simpl; [lra|]. rewrite IHl. lra. Qed.

Lemma rsum_map_scal {A} (f : A -> R) k l : rsum (map (fun x => k * f x) l) = k * rsum (map f l).
Proof. induction l; simpl; [lra|]. rewrite IHl. lra. Qed.

Lemma rsum_map_const {A} k (l : list A) : rsum (map (fun _ => k) l) = k * IZR (zlen l).
Proof.
  induction l; simpl; [unfold zlen; simpl; lra|]. rewrite IHl, zlen_cons, plus_IZR. lra.
Qed.

Lemma rsum_map_ext {A} (f g : A -> R) l : (forall x, In x l -> f x = g x) -> rsum (map f l) = rsum (map g l).
Proof. intros H. f_equal. apply map_ext_in. exact H. Qed.

Lemma rsum_map_le {A} (f g : A -> R) l : (forall x, In x l -> f x <= g x) -> rsum (map f l) <= rsum (map g l).
Proof.
  induction l as [|x t IH]; simpl; intros H; [lra|].
  specialize (H x (or_introl eq_refl)) as Hx. assert (rsum (map f t) <= rsum (map g t)) by auto. lra.
Qed.

Lemma l1_rsum x y : l1 RN x y = rsum (map (fun j => Rabs (pt RN x j - pt RN y j)) (zrange 0 (zlen x))).
Proof. unfold l1. rewrite sumF_rsum. reflexivity. Qed.

Lemma l1_nonneg x y : 0 <= l1 RN x y.
Proof.
  rewrite l1_rsum. apply rsum_nonneg. intros z Hz. apply in_map_iff in Hz as (j & <- & _). apply Rabs_pos.
Qed.

Lemma nleb_l1 x y : nleb RN (n0 RN) (l1 RN x y) = true.
Proof. apply Rleb_true. apply l1_nonneg. Qed.

(** the same sum written by structural recursion on both vectors *)
Fixpoint l1s (x y : list R) : R :=
  match x, y with
  | a :: x', b :: y' => Rabs (a - b) + l1s x' y'
  | _, _ => 0
  end.

Lemma pt_cons a (x : list R) j : (0 <= j)%Z -> pt RN (a :: x) (j + 1)%Z = pt RN x j.
Proof.
  intros H. unfold pt, nthd. rewrite nthZ_cons. destruct (Z.eqb_spec (j + 1) 0); [lia|].
  replace (j + 1 - 1)%Z with j by lia. reflexivity.
Qed.

Lemma l1_l1s x y : (zlen x <= zlen y)%Z -> l1 RN x y = l1s x y.
Proof.
  rewrite l1_rsum. revert y. induction x as [|a x IH]; intros [|b y] H.
  - reflexivity.
  - reflexivity.
  - rewrite zlen_cons, zlen_nil in H. pose proof (zlen_nonneg x). lia.
  - rewrite !zlen_cons in *. pose proof (zlen_nonneg x).
    rewrite zrange_cons by lia. cbn [map rsum l1s].
    rewrite <- IH by lia. f_equal.
    replace (zrange (0 + 1) (zlen x + 1)) with (map (fun j => j + 1)%Z (zrange 0 (zlen x))).
    + rewrite map_map. f_equal. apply map_ext_in. intros j Hj. apply in_zrange in Hj.
      rewrite !pt_cons by lia. reflexivity.
    + symmetry. apply (zrange_shift 0 (zlen x) 1).
Qed.
