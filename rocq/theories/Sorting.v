(** Stable sorting, as done by numpy's [argsort(kind="mergesort")] and Python's
    [list.sort]: the model sorts by insertion, what matters is that the result
    is a sorted permutation in which equal elements keep their order. *)
From Coq Require Import ZArith List Bool Lia Permutation Sorted.
From Verif Require Import Prelude ApplyProofs.
Import ListNotations.
Open Scope Z_scope.

(** [lt x y]: x must come before y.  Inserting from the right, an element passes
    only the elements strictly before it. *)
Fixpoint sinsert {A} (lt : A -> A -> bool) (x : A) (l : list A) : list A :=
  match l with
  | [] => [x]
  | y :: t => if lt y x then y :: sinsert lt x t else x :: l
  end.
Definition ssort {A} (lt : A -> A -> bool) (l : list A) : list A := fold_right (sinsert lt) [] l.

(** [col.argsort(kind="mergesort")] *)
Definition argsort {A} (lt : A -> A -> bool) (l : list A) : list Z :=
  map fst (ssort (fun p q => lt (snd p) (snd q)) (combine (zrange 0 (zlen l)) l)).

Lemma sinsert_perm {A} (lt : A -> A -> bool) x l : Permutation (x :: l) (sinsert lt x l).
Proof.
  induction l as [|y t IH]; simpl; [auto|]. destruct (lt y x); [|auto].
  eapply perm_trans; [apply perm_swap|]. apply perm_skip. exact IH.
Qed.

Lemma ssort_perm {A} (lt : A -> A -> bool) l : Permutation l (ssort lt l).
Proof.
  induction l as [|x t IH]; simpl; [auto|].
  eapply perm_trans; [apply perm_skip; exact IH | apply sinsert_perm].
Qed.

Lemma ssort_length {A} (lt : A -> A -> bool) l : length (ssort lt l) = length l.
Proof. symmetry. apply Permutation_length, ssort_perm. Qed.

Lemma sinsert_map {A B} (f : A -> B) (ltA : A -> A -> bool) (ltB : B -> B -> bool) x l :
  (forall y, In y l -> ltB (f y) (f x) = ltA y x) ->
  sinsert ltB (f x) (map f l) = map f (sinsert ltA x l).
Proof.
  induction l as [|y t IH]; simpl; intros H; [reflexivity|].
  rewrite H by auto. destruct (ltA y x); simpl; [rewrite IH by auto|]; reflexivity.
Qed.

Lemma ssort_map {A B} (f : A -> B) (lt : B -> B -> bool) l :
  ssort lt (map f l) = map f (ssort (fun x y => lt (f x) (f y)) l).
Proof.
  induction l as [|x t IH]; simpl; [reflexivity|]. rewrite IH. apply sinsert_map. reflexivity.
Qed.

Lemma combine_map_r {A B C} (f : B -> C) (l : list A) (m : list B) :
  combine l (map f m) = map (fun p => (fst p, f (snd p))) (combine l m).
Proof. revert m. induction l; intros [|b m]; simpl; [reflexivity..|]. f_equal. apply IHl. Qed.

(** Indexing by an argsort of keys sorts by key. *)
Lemma take_argsort {A K} (key : A -> K) (lt : K -> K -> bool) (l : list A) :
  mapM (get l) (argsort lt (map key l)) = Ok (ssort (fun x y => lt (key x) (key y)) l).
Proof.
  unfold argsort. rewrite combine_map_r, zlen_map.
  rewrite (ssort_map (fun p : Z * A => (fst p, key (snd p)))). simpl. rewrite map_map. simpl.
  set (s := ssort _ (combine _ _)).
  assert (HP : Permutation (combine (zrange 0 (zlen l)) l) s) by apply ssort_perm.
  rewrite mapM_map. rewrite (mapM_ok _ snd).
  - f_equal. unfold s. transitivity (ssort (fun x y => lt (key x) (key y)) (map snd (combine (zrange 0 (zlen l)) l))).
    + symmetry. exact (ssort_map snd (fun a b => lt (key a) (key b)) _).
    + rewrite map_snd_combine; [reflexivity|]. rewrite zrange_length. unfold zlen. lia.
  - intros [i x] Hi. apply Permutation_in with (l' := combine (zrange 0 (zlen l)) l) in Hi;
      [|apply Permutation_sym; exact HP].
    simpl. apply combine_zrange_nth in Hi. apply get_nthZ; [|exact Hi].
    apply nthZ_range in Hi. lia.
Qed.

Section STABLE.
Context {A : Type} (lt : A -> A -> bool) (P : A -> Prop) (before : A -> A -> Prop).
(** [lt] is a strict weak order on the elements satisfying [P]. *)
Hypothesis lt_irrefl : forall x, P x -> lt x x = false.
Hypothesis lt_trans : forall x y z, P x -> P y -> P z -> lt x y = true -> lt y z = true -> lt x z = true.
Hypothesis lt_split : forall x y z, P x -> P y -> P z -> lt x z = true -> lt x y = true \/ lt y z = true.

(** Sorted by key, ties in the original order. *)
Definition keyed (x y : A) : Prop := lt x y = true \/ (lt x y = false /\ lt y x = false /\ before x y).

Lemma lt_asym x y : P x -> P y -> lt x y = true -> lt y x = false.
Proof.
  intros Hx Hy H. destruct (lt y x) eqn:E; [|reflexivity].
  rewrite <- (lt_irrefl x Hx). symmetry. apply (lt_trans x y x); auto.
Qed.

Lemma sinsert_keyed x l : P x -> Forall P l -> Forall (before x) l ->
  StronglySorted keyed l -> StronglySorted keyed (sinsert lt x l).
Proof.
  intros Hx. induction l as [|y t IH]; simpl; intros HP HB HS; [repeat constructor|].
  inversion HP; subst. inversion HB; subst. inversion HS; subst.
  destruct (lt y x) eqn:E.
  - constructor; [auto|]. apply Forall_forall. intros z Hz.
    apply (Permutation_in (l' := x :: t)) in Hz; [|apply Permutation_sym, sinsert_perm].
    destruct Hz as [<-|Hz]; [left; exact E|].
    rewrite Forall_forall in H6. auto.
  - constructor; [exact HS|]. apply Forall_forall. intros z Hz.
    assert (Pz : P z) by (rewrite Forall_forall in HP; auto).
    assert (Bz : before x z) by (rewrite Forall_forall in HB; auto).
    unfold keyed. destruct (lt x z) eqn:E2; [auto|]. right. repeat split; auto.
    destruct Hz as [<-|Hz]; [exact E|]. rewrite Forall_forall in H6.
    destruct (lt z x) eqn:E3; [|reflexivity]. exfalso.
    destruct (H6 z Hz) as [K|(K1 & K2 & _)].
    + rewrite (lt_trans y z x) in E; auto. discriminate.
    + destruct (lt_split z y x) as [K|K]; auto; congruence.
Qed.

Lemma ssort_keyed l : Forall P l -> StronglySorted before l -> StronglySorted keyed (ssort lt l).
Proof.
  induction l as [|x t IH]; simpl; intros HP HS; [constructor|].
  inversion HP; subst. inversion HS; subst.
  apply sinsert_keyed; auto.
  - apply (Permutation_Forall (ssort_perm lt t)); auto.
  - apply (Permutation_Forall (ssort_perm lt t)); auto.
Qed.
End STABLE.

(** StronglySorted by index. *)
Lemma sorted_nthZ {A} (R : A -> A -> Prop) l : StronglySorted R l ->
  forall i j x y, i < j -> nthZ l i = Some x -> nthZ l j = Some y -> R x y.
Proof.
  induction 1 as [|a t HS IH HF]; intros i j x y Hij Hx Hy.
  - apply nthZ_range in Hx. change (zlen (@nil A)) with 0 in Hx. lia.
  - pose proof (nthZ_range _ _ _ Hx). rewrite nthZ_cons in Hx, Hy.
    destruct (Z.eqb_spec i 0).
    + injection Hx as <-. destruct (Z.eqb_spec j 0); [lia|].
      rewrite Forall_forall in HF. apply HF. eapply nthZ_In; eauto.
    + destruct (Z.eqb_spec j 0); [lia|]. apply (IH (i - 1) (j - 1)); auto; lia.
Qed.

Lemma sorted_perm_eq {A} (R : A -> A -> Prop) : (forall x y, R x y -> R y x -> False) -> forall l1 l2,
  StronglySorted R l1 -> StronglySorted R l2 -> Permutation l1 l2 -> l1 = l2.
Proof.
  intros HR. induction l1 as [|x t IH]; intros l2 H1 H2 HP.
  - apply Permutation_nil in HP. auto.
  - destruct l2 as [|y u]; [apply Permutation_sym, Permutation_nil in HP; discriminate|].
    inversion H1; subst. inversion H2; subst.
    assert (x = y).
    { assert (Hx : In x (y :: u)) by (apply (Permutation_in _ HP); left; auto).
      assert (Hy : In y (x :: t)) by (apply (Permutation_in _ (Permutation_sym HP)); left; auto).
      destruct Hx as [->|Hx]; [auto|]. destruct Hy as [->|Hy]; [auto|].
      rewrite Forall_forall in *. exfalso. eapply HR; eauto. }
    subst y. f_equal. apply IH; auto. eapply Permutation_cons_inv; eauto.
Qed.
