(** Lemmas on the checks of convst/utils/checks_utils.py. *)
From Coq Require Import ZArith List Bool Lia String.
From Verif Require Import Prelude Num Checks.
Import ListNotations.
Open Scope Z_scope.

Section P.
Context {F : Type} (N : NumOps F).
Notation pyv := (pyv F).

(** Shape of a Python value read as an array: a list has the shape of its elements, if they all have the same one,
    preceded by their number. *)
Inductive regular : pyv -> list Z -> Prop :=
| reg_arr sh dt cs : regular (VArr sh dt cs) sh
| reg_frame r c dt cs : regular (VFrame r c dt cs) [r; c]
| reg_none : regular VNone []
| reg_bool b : regular (VBool b) []
| reg_int z : regular (VInt z) []
| reg_float x : regular (VFloat x) []
| reg_str s : regular (VStr s) []
| reg_rng i : regular (VRng i) []
| reg_other : regular VOther []
| reg_nil : regular (VList []) [0]
| reg_list l s : l <> [] -> (forall x, In x l -> regular x s) -> regular (VList l) (zlen l :: s)
| reg_tnil : regular (VTuple []) [0]
| reg_tuple l s : l <> [] -> (forall x, In x l -> regular x s) -> regular (VTuple l) (zlen l :: s).

Fixpoint depth (v : pyv) : nat :=
  match v with
  | VList l => Datatypes.S (fold_right (fun x d => Nat.max (depth x) d) O l)
  | VTuple l => Datatypes.S (fold_right (fun x d => Nat.max (depth x) d) O l)
  | _ => O
  end.

Lemma depth_in x l : In x l -> (depth x <= fold_right (fun x d => Nat.max (depth x) d) O l)%nat.
Proof. induction l as [|y t IH]; simpl; [tauto|]. intros [->|H]; [lia|]. apply IH in H. lia. Qed.

Definition seq_shape := fix seq (l : list pyv) : option (list Z) :=
      match l with
      | [] => Some [0]
      | [x] => option_map (cons 1) (shape_of x)
      | x :: t => match shape_of x, seq t with
                  | Some s, Some (n :: s') => if shape_eqb s s' then Some (n + 1 :: s') else None
                  | _, _ => None
                  end
      end.

Lemma shape_of_list l : shape_of (VList l) = seq_shape l.
Proof. destruct l; reflexivity. Qed.
Lemma shape_of_tuple l : shape_of (VTuple l) = seq_shape l.
Proof. destruct l; reflexivity. Qed.

Lemma shape_eqb_eq a b : shape_eqb a b = true <-> a = b.
Proof. unfold shape_eqb. destruct (list_eq_dec Z.eq_dec a b); split; congruence. Qed.

Lemma seq_shape_spec l : l <> [] -> forall sh, seq_shape l = Some sh <->
  exists s, sh = zlen l :: s /\ forall x, In x l -> shape_of x = Some s.
Proof.
  induction l as [|x t IH]; [congruence|]. intros _ sh.
  destruct t as [|y t].
  - cbn [seq_shape]. change (zlen [x]) with 1. destruct (shape_of x) as [s|] eqn:Ex; cbn [option_map]; split.
    + intros H. injection H as <-. exists s. split; [reflexivity|]. intros z [<-|[]]. exact Ex.
    + intros (s' & -> & H). specialize (H x (or_introl eq_refl)). congruence.
    + discriminate.
    + intros (s' & -> & H). specialize (H x (or_introl eq_refl)). congruence.
  - change (seq_shape (x :: y :: t)) with
      (match shape_of x, seq_shape (y :: t) with
       | Some s, Some (n :: s') => if shape_eqb s s' then Some (n + 1 :: s') else None
       | _, _ => None end).
    specialize (IH ltac:(discriminate)).
    split.
    + intros H. destruct (shape_of x) as [s|] eqn:Ex; [|discriminate].
      destruct (seq_shape (y :: t)) as [[|n s']|] eqn:Et; try discriminate.
      destruct (shape_eqb s s') eqn:E; [|discriminate]. apply shape_eqb_eq in E. subst s'.
      destruct (proj1 (IH (n :: s)) eq_refl) as (s2 & E2 & H2). injection E2 as -> <-.
      injection H as <-. exists s. rewrite (zlen_cons x). split; [f_equal|].
      intros z [<-|Hz]; [exact Ex|]. apply H2, Hz.
    + intros (s & -> & H). rewrite (H x (or_introl eq_refl)).
      rewrite (proj2 (IH (zlen (y :: t) :: s))).
      2:{ exists s. split; [reflexivity|]. intros z Hz. apply H. right. exact Hz. }
      rewrite (proj2 (shape_eqb_eq s s) eq_refl). rewrite (zlen_cons x). reflexivity.
Qed.

Lemma shape_of_regular : forall n v, (depth v < n)%nat -> forall sh, shape_of v = Some sh <-> regular v sh.
Proof.
  induction n as [|n IH]; [lia|]. intros v Hd sh.
  destruct v as [|b|z|x|s|l|l|sh0 dt cs|r c dt cs|i|]; try rewrite shape_of_list; try rewrite shape_of_tuple; cbn [shape_of];
    try (split; [intros H; injection H as <-; constructor | intros H; inversion H; reflexivity]).
  - destruct l as [|x t].
    + split; [intros H; injection H as <-; constructor | intros H; inversion H; subst; [reflexivity|congruence]].
    + rewrite seq_shape_spec by discriminate. split.
      * intros (s & -> & H). apply reg_list; [discriminate|]. intros y Hy. apply IH; [|apply H, Hy].
        simpl in Hd. apply depth_in in Hy. simpl in Hy. lia.
      * intros H. inversion H as [| | | | | | | | | |l0 s Hl Hs| |]; subst. exists s. split; [reflexivity|].
        intros y Hy. apply IH; [|apply Hs, Hy]. simpl in Hd. apply depth_in in Hy. simpl in Hy. lia.
  - destruct l as [|x t].
    + split; [intros H; injection H as <-; constructor | intros H; inversion H; subst; [reflexivity|congruence]].
    + rewrite seq_shape_spec by discriminate. split.
      * intros (s & -> & H). apply reg_tuple; [discriminate|]. intros y Hy. apply IH; [|apply H, Hy].
        simpl in Hd. apply depth_in in Hy. simpl in Hy. lia.
      * intros H. inversion H as [| | | | | | | | | | | |l0 s Hl Hs]; subst. exists s. split; [reflexivity|].
        intros y Hy. apply IH; [|apply Hs, Hy]. simpl in Hd. apply depth_in in Hy. simpl in Hy. lia.
Qed.

Lemma shape_regular v sh : shape_of v = Some sh <-> regular v sh.
Proof. apply (shape_of_regular (Datatypes.S (depth v))). lia. Qed.

Lemma asarray_ok v A : np_asarray N v = Ok A -> regular v (shape A).
Proof.
  unfold np_asarray. destruct (shape_of v) as [sh|] eqn:E; [|discriminate].
  intros H. injection H as <-. apply shape_regular. exact E.
Qed.
Lemma asarray_total v sh : regular v sh -> exists A, np_asarray N v = Ok A /\ shape A = sh.
Proof. intros H. apply shape_regular in H. unfold np_asarray. rewrite H. eexists. split; reflexivity. Qed.
Lemma asarray_err v e : np_asarray N v = Err e -> e = ValueError /\ forall sh, ~ regular v sh.
Proof.
  unfold np_asarray. destruct (shape_of v) as [sh|] eqn:E; [discriminate|]. intros H. injection H as <-.
  split; [reflexivity|]. intros sh Hr. apply shape_regular in Hr. congruence.
Qed.

Lemma prod_3 a b c : prod [a; b; c] = a * b * c.
Proof. unfold prod. cbn [fold_left]. lia. Qed.
Lemma prod_2 a b : prod [a; b] = a * b.
Proof. unfold prod. cbn [fold_left]. lia. Qed.
Lemma prod_1 a : prod [a] = a.
Proof. unfold prod. cbn [fold_left]. lia. Qed.

Lemma check_shape_3D_ok sh u m : check_shape_3D sh u m = Ok tt <->
  exists n f t, sh = [n; f; t] /\ n <> 0 /\ f <> 0 /\ t <> 0 /\ m < t /\ (u = true -> f = 1).
Proof.
  unfold check_shape_3D. split.
  - destruct sh as [|n [|f [|t [|? ?]]]]; try discriminate. rewrite prod_3. intros H.
    apply bind_inv in H as (? & H1 & H). apply bind_inv in H as (? & H2 & H3).
    destruct (Z.eqb_spec (n * f * t) 0) as [E|E]; [discriminate|].
    destruct (Z.ltb_spec m t); [|discriminate].
    exists n, f, t. repeat split; try (intros ->; apply E; ring); try assumption.
    intros ->. destruct (Z.eqb_spec f 1); [assumption|discriminate].
  - intros (n & f & t & -> & Hn & Hf & Ht & Hm & Hu). rewrite prod_3.
    destruct (Z.eqb_spec (n * f * t) 0) as [E|E].
    { apply Z.mul_eq_0 in E as [E|E]; [|contradiction]. apply Z.mul_eq_0 in E as [E|E]; contradiction. }
    destruct (Z.ltb_spec m t); [|lia]. cbn. destruct u; [|reflexivity]. cbn. rewrite (Hu eq_refl). reflexivity.
Qed.

Lemma check_shape_3D_err sh u m e : check_shape_3D sh u m = Err e -> e = ValueError.
Proof.
  unfold check_shape_3D. destruct sh as [|n [|f [|t [|? ?]]]]; try congruence.
  destruct (negb _); cbn; [|congruence]. destruct (m <? t); cbn; [|congruence].
  destruct (negb u || _); cbn; congruence.
Qed.

Lemma check_numpy_err X e : check_is_numpy N X = Err e -> e = ValueError.
Proof. destruct X; cbn [check_is_numpy]; try congruence. intros H. apply asarray_err in H. tauto. Qed.
Lemma check_numpy_pd_err X e : check_is_numpy_or_pd N X = Err e -> e = ValueError.
Proof. destruct X; cbn [check_is_numpy_or_pd]; try congruence. intros H. apply asarray_err in H. tauto. Qed.

End P.
