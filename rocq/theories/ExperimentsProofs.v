(** Proofs about convst/utils/experiments_utils.py. *)
From Coq Require Import ZArith List Bool Lia Permutation.
From Verif Require Import Prelude Num Kernel Gen GenBase ApplyProofs NumbaUtilsProofs Experiments.
Import ListNotations.
Open Scope Z_scope.

Lemma zlist_eqb_eq a b : zlist_eqb a b = true <-> a = b.
Proof.
  revert b. induction a as [|x a IH]; intros [|y b]; simpl; split; intros H; try discriminate; try reflexivity.
  - apply andb_true_iff in H as [H1 H2]. apply Z.eqb_eq in H1. apply IH in H2. congruence.
  - injection H as -> ->. rewrite Z.eqb_refl. simpl. apply IH. reflexivity.
Qed.

Definition cnt (l : Z) (y : list Z) : Z := zlen (filter (Z.eqb l) y).

Lemma cnt_app l a b : cnt l (a ++ b) = cnt l a + cnt l b.
Proof. unfold cnt. rewrite filter_app, zlen_app. reflexivity. Qed.
Lemma cnt_perm l a b : Permutation a b -> cnt l a = cnt l b.
Proof. intros H. unfold cnt, zlen. rewrite (Permutation_length (Permutation_filter _ _ _ H)). reflexivity. Qed.
Lemma cnt_pos l y : 0 < cnt l y <-> In l y.
Proof.
  unfold cnt. split.
  - intros H. destruct (filter (Z.eqb l) y) as [|a t] eqn:E; [change (zlen (@nil Z)) with 0 in H; lia|].
    assert (Ha : In a (filter (Z.eqb l) y)) by (rewrite E; left; auto). apply filter_In in Ha as [Ha Hl].
    apply Z.eqb_eq in Hl. congruence.
  - intros H. assert (Ha : In l (filter (Z.eqb l) y)) by (apply filter_In; split; [auto|apply Z.eqb_refl]).
    destruct (filter (Z.eqb l) y); [destruct Ha|]. rewrite zlen_cons. pose proof (zlen_nonneg l0). lia.
Qed.
Lemma cnt_nonneg l y : 0 <= cnt l y. Proof. apply zlen_nonneg. Qed.
Lemma cnt_const l m y : (forall x, In x y -> x = m) -> cnt l y = if l =? m then zlen y else 0.
Proof.
  intros H. unfold cnt. induction y as [|x y IH]; simpl; [destruct (l =? m); reflexivity|].
  rewrite (H x) by (left; auto). specialize (IH (fun z Hz => H z (or_intror Hz))).
  destruct (l =? m) eqn:E; simpl; rewrite ?zlen_cons; lia.
Qed.

Lemma unique_counts_ext y y' : (forall l, cnt l y = cnt l y') -> unique_counts y = unique_counts y'.
Proof.
  intros H. unfold unique_counts.
  assert (E : unique y = unique y').
  { apply incr_ext; [apply unique_incr..|]. intros x. rewrite !in_unique, <- !cnt_pos, H. reflexivity. }
  rewrite E. f_equal. apply map_ext. intros l. apply H.
Qed.

Lemma foldM_range {A S} (f : S -> Z -> res S) (g : S -> A -> res S) (l : list A) :
  (forall i x st, nthZ l i = Some x -> f st i = g st x) ->
  forall st, foldM f (zrange 0 (zlen l)) st = foldM g l st.
Proof.
  intros H.
  assert (G : forall l2 l1, l = l1 ++ l2 -> forall st, foldM f (zrange (zlen l1) (zlen l1 + zlen l2)) st = foldM g l2 st).
  { induction l2 as [|x l2 IH]; intros l1 E st.
    - change (zlen (@nil A)) with 0. rewrite zrange_empty by lia. reflexivity.
    - pose proof (zlen_nonneg l2). rewrite zlen_cons, zrange_cons by lia. cbn [foldM].
      rewrite (H (zlen l1) x).
      2:{ rewrite E, nthZ_app. pose proof (zlen_nonneg l1). destruct (Z.ltb_spec (zlen l1) (zlen l1)); [lia|].
          rewrite Z.sub_diag. reflexivity. }
      destruct (g st x) as [st'|e]; [|reflexivity]. simpl.
      replace (zlen l1 + 1) with (zlen (l1 ++ [x])) by (rewrite zlen_app; reflexivity).
      replace (zlen l1 + (zlen l2 + 1)) with (zlen (l1 ++ [x]) + zlen l2) by (rewrite zlen_app; change (zlen [x]) with 1; lia).
      apply IH. rewrite <- app_assoc. exact E. }
  intros st. apply (G l []). reflexivity.
Qed.

(** [xs] are the elements of [l] at the positions [is]. *)
Definition at_positions {A} (l : list A) (is : list Z) (xs : list A) : Prop := Forall2 (fun i x => nthZ l i = Some x) is xs.

Lemma mapM_get_at {A} (l : list A) is : (forall i, In i is -> 0 <= i < zlen l) -> exists xs, mapM (get l) is = Ok xs /\ at_positions l is xs.
Proof.
  intros H. apply mapM_exists. intros i Hi. destruct (get_ok l i (H i Hi)) as (x & E1 & E2). eauto.
Qed.

Lemma at_positions_app {A} (l : list A) i1 i2 x1 x2 : at_positions l i1 x1 -> at_positions l i2 x2 -> at_positions l (i1 ++ i2) (x1 ++ x2).
Proof. apply Forall2_app. Qed.

Lemma at_positions_map {A} (d : A) l is xs : at_positions l is xs -> xs = map (nthd d l) is.
Proof. induction 1 as [|i x is xs H1 H IH]; [reflexivity|]. simpl. unfold nthd at 1. rewrite H1, IH. reflexivity. Qed.

Section RESAMPLE.
Context {T S : Type} (shuf : list Z -> S -> list Z * S).
Hypothesis shuf_perm : forall l s, Permutation l (fst (shuf l s)).

Section DATA.
Variables (all_data : list T) (all_labels ytr : list Z).
Hypothesis Hlen : zlen all_data = zlen all_labels.
Hypothesis Hle : forall l, cnt l ytr <= cnt l all_labels.

Definition positions (label : Z) : list Z := where_ (map (fun l => l =? label) all_labels).

Lemma in_positions i l : In i (positions l) <-> nthZ all_labels i = Some l.
Proof.
  unfold positions. rewrite in_where, nthZ_map. destruct (nthZ all_labels i) as [x|]; simpl; [|split; discriminate].
  split; intros H; injection H as H; [apply Z.eqb_eq in H; congruence|subst; rewrite Z.eqb_refl; reflexivity].
Qed.

Lemma zlen_positions l : zlen (positions l) = cnt l all_labels.
Proof.
  unfold positions. rewrite where_map_length. unfold cnt. f_equal. apply filter_ext. intros x. apply Z.eqb_sym.
Qed.

Definition step (st : @split4 T * S) (label : Z) : res (@split4 T * S) :=
  let '((X_train, y_train, X_test, y_test), s) := st in
  let num_instances := cnt label ytr in
  let '(indices, s) := shuf (positions label) s in
  let train_indices := slice indices 0 num_instances in
  let test_indices := slice indices num_instances (zlen indices) in
  let* train_instances := mapM (get all_data) train_indices in
  let* test_instances := mapM (get all_data) test_indices in
  let* train_labels := mapM (get all_labels) train_indices in
  let* test_labels := mapM (get all_labels) test_indices in
  Ok ((X_train ++ train_instances, y_train ++ train_labels, X_test ++ test_instances, y_test ++ test_labels), s).

Definition account (itr ite : list Z) (d : @split4 T) : Prop :=
  let '(Xa, ya, Xb, yb) := d in
  at_positions all_data itr Xa /\ at_positions all_labels itr ya /\
  at_positions all_data ite Xb /\ at_positions all_labels ite yb.

Lemma step_ok d s label : exists d' s' a b da,
  step (d, s) label = Ok (d', s') /\ Permutation (a ++ b) (positions label) /\ zlen a = cnt label ytr /\
  account a b da /\
  d' = (let '(Xa, ya, Xb, yb) := d in let '(Xa', ya', Xb', yb') := da in (Xa ++ Xa', ya ++ ya', Xb ++ Xb', yb ++ yb')).
Proof.
  destruct d as [[[Xa ya] Xb] yb]. unfold step.
  pose proof (shuf_perm (positions label) s) as HP. destruct (shuf (positions label) s) as [ind s'] eqn:E. simpl in HP.
  assert (Hz : zlen ind = cnt label all_labels).
  { rewrite <- zlen_positions. unfold zlen. rewrite (Permutation_length HP). reflexivity. }
  pose proof (Hle label) as Hn. pose proof (cnt_nonneg label ytr) as Hn0.
  set (a := slice ind 0 (cnt label ytr)). set (b := slice ind (cnt label ytr) (zlen ind)).
  assert (EA : a = firstn (Z.to_nat (cnt label ytr)) ind).
  { unfold a. rewrite slice_ok by lia. rewrite Z.sub_0_r. reflexivity. }
  assert (EB : b = skipn (Z.to_nat (cnt label ytr)) ind).
  { unfold b. rewrite slice_ok by lia. rewrite firstn_all2; [reflexivity|]. rewrite skipn_length. unfold zlen. lia. }
  assert (EAB : a ++ b = ind) by (rewrite EA, EB; apply firstn_skipn).
  assert (Hr : forall i, In i (a ++ b) -> 0 <= i < zlen all_labels).
  { intros i Hi. rewrite EAB in Hi. apply (Permutation_in _ (Permutation_sym HP)) in Hi.
    apply in_positions in Hi. apply nthZ_range in Hi. exact Hi. }
  destruct (mapM_get_at all_data a) as (x1 & E1 & H1); [intros i Hi; rewrite Hlen; apply Hr, in_or_app; auto|].
  destruct (mapM_get_at all_data b) as (x2 & E2 & H2); [intros i Hi; rewrite Hlen; apply Hr, in_or_app; auto|].
  destruct (mapM_get_at all_labels a) as (x3 & E3 & H3); [intros i Hi; apply Hr, in_or_app; auto|].
  destruct (mapM_get_at all_labels b) as (x4 & E4 & H4); [intros i Hi; apply Hr, in_or_app; auto|].
  exists (Xa ++ x1, ya ++ x3, Xb ++ x2, yb ++ x4), s', a, b, (x1, x3, x2, x4).
  rewrite E1, bind_Ok, E2, bind_Ok, E3, bind_Ok, E4, bind_Ok. repeat split; auto.
  - rewrite EAB. apply Permutation_sym. exact HP.
  - rewrite EA. unfold zlen. rewrite firstn_length. unfold zlen in Hz. lia.
Qed.

Lemma steps_ok labels : forall d s itr ite,
  account itr ite d ->
  exists d' s' a b, foldM step labels (d, s) = Ok (d', s') /\
    account (itr ++ a) (ite ++ b) d' /\
    Permutation (a ++ b) (flat_map positions labels) /\
    forall l, NoDup labels -> zlen (filter (fun i => existsb (Z.eqb i) (positions l)) a) = if existsb (Z.eqb l) labels then cnt l ytr else 0.
Proof.
  induction labels as [|l0 labels IH]; intros d s itr ite HA.
  - exists d, s, [], []. simpl. rewrite !app_nil_r. auto.
  - destruct (step_ok d s l0) as (d1 & s1 & a & b & da & E & HP & Hz & Ha & Ed). cbn [foldM]. rewrite E, bind_Ok.
    assert (HA1 : account (itr ++ a) (ite ++ b) d1).
    { rewrite Ed. destruct d as [[[Xa ya] Xb] yb]. destruct da as [[[x1 x3] x2] x4].
      destruct HA as (A1 & A2 & A3 & A4). destruct Ha as (B1 & B2 & B3 & B4).
      repeat split; apply at_positions_app; assumption. }
    destruct (IH d1 s1 _ _ HA1) as (d2 & s2 & a2 & b2 & E2 & HA2 & HP2 & HC2).
    exists d2, s2, (a ++ a2), (b ++ b2). split; [exact E2|]. rewrite !app_assoc. split; [exact HA2|]. split.
    + simpl. rewrite <- !app_assoc. transitivity ((a ++ b) ++ (a2 ++ b2)).
      * rewrite <- !app_assoc. apply Permutation_app_head. rewrite !app_assoc. apply Permutation_app_tail. apply Permutation_app_comm.
      * apply Permutation_app; assumption.
    + intros l Hnd. inversion Hnd; subst. rewrite filter_app, zlen_app, (HC2 l) by assumption. simpl.
      assert (K : forall i, In i a -> nthZ all_labels i = Some l0).
      { intros i Hi. apply in_positions. apply (Permutation_in _ HP), in_or_app. auto. }
      assert (F : zlen (filter (fun i => existsb (Z.eqb i) (positions l)) a) = if l =? l0 then zlen a else 0).
      { clear -K. induction a as [|i a IH]; [destruct (l =? l0); reflexivity|]. simpl.
        specialize (IH (fun j Hj => K j (or_intror Hj))). specialize (K i (or_introl eq_refl)).
        destruct (existsb (Z.eqb i) (positions l)) eqn:EX.
        - apply existsb_exists in EX as (j & Hj & Hij). apply Z.eqb_eq in Hij. subst j. apply in_positions in Hj.
          assert (l = l0) as -> by congruence. rewrite Z.eqb_refl in *. rewrite !zlen_cons, IH. reflexivity.
        - destruct (Z.eqb_spec l l0) as [->|Hn]; [|exact IH]. exfalso.
          assert (existsb (Z.eqb i) (positions l0) = true); [|congruence]. apply existsb_exists. exists i.
          split; [apply in_positions; exact K|apply Z.eqb_refl]. }
      rewrite F. destruct (Z.eqb_spec l l0) as [->|Hn]; simpl; [|lia].
      assert (existsb (Z.eqb l0) labels = false) as ->; [|lia].
      apply not_true_is_false. intros EX. apply existsb_exists in EX as (j & Hj & Hij). apply Z.eqb_eq in Hij. congruence.
Qed.
End DATA.

(** The main fact: the new parts are the samples at the positions [itr] and [ite], which partition all positions. *)
Lemma resample_ok (X_train : list T) y_train X_test y_test s :
  zlen X_train = zlen y_train -> zlen X_test = zlen y_test -> (forall l, In l y_train <-> In l y_test) ->
  exists X1 y1 X2 y2 itr ite,
    resample shuf X_train y_train X_test y_test s = Ok (X1, y1, X2, y2) /\
    Permutation (itr ++ ite) (zrange 0 (zlen X_train + zlen X_test)) /\
    at_positions (X_train ++ X_test) itr X1 /\ at_positions (y_train ++ y_test) itr y1 /\
    at_positions (X_train ++ X_test) ite X2 /\ at_positions (y_train ++ y_test) ite y2 /\
    (forall l, cnt l y1 = cnt l y_train) /\ (forall l, cnt l y2 = cnt l y_test).
Proof.
  intros H1 H2 HL. unfold resample.
  set (AL := y_train ++ y_test). set (AD := X_train ++ X_test).
  assert (Hlen : zlen AD = zlen AL) by (unfold AD, AL; rewrite !zlen_app; lia).
  assert (Hle : forall l, cnt l y_train <= cnt l AL) by (intros l; unfold AL; rewrite cnt_app; pose proof (cnt_nonneg l y_test); lia).
  unfold unique_counts at 1 2.
  assert (EU : unique y_train = unique y_test).
  { apply incr_ext; [apply unique_incr..|]. intros x. rewrite !in_unique. apply HL. }
  assert (EG : zlist_eqb (unique y_train) (unique y_test) = true) by (apply zlist_eqb_eq; exact EU).
  rewrite EG. cbn [guard]. rewrite bind_Ok.
  set (f := resample_class shuf AD AL (unique y_train) (map (fun l : Z => zlen (filter (Z.eqb l) y_train)) (unique y_train))).
  assert (EF : forall st, foldM f (zrange 0 (zlen (unique y_train))) st = foldM (step AD AL y_train) (unique y_train) st).
  { apply foldM_range. intros i x st Hx. unfold f, resample_class, step. destruct st as [[[[Xa ya] Xb] yb] s0].
    pose proof (nthZ_range _ _ _ Hx) as Hr.
    assert (G1 : get (map (fun l : Z => zlen (filter (Z.eqb l) y_train)) (unique y_train)) i = Ok (cnt x y_train)).
    { apply get_nthZ; [lia|]. rewrite nthZ_map, Hx. reflexivity. }
    assert (G2 : get (unique y_train) i = Ok x) by (apply get_nthZ; [lia|exact Hx]).
    rewrite G1, bind_Ok, G2, bind_Ok. unfold positions. destruct (shuf (where_ (map (fun l => l =? x) AL)) s0). reflexivity. }
  rewrite EF.
  destruct (steps_ok AD AL y_train Hlen Hle (unique y_train) ([], [], [], []) s [] []) as (d' & s' & a & b & E & HA & HP & HC).
  { repeat split; constructor. }
  unfold split4 in E |- *. rewrite E, bind_Ok. destruct d' as [[[X1 y1] X2] y2]. simpl in HA. destruct HA as (A1 & A2 & A3 & A4).
  assert (HPZ : Permutation (a ++ b) (zrange 0 (zlen X_train + zlen X_test))).
  { transitivity (flat_map (positions AL) (unique y_train)); [exact HP|]. apply NoDup_Permutation.
    - assert (G : forall ls, NoDup ls -> NoDup (flat_map (positions AL) ls)).
      { induction ls as [|l ls IH]; intros Hnd; simpl; [constructor|]. inversion Hnd; subst. apply NoDup_app_intro; auto.
        - apply where_NoDup.
        - intros i Hi Hi2. apply in_flat_map in Hi2 as (l' & Hl' & Hi2). apply in_positions in Hi, Hi2. congruence. }
      apply G, unique_NoDup.
    - apply zrange_NoDup.
    - intros i. rewrite in_flat_map, in_zrange. split.
      + intros (l & _ & Hi). apply in_positions, nthZ_range in Hi. unfold AL in Hi. rewrite zlen_app in Hi. lia.
      + intros Hi. destruct (nthZ_some AL i) as (l & El); [unfold AL; rewrite zlen_app; lia|]. exists l. split; [|apply in_positions; exact El].
        apply in_unique. apply nthZ_In in El. unfold AL in El. apply in_app_or in El as [K|K]; [exact K|apply HL; exact K]. }
  assert (C1 : forall l, cnt l y1 = cnt l y_train).
  { intros l. specialize (HC l (unique_NoDup y_train)).
    assert (EC : zlen (filter (fun i => existsb (Z.eqb i) (positions AL l)) a) = cnt l y1).
    { clear -A2. unfold cnt. induction A2 as [|i x is xs K H IH]; [reflexivity|]. simpl.
      destruct (existsb (Z.eqb i) (positions AL l)) eqn:EX; destruct (Z.eqb_spec l x) as [->|Hn]; rewrite ?zlen_cons; try lia; exfalso.
      - apply existsb_exists in EX as (j & Hj & Hij). apply Z.eqb_eq in Hij. subst j. apply in_positions in Hj. congruence.
      - assert (existsb (Z.eqb i) (positions AL x) = true); [|congruence]. apply existsb_exists. exists i.
        split; [apply in_positions; exact K|apply Z.eqb_refl]. }
    rewrite <- EC, HC. destruct (existsb (Z.eqb l) (unique y_train)) eqn:EX; [reflexivity|].
    pose proof (cnt_nonneg l y_train). destruct (Z.eq_dec (cnt l y_train) 0) as [|Hn]; [lia|]. exfalso.
    assert (In l y_train) by (apply cnt_pos; lia).
    assert (existsb (Z.eqb l) (unique y_train) = true); [|congruence]. apply existsb_exists. exists l.
    split; [apply in_unique; assumption|apply Z.eqb_refl]. }
  assert (C2 : forall l, cnt l y2 = cnt l y_test).
  { intros l. assert (K : cnt l (y1 ++ y2) = cnt l AL).
    { apply cnt_perm. rewrite (at_positions_map 0 AL (a ++ b) (y1 ++ y2)) by (apply at_positions_app; assumption).
      rewrite <- (map_nthd_zrange 0 AL) at 2. apply Permutation_map.
      unfold AL. rewrite zlen_app, <- H1, <- H2. exact HPZ. }
    rewrite cnt_app, C1 in K. unfold AL in K. rewrite cnt_app in K. lia. }
  rewrite (unique_counts_ext y1 y_train C1), (unique_counts_ext y2 y_test C2). unfold unique_counts at 1 2.
  assert (R : forall l, zlist_eqb l l = true) by (intros l; apply zlist_eqb_eq; reflexivity).
  rewrite !R. cbn [guard]. rewrite !bind_Ok.
  exists X1, y1, X2, y2, a, b. repeat split; assumption.
Qed.

Lemma resample_err (X_train : list T) y_train X_test y_test s l :
  (In l y_train /\ ~ In l y_test) \/ (~ In l y_train /\ In l y_test) ->
  resample shuf X_train y_train X_test y_test s = Err AssertionError.
Proof.
  intros H. unfold resample, unique_counts at 1 2.
  destruct (zlist_eqb (unique y_train) (unique y_test)) eqn:E; [|reflexivity]. exfalso.
  apply zlist_eqb_eq in E. rewrite <- (in_unique l y_train), <- (in_unique l y_test), E in H. tauto.
Qed.
End RESAMPLE.

(** * Positions found by comparing series *)

Lemma where2_first (M : list (list bool)) :
  match map fst (where2 M) with
  | [] => forall r, In r M -> ~ In true r
  | k :: _ => exists r, nthZ M k = Some r /\ In true r /\ forall k' r', k' < k -> nthZ M k' = Some r' -> ~ In true r'
  end.
Proof.
  unfold where2.
  assert (W : forall r : list bool, where_ r = [] <-> ~ In true r).
  { intros r. split.
    - intros E H. apply In_nthZ in H as (j & Hj). assert (K : In j (where_ r)) by (apply in_where; exact Hj). rewrite E in K. destruct K.
    - intros H. destruct (where_ r) as [|j t] eqn:E; [reflexivity|]. exfalso. apply H.
      assert (K : In j (where_ r)) by (rewrite E; left; auto). apply in_where in K. eapply nthZ_In; eauto. }
  assert (G : forall M o, match map fst (concat (map (fun p : Z * list bool => map (fun j => (fst p, j)) (where_ (snd p)))
              (combine (zrange o (o + zlen M)) M))) with
    | [] => forall r, In r M -> ~ In true r
    | k :: _ => exists r, nthZ M (k - o) = Some r /\ In true r /\ forall k' r', k' < k - o -> nthZ M k' = Some r' -> ~ In true r'
    end).
  { clear M. induction M as [|r M IH]; intros o; [change (zlen (@nil (list bool))) with 0; rewrite zrange_empty by lia; intros r []|]. pose proof (zlen_nonneg M).
    rewrite zlen_cons, zrange_cons by lia. simpl. rewrite map_app.
    destruct (where_ r) as [|j t] eqn:E.
    - simpl. apply W in E. specialize (IH (o + 1)). replace (o + 1 + zlen M) with (o + (zlen M + 1)) in IH by lia.
      destruct (map fst (concat _)) as [|k l] in IH |- *.
      + intros r' [<-|Hr']; auto.
      + destruct IH as (r1 & K1 & K2 & K3). pose proof (nthZ_range _ _ _ K1). exists r1. split; [|split; [exact K2|]].
        * rewrite nthZ_cons. destruct (Z.eqb_spec (k - o) 0); [lia|]. replace (k - o - 1) with (k - (o + 1)) by lia. exact K1.
        * intros k' r' Hk Hr'. rewrite nthZ_cons in Hr'. destruct (Z.eqb_spec k' 0); [injection Hr' as <-; exact E|].
          apply (K3 (k' - 1) r'); [lia|exact Hr'].
    - simpl. exists r. rewrite Z.sub_diag. split; [reflexivity|]. split.
      + assert (K : In j (where_ r)) by (rewrite E; left; auto). apply in_where in K. eapply nthZ_In; eauto.
      + intros k' r' Hk Hr'. apply nthZ_range in Hr'. lia. }
  specialize (G M 0). rewrite Z.add_0_l in G. destruct (map fst (concat _)) as [|k l]; [exact G|]. rewrite Z.sub_0_r in G. exact G.
Qed.

Section CVP.
Context {F : Type} (N : NumOps F).

(** Some channel of [s] equals the same channel of [x]. *)
Definition share (s x : list (list F)) : Prop :=
  exists c a b, nthZ s c = Some a /\ nthZ x c = Some b /\ series_eqb N a b = true.

Lemma share_row s x : In true (map (fun p => series_eqb N (fst p) (snd p)) (combine s x)) <-> share s x.
Proof.
  unfold share. split.
  - intros H. apply In_nthZ in H as (c & Hc). rewrite nthZ_map in Hc.
    destruct (nthZ (combine s x) c) as [[a b]|] eqn:E; [|discriminate]. simpl in Hc. injection Hc as Hc.
    exists c, a, b. revert x c E. induction s as [|u s IH]; intros [|v x] c E; simpl in E;
      try (apply nthZ_range in E; change (zlen (@nil (list F * list F))) with 0 in E; lia).
    rewrite nthZ_cons in E. rewrite !nthZ_cons. destruct (Z.eqb_spec c 0); [injection E as -> ->; auto|]. apply IH. exact E.
  - intros (c & a & b & Ha & Hb & E). apply in_map_iff. exists (a, b). split; [exact E|].
    revert x c Ha Hb. induction s as [|u s IH]; intros x c Ha Hb; [apply nthZ_range in Ha; change (zlen (@nil (list F))) with 0 in Ha; lia|].
    destruct x as [|v x]; [apply nthZ_range in Hb; change (zlen (@nil (list F))) with 0 in Hb; lia|].
    rewrite nthZ_cons in Ha. rewrite nthZ_cons in Hb. simpl. destruct (Z.eqb_spec c 0); [left; congruence|right; eapply IH; eauto].
Qed.

Lemma find_index_spec X x :
  match find_index N X x with
  | Ok k => exists s, nthZ X k = Some s /\ share s x /\ forall k' s', k' < k -> nthZ X k' = Some s' -> ~ share s' x
  | Err e => e = IndexError /\ forall s, In s X -> ~ share s x
  end.
Proof.
  unfold find_index. cbv zeta. set (M := map _ X). pose proof (where2_first M) as H. destruct (map fst (where2 M)) as [|k l].
  - split; [reflexivity|]. intros s Hs Hsh. apply (H (map (fun p => series_eqb N (fst p) (snd p)) (combine s x))).
    + apply in_map_iff. eauto.
    + apply share_row. exact Hsh.
  - destruct H as (r & Hr & Ht & Hf). unfold M in Hr. rewrite nthZ_map in Hr. destruct (nthZ X k) as [s|]; [|discriminate].
    injection Hr as <-. apply share_row in Ht. exists s. split; [reflexivity|]. split; [exact Ht|].
    intros k' s' Hk Hs' Hsh. apply (Hf k' (map (fun p => series_eqb N (fst p) (snd p)) (combine s' x)) Hk).
    + unfold M. rewrite nthZ_map, Hs'. reflexivity.
    + apply share_row. exact Hsh.
Qed.

(** A sample sharing a channel with no other is found at its own position. *)
Lemma find_own X k x : nthZ X k = Some x -> share x x -> (forall k' s, k' <> k -> nthZ X k' = Some s -> ~ share s x) ->
  find_index N X x = Ok k.
Proof.
  intros Hk Hx Ho. pose proof (find_index_spec X x) as H. destruct (find_index N X x) as [k1|e].
  - destruct H as (s & Hs & Hsh & _). f_equal. destruct (Z.eq_dec k1 k) as [|Hn]; [assumption|]. exfalso. eapply Ho; eauto.
  - destruct H as [_ H]. exfalso. apply (H x); [eapply nthZ_In; eauto|exact Hx].
Qed.

Lemma find_own_all X is xs : at_positions X is xs ->
  (forall k x, nthZ X k = Some x -> share x x) ->
  (forall k k' x s, k' <> k -> nthZ X k = Some x -> nthZ X k' = Some s -> ~ share s x) ->
  mapM (find_index N X) xs = Ok is.
Proof.
  intros H Hx Ho. induction H as [|i x is xs Hi H IH]; [reflexivity|]. cbn [mapM].
  rewrite (find_own X i x Hi) by eauto. rewrite bind_Ok, IH. reflexivity.
Qed.
End CVP.

(** * Folds *)
Section SCOREP.
Context {T S P V : Type} (shuf : list Z -> S -> list Z * S) (seed : Z -> S)
  (fit : P -> list T -> list Z -> res P) (predict : P -> list T -> res (list Z)) (scorers : list (list Z -> list Z -> V)).

Lemma score_rows X_train y_train X_test y_test p0 :
  (forall p X y X' y' p', fit p X y = Ok p' -> fit p' X' y' = fit p X' y') ->
  forall idx p rows p' rows', (forall X y, fit p X y = fit p0 X y) ->
  foldM (score_fold shuf seed fit predict scorers X_train y_train X_test y_test) idx (p, rows) = Ok (p', rows') ->
  exists new, rows' = rows ++ new /\
  Forall2 (fun i row => exists X_tr y_tr X_te y_te q y_pred, fold_data shuf seed X_train y_train X_test y_test i = Ok (X_tr, y_tr, X_te, y_te) /\
     fit p0 X_tr y_tr = Ok q /\ predict q X_te = Ok y_pred /\ row = map (fun scorer => scorer y_te y_pred) scorers) idx new.
Proof.
  intros HF. induction idx as [|i idx IH]; intros p rows p' rows' Hp H; cbn [foldM] in H.
  - injection H as <- <-. exists []. rewrite app_nil_r. auto.
  - apply bind_inv in H as ([p1 rows1] & H1 & H). unfold score_fold in H1.
    apply bind_inv in H1 as ([[[X_tr y_tr] X_te] y_te] & Ed & H1). apply bind_inv in H1 as (q & Ef & H1).
    apply bind_inv in H1 as (y_pred & Ep & H1). injection H1 as <- <-.
    assert (Hq : forall X y, fit q X y = fit p0 X y) by (intros X y; rewrite (HF p X_tr y_tr X y q Ef); apply Hp).
    destruct (IH q _ p' rows' Hq H) as (new & -> & HN).
    eexists. rewrite <- app_assoc. split; [reflexivity|]. constructor; [|exact HN].
    rewrite Hp in Ef. exists X_tr, y_tr, X_te, y_te, q, y_pred. auto.
Qed.
End SCOREP.
