(** Properties C48, C49, C63: convst/utils/experiments_utils.py. *)
From Coq Require Import ZArith List Bool Lia Permutation.
From Verif Require Import Prelude Num Gen Experiments ExperimentsProofs.
Import ListNotations.
Open Scope Z_scope.

(** ** C48.  Stratified resampling is a partition with the original class counts *)

(** [xs] lists the elements of [l] found at the positions [is]. *)
Definition taken {A} (l : list A) (is : list Z) (xs : list A) : Prop := Forall2 (fun i x => nthZ l i = Some x) is xs.
(** How many samples have label [c]. *)
Definition count (c : Z) (y : list Z) : nat := count_occ Z.eq_dec y c.

(** For every shuffle: the samples are taken, with their labels, at positions that together run through the whole data
    exactly once, and the class counts of both parts are the original ones. *)
Theorem C48_partition : forall (T S : Type) (shuf : list Z -> S -> list Z * S) (X_train : list T) y_train X_test y_test s,
  (forall l s, Permutation l (fst (shuf l s))) ->
  zlen X_train = zlen y_train -> zlen X_test = zlen y_test -> (forall c, In c y_train <-> In c y_test) ->
  exists X1 y1 X2 y2 tr te,
    resample shuf X_train y_train X_test y_test s = Ok (X1, y1, X2, y2) /\
    Permutation (tr ++ te) (zrange 0 (zlen X_train + zlen X_test)) /\
    taken (X_train ++ X_test) tr X1 /\ taken (y_train ++ y_test) tr y1 /\
    taken (X_train ++ X_test) te X2 /\ taken (y_train ++ y_test) te y2 /\
    (forall c, count c y1 = count c y_train) /\ (forall c, count c y2 = count c y_test) /\
    Permutation (combine X1 y1 ++ combine X2 y2) (combine X_train y_train ++ combine X_test y_test).
Proof.
  intros T S shuf X_train y_train X_test y_test s HS H1 H2 HL.
  destruct (resample_ok shuf HS X_train y_train X_test y_test s H1 H2 HL) as (X1 & y1 & X2 & y2 & tr & te & E & HP & A1 & A2 & A3 & A4 & C1 & C2).
  exists X1, y1, X2, y2, tr, te.
  assert (CC : forall c y y', cnt c y = cnt c y' -> count c y = count c y').
  { assert (K : forall c y, cnt c y = Z.of_nat (count c y)).
    { intros c y. unfold cnt, count. induction y as [|a y IH]; [reflexivity|]. simpl.
      destruct (Z.eqb_spec c a) as [->|Hn]; destruct (Z.eq_dec _ _); try congruence; rewrite ?zlen_cons, IH; lia. }
    intros c y y' H. rewrite !K in H. lia. }
  repeat (split; [first [assumption | intros c; apply CC; auto]|]).
  assert (CO : forall is (xs : list T) ys, at_positions (X_train ++ X_test) is xs -> at_positions (y_train ++ y_test) is ys ->
     at_positions (combine (X_train ++ X_test) (y_train ++ y_test)) is (combine xs ys)).
  { intros is xs ys HX. revert ys. induction HX as [|i x is xs Hi HX IH]; intros ys HY; inversion HY as [|i' y' is' ys' Hy HY' E1 E2]; subst; simpl; constructor.
    - clear -Hi Hy. revert Hi Hy. generalize (X_train ++ X_test) as l, (y_train ++ y_test) as m. intros l. revert i.
      induction l as [|u l IH]; intros i [|v m] Ha Hb;
        try (apply nthZ_range in Ha; change (zlen (@nil T)) with 0 in Ha; lia);
        try (apply nthZ_range in Hb; change (zlen (@nil Z)) with 0 in Hb; lia).
      simpl. rewrite nthZ_cons in Ha. rewrite nthZ_cons in Hb. rewrite nthZ_cons. destruct (Z.eqb_spec i 0); [congruence|]. apply IH; assumption.
    - apply IH. assumption. }
  assert (EC : combine X_train y_train ++ combine X_test y_test = combine (X_train ++ X_test) (y_train ++ y_test)).
  { clear -H1. revert y_train H1. induction X_train as [|x l IH]; intros [|y m] H; unfold zlen in *; simpl in *; try lia; [reflexivity|].
    f_equal. apply IH. lia. }
  rewrite EC. set (L := combine (X_train ++ X_test) (y_train ++ y_test)) in *.
  pose proof (at_positions_app _ _ _ _ _ (CO tr X1 y1 A1 A2) (CO te X2 y2 A3 A4)) as HA.
  assert (HZ : zlen L = zlen X_train + zlen X_test).
  { unfold L, zlen in *. rewrite combine_length, !app_length. lia. }
  destruct L as [|d L'] eqn:EL.
  - change (zlen (@nil (T * Z))) with 0 in HZ. rewrite <- HZ in HP. apply Permutation_sym, Permutation_nil in HP. rewrite HP in HA. inversion HA. constructor.
  - rewrite (at_positions_map d _ _ _ HA). rewrite <- (map_nthd_zrange d (d :: L')) at 2. apply Permutation_map. rewrite HZ. exact HP.
Qed.
Print Assumptions C48_partition.

(** It fails exactly when a class is missing from one part. *)
Theorem C48_missing_class : forall (T S : Type) (shuf : list Z -> S -> list Z * S) (X_train : list T) y_train X_test y_test s,
  (forall l s, Permutation l (fst (shuf l s))) -> zlen X_train = zlen y_train -> zlen X_test = zlen y_test ->
  (resample shuf X_train y_train X_test y_test s = Err AssertionError <-> ~ (forall c, In c y_train <-> In c y_test)) /\
  (forall e, resample shuf X_train y_train X_test y_test s = Err e -> e = AssertionError).
Proof.
  intros T S shuf X_train y_train X_test y_test s HS H1 H2.
  assert (D : (forall c, In c y_train <-> In c y_test) \/ exists c, (In c y_train /\ ~ In c y_test) \/ (~ In c y_train /\ In c y_test)).
  { assert (G : forall a b : list Z, (forall c, In c a -> In c b) \/ exists c, In c a /\ ~ In c b).
    { intros a b. destruct (forallb (fun c => existsb (Z.eqb c) b) a) eqn:E.
      - left. intros c Hc. rewrite forallb_forall in E. specialize (E c Hc). apply existsb_exists in E as (d & Hd & Ed). apply Z.eqb_eq in Ed. congruence.
      - right. induction a as [|c a IH]; [discriminate|]. simpl in E. destruct (existsb (Z.eqb c) b) eqn:Ec.
        + destruct (IH E) as (d & Hd & Hn). exists d. split; [right|]; auto.
        + exists c. split; [left; auto|]. intros Hc. assert (existsb (Z.eqb c) b = true); [|congruence]. apply existsb_exists. exists c. split; [auto|apply Z.eqb_refl]. }
    destruct (G y_train y_test) as [Ha|(c & Hc)]; [|right; exists c; tauto].
    destruct (G y_test y_train) as [Hb|(c & Hc)]; [|right; exists c; tauto]. left. intros c. split; auto. }
  destruct D as [HL|(c & Hc)].
  - destruct (resample_ok shuf HS X_train y_train X_test y_test s H1 H2 HL) as (X1 & y1 & X2 & y2 & tr & te & E & _).
    rewrite E. split; [split; [discriminate|tauto]|discriminate].
  - rewrite (resample_err shuf X_train y_train X_test y_test s c Hc). split; [split; [intros _ H; specialize (H c); tauto|reflexivity]|].
    intros e E. injection E as <-. reflexivity.
Qed.
Print Assumptions C48_missing_class.

Definition rev_shuf (l : list Z) (s : Z) : list Z * Z := (rev l, s + 1).
Example C48_case : (forall l s, Permutation l (fst (rev_shuf l s))) /\
  resample rev_shuf [10; 11; 12] [1; 0; 1] [20; 21; 22] [0; 1; 1] 0
    = Ok ([20; 22; 21], [0; 1; 1], [11; 12; 10], [0; 1; 1]) /\
  resample rev_shuf [10; 11] [1; 0] [20] [1] 0 = Err AssertionError.
Proof. split; [intros l s; apply Permutation_rev|]. split; vm_compute; reflexivity. Qed.

(** ** C49.  Cross-validation indices point to the right samples *)

(** An array of samples with [f] channels of [t] points. *)
Definition shaped {F} (f t : Z) (X : list (list (list F))) : Prop :=
  forall s, In s X -> zlen s = f /\ forall x, In x s -> zlen x = t.

(** Two series with pairwise equal points. *)
Definition equal_series {F} (N : NumOps F) : list F -> list F -> Prop := Forall2 (fun x y => neqb N x y = true).

Lemma series_eqb_spec {F} (N : NumOps F) a b : zlen a = zlen b -> series_eqb N a b = true <-> equal_series N a b.
Proof.
  intros H. unfold series_eqb, zlen in *. revert b H. induction a as [|x a IH]; intros [|y b] H; simpl in *; try lia; split; intros K; auto.
  - constructor.
  - apply andb_true_iff in K as [K1 K2]. constructor; [exact K1|]. apply IH; [lia|exact K2].
  - inversion K; subst. apply andb_true_iff. split; [assumption|]. apply IH; [lia|assumption].
Qed.

(** The index found for a sample is the first one at which some whole channel agrees; IndexError if there is none. *)
Theorem C49_index : forall (F : Type) (N : NumOps F) f t X (x : list (list F)), shaped f t X -> shaped f t [x] ->
  let agrees (s : list (list F)) := exists c a b, nthZ s c = Some a /\ nthZ x c = Some b /\ equal_series N a b in
  (forall k, find_index N X x = Ok k <->
     exists s, nthZ X k = Some s /\ agrees s /\ forall k' s', k' < k -> nthZ X k' = Some s' -> ~ agrees s') /\
  (forall e, find_index N X x = Err e <-> e = IndexError /\ forall s, In s X -> ~ agrees s).
Proof.
  intros F N f t X x HX Hx agrees.
  assert (SH : forall s, In s X -> (share N s x <-> agrees s)).
  { intros s Hs. destruct (HX s Hs) as [_ Hs2]. destruct (Hx x (or_introl eq_refl)) as [_ Hx2]. unfold share, agrees.
    split; intros (c & a & b & Ha & Hb & E); exists c, a, b; (split; [exact Ha|split; [exact Hb|]]);
      (assert (zlen a = zlen b) by (rewrite (Hs2 a), (Hx2 b) by (eapply nthZ_In; eauto); reflexivity)); apply series_eqb_spec; assumption. }
  pose proof (find_index_spec N X x) as H. destruct (find_index N X x) as [k0|e0].
  - destruct H as (s & Hs & Hsh & Hf). apply SH in Hsh; [|eapply nthZ_In; eauto]. split.
    + intros k. split.
      * intros E. injection E as <-. exists s. split; [exact Hs|]. split; [exact Hsh|]. intros k' s' Hk Hs' Ha. apply (Hf k' s' Hk Hs').
        apply SH; [eapply nthZ_In; eauto|exact Ha].
      * intros (s1 & Hs1 & Ha1 & Hf1). f_equal. destruct (Z.lt_trichotomy k0 k) as [Hlt|[->|Hlt]]; [|reflexivity|].
        -- exfalso. apply (Hf1 k0 s Hlt Hs Hsh).
        -- exfalso. apply (Hf k s1 Hlt Hs1). apply SH; [eapply nthZ_In; eauto|exact Ha1].
    + intros e. split; [discriminate|]. intros [_ Hn]. exfalso. apply (Hn s); [eapply nthZ_In; eauto|exact Hsh].
  - destruct H as [-> Hn]. split.
    + intros k. split; [discriminate|]. intros (s & Hs & Ha & _). exfalso. assert (In s X) by (eapply nthZ_In; eauto).
      apply (Hn s); [assumption|]. apply SH; assumption.
    + intros e. split; [intros E; injection E as <-; split; [reflexivity|]|intros [-> _]; reflexivity].
      intros s Hs Ha. apply (Hn s Hs). apply SH; assumption.
Qed.
Print Assumptions C49_index.

(** Univariate data without NaN and without two equal series: each fold is given by the positions of its samples in
    X = train followed by test; the two lists partition the positions, and the labels at these positions are the fold's. *)
Theorem C49_univariate : forall (F S : Type) (N : NumOps F) (shuf : list Z -> S -> list Z * S) seed t Xtr ytr Xte yte i,
  (forall l s, Permutation l (fst (shuf l s))) ->
  shaped 1 t (Xtr ++ Xte) ->
  (forall s x v, In s (Xtr ++ Xte) -> In x s -> In v x -> neqb N v v = true) ->
  (forall k k' x y, k <> k' -> nthZ (Xtr ++ Xte) k = Some [x] -> nthZ (Xtr ++ Xte) k' = Some [y] -> ~ equal_series N x y) ->
  zlen Xtr = zlen ytr -> zlen Xte = zlen yte -> (forall c, In c ytr <-> In c yte) ->
  exists tr te X1 y1 X2 y2,
    cv_split N shuf seed Xtr ytr Xte yte (Xtr ++ Xte) i = Ok (tr, te) /\
    fold_data shuf seed Xtr ytr Xte yte i = Ok (X1, y1, X2, y2) /\
    Permutation (tr ++ te) (zrange 0 (zlen (Xtr ++ Xte))) /\
    taken (Xtr ++ Xte) tr X1 /\ taken (ytr ++ yte) tr y1 /\ taken (Xtr ++ Xte) te X2 /\ taken (ytr ++ yte) te y2.
Proof.
  intros F S N shuf seed t Xtr ytr Xte yte i HS HX Hr Hd H1 H2 HL.
  assert (One : forall k s, nthZ (Xtr ++ Xte) k = Some s -> exists x, s = [x] /\ zlen x = t).
  { intros k s Hs. apply nthZ_In in Hs. destruct (HX s Hs) as [Hl Hx]. destruct s as [|x [|x' s]].
    - change (zlen (@nil (list F))) with 0 in Hl. lia.
    - exists x. split; [reflexivity|]. apply Hx. left. reflexivity.
    - rewrite !zlen_cons in Hl. pose proof (zlen_nonneg s). lia. }
  assert (S1 : forall x y : list F, share N [x] [y] <-> series_eqb N x y = true).
  { intros x y. split.
    - intros (c & a & b & Ha & Hb & E). rewrite nthZ_cons in Ha. rewrite nthZ_cons in Hb. destruct (Z.eqb_spec c 0); [congruence|].
      apply nthZ_range in Ha. change (zlen (@nil (list F))) with 0 in Ha. lia.
    - intros E. exists 0, x, y. auto. }
  assert (Own : forall k x, nthZ (Xtr ++ Xte) k = Some x -> share N x x).
  { intros k s Hs. destruct (One k s Hs) as (x & -> & _). apply S1. apply series_eqb_spec; [reflexivity|].
    apply nthZ_In in Hs. specialize (Hr [x] x). clear -Hr Hs. assert (K : forall v, In v x -> neqb N v v = true) by (intros v Hv; apply Hr; [auto|left; auto|auto]).
    clear Hr Hs. induction x as [|v x IH]; constructor; [apply K; left; auto|apply IH; intros w Hw; apply K; right; auto]. }
  assert (Oth : forall k k' x s, k' <> k -> nthZ (Xtr ++ Xte) k = Some x -> nthZ (Xtr ++ Xte) k' = Some s -> ~ share N s x).
  { intros k k' x s Hk Hx Hs Hsh. destruct (One k x Hx) as (x1 & -> & L1). destruct (One k' s Hs) as (s1 & -> & L2).
    apply S1 in Hsh. apply series_eqb_spec in Hsh; [|congruence]. exact (Hd k' k s1 x1 Hk Hs Hx Hsh). }
  assert (FD : exists X1 y1 X2 y2 tr te, fold_data shuf seed Xtr ytr Xte yte i = Ok (X1, y1, X2, y2) /\
    Permutation (tr ++ te) (zrange 0 (zlen (Xtr ++ Xte))) /\
    taken (Xtr ++ Xte) tr X1 /\ taken (ytr ++ yte) tr y1 /\ taken (Xtr ++ Xte) te X2 /\ taken (ytr ++ yte) te y2).
  { unfold fold_data. destruct (i =? 0).
    - exists Xtr, ytr, Xte, yte, (zrange 0 (zlen Xtr)), (zrange (zlen Xtr) (zlen Xtr + zlen Xte)). split; [reflexivity|].
      pose proof (zlen_nonneg Xtr). pose proof (zlen_nonneg Xte).
      assert (TK : forall (A : Type) (l m r : list A), taken (l ++ m ++ r) (zrange (zlen l) (zlen l + zlen m)) m).
      { intros A l m. revert l. induction m as [|a m IH]; intros l r.
        - change (zlen (@nil A)) with 0. rewrite zrange_empty by lia. constructor.
        - pose proof (zlen_nonneg m). rewrite zlen_cons, zrange_cons by lia. constructor.
          + rewrite nthZ_app. destruct (Z.ltb_spec (zlen l) (zlen l)); [lia|]. rewrite Z.sub_diag. reflexivity.
          + specialize (IH (l ++ [a]) r). rewrite <- app_assoc in IH. simpl in IH. rewrite zlen_app in IH. change (zlen [a]) with 1 in IH.
            replace (zlen l + (zlen m + 1)) with (zlen l + 1 + zlen m) by lia. exact IH. }
      split; [rewrite <- zrange_app, zlen_app by lia; apply Permutation_refl|].
      assert (TA : forall (A : Type) (l m : list A), taken (l ++ m) (zrange 0 (zlen l)) l) by (intros A l m; apply (TK A [] l m)).
      assert (TB : forall (A : Type) (l m : list A), taken (l ++ m) (zrange (zlen l) (zlen l + zlen m)) m) by (intros A l m; specialize (TK A l m []); rewrite app_nil_r in TK; exact TK).
      split; [apply TA|]. split; [rewrite H1; apply TA|]. split; [apply TB|]. rewrite H1, H2. apply TB.
    - destruct (resample_ok shuf HS Xtr ytr Xte yte (seed i) H1 H2 HL) as (X1 & y1 & X2 & y2 & tr & te & E & HP & A1 & A2 & A3 & A4 & _).
      exists X1, y1, X2, y2, tr, te. rewrite zlen_app. repeat (split; [assumption|]). assumption. }
  destruct FD as (X1 & y1 & X2 & y2 & tr & te & E & HP & A1 & A2 & A3 & A4). exists tr, te, X1, y1, X2, y2.
  split; [|repeat (split; [assumption|]); assumption].
  unfold cv_split. rewrite E, bind_Ok, (find_own_all N _ tr X1 A1 Own Oth), bind_Ok, (find_own_all N _ te X2 A3 Own Oth), bind_Ok. reflexivity.
Qed.
Print Assumptions C49_univariate.

(** With a duplicated series, or a shared channel, a test index can be a training index. *)
Theorem C49_duplicates_refuted : forall (F S : Type) (N : NumOps F) (shuf : list Z -> S -> list Z * S) seed (a : F),
  neqb N a a = true ->
  cv_split N shuf seed [[[a]]] [0] [[[a]]] [0] [[[a]]; [[a]]] 0 = Ok ([0], [0]).
Proof.
  intros F S N shuf seed a H. unfold cv_split, fold_data, find_index, where2. cbn -[where_]. unfold series_eqb. cbn -[where_]. rewrite H. reflexivity.
Qed.
Print Assumptions C49_duplicates_refuted.

Theorem C49_multivariate_refuted : forall (F S : Type) (N : NumOps F) (shuf : list Z -> S -> list Z * S) seed (a b : F),
  neqb N a a = true -> neqb N b b = true -> neqb N a b = false -> neqb N b a = false ->
  let x := [[a]; [a]] in let y := [[a]; [b]] in
  x <> y /\ cv_split N shuf seed [x] [0] [y] [0] [x; y] 0 = Ok ([0], [0]).
Proof.
  intros F S N shuf seed a b Ha Hb Hab Hba x y. split.
  - intros E. injection E as <-. congruence.
  - unfold x, y, cv_split, fold_data, find_index, where2. cbn -[where_]. unfold series_eqb. cbn -[where_]. rewrite Ha, Hab. reflexivity.
Qed.
Print Assumptions C49_multivariate_refuted.

Example C49_case :
  cv_split ZN rev_shuf (fun i => i) [[[1; 2]]; [[3; 4]]] [0; 1] [[[5; 6]]; [[1; 3]]] [1; 0] [[[1; 2]]; [[3; 4]]; [[5; 6]]; [[1; 3]]] 1
    = Ok ([3; 2], [0; 1]) /\
  find_index ZN [[[1; 2]; [3; 4]]; [[5; 6]; [7; 8]]] [[0; 0]; [7; 8]] = Ok 1 /\
  find_index ZN [[[1; 2]; [3; 4]]; [[5; 6]; [7; 8]]] [[7; 8]; [5; 6]] = Err IndexError.
Proof. repeat split; vm_compute; reflexivity. Qed.

(** ** C63.  What a cross-validation score measures *)

(** For a pipeline whose fit forgets earlier fits, row i of the result holds the scores, on the test part of fold i, of
    the pipeline fitted on the train part of fold i alone; there is one row per fold. *)
Theorem C63_fold_scores : forall (T S P V : Type) (shuf : list Z -> S -> list Z * S) seed
  (fit : P -> list T -> list Z -> res P) predict (scorers : list (list Z -> list Z -> V)) n Xtr ytr Xte yte p0 rows,
  (forall p X y X' y' p', fit p X y = Ok p' -> fit p' X' y' = fit p X' y') ->
  score shuf seed fit predict scorers n Xtr ytr Xte yte p0 = Ok rows ->
  zlen rows = Z.max 0 n /\
  forall i, 0 <= i < n -> exists X1 y1 X2 y2 q pred,
    fold_data shuf seed Xtr ytr Xte yte i = Ok (X1, y1, X2, y2) /\ fit p0 X1 y1 = Ok q /\ predict q X2 = Ok pred /\
    nthZ rows i = Some (map (fun f => f y2 pred) scorers).
Proof.
  intros T S P V shuf seed fit predict scorers n Xtr ytr Xte yte p0 rows HF H. unfold score in H.
  apply bind_inv in H as ([p' rows'] & H & E). injection E as <-.
  destruct (score_rows shuf seed fit predict scorers Xtr ytr Xte yte p0 HF _ p0 [] p' rows' (fun _ _ => eq_refl) H) as (new & -> & HN).
  simpl. pose proof (Forall2_length _ _ _ HN) as HL. split.
  - unfold zlen. rewrite <- HL, zrange_length. lia.
  - intros i Hi. destruct (nthZ_some new i) as (row & Er); [unfold zlen; rewrite <- HL, zrange_length; lia|].
    assert (Ei : nthZ (zrange 0 n) i = Some i) by (rewrite nthZ_zrange by lia; f_equal; lia).
    destruct (NumbaUtilsProofs.Forall2_nthZ _ _ _ i i row HN Ei Er) as (X1 & y1 & X2 & y2 & q & pred & E1 & E2 & E3 & ->).
    exists X1, y1, X2, y2, q, pred. auto.
Qed.
Print Assumptions C63_fold_scores.

(** A pipeline that remembers earlier fits (as R_DST does, see C37) is not measured on fold i alone. *)
Theorem C63_history_refuted : exists (P : Type) (fit : P -> list Z -> list Z -> res P) predict (p0 : P) rows,
  score rev_shuf (fun i => i) fit predict [(fun y pred => zlist_eqb y pred)] 2 [7; 8] [0; 1] [9; 10] [1; 0] p0 = Ok rows /\
  nthZ rows 1 = Some [false] /\
  exists X1 y1 X2 y2 q pred, fold_data rev_shuf (fun i => i) [7; 8] [0; 1] [9; 10] [1; 0] 1 = Ok (X1, y1, X2, y2) /\
    fit p0 X1 y1 = Ok q /\ predict q X2 = Ok pred /\ zlist_eqb y2 pred = true.
Proof.
  (* the state counts the fits; predictions are right after one fit only *)
  exists Z, (fun p _ _ => Ok (p + 1)), (fun p X => Ok (map (fun x => if p =? 1 then x - 7 else 5) X)), 0.
  eexists. split; [vm_compute; reflexivity|]. split; [reflexivity|].
  do 6 eexists. split; [vm_compute; reflexivity|]. split; [reflexivity|]. split; reflexivity.
Qed.
Print Assumptions C63_history_refuted.

Example C63_case : score rev_shuf (fun i => i) (fun (_ : list Z) _ y => Ok y) (fun p X => Ok p)
  [fun y p => zlist_eqb y p; fun y p => zlen y =? zlen p] 2 [7; 8] [0; 1] [9; 10] [1; 0] []
  = Ok [[false; true]; [true; true]].
Proof. vm_compute. reflexivity. Qed.
