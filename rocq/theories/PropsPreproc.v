(** Properties C47, C50, C51, C62: convst/utils/dataset_utils.py and convst/transformers/_input_transformers.py. *)
From Coq Require Import ZArith List Bool Lia Reals Lra Binomial Floats.
From Verif Require Import Prelude Num Spec Kernel Apply RealBase RealProofs KernelLaws Preproc PreprocProofs NumbaUtilsProofs.
Import ListNotations.
Open Scope Z_scope.

(** ** C47.  Constant features are dropped consistently *)

(** Cell (row r, column j) of a matrix whose rows have length p. *)
Definition matrix {F} (p : Z) (X : list (list F)) : Prop := 0 <= p /\ forall r, In r X -> zlen r = p.

(** In exact arithmetic the kept columns are exactly those on which two training samples differ, in increasing order. *)
Theorem C47_kept_columns : forall p (X : list (list R)), matrix p X -> exists atts,
  usefull_atts RN p X = Ok atts /\ incr atts /\
  forall j, In j atts <-> 0 <= j < p /\ exists r s, In r X /\ In s X /\ nthZ r j <> nthZ s j.
Proof.
  intros p X [Hp HX]. destruct (usefull_ok RN p X HX) as (atts & E & Hi & Hin). exists atts. split; [exact E|]. split; [exact Hi|].
  intros j. rewrite Hin. split; intros [Hj H]; (split; [exact Hj|]).
  - change (Reqb (sdev RN (map (fun r => pt RN r j) X)) 0 = false) in H. apply Reqb_false in H.
    (* if no two rows differed the deviation would be 0 *)
    assert (G : ~ forall r s, In r X -> In s X -> nthZ r j = nthZ s j).
    { intros K. apply H. apply sdev_zero. intros x y Hx Hy. apply in_map_iff in Hx as (r & <- & Hr).
      apply in_map_iff in Hy as (s & <- & Hs). unfold pt, nthd. rewrite (K r s Hr Hs). reflexivity. }
    clear -G HX Hj.
    assert (D : forall r s : list R, In r X -> In s X -> {nthZ r j = nthZ s j} + {nthZ r j <> nthZ s j}).
    { intros r s _ _. destruct (nthZ r j) as [x|], (nthZ s j) as [y|]; [destruct (Req_EM_T x y); [left; congruence|right; congruence]|
        right; discriminate|right; discriminate|left; reflexivity]. }
    apply Classical_Pred_Type.not_all_ex_not in G as (r & G). apply Classical_Pred_Type.not_all_ex_not in G as (s & G).
    exists r, s. apply Classical_Prop.imply_to_and in G as [Hr G]. apply Classical_Prop.imply_to_and in G as [Hs G]. auto.
  - destruct H as (r & s & Hr & Hs & Hd). change (Reqb (sdev RN (map (fun r => pt RN r j) X)) 0 = false).
    apply Reqb_false. intros K. apply Hd. rewrite (nthZ_nthd 0%R r j), (nthZ_nthd 0%R s j) by (rewrite (HX _ Hr) || rewrite (HX _ Hs); lia).
    f_equal. apply (proj1 (sdev_zero _) K); apply in_map_iff; [exists r|exists s]; split; auto.
Qed.
Print Assumptions C47_kept_columns.

(** For any arithmetic: the columns whose computed deviation is not 0. *)
Theorem C47_kept_columns_any : forall (F : Type) (N : NumOps F) p (X : list (list F)), matrix p X -> exists atts,
  usefull_atts N p X = Ok atts /\ incr atts /\
  forall j, In j atts <-> 0 <= j < p /\ neqb N (sdev N (map (fun r => pt N r j) X)) (n0 N) = false.
Proof. intros F N p X [_ HX]. apply usefull_ok. exact HX. Qed.
Print Assumptions C47_kept_columns_any.

(** fit and every later transform hand the same columns, in the same order, to the scaler: column q of what the scaler
    sees is column atts[q] of the input, at fit and at transform time.  A later input too narrow for them is rejected. *)
Theorem C47_same_columns : forall (F : Type) (N : NumOps F) (S : Type) (sk_fit : list (list F) -> res S) (sk_transform : S -> list (list F) -> res (list (list F))) p X sc,
  matrix p X -> c_fit N sk_fit p X = Ok sc ->
  exists atts, usefull_atts N p X = Ok atts /\
  (exists X', sk_fit X' = Ok (sc_inner sc) /\ zlen X' = zlen X /\
     forall i r, nthZ X i = Some r -> exists r', nthZ X' i = Some r' /\ zlen r' = zlen atts /\
       forall q j, nthZ atts q = Some j -> nthZ r' q = nthZ r j) /\
  forall Z p', matrix p' Z ->
    ((forall j, In j atts -> j < p') -> exists Z', c_transform sk_transform sc Z = sk_transform (sc_inner sc) Z' /\ zlen Z' = zlen Z /\
       forall i r, nthZ Z i = Some r -> exists r', nthZ Z' i = Some r' /\ zlen r' = zlen atts /\
         forall q j, nthZ atts q = Some j -> nthZ r' q = nthZ r j) /\
    ((exists j, In j atts /\ p' <= j) -> Z <> [] -> exists e, c_transform sk_transform sc Z = Err e).
Proof.
  intros F N S skf skt p X sc [Hp HX] H. unfold c_fit in H. apply bind_inv in H as (atts & Ea & H).
  apply bind_inv in H as (sel & Es & H). apply bind_inv in H as (s & Ef & H). injection H as <-. simpl.
  exists atts. split; [exact Ea|].
  destruct (usefull_ok N p X HX) as (atts' & Ea' & _ & Hin). rewrite Ea in Ea'. injection Ea' as <-.
  assert (SEL : forall (W : list (list F)) pw, (forall r, In r W -> zlen r = pw) -> (forall j, In j atts -> 0 <= j < pw) ->
    exists W', take_cols W atts = Ok W' /\ zlen W' = zlen W /\
       forall i r, nthZ W i = Some r -> exists r', nthZ W' i = Some r' /\ zlen r' = zlen atts /\
         forall q j, nthZ atts q = Some j -> nthZ r' q = nthZ r j).
  { intros W pw HW Hb. exists (map (fun r => map (nthd (n0 N) r) atts) W). split; [|split].
    - apply take_cols_ok. intros r j Hr Hj. rewrite (HW r Hr). auto.
    - apply zlen_map.
    - intros i r Hr. rewrite nthZ_map, Hr. simpl. eexists. split; [reflexivity|]. split; [apply zlen_map|].
      intros q j Hq. rewrite nthZ_map, Hq. simpl. symmetry. apply nthZ_nthd.
      rewrite (HW r) by (eapply nthZ_In; eauto). apply Hb. eapply nthZ_In; eauto. }
  split.
  - destruct (SEL X p HX) as (X' & E & H1 & H2); [intros j Hj; apply Hin in Hj; tauto|].
    rewrite Es in E. injection E as <-. exists sel. auto.
  - intros Z p' [Hp' HZ]. split.
    + intros Hb. destruct (SEL Z p' HZ) as (Z' & E & H1 & H2).
      { intros j Hj. specialize (Hb j Hj). apply Hin in Hj. lia. }
      exists Z'. unfold c_transform. simpl. rewrite E, bind_Ok. auto.
    + intros (j & Hj & Hlt) Hne. destruct Z as [|r Z]; [contradiction|].
      destruct (take_cols_err (r :: Z) atts r j) as (e & E); [left; auto|auto|rewrite (HZ r) by (left; auto); lia|].
      exists e. unfold c_transform. simpl sc_atts. rewrite E. reflexivity.
Qed.
Print Assumptions C47_same_columns.

(** In binary64 a constant feature need not be dropped: three samples equal to 0.1 have computed deviation 2^-56. *)
Theorem C47_constant_dropped_refuted : forall log2 log pow2, exists (c : float) X,
  matrix 1 X /\ (forall r, In r X -> r = [c]) /\ usefull_atts (FN log2 log pow2) 1 X = Ok [0].
Proof.
  intros. exists 0x1.999999999999ap-4%float. exists (repeat [0x1.999999999999ap-4%float] 3).
  split; [split; [lia|]|split].
  - intros r Hr. apply repeat_spec in Hr. subst r. reflexivity.
  - intros r Hr. apply repeat_spec in Hr. exact Hr.
  - vm_compute. reflexivity.
Qed.
Print Assumptions C47_constant_dropped_refuted.

Example C47_case : exists sc, c_fit ZN (fun X => Ok X) 4 [[1; 7; 2; 5]; [1; 9; 2; 9]] = Ok sc /\ sc_atts sc = [1; 3] /\
  sc_inner sc = [[7; 5]; [9; 9]] /\ c_transform (fun _ Z => Ok Z) sc [[10; 11; 12; 13]] = Ok [[11; 13]] /\
  c_transform (fun _ Z => Ok Z) sc [[10; 11; 12]] = Err OutOfBounds.
Proof. eexists. repeat split; vm_compute; reflexivity. Qed.

(** ** C50.  Dataset z-normalisation *)

(** [X'] has the shape of [X] and each series of each sample is normalised with its own mean and deviation. *)
Definition normalised {F} (N : NumOps F) (X X' : dataset F) : Prop :=
  zlen X' = zlen X /\
  forall i s, nthZ X i = Some s -> exists s', nthZ X' i = Some s' /\ zlen s' = zlen s /\
  forall j x, nthZ s j = Some x -> exists x', nthZ s' j = Some x' /\ zlen x' = zlen x /\
  forall t v, nthZ x t = Some v -> nthZ x' t = Some (ndiv N (nsub N v (avg N x)) (nadd N (sdev N x) (neps N))).

Theorem C50_normalised : forall (F : Type) (N : NumOps F) (X : dataset F), exists X',
  normalised N X X' /\
  z_norm_3D_list N X = Ok X' /\
  z_norm_all_samples N X = Ok X' /\
  forall f, (forall s, In s X -> zlen s = f) -> z_norm_3D N X = Ok X'.
Proof.
  intros F N X. exists (zdata N X). split; [|split; [|split]].
  - unfold normalised, zdata. split; [apply zlen_map|].
    intros i s Hs. rewrite nthZ_map, Hs. simpl. eexists. split; [reflexivity|]. split; [apply zlen_map|].
    intros j x Hx. rewrite nthZ_map, Hx. simpl. eexists. split; [reflexivity|]. split; [apply zlen_map|].
    intros t v Hv. unfold zscore. rewrite nthZ_map, Hv. reflexivity.
  - apply z_norm_3D_list_ok.
  - apply z_norm_all_samples_ok.
  - intros f Hf. apply (z_norm_3D_ok N X f Hf).
Qed.
Print Assumptions C50_normalised.

(** Exact arithmetic: a constant series becomes zeros; any other series gets mean 0 and a deviation just below 1. *)
Theorem C50_moments : forall (X X' : dataset R) i j s x s' x',
  normalised RN X X' -> nthZ X i = Some s -> nthZ s j = Some x -> nthZ X' i = Some s' -> nthZ s' j = Some x' -> x <> [] ->
  avg RN x' = 0%R /\ (sdev RN x' * (sdev RN x + / 100000000) = sdev RN x)%R /\
  ((forall u v, In u x -> In v x -> u = v) -> forall v, In v x' -> v = 0%R).
Proof.
  intros X X' i j s x s' x' [_ H] Hs Hx Hs' Hx' Hne.
  destruct (H i s Hs) as (s2 & E2 & _ & H2). rewrite Hs' in E2. injection E2 as <-.
  destruct (H2 j x Hx) as (x2 & E3 & HL & H3). rewrite Hx' in E3. injection E3 as <-.
  assert (E : x' = zscore RN x).
  { apply nthZ_ext. 
    - rewrite HL, zlen_zscore. reflexivity.
    - intros t Ht. rewrite HL in Ht. destruct (nthZ_some x t Ht) as (v & Ev). rewrite (H3 t v Ev). unfold zscore. rewrite nthZ_map, Ev. reflexivity. }
  rewrite E. split; [apply zscore_avg; exact Hne|]. split.
  - rewrite zscore_sdev by exact Hne. change (/ 100000000)%R with (neps RN). pose proof (sdev_nonneg x). pose proof eps_pos. field. lra.
  - intros K v Hv. destruct x as [|a t]; [contradiction|]. apply (zscore_const (a :: t) a); [|exact Hv]. intros u Hu. apply K; [exact Hu|left; auto].
Qed.
Print Assumptions C50_moments.

(** In binary64 a constant series need not become zeros. *)
Theorem C50_constant_refuted : forall log2 log pow2, exists (c : float) v,
  z_norm_all_samples (FN log2 log pow2) [[[c; c; c]]] = Ok [[[v; v; v]]] /\ PrimFloat.eqb v 0%float = false.
Proof.
  intros. exists 0x1.999999999999ap-4%float. eexists. split; vm_compute; reflexivity.
Qed.
Print Assumptions C50_constant_refuted.

Example C50_case : z_norm_3D_list ZN [[[0; 0; 4; 4]]; [[5; 5]; [1; 1; 1]]] = Ok [[[-1; -1; 1; 1]]; [[0; 0]; [0; 0; 0]]].
Proof. vm_compute. reflexivity. Qed.

(** ** C51.  Derivate computes finite differences *)

(** [y] is the k-th finite difference of [x]. *)
Definition difference (k : nat) (x y : list R) : Prop :=
  zlen y = Z.max 0 (zlen x - Z.of_nat k) /\
  forall i, 0 <= i < zlen x - Z.of_nat k ->
    nthZ y i = Some (sum_f_R0 (fun j => (-1) ^ (k - j) * C k j * pt RN x (i + Z.of_nat j))%R k).

Lemma diffs_difference k x : difference k x (diffs RN k x).
Proof.
  split; [apply zlen_diffs|]. intros i Hi. rewrite (nthZ_nthd 0%R) by (rewrite zlen_diffs; lia). f_equal.
  change (nthd 0%R (diffs RN k x) i) with (pt RN (diffs RN k x) i). rewrite diffs_delta by lia. apply delta_binomial.
Qed.

Theorem C51_differences : forall (order : Z) (X : dataset R),
  zlen (derivate_transform RN order X) = zlen X /\
  forall i s, nthZ X i = Some s -> exists s', nthZ (derivate_transform RN order X) i = Some s' /\ zlen s' = zlen s /\
  forall c x, nthZ s c = Some x -> exists y, nthZ s' c = Some y /\ difference (Z.to_nat order) x y.
Proof.
  intros order X. rewrite derivate_ok. split; [apply zlen_map|].
  intros i s Hs. rewrite nthZ_map, Hs. simpl. eexists. split; [reflexivity|]. split; [apply zlen_map|].
  intros c x Hx. rewrite nthZ_map, Hx. simpl. eexists. split; [reflexivity|]. apply diffs_difference.
Qed.
Print Assumptions C51_differences.

(** Consequences of the formula: linear, blind to offsets, zero on polynomials with at most k coefficients. *)
Theorem C51_laws : forall k (x y z dx dy dz : list R) (a b c : R) (coefs : list R),
  difference k x dx -> difference k y dy -> difference k z dz -> zlen x = zlen y -> zlen x = zlen z ->
  ((forall i, 0 <= i < zlen x -> pt RN z i = (a * pt RN x i + b * pt RN y i)%R) ->
     forall i, 0 <= i < zlen dx -> pt RN dz i = (a * pt RN dx i + b * pt RN dy i)%R) /\
  ((0 < k)%nat -> (forall i, 0 <= i < zlen x -> pt RN z i = (pt RN x i + c)%R) -> dz = dx) /\
  ((length coefs <= k)%nat -> (forall i, 0 <= i < zlen x -> pt RN x i = fold_right (fun a v => a + IZR i * v)%R 0%R coefs) ->
     forall v, In v dx -> v = 0%R).
Proof.
  intros k x y z dx dy dz a b c coefs [Lx Hx] [Ly Hy] [Lz Hz] Exy Exz.
  assert (V : forall w dw, zlen dw = Z.max 0 (zlen w - Z.of_nat k) ->
     (forall i, 0 <= i < zlen w - Z.of_nat k -> nthZ dw i = Some (sum_f_R0 (fun j => (-1) ^ (k - j) * C k j * pt RN w (i + Z.of_nat j))%R k)) ->
     forall i, 0 <= i < zlen dw -> pt RN dw i = delta k (pt RN w) i).
  { intros w dw L H i Hi. unfold pt at 1, nthd. rewrite (H i) by lia. symmetry. rewrite delta_binomial. reflexivity. }
  split; [|split].
  - intros K i Hi. rewrite (V x dx), (V y dy), (V z dz) by (auto; lia). rewrite <- delta_lin. apply delta_ext. intros j Hj. apply K. lia.
  - intros Hk K. apply nthZ_ext; [lia|]. intros i Hi. assert (0 <= i < zlen dx) by lia.
    rewrite (nthZ_nthd 0%R dz), (nthZ_nthd 0%R dx) by lia. f_equal. change (pt RN dz i = pt RN dx i).
    rewrite (V x dx), (V z dz) by (auto; lia).
    rewrite (delta_ext k _ (fun j => 1 * pt RN x j + 1 * horner [c] (IZR j))%R).
    + rewrite delta_lin, delta_poly by (simpl; lia). ring.
    + intros j Hj. rewrite K by lia. simpl. ring.
  - intros Hc K v Hv. apply In_nthZ in Hv as (i & Hi). pose proof (nthZ_range _ _ _ Hi) as Hr.
    assert (E : pt RN dx i = v) by (unfold pt, nthd; rewrite Hi; reflexivity).
    rewrite <- E, (V x dx) by auto. rewrite (delta_ext k _ (fun j => horner coefs (IZR j))).
    + apply delta_poly. exact Hc.
    + intros j Hj. rewrite K by lia. clear. induction coefs as [|q coefs IH]; [reflexivity|]. simpl. rewrite IH. reflexivity.
Qed.
Print Assumptions C51_laws.

Example C51_case : derivate_transform ZN 2 [[[1; 4; 9; 16; 26]]; [[3; 3; 5]]] = [[[2; 2; 3]]; [[2]]] /\
  derivate_transform ZN 3 [[[7; 8]]] = [[[]]].
Proof. split; vm_compute; reflexivity. Qed.

(** ** C62.  What the loader returns *)

(** A numpy array of samples: all have the same number of channels. *)
Definition well_formed {F} (c : @container F) : Prop :=
  match c with CArr X => exists f, forall s, In s X -> zlen s = f | CList _ => True end.

Theorem C62_loader : forall (F : Type) (N : NumOps F) (Xtr Xte : @container F) ytr yte nrm Xtr' Xte' ytr' yte' m,
  well_formed Xtr -> well_formed Xte ->
  load_split N Xtr Xte ytr yte nrm = Ok (Xtr', Xte', ytr', yte', m) ->
  (* labels are numbered from 0 in increasing order of the training labels *)
  zlen ytr' = zlen ytr /\ zlen yte' = zlen yte /\
  (exists classes, incr classes /\ (forall l, In l classes <-> In l ytr) /\
     (forall i l c, nthZ ytr i = Some l -> nthZ ytr' i = Some c -> nthZ classes c = Some l) /\
     (forall i l c, nthZ yte i = Some l -> nthZ yte' i = Some c -> nthZ classes c = Some l)) /\
  (* min_len is the length of the shortest series (first channel) of both parts *)
  (forall s x, In s (items Xtr) \/ In s (items Xte) -> nthZ s 0 = Some x -> m <= zlen x) /\
  (exists s x, (In s (items Xtr) \/ In s (items Xte)) /\ nthZ s 0 = Some x /\ zlen x = m) /\
  (* the series are untouched, or all normalised *)
  (if nrm then normalised N (items Xtr) (items Xtr') /\ normalised N (items Xte) (items Xte') else Xtr' = Xtr /\ Xte' = Xte).
Proof.
  intros F N Xtr Xte ytr yte nrm Xtr' Xte' ytr' yte' m W1 W2 H. unfold load_split in H.
  apply bind_inv in H as (y1 & E1 & H). apply bind_inv in H as (y2 & E2 & H).
  apply bind_inv in H as (m1 & M1 & H). apply bind_inv in H as (m2 & M2 & H). cbv zeta in H.
  apply bind_inv in H as ([A1 B1] & N1 & H). apply bind_inv in H as ([A2 B2] & N2 & H).
  injection H as <- <- <- <- <-.
  destruct (le_transform_ok _ _ _ E1) as [L1 P1]. destruct (le_transform_ok _ _ _ E2) as [L2 P2].
  destruct (shortest_ok _ _ M1) as (S1 & (s1 & x1 & I1 & F1 & Z1) & _). destruct (shortest_ok _ _ M2) as (S2 & (s2 & x2 & I2 & F2 & Z2) & _).
  split; [exact L1|]. split; [exact L2|]. split.
  { exists (unique ytr). split; [apply unique_incr|]. split; [intros l; apply in_unique|]. auto. }
  split.
  { intros s x [Hs|Hs] Hx; [specialize (S1 s x Hs Hx)|specialize (S2 s x Hs Hx)]; lia. }
  split.
  { destruct (Z.le_gt_cases m1 m2); [exists s1, x1 | exists s2, x2]; repeat split; auto; lia. }
  assert (Z3 : forall (X X' : dataset F), z_norm_3D_list N X = Ok X' -> normalised N X X').
  { intros X X' HX. destruct (C50_normalised F N X) as (X2' & K & K2 & _). rewrite HX in K2. injection K2 as ->. exact K. }
  assert (Z4 : forall (X X' : dataset F), well_formed (CArr X) -> z_norm_3D N X = Ok X' -> normalised N X X').
  { intros X X' (f & Hf) HX. destruct (C50_normalised F N X) as (X2' & K & _ & _ & K2). rewrite (K2 f Hf) in HX. injection HX as ->. exact K. }
  destruct nrm; simpl in N1, N2.
  - destruct Xtr as [X|X]; simpl in N1, N2.
    + apply bind_inv in N1 as (a & Ea & N1). apply bind_inv in N1 as (b & Eb & N1). injection N1 as <- <-.
      apply bind_inv in Ea as (X' & EX & Ea). injection Ea as <-. simpl in N2. injection N2 as <- <-.
      destruct Xte as [Y|Y]; [|discriminate]. simpl in Eb. apply bind_inv in Eb as (Y' & EY & Eb). injection Eb as <-.
      simpl. auto.
    + injection N1 as <- <-. simpl in N2. apply bind_inv in N2 as (a & Ea & N2). apply bind_inv in N2 as (b & Eb & N2). injection N2 as <- <-.
      apply bind_inv in Ea as (X' & EX & Ea). injection Ea as <-.
      destruct Xte as [Y|Y]; simpl in Eb; apply bind_inv in Eb as (Y' & EY & Eb); injection Eb as <-; simpl; auto.
  - injection N1 as <- <-. injection N2 as <- <-. auto.
Qed.
Print Assumptions C62_loader.

(** Which loads succeed, and how the others fail. *)
Theorem C62_loader_errors : forall (F : Type) (N : NumOps F) (Xtr Xte : @container F) ytr yte nrm,
  ((exists l, In l yte /\ ~ In l ytr) -> load_split N Xtr Xte ytr yte nrm = Err ValueError) /\
  ((forall l, In l yte -> In l ytr) -> items Xtr <> [] -> items Xte <> [] ->
   (forall s, In s (items Xtr) \/ In s (items Xte) -> s <> []) -> well_formed Xtr -> well_formed Xte ->
   (nrm = true -> is_list Xtr = false -> is_list Xte = false) ->
   exists out, load_split N Xtr Xte ytr yte nrm = Ok out) /\
  (nrm = true -> is_list Xtr = false -> is_list Xte = true -> (exists out, load_split N Xtr Xte ytr yte false = Ok out) ->
   well_formed Xtr -> load_split N Xtr Xte ytr yte nrm = Err TypeError).
Proof.
  intros F N Xtr Xte ytr yte nrm.
  assert (T : exists y, le_transform (unique ytr) ytr = Ok y) by (apply le_transform_total; intros l Hl; apply in_unique; exact Hl).
  destruct T as (y1 & E1).
  assert (ARR : forall c : @container F, well_formed c -> is_list c = false -> exists c', z_norm_arr N c = Ok c').
  { intros [X|X] W Hl; [|discriminate]. destruct W as (f & Hf). simpl. rewrite (z_norm_3D_ok N X f Hf). eexists; reflexivity. }
  assert (LST : forall c : @container F, exists c', z_norm_lst N c = Ok c' ).
  { intros [X|X]; simpl; rewrite z_norm_3D_list_ok; eexists; reflexivity. }
  split; [|split].
  - intros (l & Hl & Hn). unfold load_split. rewrite E1, bind_Ok.
    rewrite (le_transform_err _ _ l) by (auto; rewrite in_unique; auto). reflexivity.
  - intros Hc Hn1 Hn2 Hch W1 W2 Hk. unfold load_split. rewrite E1, bind_Ok.
    destruct (le_transform_total yte (unique ytr)) as (y2 & E2); [intros l Hl; apply in_unique; auto|]. rewrite E2, bind_Ok.
    assert (SH : forall X : dataset F, X <> [] -> (forall s, In s X -> s <> []) -> exists m, shortest X = Ok m).
    { intros X HX Hs. apply shortest_total; auto. }
    destruct (SH (items Xtr)) as (m1 & M1); auto. destruct (SH (items Xte)) as (m2 & M2); auto.
    rewrite M1, bind_Ok, M2, bind_Ok. cbv zeta.
    destruct nrm; simpl andb; [|eexists; reflexivity].
    destruct (is_list Xtr) eqn:EL; simpl negb; cbv iota.
    + rewrite bind_Ok. cbv iota beta zeta. rewrite EL. destruct (LST Xtr) as (a & Ea). destruct (LST Xte) as (b & Eb).
      rewrite Ea, bind_Ok, Eb, !bind_Ok. eexists; reflexivity.
    + destruct (ARR Xtr W1 EL) as (a & Ea). destruct (ARR Xte W2) as (b & Eb); [auto|].
      rewrite Ea, bind_Ok, Eb, !bind_Ok. cbv iota beta zeta.
      assert (is_list a = false) as ->; [|rewrite bind_Ok; eexists; reflexivity].
      destruct Xtr; [|discriminate]. simpl in Ea. apply bind_inv in Ea as (? & _ & Ea). injection Ea as <-. reflexivity.
  - intros -> L1 L2 (out & H) W1. unfold load_split in H |- *. rewrite E1, bind_Ok in *.
    apply bind_inv in H as (y2 & E2 & H). rewrite E2, bind_Ok.
    apply bind_inv in H as (m1 & M1 & H). apply bind_inv in H as (m2 & M2 & _). rewrite M1, bind_Ok, M2, bind_Ok. cbv zeta.
    rewrite L1. simpl negb. simpl andb. cbv iota. destruct (ARR Xtr W1 L1) as (a & Ea). rewrite Ea, bind_Ok.
    destruct Xte; [discriminate|]. reflexivity.
Qed.
Print Assumptions C62_loader_errors.

Example C62_case :
  load_split ZN (CList [[[0; 0; 4; 4]]; [[5; 5]]]) (CList [[[1; 1; 1]]]) [30; 10] [10] true
  = Ok (CList [[[-1; -1; 1; 1]]; [[0; 0]]], CList [[[0; 0; 0]]], [1; 0], [0], 2) /\
  load_split ZN (CArr [[[0; 4]]]) (CArr [[[1; 1]]]) [30] [10] true = Err ValueError /\
  load_split ZN (CArr [[[0; 4]]]) (CList [[[1; 1]]]) [30] [30] true = Err TypeError.
Proof. repeat split; vm_compute; reflexivity. Qed.
