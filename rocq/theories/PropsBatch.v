(** Property C76: the features and the predictions of a series do not depend on the other series of the batch, nor on its
    position in it, in the real numbers. *)
From Coq Require Import String ZArith List Bool Reals Lra Lia Permutation.
From Verif Require Import Prelude Num Kernel Spec KernelProofs RealBase Parallel Apply ApplyProofs ApplyUni ApplyMulti TransformProofs TransformLaws
  RealProofs SampleLaws Gen GenSched GenBase GenUni GenDraw GenSpec GenUCase GenMRun Checks ChecksProofs Estimator EstimatorNum EstimatorLaws
  EstimatorCases PropsEstimator Preproc PreprocProofs PropsPreproc Classifiers ClassifierProofs EnsembleProofs PropsClassifiers InputTrans PropsInput EndToEnd PropsEndToEnd Defaults PropsPipeline.
Import ListNotations.
Open Scope Z_scope.

(** series [i] of the one dataset is series [i'] of the other *)
Definition same_series (nf : Z) (cols cols' : Z -> Z) (v v' : Z -> Z -> Z -> R) (i i' : Z) : Prop :=
  cols' i' = cols i /\ forall ch j, 0 <= ch < nf -> 0 <= j < cols i -> v' i' ch j = v i ch j.

Lemma same_points nf cols cols' v v' i i' ch : same_series nf cols cols' v v' i i' -> 0 <= ch < nf -> points v' i' ch (cols i) = points v i ch (cols i).
Proof. intros [_ H] Hch. unfold points. apply map_ext_in. intros j Hj. apply in_zrange in Hj. apply H; assumption. Qed.

Lemma table_row ph n n' nf cols cols' v v' f T T' i i' : features_table ph n nf cols v f T -> features_table ph n' nf cols' v' f T' ->
  same_series nf cols cols' v v' i i' -> 0 <= i < n -> 0 <= i' < n' -> nthZ T' i' = nthZ T i.
Proof.
  intros (A1 & A2 & A3 & A4) (B1 & B2 & B3 & _) HS Hi Hi'. destruct (nthZ_some T i) as (r & Er); [lia|]. destruct (nthZ_some T' i') as (r' & Er'); [lia|].
  rewrite Er, Er'. f_equal. pose proof (A2 r (nthZ_In _ _ _ Er)) as L1. pose proof (B2 r' (nthZ_In _ _ _ Er')) as L2.
  apply nthZ_ext; [lia|]. intros q Hq. pose proof (Z.div_mod q 3 ltac:(lia)) as DM. pose proof (Z.mod_pos_bound q 3 ltac:(lia)) as MB. set (j := q / 3) in *. set (rr := q mod 3) in *. clearbody j rr.
  destruct (A4 j ltac:(lia)) as (chs & vs & l & d & thr & nm & HK).
  destruct (A3 i j _ _ _ _ _ _ Hi HK) as ([[x0 x1] x2] & (r0 & E0 & K0 & K1 & K2) & F1). destruct (B3 i' j _ _ _ _ _ _ Hi' HK) as ([[y0 y1] y2] & (r0' & E0' & K0' & K1' & K2') & F2).
  assert (r0 = r) by congruence. assert (r0' = r') by congruence. subst r0 r0'.
  assert (EC : channels v' nf (cols' i') i' = channels v nf (cols i) i).
  { rewrite (proj1 HS). unfold channels. apply map_ext_in. intros ch Hch. apply in_zrange in Hch. eapply same_points; eauto. }
  rewrite EC, (proj1 HS) in F2. pose proof (is_features_unique _ _ _ _ F1 F2) as E. injection E as <- <- <-.
  assert (C : q = 3 * j \/ q = 3 * j + 1 \/ q = 3 * j + 2) by lia. destruct C as [->|[->| ->]]; congruence.
Qed.

(** ** R_DST *)

(** After a successful fit: if transform returns for two datasets, equal series have equal rows. *)
Theorem C76_transform : forall S (rng : Rng R S) RS (V : pyenv RS) ex X y s h s' h' n nf cols v vl X1 n1 cols1 v1 T1 i1 X2 n2 cols2 v2 T2 i2,
  RngLaws RN rng -> real_executor ex -> passes X n nf cols v vl -> 1 <= n -> 1 <= nf -> zlen y = n ->
  e_n_samples s = VNone -> (forall k, e_type s = TKind k -> kind_vl k = vl) -> (forall i, 0 <= i < n -> 4 <= cols i) ->
  (vl = true -> forall m, e_min_len s = Some m -> 4 <= m /\ forall i, 0 <= i < n -> m <= cols i) ->
  fit RN rng V ex X y s h = (Ok tt, s', h') ->
  passes X1 n1 nf cols1 v1 vl -> (exists i, 0 <= i < n1 /\ 3 <= cols1 i) -> passes X2 n2 nf cols2 v2 vl -> (exists i, 0 <= i < n2 /\ 3 <= cols2 i) ->
  transform RN s' X1 = Ok T1 -> transform RN s' X2 = Ok T2 ->
  0 <= i1 < n1 -> 0 <= i2 < n2 -> same_series nf cols1 cols2 v1 v2 i1 i2 ->
  exists row, nthZ T1 i1 = Some row /\ nthZ T2 i2 = Some row.
Proof.
  intros S rng RS V ex X y s h s' h' n nf cols v vl X1 n1 cols1 v1 T1 i1 X2 n2 cols2 v2 T2 i2 L HE HX Hn Hf Hy Hns Hty H4 Hml H HX1 H31 HX2 H32 E1 E2 Hi1 Hi2 HS.
  destruct (fit_sound rng V ex X y s h s' h' n nf cols v vl L HE HX Hn Hf Hy Hns Hty H4 Hml H) as (k & f & m & [F1 F2 F3 F4 F5 F6 F7 F8 F9 F10 F11 F12 F13]).
  rewrite <- F3 in HX1, HX2.
  destruct (transform_sound s' k f X1 n1 nf cols1 v1 F1 F2 F6 F10 F11 HX1 ltac:(lia) Hf H31) as [[_ (T & B & C)]|[_ B]]; [|congruence].
  destruct (transform_sound s' k f X2 n2 nf cols2 v2 F1 F2 F6 F10 F11 HX2 ltac:(lia) Hf H32) as [[_ (T' & B' & C')]|[_ B']]; [|congruence].
  assert (T = T1) by congruence. assert (T' = T2) by congruence. subst T T'. destruct (nthZ_some T1 i1) as (row & Er); [rewrite (proj1 C); exact Hi1|].
  exists row. split; [exact Er|]. rewrite (table_row _ _ _ _ _ _ _ _ _ _ _ _ _ C C' HS Hi1 Hi2). exact Er.
Qed.
Print Assumptions C76_transform.

(** If transform accepts a dataset then it accepts every dataset made of series of it (one with 3 points or more among them). *)
Theorem C76_selection : forall S (rng : Rng R S) RS (V : pyenv RS) ex X y s h s' h' n nf cols v vl X1 n1 cols1 v1 T1 X2 n2 cols2 v2 pos,
  RngLaws RN rng -> real_executor ex -> passes X n nf cols v vl -> 1 <= n -> 1 <= nf -> zlen y = n ->
  e_n_samples s = VNone -> (forall k, e_type s = TKind k -> kind_vl k = vl) -> (forall i, 0 <= i < n -> 4 <= cols i) ->
  (vl = true -> forall m, e_min_len s = Some m -> 4 <= m /\ forall i, 0 <= i < n -> m <= cols i) ->
  fit RN rng V ex X y s h = (Ok tt, s', h') ->
  passes X1 n1 nf cols1 v1 vl -> passes X2 n2 nf cols2 v2 vl -> (exists i, 0 <= i < n2 /\ 3 <= cols2 i) ->
  (forall i, 0 <= i < n2 -> 0 <= pos i < n1 /\ same_series nf cols1 cols2 v1 v2 (pos i) i) ->
  transform RN s' X1 = Ok T1 ->
  exists T2, transform RN s' X2 = Ok T2 /\ zlen T2 = n2 /\ forall i, 0 <= i < n2 -> nthZ T2 i = nthZ T1 (pos i).
Proof.
  intros S rng RS V ex X y s h s' h' n nf cols v vl X1 n1 cols1 v1 T1 X2 n2 cols2 v2 pos L HE HX Hn Hf Hy Hns Hty H4 Hml H HX1 HX2 H32 HS E1.
  destruct (fit_sound rng V ex X y s h s' h' n nf cols v vl L HE HX Hn Hf Hy Hns Hty H4 Hml H) as (k & f & m & [F1 F2 F3 F4 F5 F6 F7 F8 F9 F10 F11 F12 F13]).
  rewrite <- F3 in HX1, HX2. pose proof H32 as (i3 & Hi3 & H3). destruct (HS i3 Hi3) as (P3 & Q3).
  destruct (transform_sound s' k f X1 n1 nf cols1 v1 F1 F2 F6 F10 F11 HX1 ltac:(lia) Hf) as [[A (T & B & C)]|[_ B]]; [exists (pos i3); split; [exact P3|]; rewrite <- (proj1 Q3); exact H3| |congruence].
  assert (T = T1) by congruence. subst T.
  destruct (transform_sound s' k f X2 n2 nf cols2 v2 F1 F2 F6 F10 F11 HX2 ltac:(lia) Hf H32) as [[_ (T' & B' & C')]|[B' _]].
  - exists T'. split; [exact B'|]. split; [exact (proj1 C')|]. intros i Hi. destruct (HS i Hi) as (Pi & Qi). apply (table_row _ _ _ _ _ _ _ _ _ _ _ _ _ C C' Qi Pi Hi).
  - exfalso. apply B'. intros j chs vs l d thr nm i Hj Hi. destruct (HS i Hi) as (Pi & (Q & _)). rewrite Q. eapply A; eauto.
Qed.
Print Assumptions C76_selection.

(** The condition on 3 points is needed: a dataset in which no series has more than 2 points is refused, whatever the shapelets. *)
Theorem C76_short : forall (s : @est R) k f X n nf cols v, e_type s = TKind k -> e_shapelets s = Some f -> passes X n nf cols v (kind_vl k) -> 1 <= n -> 1 <= nf ->
  (forall i, 0 <= i < n -> cols i <= 2) -> transform RN s X = Err ValueError.
Proof.
  intros s k f X n nf cols v Hty Hsh HX Hn Hf H2. destruct (passes_data _ _ _ _ _ _ HX Hn Hf) as (D & w & HP & Hc & (i0 & Hi0 & Ew) & HR).
  assert (E : check_shape_3D [n; nf; w] false 2 = Err ValueError).
  { unfold check_shape_3D, guard. destruct (negb _); [|reflexivity]. cbn [bind]. specialize (H2 i0 Hi0). destruct (Z.ltb_spec 2 w); [lia|reflexivity]. }
  unfold transform. rewrite Hsh, Hty. destruct (kind_vl k).
  - rewrite HR. cbn [bind]. rewrite E. reflexivity.
  - destruct HR as (R1 & R2 & R3 & R4). rewrite R4, E. reflexivity.
Qed.
Print Assumptions C76_short.

(** So a series of 2 points can be accepted among others and refused alone. *)
Theorem C76_alone_refuted : ~ forall F (N : NumOps F) S (rng : Rng F S) RS (V : pyenv RS) ex X y a h0 s h s' h' x1 x2 T, real_executor ex ->
  init N V a h0 = (Ok s, h) -> fit N rng V ex X y s h = (Ok tt, s', h') -> transform N s' (VList [x1; x2]) = Ok T -> exists T', transform N s' (VList [x1]) = Ok T'.
Proof.
  intros H.
  assert (Q : exists s h s' h' T, init ZN zenv (zargs (VInt 3)) [0] = (Ok s, h) /\
     fit ZN zrng zenv in_order (VList [VArr [1; 4] DInt64 (intcells [1; 2; 5; 1]); VArr [1; 5] DInt64 (intcells [1; 2; 5; 1; 7])]) [0; 0] s h = (Ok tt, s', h') /\
     transform ZN s' (VList [VArr [1; 2] DInt64 (intcells [1; 2]); VArr [1; 3] DInt64 (intcells [1; 2; 3])]) = Ok T /\
     transform ZN s' (VList [VArr [1; 2] DInt64 (intcells [1; 2])]) = Err ValueError).
  { do 5 eexists. split; [vm_compute; reflexivity|]. split; [vm_compute; reflexivity|]. split; vm_compute; reflexivity. }
  destruct Q as (s & h & s' & h' & T & E1 & E2 & E3 & E4).
  destruct (H Z ZN Z zrng Z zenv in_order _ _ _ _ _ _ _ _ _ _ _ (or_introl eq_refl) E1 E2 E3) as (T' & E). congruence.
Qed.
Print Assumptions C76_alone_refuted.

(** ** The classifiers *)

(** What is assumed of sklearn: a fitted StandardScaler and a fitted RidgeClassifierCV treat each row on its own. *)
Record by_row {SC P M} (K : sklearn R SC P M) : Prop := {
  by_scale : exists g, forall sc T, T <> [] -> k_scale K sc T = mapM (g sc) T;
  by_predict : exists g, forall m T, T <> [] -> k_ridge_predict K m T = mapM (g m) T;
  by_decision : exists (two : M -> bool) g1 g2, forall m T, T <> [] ->
    k_decision K m T = if two m then (let* l := mapM (g1 m) T in Ok (D1 l)) else (let* l := mapM (g2 m) T in Ok (D2 l))
}.

Lemma mapM_at {A B} (f : A -> res B) l ys i x : mapM f l = Ok ys -> nthZ l i = Some x -> exists y, nthZ ys i = Some y /\ f x = Ok y.
Proof.
  intros H Hx. apply mapM_Forall2 in H. revert i Hx. induction H as [|a b l' ys' Hab _ IH]; intros i Hi; [apply nthZ_In in Hi; destruct Hi|].
  destruct (Z.eq_dec i 0) as [->|Hne].
  - change (Some a = Some x) in Hi. injection Hi as <-. exists b. split; [reflexivity|exact Hab].
  - pose proof (nthZ_range _ _ _ Hi). assert (0 < i) by (clear - H Hne; lia). rewrite nthZ_cons_pos in Hi by assumption. rewrite nthZ_cons_pos by assumption. apply IH. exact Hi.
Qed.
Lemma mapM_len {A B} (f : A -> res B) l ys : mapM f l = Ok ys -> zlen ys = zlen l.
Proof. intros H. apply mapM_Forall2 in H. apply Forall2_length in H. unfold zlen. lia. Qed.
(** equal rows give equal results *)
Lemma mapM_same {A B} (f : A -> res B) l l' ys ys' i i' x : mapM f l = Ok ys -> mapM f l' = Ok ys' -> nthZ l i = Some x -> nthZ l' i' = Some x ->
  exists y, nthZ ys i = Some y /\ nthZ ys' i' = Some y.
Proof.
  intros H H' Hx Hx'. destruct (mapM_at f l ys i x H Hx) as (y & E & F). destruct (mapM_at f l' ys' i' x H' Hx') as (y' & E' & F'). exists y. split; [exact E|]. congruence.
Qed.
Lemma at_nonempty {A} (l : list A) i x : nthZ l i = Some x -> l <> [].
Proof. intros H ->. apply nthZ_In in H. destruct H. Qed.

(** R_DST_Ridge: equal series get equal labels. *)
Theorem C76_ridge : forall S (rng : Rng R S) RS (V : pyenv RS) SC P M (K : sklearn R SC P M) ex a p r X y h r' h' n nf cols v vl X1 n1 cols1 v1 l1 i1 X2 n2 cols2 v2 l2 i2,
  RngLaws RN rng -> real_executor ex -> by_row K -> passes X n nf cols v vl -> 1 <= n -> 1 <= nf -> zlen y = n ->
  p_n_samples a = VNone -> (forall k, type_value (p_transform_type a) (TKind k) -> kind_vl k = vl) -> (forall i, 0 <= i < n -> 4 <= cols i) ->
  (vl = true -> forall m, p_min_len a = Some m -> 4 <= m /\ forall i, 0 <= i < n -> m <= cols i) ->
  ridge_init (SC := SC) (M := M) V a p = Ok r -> ridge_fit RN rng V K ex X y r h = (Ok tt, r', h') ->
  passes X1 n1 nf cols1 v1 vl -> (exists i, 0 <= i < n1 /\ 3 <= cols1 i) -> passes X2 n2 nf cols2 v2 vl -> (exists i, 0 <= i < n2 /\ 3 <= cols2 i) ->
  ridge_predict RN K r' X1 = Ok l1 -> ridge_predict RN K r' X2 = Ok l2 ->
  0 <= i1 < n1 -> 0 <= i2 < n2 -> same_series nf cols1 cols2 v1 v2 i1 i2 ->
  exists c, nthZ l1 i1 = Some c /\ nthZ l2 i2 = Some c.
Proof.
  intros S rng RS V SC P M K ex a p r X y h r' h' n nf cols v vl X1 n1 cols1 v1 l1 i1 X2 n2 cols2 v2 l2 i2 L HE [(gs & Hgs) (gp & Hgp) _] HX Hn Hf Hy Hns Hty H4 Hml HI HR HX1 H31 HX2 H32 P1 P2 Hi1 Hi2 HS.
  unfold ridge_init in HI. apply bind_inv in HI as (nj & _ & HI). assert (Ea : rd_args r = a) by (assert (E : mkRidge (SC := SC) (M := M) a p nj None None = r) by congruence; rewrite <- E; reflexivity).
  unfold ridge_fit in HR. rewrite Ea in HR. destruct (init RN V (ridge_rdst_args a) h) as [[s|er] h1] eqn:EI; [|discriminate HR].
  destruct (fit RN rng V ex X y s h1) as [[u t1] h2] eqn:EF.
  destruct u as [[]|er]; [|discriminate HR]. cbn [bind] in HR. destruct (let* Z := transform RN t1 X in pipe_fit RN K (rd_hyper r) Z y) as [[sc c]|er] eqn:EP; [|discriminate HR].
  assert (ER : mkRidge a (rd_hyper r) (rd_n_jobs r) (Some (Some (sc, c))) (Some t1) = r') by congruence.
  apply C41_constructor in EI as (I1 & _ & _ & _ & _ & (_ & I2) & _ & _ & _ & _ & _ & _ & _ & _ & _ & I3 & _).
  unfold ridge_rdst_args in I1, I2, I3. cbn [p_transform_type p_n_samples p_min_len] in I1, I2, I3.
  rewrite <- ER in P1, P2. unfold ridge_predict in P1, P2. cbn [rd_classifier rd_transformer] in P1, P2.
  apply bind_inv in P1 as (T1 & E1 & P1). apply bind_inv in P2 as (T2 & E2 & P2).
  destruct (C76_transform S rng RS V ex X y s h1 t1 h2 n nf cols v vl X1 n1 cols1 v1 T1 i1 X2 n2 cols2 v2 T2 i2 L HE HX Hn Hf Hy) as (row & R1 & R2); auto.
  { congruence. } { intros k Hk. apply Hty. rewrite <- Hk. exact I1. } { rewrite I3. exact Hml. }
  unfold pipe_predict, c_transform in P1, P2. cbn [fst snd] in P1, P2.
  apply bind_inv in P1 as (Z1 & A1 & P1). apply bind_inv in P2 as (Z2 & A2 & P2). apply bind_inv in A1 as (Q1 & B1 & A1). apply bind_inv in A2 as (Q2 & B2 & A2).
  unfold take_cols in B1, B2. destruct (mapM_same _ _ _ _ _ _ _ _ B1 B2 R1 R2) as (q & G1 & G2).
  rewrite (Hgs _ _ (at_nonempty _ _ _ G1)) in A1. rewrite (Hgs _ _ (at_nonempty _ _ _ G2)) in A2. destruct (mapM_same _ _ _ _ _ _ _ _ A1 A2 G1 G2) as (z & D1 & D2).
  rewrite (Hgp _ _ (at_nonempty _ _ _ D1)) in P1. rewrite (Hgp _ _ (at_nonempty _ _ _ D2)) in P2. exact (mapM_same _ _ _ _ _ _ _ _ P1 P2 D1 D2).
Qed.
Print Assumptions C76_ridge.

(** One member of the ensemble *)
Lemma member_same {SC P M} (K : sklearn R SC P M) m w X1 X2 T1 T2 A1 A2 i1 i2 row U1 U2 : by_row K ->
  m_in m X1 = Ok U1 -> transform RN (m_rdst m) U1 = Ok T1 -> m_in m X2 = Ok U2 -> transform RN (m_rdst m) U2 = Ok T2 ->
  nthZ T1 i1 = Some row -> nthZ T2 i2 = Some row -> member_proba RN K m w X1 = Ok A1 -> member_proba RN K m w X2 = Ok A2 ->
  exists q, nthZ A1 i1 = Some q /\ nthZ A2 i2 = Some q.
Proof.
  intros [(gs & Hgs) _ (two & g1 & g2 & Hd)] I1 E1 I2 E2 R1 R2 P1 P2. unfold member_proba in P1, P2.
  rewrite I1 in P1. rewrite I2 in P2. cbn [bind] in P1, P2. rewrite E1 in P1. rewrite E2 in P2. cbn [bind] in P1, P2.
  apply bind_inv in P1 as (p1 & B1 & P1). apply bind_inv in P2 as (p2 & B2 & P2). unfold iridge_proba in B1, B2.
  apply bind_inv in B1 as (Z1 & S1 & B1). apply bind_inv in B2 as (Z2 & S2 & B2).
  rewrite (Hgs _ _ (at_nonempty _ _ _ R1)) in S1. rewrite (Hgs _ _ (at_nonempty _ _ _ R2)) in S2. destruct (mapM_same _ _ _ _ _ _ _ _ S1 S2 R1 R2) as (z & G1 & G2).
  rewrite (Hd _ _ (at_nonempty _ _ _ G1)) in B1. rewrite (Hd _ _ (at_nonempty _ _ _ G2)) in B2. apply bind_inv in B1 as (d1 & C1 & B1). apply bind_inv in B2 as (d2 & C2 & B2).
  assert (HR : exists r, nthZ (rows_of_decision RN d1) i1 = Some r /\ nthZ (rows_of_decision RN d2) i2 = Some r).
  { destruct (two (snd (m_ridge m))); apply bind_inv in C1 as (q1 & C1 & D1); apply bind_inv in C2 as (q2 & C2 & D2);
      assert (HD1 : d1 = _) by (symmetry; injection D1 as D1; exact D1); assert (HD2 : d2 = _) by (symmetry; injection D2 as D2; exact D2); rewrite HD1, HD2; cbn [rows_of_decision];
      destruct (mapM_same _ _ _ _ _ _ _ _ C1 C2 G1 G2) as (q & Q1 & Q2); [rewrite !nthZ_map, Q1, Q2; cbn [option_map]|]; eauto. }
  destruct HR as (r & H1 & H2). destruct (mapM_same _ _ _ _ _ _ _ _ B1 B2 H1 H2) as (q & Q1 & Q2).
  assert (EA1 : map (map (fun v => nmul RN v w)) p1 = A1) by congruence. assert (EA2 : map (map (fun v => nmul RN v w)) p2 = A2) by congruence.
  rewrite <- EA1, <- EA2. rewrite !nthZ_map, Q1, Q2. cbn [option_map]. eauto.
Qed.

Lemma nthZ_combine {A B} (l : list A) (l' : list B) i x y : nthZ l i = Some x -> nthZ l' i = Some y -> nthZ (combine l l') i = Some (x, y).
Proof.
  revert l' i. induction l as [|a l IH]; intros l' i Hx Hy; [apply nthZ_In in Hx; destruct Hx|]. destruct l' as [|b l']; [apply nthZ_In in Hy; destruct Hy|]. cbn [combine].
  destruct (Z.eq_dec i 0) as [->|Hne]; [change (Some a = Some x) in Hx; change (Some b = Some y) in Hy; injection Hx as <-; injection Hy as <-; reflexivity|].
  pose proof (nthZ_range _ _ _ Hx) as Rx. assert (0 < i) by (clear - Rx Hne; lia). rewrite nthZ_cons_pos in Hx by assumption. rewrite nthZ_cons_pos in Hy by assumption. rewrite nthZ_cons_pos by assumption. apply IH; assumption.
Qed.

Lemma add_mats_same (A1 B1 A2 B2 C1 C2 : list (list R)) i1 i2 a b : add_mats RN A1 B1 = Ok C1 -> add_mats RN A2 B2 = Ok C2 ->
  nthZ A1 i1 = Some a -> nthZ A2 i2 = Some a -> nthZ B1 i1 = Some b -> nthZ B2 i2 = Some b -> exists c, nthZ C1 i1 = Some c /\ nthZ C2 i2 = Some c.
Proof.
  intros H1 H2 HA1 HA2 HB1 HB2. unfold add_mats in H1, H2. apply bind_inv in H1 as (_ & _ & H1). apply bind_inv in H2 as (_ & _ & H2).
  eapply (mapM_same _ _ _ _ _ _ _ (a, b) H1 H2); apply nthZ_combine; assumption.
Qed.

Lemma fold_same (l1 l2 : list (list (list R))) : forall P1 P2 C1 C2 i1 i2 a, Forall2 (fun A1 A2 => exists q, nthZ A1 i1 = Some q /\ nthZ A2 i2 = Some q) l1 l2 ->
  foldM (add_mats RN) l1 P1 = Ok C1 -> foldM (add_mats RN) l2 P2 = Ok C2 -> nthZ P1 i1 = Some a -> nthZ P2 i2 = Some a -> exists c, nthZ C1 i1 = Some c /\ nthZ C2 i2 = Some c.
Proof.
  intros P1 P2 C1 C2 i1 i2 a H. revert P1 P2 a. induction H as [|A1 A2 l1 l2 (q & Q1 & Q2) _ IH]; intros P1 P2 a E1 E2 HP1 HP2; cbn [foldM] in E1, E2.
  - assert (P1 = C1) by congruence. assert (P2 = C2) by congruence. subst. eauto.
  - apply bind_inv in E1 as (S1 & B1 & E1). apply bind_inv in E2 as (S2 & B2 & E2). destruct (add_mats_same _ _ _ _ _ _ _ _ _ _ B1 B2 HP1 HP2 Q1 Q2) as (c & D1 & D2). eapply IH; eauto.
Qed.

Lemma sees_same pg i n1 n2 nf t v1 v2 t1 w1 t2 w2 i1 i2 : sees pg i n1 nf t v1 t1 w1 -> sees pg i n2 nf t v2 t2 w2 -> 0 <= i1 < n1 -> 0 <= i2 < n2 -> 1 <= t ->
  same_series nf (fun _ => t) (fun _ => t) v1 v2 i1 i2 -> same_series nf (fun _ => t1) (fun _ => t2) w1 w2 i1 i2.
Proof.
  intros H1 H2 Hi1 Hi2 Ht HS. pose proof (proj2 HS) as HV. cbn beta in HV.
  destruct H1 as [(-> & -> & ->)|[(-> & -> & ->)|(-> & -> & Q1)]]; destruct H2 as [(A & -> & ->)|[(A & -> & ->)|(A & -> & Q2)]]; try discriminate A.
  - split; [reflexivity|]. exact HV.
  - split; [reflexivity|]. intros ch j Hch Hj. rewrite !HV by lia. reflexivity.
  - split; [reflexivity|]. intros ch j Hch Hj. pose proof (Q1 i1 ch Hi1 Hch) as E1. pose proof (Q2 i2 ch Hi2 Hch) as E2.
    pose proof (same_points nf _ _ v1 v2 i1 i2 ch HS Hch) as EP. cbn beta in EP. rewrite EP, E1 in E2.
    assert (E : points w1 i1 ch (t / 2 + 1) = points w2 i2 ch (t / 2 + 1)) by congruence.
    assert (E' : nthZ (points w1 i1 ch (t / 2 + 1)) j = nthZ (points w2 i2 ch (t / 2 + 1)) j) by (rewrite E; reflexivity).
    unfold points in E'. rewrite !nthZ_map, nthZ_zrange in E' by lia. cbn [option_map] in E'. replace (0 + j) with j in E' by lia. congruence.
Qed.

(** R_DST_Ensemble(): equal series get equal labels. *)
Theorem C76_ensemble : forall S (rng : Rng R S) RS (V : pyenv RS) SC P M (K : sklearn R SC P M) ex pg sched X y p h n nf t v e e' h' X1 n1 t1 v1 l1 i1 X2 n2 v2 l2 i2,
  RngLaws RN rng -> real_executor ex -> by_row K -> periodogram_law pg -> Permutation sched [0; 1; 2] ->
  numeric_array X n nf t v -> 1 <= n -> 1 <= nf -> 6 <= t -> zlen y = n -> h <> [] -> 1 <= v_cpus V -> 1 <= v_threads V ->
  default_ensemble (SC := SC) (M := M) V pg p h = (Ok e, h) -> ens_fit RN rng V K ex sched X y e h = (Ok tt, e', h') ->
  numeric_array X1 n1 nf t1 v1 -> numeric_array X2 n2 nf t1 v2 -> t <= t1 ->
  ens_predict RN K e' X1 = Ok l1 -> ens_predict RN K e' X2 = Ok l2 ->
  0 <= i1 < n1 -> 0 <= i2 < n2 -> same_series nf (fun _ => t1) (fun _ => t1) v1 v2 i1 i2 ->
  exists c, nthZ l1 i1 = Some c /\ nthZ l2 i2 = Some c.
Proof.
  intros S rng RS V SC P M K ex pg sched X y p h n nf t v e e' h' X1 n1 t1 v1 l1 i1 X2 n2 v2 l2 i2 L HE HK Hpg Hsch HX Hn Hf Ht Hy Hh Hcpu Hth EE EF HX1 HX2 Ht1 P1 P2 Hi1 Hi2 HS.
  destruct (C74_fit S rng RS V SC P M K ex pg sched X y p h n nf t v L HE Hpg Hsch HX Hn Hf Ht Hy Hh Hcpu Hth) as (e0 & u0 & e0' & h0 & EE0 & EF0 & C).
  assert (e0 = e) by congruence. subst e0. rewrite EF in EF0. injection EF0 as <- <- <-.
  destruct C as [(_ & models & ws & EM & L3 & W3 & HM)|[(i & ? & ? & f & T & er & Q & _)|(i & m & er & Q & _)]]; [|discriminate Q|discriminate Q].
  unfold ens_predict in P1, P2. rewrite EM in P1, P2. apply bind_inv in P1 as (ps1 & E1 & P1). apply bind_inv in P2 as (ps2 & E2 & P2).
  assert (HF : Forall2 (fun A1 A2 => exists q, nthZ A1 i1 = Some q /\ nthZ A2 i2 = Some q) ps1 ps2).
  { assert (HMi : forall m, In m models -> exists i, member_of K pg p n nf t v y i m) by (intros m Hm; apply In_nthZ in Hm as (i & Hi); eauto).
    clear EM EF P1 P2 HM. apply mapM_Forall2 in E1. apply mapM_Forall2 in E2. revert ps2 E2.
    assert (HMc : forall m w, In (m, w) (combine models ws) -> exists i, member_of K pg p n nf t v y i m) by (intros m w Hm; apply in_combine_l in Hm; auto).
    clear HMi L3 W3. induction E1 as [|[m w] A1 q1 ps1 HA _ IH]; intros ps2 E2; inversion E2 as [|? A2 ? ps2' HA2 HF2]; [constructor|].
    constructor; [|apply IH; [intros m' w' Hm'; apply (HMc m' w'); right; exact Hm'|exact HF2]]. cbn [fst snd] in HA, HA2.
    destruct (HMc m w (or_introl eq_refl)) as (i & f & Es & (tt1 & tv1 & TT & _ & _ & _) & HL).
    destruct (HL X1 n1 t1 v1 HX1 ltac:(lia) Ht1) as (U1 & a1 & w1 & T1 & I1 & Hs1 & ET1 & FT1). destruct (HL X2 n2 t1 v2 HX2 ltac:(lia) Ht1) as (U2 & a2 & w2 & T2 & I2 & Hs2 & ET2 & FT2).
    pose proof (sees_same _ _ _ _ _ _ _ _ _ _ _ _ _ _ Hs1 Hs2 Hi1 Hi2 ltac:(lia) HS) as HS'.
    destruct (nthZ_some T1 i1) as (row & Er); [rewrite (proj1 FT1); exact Hi1|].
    pose proof (table_row _ _ _ _ _ _ _ _ _ _ _ _ _ FT1 FT2 HS' Hi1 Hi2) as Er2. rewrite Er in Er2.
    eapply member_same; [exact HK|exact I1|exact ET1|exact I2|exact ET2|exact Er|exact Er2|exact HA|exact HA2]. }
  destruct HF as [|A1 A2 q1 q2 (q & Q1 & Q2) HF]; [discriminate P1|]. apply bind_inv in P1 as (S1 & B1 & P1). apply bind_inv in P2 as (S2 & B2 & P2).
  destruct (fold_same _ _ _ _ _ _ _ _ _ HF B1 B2 Q1 Q2) as (c & C1 & C2). exact (mapM_same _ _ _ _ _ _ _ _ P1 P2 C1 C2).
Qed.
Print Assumptions C76_ensemble.

(** ** A case: the data of C73 and C74, and the second of its two series alone *)
Definition qcells : list (pyv R) := intcells [5; 3; 3; 9; 0; 1].
Definition qv (i ch j : Z) : R := match nthZ qcells ((i * 1 + ch) * 6 + j) with Some (VInt z) => IZR z | _ => 0%R end.
Definition qX : pyv R := VArr [1; 1; 6] DInt64 qcells.
Lemma qX_numeric : numeric_array qX 1 1 6 qv.
Proof.
  exists DInt64, qcells. split; [reflexivity|]. split; [left; reflexivity|]. split; [reflexivity|]. intros i ch j Hi Hch Hj. unfold qv.
  destruct (nthZ_some qcells ((i * 1 + ch) * 6 + j)) as (c & Hc); [change (zlen qcells) with 6; lia|]. rewrite Hc. exists c. split; [reflexivity|].
  apply nthZ_In in Hc. unfold qcells, intcells in Hc. apply in_map_iff in Hc as (z & <- & _). reflexivity.
Qed.
Lemma pq_same : same_series 1 (fun _ => 6) (fun _ => 6) pv qv 1 0.
Proof.
  split; [reflexivity|]. intros ch j Hch Hj. assert (ch = 0) by lia. subst ch. unfold pv, qv. replace ((1 * 1 + 0) * 6 + j) with (6 + j) by lia. replace ((0 * 1 + 0) * 6 + j) with j by lia.
  assert (C : j = 0 \/ j = 1 \/ j = 2 \/ j = 3 \/ j = 4 \/ j = 5) by lia. destruct C as [->|[->|[->|[->|[->| ->]]]]]; reflexivity.
Qed.
Lemma psk_by_row : by_row psk.
Proof.
  assert (G : forall A B (f : A -> B) l, Ok (map f l) = mapM (fun x => Ok (f x)) l).
  { intros A B f l. symmetry. apply mapM_ok. reflexivity. }
  constructor.
  - exists (fun _ x => Ok x). intros sc T _. cbn [psk k_scale]. rewrite <- G, map_id. reflexivity.
  - exists (fun _ _ => Ok 1). intros m T _. cbn [psk k_ridge_predict]. rewrite <- G. reflexivity.
  - exists (fun _ => true), (fun _ _ => Ok 1%R), (fun _ _ => Ok []). intros m T _. cbn [psk k_decision]. rewrite <- G. reflexivity.
Qed.

(** R_DST().fit(pX, [0, 1]): the second row of transform(pX) is the row of transform(qX). *)
Example C76_case : exists s' h' T T', fit RN crng caseV in_order pX [0; 1] (default_est (VFloat (8/10)%R) 0 (VInt 1)) [0] = (Ok tt, s', h') /\
  transform RN s' pX = Ok T /\ transform RN s' qX = Ok T' /\ zlen T = 2 /\ zlen T' = 1 /\ nthZ T' 0 = nthZ T 1.
Proof.
  pose proof (numeric_passes pX 2 1 6 pv pX_numeric ltac:(lia)) as HP. pose proof (numeric_passes qX 1 1 6 qv qX_numeric ltac:(lia)) as HQ.
  destruct (default_fit crng caseV in_order pX [0; 1] (VFloat (8/10)%R) 0 (VInt 1) [0] 2 1 (fun _ => 6) pv false crng_laws (or_introl eq_refl) HP ltac:(lia) ltac:(lia) eq_refl)
    as (s' & h' & f & m & EF & _ & _ & Hm & HT); [intros; lia|intros sh dt cells E; injection E as _ <- _; auto|right; eexists; reflexivity|cbn; lia|].
  pose proof Hm as [(i0 & _ & Em) _]. cbn beta in Em. subst m.
  destruct (HT pX 2 (fun _ => 6) pv HP ltac:(lia) ltac:(intros; apply Z.le_refl)) as (T & ET & FT).
  destruct (C76_selection Z crng Z caseV in_order pX [0; 1] (default_est (VFloat (8/10)%R) 0 (VInt 1)) [0] s' h' 2 1 (fun _ => 6) pv false pX 2 (fun _ => 6) pv T qX 1 (fun _ => 6) qv (fun _ => 1)
     crng_laws (or_introl eq_refl) HP ltac:(lia) ltac:(lia) eq_refl eq_refl ltac:(discriminate) ltac:(cbn; lia) ltac:(discriminate) EF HP HQ) as (T' & E1 & E2 & E3); [| |exact ET|].
  { exists 0. lia. }
  { intros i Hi. split; [lia|]. replace i with 0 by lia. exact pq_same. }
  exists s', h', T, T'. split; [exact EF|]. split; [exact ET|]. split; [exact E1|]. split; [exact (proj1 FT)|]. split; [exact E2|]. apply E3. lia.
Qed.

(** The same with R_DST_Ridge() and R_DST_Ensemble(). *)
Example C76_ridge_case : exists r r' h' l l', ridge_init (SC := unit) (M := list Z) caseV default_args tt = Ok r /\
  ridge_fit RN crng caseV psk in_order pX [0; 1] r [0] = (Ok tt, r', h') /\ ridge_predict RN psk r' pX = Ok l /\ ridge_predict RN psk r' qX = Ok l' /\
  exists c, nthZ l 1 = Some c /\ nthZ l' 0 = Some c.
Proof.
  pose proof (numeric_passes pX 2 1 6 pv pX_numeric ltac:(lia)) as HP. pose proof (numeric_passes qX 1 1 6 qv qX_numeric ltac:(lia)) as HQ.
  destruct (C73_ridge Z crng Z caseV unit unit (list Z) psk in_order pX [0; 1] tt [0] 2 1 (fun _ => 6) pv false crng_laws (or_introl eq_refl) HP ltac:(lia) ltac:(lia) eq_refl)
    as (r & r' & u & h' & f & T & atts & Q & E1 & E2 & _ & _ & _ & HU); try discriminate; try (cbn; lia); [intros sh dt cells E; injection E as _ <- _; auto|].
  cbn [psk k_scale_fit k_scale k_ridge_fit bind] in HU. destruct HU as [-> HU].
  destruct (HU pX 2 (fun _ => 6) pv HP ltac:(lia) ltac:(intros; exists 0; lia)) as (T1 & Q1 & _ & _ & P1 & _).
  destruct (HU qX 1 (fun _ => 6) qv HQ ltac:(lia) ltac:(intros; exists 0; lia)) as (T2 & Q2 & _ & _ & P2 & _).
  cbn [psk k_scale k_ridge_predict bind] in P1, P2. do 5 eexists. split; [exact E1|]. split; [exact E2|]. split; [exact P1|]. split; [exact P2|].
  eapply (C76_ridge Z crng Z caseV unit unit (list Z) psk in_order default_args tt r pX [0; 1] [0] r' h' 2 1 (fun _ => 6) pv false pX 2 (fun _ => 6) pv _ 1 qX 1 (fun _ => 6) qv _ 0
    crng_laws (or_introl eq_refl) psk_by_row HP ltac:(lia) ltac:(lia) eq_refl eq_refl _ ltac:(cbn; lia) ltac:(discriminate) E1 E2 HP _ HQ _ P1 P2 ltac:(lia) ltac:(lia) pq_same).
  Unshelve.
  - intros k (str & Q1' & Q2'). injection Q1' as <-. revert Q2'. cbn. intuition congruence.
  - exists 0. lia.
  - exists 0. lia.
Qed.

Example C76_ensemble_case : exists e e' h' l l', default_ensemble (SC := unit) (M := list Z) caseV half_points tt [0] = (Ok e, [0]) /\
  ens_fit RN crng caseV psk in_order [2; 0; 1] pX [0; 1] e [0] = (Ok tt, e', h') /\ ens_predict RN psk e' pX = Ok l /\ ens_predict RN psk e' qX = Ok l' /\
  exists c, nthZ l 1 = Some c /\ nthZ l' 0 = Some c.
Proof.
  assert (HPm : Permutation [2; 0; 1] [0; 1; 2]) by (apply (Permutation_cons_append [0; 1] 2)).
  destruct C74_case as (e & e' & h' & l & E1 & E2 & E3 & _).
  destruct (C74_predict Z crng Z caseV unit unit (list Z) psk in_order half_points [2; 0; 1] pX [0; 1] tt [0] 2 1 6 pv e e' h' qX 1 6 qv 2 crng_laws (or_introl eq_refl) half_points_law HPm pX_numeric
     ltac:(lia) ltac:(lia) ltac:(lia) eq_refl ltac:(discriminate) ltac:(cbn; lia) ltac:(cbn; lia) E1 E2 qX_numeric ltac:(lia) ltac:(lia) ltac:(reflexivity) ltac:(lia))
    as (models & ws & Ds & l' & _ & _ & _ & _ & EP & _).
  { intros models ws m T _ _ HT. exists T. eexists. split; [reflexivity|]. split; [reflexivity|]. split; [rewrite zlen_map; exact HT|reflexivity]. }
  exists e, e', h', l, l'. split; [exact E1|]. split; [exact E2|]. split; [exact E3|]. split; [exact EP|].
  exact (C76_ensemble Z crng Z caseV unit unit (list Z) psk in_order half_points [2; 0; 1] pX [0; 1] tt [0] 2 1 6 pv e e' h' pX 2 6 pv l 1 qX 1 qv l' 0 crng_laws (or_introl eq_refl) psk_by_row half_points_law HPm pX_numeric
     ltac:(lia) ltac:(lia) ltac:(lia) eq_refl ltac:(discriminate) ltac:(cbn; lia) ltac:(cbn; lia) E1 E2 pX_numeric qX_numeric ltac:(lia) E3 EP ltac:(lia) ltac:(lia) pq_same).
Qed.
