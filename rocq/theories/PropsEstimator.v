(** Properties C33 to C41: the class R_DST of convst/transformers/rdst.py. *)
From Coq Require Import String ZArith List Bool Lia Reals Lra Floats.
From Verif Require Import Prelude Num RealBase Kernel Parallel Apply Gen GenSched GenUCase Checks ChecksProofs Estimator EstimatorProofs EstimatorLaws
  EstimatorNum EstimatorCases PropsChecks.
Import ListNotations.
Open Scope Z_scope.

(** ** C33.  Length bounds produce the documented set of lengths *)

(** value of a bound: an integer is itself, a float is a proportion of the minimal series length, rounded down *)
Definition bound_is (min_len : Z) (v : pyv R) (b : Z) : Prop :=
  v = VInt b \/ exists x, v = VFloat x /\ (0 <= x * IZR min_len)%R /\ (IZR b <= x * IZR min_len < IZR b + 1)%R.

Theorem C33_length_bounds : forall (s : @est R) min_len B0 B1 b0 b1 r,
  e_bounds s = Some (B0, B1) -> bound_is min_len B0 b0 -> bound_is min_len B1 b1 -> e_reduction s = VFloat r -> (r < 1)%R ->
  let lo := Z.max 3 b0 in let hi := Z.max 3 (Z.max b0 b1) in let n := hi - lo + 1 in
  exists step ls,
    set_lengths RN s min_len = Ok (VArr [zlen ls] DInt64 (map VInt ls)) /\
    1 <= step /\ 1 <= zlen ls /\
    (forall i, 0 <= i < zlen ls -> nthZ ls i = Some (lo + i * step)) /\
    (forall l, In l ls -> lo <= l <= hi) /\ hi < lo + zlen ls * step /\
    (3 < n -> (IZR n * r < IZR (zlen ls) + 1)%R) /\
    (step = 1 <-> n <= 3 \/ (IZR n * r < 1)%R \/ exists k, 0 < k /\ (IZR k <= IZR n * r < IZR k + 1)%R /\ n < 2 * k).
Proof.
  intros s m B0 B1 b0 b1 r HB H0 H1 HR Hr lo hi n.
  assert (BV : forall v b, bound_is m v b -> bound_value RN m v = Ok b).
  { intros v b [->|(x & -> & Hx & Hb)]; [reflexivity|]. cbn [bound_value]. f_equal.
    change (ntrunc RN (nmul RN x (nofZ RN m))) with (Rtrunc (x * IZR m)). rewrite Rtrunc_nonneg by lra. apply Rfloor_unique; lra. }
  destruct (bounds_lengths_real m b0 b1 r Hr) as (step & ls & E & S1 & El & C1 & C2).
  fold lo hi in E, El, C1, C2. change (hi - lo + 1) with n in E, El, C1, C2.
  exists step, ls. unfold set_lengths. rewrite HB, (BV _ _ H0), (BV _ _ H1). cbn [bind]. rewrite HR, E. cbn [bind].
  split; [reflexivity|]. split; [exact S1|].
  assert (Hn : 1 <= n) by (unfold n, lo, hi; lia).
  set (c := (n + step - 1) / step) in *.
  assert (Hc : c * step <= n + step - 1 < c * step + step).
  { unfold c. pose proof (Z.mul_div_le (n + step - 1) step ltac:(lia)). pose proof (Z.mul_succ_div_gt (n + step - 1) step ltac:(lia)). lia. }
  assert (Hc1 : 1 <= c). { destruct (Z_lt_le_dec c 1); [|lia]. exfalso. nia. }
  assert (Hz : zlen ls = c) by (rewrite El, zlen_map, zlen_zrange; lia).
  rewrite Hz. split; [exact Hc1|]. split.
  { intros i Hi. rewrite El, nthZ_map, nthZ_zrange by lia. cbn. reflexivity. }
  split.
  { intros l Hl. rewrite El in Hl. apply in_map_iff in Hl as (i & <- & Hi). apply in_zrange in Hi. split; [nia|]. unfold n in *. nia. }
  split; [unfold n in *; lia|].
  destruct (Z_lt_le_dec 3 n) as [L|L].
  2:{ assert (step = 1) by auto. split; [lia|]. split; [intros _; left; lia|auto]. }
  destruct (Rlt_dec (IZR n * r) 1) as [G|G].
  { assert (step = 1) by auto. split; [|split; auto]. intros _. pose proof (IZR_le 1 c Hc1). lra. }
  destruct (C2 L) as [K Es]; [lra|]. set (k := Rfloor (IZR n * r)) in *.
  destruct (Rfloor_spec (IZR n * r)) as [F1 F2]. fold k in F1, F2.
  destruct (every_count n k step) as [_ Hk]; [lia|lia|exact Es|]. fold c in Hk.
  split; [intros _; pose proof (IZR_le k c Hk); lra|]. split.
  - intros E1. right. right. exists k. split; [lia|]. split; [lra|]. rewrite E1 in Es.
    pose proof (Z.mul_succ_div_gt n k ltac:(lia)). rewrite <- Es in *. lia.
  - intros [H|[H|(k' & Hk0 & Hk1 & Hk2)]]; [lia|lra|].
    assert (k' = k) by (symmetry; apply Rfloor_unique; lra). subst k'. rewrite Es.
    symmetry. apply Z.div_unique with (r := n - k); lia.
Qed.
Print Assumptions C33_length_bounds.

Definition caseB (b0 b1 : pyv R) (r : R) : @est R :=
  mkEst (TKind KU) false (VInt 0) false VNone 1 (ints [9]) (Some (b0, b1)) (VFloat r) false (VInt 0) (ints [5; 10])
    0 (VBool false) None None None None.

(** The documentation's example: bounds [4, 10] with reduction 0.5 give 4, 6, 8, 10. *)
Example C33_case : set_lengths RN (caseB (VInt 4) (VInt 10) (1/2)) 50 = Ok (ints [4; 6; 8; 10]).
Proof.
  unfold set_lengths. cbn [e_bounds e_reduction caseB bound_value bind]. unfold bounds_lengths.
  change (zlen (zrange (Z.max 3 4) (Z.max 4 (Z.max (4 + 1) (10 + 1))))) with 7. cbn [as_F bind Z.ltb Z.compare Pos.compare Pos.compare_cont].
  assert (E : ntrunc RN (nmul RN (nofZ RN 7) (1/2)%R) = 3).
  { change (Rtrunc (IZR 7 * (1/2)) = 3). rewrite Rtrunc_nonneg by lra. apply Rfloor_unique; lra. }
  rewrite E. reflexivity.
Qed.

(** But lengths_bounds_reduction is not the proportion of lengths explored: with ten lengths and a reduction of 0.6
    all ten are explored. *)
Theorem C33_reduction_proportion_refuted : exists (s : @est R) r,
  e_bounds s = Some (VInt 4, VInt 13) /\ e_reduction s = VFloat r /\ (0 < r < 1)%R /\
  set_lengths RN s 50 = Ok (ints (zrange 4 14)) /\ (IZR (zlen (zrange 4 14)) * r + 3 < IZR (zlen (zrange 4 14)))%R.
Proof.
  exists (caseB (VInt 4) (VInt 13) (6/10)), (6/10)%R. split; [reflexivity|]. split; [reflexivity|]. split; [lra|].
  split; [|change (zlen (zrange 4 14)) with 10; lra].
  unfold set_lengths. cbn [e_bounds e_reduction caseB bound_value bind]. unfold bounds_lengths.
  change (zlen (zrange (Z.max 3 4) (Z.max 4 (Z.max (4 + 1) (13 + 1))))) with 10. cbn [as_F bind Z.ltb Z.compare Pos.compare Pos.compare_cont].
  assert (E : ntrunc RN (nmul RN (nofZ RN 10) (6/10)%R) = 6).
  { change (Rtrunc (IZR 10 * (6/10)) = 6). rewrite Rtrunc_nonneg by lra. apply Rfloor_unique; lra. }
  rewrite E. reflexivity.
Qed.
Print Assumptions C33_reduction_proportion_refuted.

(** ** C34.  Effective lengths are between 2 and the series length *)

(** For an array of lengths [ls] and series of [n] points. *)
Theorem C34_effective_lengths : forall F (N : NumOps F) dt (cells : list (pyv F)) ls n,
  mapM (as_int N) cells = Ok ls -> ls <> [] ->
  (forall out, check_lengths N (VArr [zlen cells] dt cells) n = Ok out <->
     (forall l, In l ls -> 1 < l) /\ ((forall l, In l ls -> l <= n) \/ 3 <= n) /\
     out = map (fun l => if l <=? n then l else n / 2) ls) /\
  (forall e, check_lengths N (VArr [zlen cells] dt cells) n = Err e -> e = ValueError).
Proof. intros F N dt cells ls n. apply check_lengths_spec. Qed.
Print Assumptions C34_effective_lengths.

(** Whatever the arguments, the lengths passed on by fit are between 2 and the (minimal) series length. *)
Theorem C34_lengths_in_range : forall F (N : NumOps F) RS (V : pyenv RS) X y s h q s' h',
  prepare N V X y s h = (Ok q, s', h') -> 4 <= q_min_len q -> forall l, In l (g_sizes (q_P q)) -> 2 <= l <= q_min_len q.
Proof.
  intros F N RS V X y s h q s' h' H. destruct (prepare_ok _ _ _ _ _ _ _ _ _ H) as
    (k & D & sh & lens & m & ls & D' & y' & sizes & seed & pc & al & pn & _ & _ & _ & _ & _ & Hc & _ & _ & _ & _ & -> & _).
  cbn. intros Hm. revert Hc. unfold check_lengths. intros Hc. apply bind_inv in Hc as (a & _ & Hc). apply bind_inv in Hc as (zs & _ & Hc).
  apply bind_inv in Hc as ([] & G & Hc). apply guard_ok in G. rewrite forallb_forall in G.
  destruct (forallb (fun l => l <=? m) zs) eqn:E2.
  - rewrite forallb_forall in E2. injection Hc as <-. intros l Hl. specialize (G l Hl). specialize (E2 l Hl).
    apply Z.ltb_lt in G. apply Z.leb_le in E2. lia.
  - destruct (Z.ltb_spec m 3); [discriminate|]. injection Hc as <-. intros l Hl. apply in_map_iff in Hl as (l0 & <- & Hl).
    specialize (G l0 Hl). apply Z.ltb_lt in G. destruct (Z.ltb_spec m l0); lia.
Qed.
Print Assumptions C34_lengths_in_range.

Example C34_case : forall F (N : NumOps F),
  check_lengths N (ints [5; 9; 20]) 10 = Ok [5; 9; 5] /\ check_lengths N (ints [5; 1]) 10 = Err ValueError.
Proof. intros. split; reflexivity. Qed.

(** For series of 3 points the replacement of a length which is too large is 1, below the minimum the code enforces. *)
Theorem C34_three_points_refuted : forall F (N : NumOps F), exists ls out,
  check_lengths N (ints ls) 3 = Ok out /\ (forall l, In l ls -> 2 <= l) /\ In 1 out.
Proof.
  intros F N. exists [5], [1]. split; [reflexivity|]. split; [|left; reflexivity]. intros l [<-|[]]. lia.
Qed.
Print Assumptions C34_three_points_refuted.

(** ** C35.  Automatic selection of the transformer *)

(** a list, or an array of objects *)
Definition is_collection {F} (X : pyv F) : Prop := (exists l, X = VList l) \/ exists sh cells, X = VArr sh DObject cells.
(** number of features of the first sample *)
Definition first_features {F} (X : pyv F) (f : Z) : Prop :=
  (exists x0 t r, (X = VList (x0 :: t) \/ exists n, X = VArr [n] DObject (x0 :: t)) /\ shape x0 = f :: r) \/
  (exists n t dt cells, X = VArr [n; f; t] dt cells).
Definition is_multivariate (k : kind) : bool := match k with KM | KMV => true | KU | KUV => false end.

(** After a successful fit the object uses one fitter/transformer pair [k]: the one asked for, or in mode 'auto' the
    variable-length one exactly for collections, the multivariate one exactly for several features. *)
Theorem C35_selected_pair : forall F (N : NumOps F) S (rng : Rng F S) RS (V : pyenv RS) ex X y s h s' h',
  fit N rng V ex X y s h = (Ok tt, s', h') ->
  exists k f, e_type s' = TKind k /\ e_kind s' = Some k /\ e_shapelets s' = Some f /\
    (is_multivariate k = false <-> exists T, f = FU T) /\ (is_multivariate k = true <-> exists T, f = FM T) /\
    (e_type s = TKind k \/
     (e_type s = TAuto /\ (kind_vl k = true <-> is_collection X) /\
      exists nf, first_features X nf /\ (is_multivariate k = true <-> 1 < nf))).
Proof.
  intros F N S rng RS V ex X y s h s' h' H. destruct (fit_success _ _ _ _ _ _ _ _ _ _ _ H) as (k & f & E1 & E2 & E3 & _ & HT & Hk).
  exists k, f. split; [exact E1|]. split; [exact E2|]. split; [exact E3|]. split; [|split].
  - destruct k; destruct Hk as (T & ->); cbn; split; intros; eauto; try discriminate; destruct H0; discriminate.
  - destruct k; destruct Hk as (T & ->); cbn; split; intros; eauto; try discriminate; destruct H0; discriminate.
  - destruct HT as [HT|[HT HA]]; [left; exact HT|right]. split; [exact HT|].
    destruct (fit_ok _ _ _ _ _ _ _ _ _ _ _ H) as (q & s1 & f' & EP & _ & _).
    destruct (prepare_ok _ _ _ _ _ _ _ _ _ EP) as (k' & D & sh & lens & m & ls & D' & y' & sizes & seed & pc & al & pn & HT' & HR & _ & _ & _ & _ & _ & _ & _ & _ & _ & _).
    assert (k' = k) by (destruct HT' as [HT'|[_ HT']]; congruence). subst k'. clear HT' EP. unfold read_as in HR.
    assert (VL : forall x0, py_item X 0 = Ok x0 -> forall n, py_len x0 = Ok n -> kind_vl k = true -> exists r, shape x0 = n :: r).
    { intros x0 Hx n Hn Hv. rewrite Hv in HR. destruct HR as (l & _ & HF & _). unfold format_uneven in HF.
      apply bind_inv in HF as (nn & HN & HF). apply bind_inv in HF as (shs & HS & HF). apply bind_inv in HF as (f0 & Hf0 & _).
      destruct (Z_lt_le_dec 0 nn) as [L|L].
      - rewrite zrange_cons in HS by lia. cbn [mapM] in HS. rewrite Hx in HS. cbn [bind] in HS.
        destruct (sample_shape x0) as [[a b]|] eqn:Es; [|discriminate HS].
        destruct x0; try discriminate Es; cbn [py_len] in Hn.
        + destruct shape as [|a0 r0]; [discriminate|]. injection Hn as ->. cbn. eauto.
        + injection Hn as ->. cbn. eauto.
      - rewrite zrange_empty in HS by lia. injection HS as <-. discriminate Hf0. }
    revert HA. unfold auto_class. destruct X; try discriminate.
    + (* list *) intros HA. apply bind_inv in HA as (x0 & Hx & HA). apply bind_inv in HA as (n & Hn & HA).
      assert (kind_vl k = true) by (injection HA as <-; destruct (1 <? n); reflexivity).
      destruct (VL x0 Hx n Hn) as (r & Er); [assumption|]. split.
      * split; [intros _; left; eauto|auto].
      * exists n. split.
        -- left. destruct l as [|x t]; [discriminate Hx|]. exists x0, t, r. split; [|exact Er]. left. cbn in Hx. congruence.
        -- injection HA as <-. destruct (Z.ltb_spec 1 n); cbn; split; intros; congruence || lia.
    + destruct (dtype_eqb dt DObject) eqn:Ed.
      * assert (dt = DObject) by (destruct dt; try discriminate; reflexivity). subst dt.
        intros HA. apply bind_inv in HA as (x0 & Hx & HA). apply bind_inv in HA as (n & Hn & HA).
        assert (Hv : kind_vl k = true) by (injection HA as <-; destruct (1 <? n); reflexivity).
        destruct (VL x0 Hx n Hn Hv) as (r & Er). split.
        -- split; [intros _; right; eauto|auto].
        -- exists n. split; [|injection HA as <-; destruct (Z.ltb_spec 1 n); cbn; split; intros; congruence || lia].
           destruct shape as [|n0 [|n1 sh1]]; [discriminate Hx| |].
           ++ left. cbn [py_item] in Hx. destruct cells as [|c t]; [discriminate Hx|]. exists x0, t, r. split; [|exact Er].
              right. exists n0. cbn in Hx. congruence.
           ++ cbn [py_item] in Hx. injection Hx as <-. cbn [Checks.shape] in Er. injection Er as -> <-.
              rewrite Hv in HR. destruct HR as (l & _ & HF & _). unfold format_uneven in HF.
              apply bind_inv in HF as (nn & HN & HF). apply bind_inv in HF as (shs & HS & HF). apply bind_inv in HF as (f0 & Hf0 & HF).
              destruct (forallb _ _) in HF; [|discriminate]. apply bind_inv in HF as (w & _ & HF). apply bind_inv in HF as (D2 & HD & _).
              destruct (Z_lt_le_dec 0 nn) as [L|L].
              ** rewrite zrange_cons in HD by lia. cbn [mapM py_item bind] in HD.
                 destruct sh1 as [|c [|c2 sh2]]; try discriminate HD. right. eauto.
              ** rewrite zrange_empty in HS by lia. injection HS as <-. discriminate Hf0.
      * destruct (dtype_eqb dt DInt64 || dtype_eqb dt DFloat64); [|discriminate].
        intros HA. apply bind_inv in HA as (A & HC & HA). unfold check_array_3D in HC. cbn [check_is_numpy_or_pd bind] in HC.
        apply bind_inv in HC as (u & _ & HC). injection HC as <-. cbn [Checks.shape] in HA.
        destruct shape as [|n [|nf [|t [|? ?]]]]; try discriminate. split.
        -- split.
           ++ injection HA as <-. destruct (1 <? nf); discriminate.
           ++ intros [(l & Hl)|(sh0 & c0 & Hc)]; [discriminate|]. injection Hc as _ -> _. discriminate Ed.
        -- exists nf. split; [right; eauto|]. injection HA as <-. destruct (Z.ltb_spec 1 nf); cbn; split; intros; congruence || lia.
Qed.
Print Assumptions C35_selected_pair.

(** In mode 'auto', arrays of any other element type are rejected. *)
Theorem C35_other_dtypes : forall F (N : NumOps F) S (rng : Rng F S) RS (V : pyenv RS) ex sh dt cells y s h,
  e_type s = TAuto -> dt <> DObject -> dt <> DInt64 -> dt <> DFloat64 ->
  exists s', fit N rng V ex (VArr sh dt cells) y s h = (Err ValueError, s', h).
Proof.
  intros F N S rng RS V ex sh dt cells y s h HT H1 H2 H3. exists (set_type TNone s).
  unfold fit, prepare, set_fit_transform, bindE, self, put, liftE, retE. rewrite HT. cbn [auto_class].
  destruct dt; try congruence; reflexivity.
Qed.
Print Assumptions C35_other_dtypes.

(** The univariate variable-length transformer cannot be asked for: the constructor rejects its name. *)
Theorem C35_univariate_variable_refuted : forall F (N : NumOps F) RS (V : pyenv RS) a h,
  p_transform_type a = VStr "univariate_variable" -> init N V a h = (Err ValueError, h).
Proof. intros F N RS V a h H. unfold init, validate_transform_type. rewrite H. reflexivity. Qed.
Print Assumptions C35_univariate_variable_refuted.

(** Each kind of data is prepared for its own fitter. *)
Example C35_case : forall F (N : NumOps F) (V : pyenv Z),
  (exists q s' h', prepare N V caseX1 [0; 1] (caseE TAuto VNone (ints [3]) None None) [7] = (Ok q, s', h') /\ q_kind q = KU) /\
  (exists q s' h', prepare N V caseX2 [0; 1] (caseE TAuto VNone (ints [3]) None None) [7] = (Ok q, s', h') /\ q_kind q = KM) /\
  (exists q s' h', prepare N V caseL1 [0; 1] (caseE TAuto VNone (ints [3]) None None) [7] = (Ok q, s', h') /\ q_kind q = KUV).
Proof.
  intros F N V.
  split; [|split]; cbv -[v_randint nofZ n0]; destruct (v_randint V 7); (do 3 eexists; split; [reflexivity|reflexivity]).
Qed.

(** ** C36.  Padding of uneven series is lossless *)

(** [items]: a list of series or an array of objects; item i is an array of [rows i] features, [cols i] timestamps and
    values [v i]. *)
Theorem C36_padding : forall F (N : NumOps F) X items rows cols v,
  X = VList items \/ X = VArr [zlen items] DObject items -> items <> [] ->
  (forall i x, nthZ items i = Some x -> series N x (rows i) (cols i) (v i)) ->
  ((forall i, 0 <= i < zlen items -> rows i = rows 0) ->
   exists D w, format_uneven N X = Ok (D, [zlen items; rows 0; w], map cols (zrange 0 (zlen items))) /\
     (exists i, 0 <= i < zlen items /\ w = cols i) /\ (forall i, 0 <= i < zlen items -> cols i <= w) /\
     padded N D (zlen items) (rows 0) w cols v) /\
  (forall i, 0 <= i < zlen items -> rows i <> rows 0 -> format_uneven N X = Err ValueError).
Proof.
  intros F N X items rows cols v HX Hne Hs.
  assert (HC : collection X items) by (destruct HX as [->| ->]; [apply collection_list|apply collection_objects]).
  split.
  - intros Heq. apply (format_uneven_ok N X items rows cols v HC Hne Hs Heq).
  - intros i. apply (format_uneven_err N X items rows cols v HC Hs i).
Qed.
Print Assumptions C36_padding.

Example C36_case : format_uneven ZN caseL1 = Ok ([[[1; 2; 3; 4; 0]]; [[2; 1; 0; 5; 6]]], [2; 1; 5], [4; 5]) /\
  format_uneven ZN (VList [caseS [1; 2; 3]; VArr [2; 1] DInt64 (intcells [1; 2])]) = Err ValueError /\
  series ZN (caseS [1; 2; 3; 4]) 1 4 (fun _ j => j + 1).
Proof.
  split; [reflexivity|]. split; [reflexivity|]. split; [lia|]. split; [lia|]. exists DInt64, (intcells [1; 2; 3; 4]).
  split; [reflexivity|]. split; [reflexivity|]. intros i j Hi Hj. assert (i = 0) by lia. subst i. cbn [Z.mul Z.add].
  assert (E : j = 0 \/ j = 1 \/ j = 2 \/ j = 3) by lia. destruct E as [->|[->|[->| ->]]]; (eexists; split; [reflexivity|reflexivity]).
Qed.

(** ** C37.  Refitting an estimator does not depend on its history *)

(** If the type is explicit, max_channels is given, min_len is given in the variable-length mode, and the lengths are
    given by bounds or are absolute, then a fit after any sequence of fits (whatever their outcomes) gives the result
    of the same fit on the object as constructed, the generators being in the same states. *)
Theorem C37_history_independent : forall F (N : NumOps F) S (rng : Rng F S) RS (V : pyenv RS) ex calls s h s' h' X y r1 s1 h1 r2 s2 h2,
  settled s -> history N rng V ex calls s h = (s', h') ->
  fit N rng V ex X y s h' = (r1, s1, h1) -> fit N rng V ex X y s' h' = (r2, s2, h2) ->
  r2 = r1 /\ h2 = h1 /\ (r1 = Ok tt -> forall Z, transform N s2 Z = transform N s1 Z).
Proof.
  intros F N S rng RS V ex calls s h s' h' X y r1 s1 h1 r2 s2 h2 Hs Hh H1 H2.
  pose proof (history_frame _ _ _ _ _ _ _ _ _ Hh) as Fr. pose proof (settled_alike _ _ Hs Fr) as A.
  destruct (fit_alike _ _ _ _ _ _ _ _ _ _ _ _ _ _ _ A H1 H2) as (E1 & E2 & E3). split; [exact E1|]. split; [exact E2|].
  intros -> Z. subst r2. specialize (E3 eq_refl).
  destruct (fit_success _ _ _ _ _ _ _ _ _ _ _ H1) as (k1 & f1 & T1 & K1 & _ & P1 & W1 & _).
  destruct (fit_success _ _ _ _ _ _ _ _ _ _ _ H2) as (k2 & f2 & T2 & K2 & _ & P2 & W2 & _).
  destruct Hs as ((k & Tk & _) & _). destruct A as ((Ph & _) & Ty & _).
  assert (k1 = k) by (destruct W1 as [W1|[W1 _]]; congruence). assert (k2 = k) by (destruct W2 as [W2|[W2 _]]; congruence). subst.
  apply transform_ext; congruence.
Qed.
Print Assumptions C37_history_independent.

Example C37_case : settled (caseE (F := Z) (TKind KMV) VNone (ints [3]) (Some 1) (Some 3)).
Proof.
  split; [exists KMV; split; [reflexivity|right; discriminate]|]. split; [discriminate|]. right. split; reflexivity.
Qed.

(** Without these conditions the earlier fit leaks into the next one.  In each case the first call is one that a user
    can make ([ex] and its outcome are arbitrary), and the second call passes other arguments to the fitter than the
    same call on the object as constructed. *)
Definition leaks {F} (N : NumOps F) (s : @est F) (X1 X2 : pyv F) (y : list Z) (what : request -> request -> Prop) : Prop :=
  forall S (rng : Rng F S) RS (V : pyenv RS) ex g r s1 h1, fit N rng V ex X1 y s [g] = (r, s1, h1) ->
  exists q s2 h2 q' s2' h2', prepare N V X2 y s [g] = (Ok q, s2, h2) /\ prepare N V X2 y s1 h1 = (Ok q', s2', h2') /\ what q q'.

Lemma leaks_intro {F} (N : NumOps F) (s : @est F) X1 X2 y what :
  (forall RS (V : pyenv RS) g, exists q0 s1 h1 q s2 h2 q' s2' h2',
     prepare N V X1 y s [g] = (Ok q0, s1, h1) /\ prepare N V X2 y s [g] = (Ok q, s2, h2) /\
     prepare N V X2 y s1 h1 = (Ok q', s2', h2') /\ what q q') -> leaks N s X1 X2 y what.
Proof.
  intros H S rng RS V ex g r s1 h1 Hf. destruct (H RS V g) as (q0 & t1 & g1 & q & s2 & h2 & q' & s2' & h2' & E1 & E2 & E3 & E4).
  destruct (fit_then_prepare _ _ _ _ _ _ _ _ _ _ _ _ _ _ _ _ _ _ _ E1 Hf E3) as (s3 & E5).
  exists q, s2, h2, q', s3, h2'. auto.
Qed.

(** transform_type='auto': after a univariate fit, multivariate data go to the univariate fitter. *)
Theorem C37_type_refuted : forall F (N : NumOps F), exists s X1 X2 y, e_type s = TAuto /\
  leaks N s X1 X2 y (fun q q' => q_kind q = KM /\ q_kind q' = KU).
Proof.
  intros F N. exists (caseE TAuto VNone (ints [3]) None None), caseX1, caseX2, [0; 1]. split; [reflexivity|]. apply leaks_intro. intros RS V g.
  destruct (v_randint V g) as [z g'] eqn:E0. destruct (v_randint V g') as [z2 g2] eqn:E.
  do 9 eexists. do 2 (split; [cbv -[v_randint nofZ n0]; rewrite E0; reflexivity|]).
  split; [cbv -[v_randint nofZ n0]; rewrite E; reflexivity|]. split; reflexivity.
Qed.
Print Assumptions C37_type_refuted.

(** max_channels=None: the number of channels of the first data set is used for the second. *)
Theorem C37_max_channels_refuted : forall F (N : NumOps F), exists s X1 X2 y, e_type s = TKind KM /\
  leaks N s X1 X2 y (fun q q' => q_max_channels q = 3 /\ q_max_channels q' = 2).
Proof.
  intros F N. exists (caseE (TKind KM) VNone (ints [3]) None None), caseX2, caseX3, [0; 1]. split; [reflexivity|]. apply leaks_intro. intros RS V g.
  destruct (v_randint V g) as [z g'] eqn:E0. destruct (v_randint V g') as [z2 g2] eqn:E.
  do 9 eexists. do 2 (split; [cbv -[v_randint nofZ n0]; rewrite E0; reflexivity|]).
  split; [cbv -[v_randint nofZ n0]; rewrite E; reflexivity|]. split; reflexivity.
Qed.
Print Assumptions C37_max_channels_refuted.

(** min_len=None in variable-length mode: the minimal length of the first data set is used for the second. *)
Theorem C37_min_len_refuted : forall F (N : NumOps F), exists s X1 X2 y, e_type s = TKind KMV /\
  leaks N s X1 X2 y (fun q q' => q_min_len q = 6 /\ q_min_len q' = 4).
Proof.
  intros F N. exists (caseE (TKind KMV) VNone (ints [3]) None None), caseL1, caseL2, [0; 1]. split; [reflexivity|]. apply leaks_intro. intros RS V g.
  destruct (v_randint V g) as [z g'] eqn:E0. destruct (v_randint V g') as [z2 g2] eqn:E.
  do 9 eexists. do 2 (split; [cbv -[v_randint nofZ n0]; rewrite E0; reflexivity|]).
  split; [cbv -[v_randint nofZ n0]; rewrite E; reflexivity|]. split; reflexivity.
Qed.
Print Assumptions C37_min_len_refuted.

(** Relative lengths: fitting twice on the same data (8 timestamps, relative length 0.25) uses length 2, then 4. *)
Definition caseX8 {F} : pyv F := VArr [2; 1; 8] DInt64 (intcells [1; 2; 3; 4; 3; 2; 1; 0;  2; 1; 0; 5; 1; 1; 4; 2]).
Theorem C37_relative_lengths_refuted : exists s X y, e_lengths s = VArr [1] DFloat64 [VFloat (1/4)%R] /\ e_type s = TKind KU /\
  leaks RN s X X y (fun q q' => g_sizes (q_P q) = [2] /\ g_sizes (q_P q') = [4]).
Proof.
  exists (caseE (TKind KU) VNone (VArr [1] DFloat64 [VFloat (1/4)%R]) (Some 1) None), caseX8, [0; 1].
  split; [reflexivity|]. split; [reflexivity|]. apply leaks_intro. intros RS V g.
  assert (E1 : nfloor RN (nmul RN (nofZ RN 8) (1/4)%R) = 2) by (change (Rfloor (IZR 8 * (1/4)) = 2); apply Rfloor_unique; lra).
  assert (E2 : nfloor RN (nmul RN (nofZ RN 8) (nofZ RN 2)) = 16) by (change (Rfloor (IZR 8 * IZR 2) = 16); apply Rfloor_unique; lra).
  assert (E3 : ntrunc RN (nofZ RN 2) = 2) by (change (Rtrunc (IZR 2) = 2); rewrite Rtrunc_nonneg by lra; apply Rfloor_unique; lra).
  assert (E4 : ntrunc RN (nofZ RN 16) = 16) by (change (Rtrunc (IZR 16) = 16); rewrite Rtrunc_nonneg by lra; apply Rfloor_unique; lra).
  revert E1 E2 E3 E4. generalize RN (1/4)%R. intros N x E1 E2 E3 E4.
  destruct (v_randint V g) as [z g'] eqn:E0. destruct (v_randint V g') as [z2 g2] eqn:E.
  do 9 eexists. do 2 (split; [cbv -[v_randint nofZ n0 nfloor nmul ntrunc]; rewrite E1, E3, E0; reflexivity|]).
  split; [cbv -[v_randint nofZ n0 nfloor nmul ntrunc]; rewrite E2, E4, E; reflexivity|]. split; reflexivity.
Qed.
Print Assumptions C37_relative_lengths_refuted.

(** The random state of the object moves on at each fit: a fit uses the next draw of the generator, so a second fit on
    the same data uses another seed unless the generator repeats itself. *)
Theorem C37_generator_advances : forall F (N : NumOps F) RS (V : pyenv RS) X y s h q s' h',
  prepare N V X y s h = (Ok q, s', h') -> e_n_samples s = VNone ->
  exists g, get h (e_rs s) = Ok g /\ g_seed (q_P q) = fst (v_randint V g) /\ get h' (e_rs s') = Ok (snd (v_randint V g)).
Proof.
  intros F N RS V X y s h q s' h' H Hn. destruct (prepare_ok _ _ _ _ _ _ _ _ _ H) as
    (k & D & sh & lens & m & ls & D' & y' & sizes & seed & pc & al & pn & _ & _ & _ & _ & _ & _ & Hg & _ & _ & _ & -> & ->).
  destruct (Hg Hn) as (g & G1 & G2 & G3). exists g. split; [exact G1|]. split; [exact G2|]. cbn.
  rewrite (set_of_get h (e_rs s) g _ G1) in G3. injection G3 as <-. apply (get_upd_same h (e_rs s) g _ G1).
Qed.
Print Assumptions C37_generator_advances.

(** ** C38.  A failed fit leaves the estimator usable *)

(** A fit that raises does not change what transform returns on a fitted object. *)
Theorem C38_transform_unaffected : forall F (N : NumOps F) S (rng : Rng F S) RS (V : pyenv RS) ex X0 y0 s0 h0 s h X y e s' h',
  fit N rng V ex X0 y0 s0 h0 = (Ok tt, s, h) -> fit N rng V ex X y s h = (Err e, s', h') ->
  forall Z, transform N s' Z = transform N s Z.
Proof.
  intros F N S rng RS V ex X0 y0 s0 h0 s h X y e s' h' H1 H2 Z.
  destruct (fit_success _ _ _ _ _ _ _ _ _ _ _ H1) as (k & f & T & K & _ & _ & _ & _).
  destruct (fit_frame _ _ _ _ _ _ _ _ _ _ _ H2) as ((P & Ty & _ & _ & _ & Ki) & _ & Hr). cbn in Hr.
  apply transform_ext; [apply Ty; congruence|rewrite (Ki k T K); congruence|destruct P as (P & _); exact P|].
  exact Hr.
Qed.
Print Assumptions C38_transform_unaffected.

(** What a fit that raises may have overwritten: the type if it was 'auto', max_channels and min_len if they were
    None (min_len also in the modes which ignore it), and lengths which are not absolute or given by bounds. *)
Theorem C38_failed_fit_changes : forall F (N : NumOps F) S (rng : Rng F S) RS (V : pyenv RS) ex X y s h e s' h',
  fit N rng V ex X y s h = (Err e, s', h') ->
  e_shapelets s' = e_shapelets s /\
  e_phase s' = e_phase s /\ e_alpha s' = e_alpha s /\ e_normout s' = e_normout s /\ e_n_samples s' = e_n_samples s /\
  e_n_shapelets s' = e_n_shapelets s /\ e_bounds s' = e_bounds s /\ e_reduction s' = e_reduction s /\ e_prime s' = e_prime s /\
  e_proba_norm s' = e_proba_norm s /\ e_percentiles s' = e_percentiles s /\ e_n_jobs s' = e_n_jobs s /\ e_rs s' = e_rs s /\
  (e_type s <> TAuto -> e_type s' = e_type s) /\ (e_max_channels s <> None -> e_max_channels s' = e_max_channels s) /\
  (forall k, e_type s = TKind k -> kind_vl k = true -> e_min_len s <> None -> e_min_len s' = e_min_len s) /\
  (e_bounds s = None -> (forall sh cells, e_lengths s <> VArr sh DFloat64 cells) -> e_lengths s' = e_lengths s).
Proof.
  intros F N S rng RS V ex X y s h e s' h' H. destruct (fit_frame _ _ _ _ _ _ _ _ _ _ _ H) as ((P & Ty & Mc & Ml & Le & _) & _ & Hr).
  cbn in Hr. split; [exact Hr|]. unfold same_params in P. do 12 (split; [intuition|]). split; [exact Ty|]. split; [exact Mc|]. split.
  - intros k Hk Hv. apply Ml. rewrite Hk. exact Hv.
  - intros Hb Hl. apply Le. split; [exact Hb|]. destruct (e_lengths s); auto. destruct dt; try reflexivity. exfalso. eapply Hl. reflexivity.
Qed.
Print Assumptions C38_failed_fit_changes.

(** A failed fit on a float32 array in mode 'auto' makes every later fit fail. *)
Theorem C38_float32_refuted : forall F (N : NumOps F) S (rng : Rng F S) RS (V : pyenv RS) ex sh cells y s h,
  e_type s = TAuto -> exists s', fit N rng V ex (VArr sh DFloat32 cells) y s h = (Err ValueError, s', h) /\
    forall X' y' h', exists s'', fit N rng V ex X' y' s' h' = (Err ValueError, s'', h').
Proof.
  intros F N S rng RS V ex sh cells y s h HT. exists (set_type TNone s).
  unfold fit, prepare, set_fit_transform, bindE, self, put, liftE, retE. rewrite HT. split; [reflexivity|].
  intros X' y' h'. cbn. eauto.
Qed.
Print Assumptions C38_float32_refuted.

Example C38_case : forall F (N : NumOps F) (V : pyenv Z),
  exists s1 h1, prepare N V caseX1 [0; 1] (caseE TAuto VNone (ints [1]) None None) [7] = (Err ValueError, s1, h1) /\
    e_type s1 = TKind KU /\ e_max_channels s1 = Some 1 /\ e_min_len s1 = Some 4 /\ e_shapelets s1 = None.
Proof.
  intros F N V. cbv -[v_randint nofZ n0]. do 2 eexists. split; [reflexivity|]. repeat split; reflexivity.
Qed.

(** ** C39.  Subsampling keeps series and lengths aligned *)

(** Every series passed to the fitter is one of the input series [D] ([D]: the data as an array, see C36 for the
    variable-length modes), with its own label; without n_samples, all of them in order. *)
Theorem C39_labels_aligned : forall F (N : NumOps F) RS (V : pyenv RS) X y s h q s' h',
  prepare N V X y s h = (Ok q, s', h') ->
  exists D sh lens, read_as N (q_kind q) X (e_min_len s) D sh lens (q_min_len q) /\
    (zlen y = zlen D -> zlen (q_X q) = zlen (q_y q) /\
       forall j x l, nthZ (q_X q) j = Some x -> nthZ (q_y q) j = Some l ->
       exists i, nthZ D i = Some x /\ nthZ y i = Some l /\ (e_n_samples s = VNone -> i = j)).
Proof.
  intros F N RS V X y s h q s' h' H. destruct (prepare_ok _ _ _ _ _ _ _ _ _ H) as
    (k & D & sh & lens & m & ls & D' & y' & sizes & seed & pc & al & pn & _ & HR & HS & HA & _ & _ & _ & _ & _ & _ & -> & _).
  exists D, sh, lens. cbn [q_kind q_min_len q_X q_y]. split; [exact HR|]. intros Hl.
  assert (DN : e_n_samples s = VNone \/ e_n_samples s <> VNone) by (destruct (e_n_samples s); auto; right; discriminate).
  destruct DN as [Hn|Hn].
  { destruct (HA Hn) as [-> ->]. split; [auto|]. intros j x l Hx Hy. exists j. auto. }
  destruct HS as [[-> ->]|(ids & M1 & M2)].
  - split; [auto|]. intros j x l Hx Hy. exists j. auto.
  - apply mapM_Forall2 in M1, M2. pose proof (Forall2_length _ _ _ M1) as L1. pose proof (Forall2_length _ _ _ M2) as L2.
    split; [unfold zlen; lia|]. intros j x l Hx Hy.
    assert (G : forall (A : Type) (src : list A) ks ys, Forall2 (fun i z => get src i = Ok z) ks ys -> forall j z, nthZ ys j = Some z ->
       exists i, nthZ ks j = Some i /\ get src i = Ok z).
    { intros A src ks ys HF. induction HF as [|i z is zs Hiz HF IH]; intros j0 z0 Hz.
      - apply nthZ_range in Hz. cbn in Hz. lia.
      - rewrite (nthZ_cons z zs) in Hz. rewrite (nthZ_cons i is). destruct (j0 =? 0); [injection Hz as <-; eauto|apply IH; exact Hz]. }
    destruct (G _ _ _ _ M1 j x Hx) as (i & I1 & G1). destruct (G _ _ _ _ M2 j l Hy) as (i2 & I2 & G2).
    assert (i2 = i) by congruence. subst i2. apply get_wrap in G1 as [R1 G1]. apply get_wrap in G2 as [R2 G2].
    exists (wrap (zlen D) i). rewrite Hl in G2. split; [exact G1|]. split; [exact G2|]. congruence.
Qed.
Print Assumptions C39_labels_aligned.

(** In variable-length mode the lengths are not selected along.  Four series of 4, 7, 3 and 6 points, two classes; half
    of the samples are used, and numpy's generator selects the third and the first: the series of 3 points is passed
    first, and the first length passed is 4, so that a padding zero counts as data. *)
Definition caseV : pyenv Z := mkEnv Z (fun s => s) (fun g => (g, g + 1)) (fun g n r k y => (Ok [2; 0], g + 1)) 4 4.
Definition caseL4 {F} : pyv F := VList [caseS [1; 2; 3; 4]; caseS [2; 1; 0; 5; 6; 2; 1]; caseS [7; 8; 9]; caseS [3; 3; 2; 2; 1; 1]].
Theorem C39_lengths_refuted : exists s y h q s' h',
  e_type s = TAuto /\ e_n_samples s = VFloat (1/2)%R /\ prepare RN caseV caseL4 y s h = (Ok q, s', h') /\
  q_y q = [1; 0] /\ q_X q = [[[7; 8; 9; 0; 0; 0; 0]]; [[1; 2; 3; 4; 0; 0; 0]]]%R /\ q_X_len q = Some [4; 7; 3; 6].
Proof.
  assert (G : forall F (N : NumOps F) x, nltb N x (n1 N) = true -> ntrunc N (nmul N (nofZ N 4) x) = 2 ->
    exists q s' h', prepare N caseV caseL4 [0; 0; 1; 1] (caseE TAuto (VFloat x) (ints [3]) None None) [7] = (Ok q, s', h') /\
      q_y q = [1; 0] /\ q_X q = [[map (nofZ N) [7; 8; 9] ++ repeat (n0 N) 4]; [map (nofZ N) [1; 2; 3; 4] ++ repeat (n0 N) 3]] /\
      q_X_len q = Some [4; 7; 3; 6]).
  { intros F N x H1 H2. do 3 eexists. split.
    - cbv -[nltb nofZ n0 ntrunc nmul n1]. rewrite H1. cbv -[nltb nofZ n0 ntrunc nmul n1]. rewrite ?H2. reflexivity.
    - repeat split; reflexivity. }
  destruct (G R RN (1/2)%R) as (q & s' & h' & E1 & E2 & E3 & E4).
  - apply Rltb_true. cbn. lra.
  - change (Rtrunc (IZR 4 * (1/2)) = 2). rewrite Rtrunc_nonneg by lra. apply Rfloor_unique; lra.
  - exists (caseE TAuto (VFloat (1/2)%R) (ints [3]) None None), [0; 0; 1; 1], [7], q, s', h'.
    split; [reflexivity|]. split; [reflexivity|]. split; [exact E1|]. split; [exact E2|]. split; [exact E3|exact E4].
Qed.
Print Assumptions C39_lengths_refuted.

(** ** C40.  normalize_output *)

(** normalize_output has no effect: the other attributes after fit, the exceptions and the result of transform are the
    same for both values. *)
Theorem C40_no_effect : forall F (N : NumOps F) S (rng : Rng F S) RS (V : pyenv RS) ex b X y s h r s' h',
  fit N rng V ex X y s h = (r, s', h') ->
  fit N rng V ex X y (set_normout b s) h = (r, set_normout b s', h') /\
  forall Z, transform N (set_normout b s') Z = transform N s' Z.
Proof.
  intros F N S rng RS V ex b X y s h r s' h' H. split; [|reflexivity]. rewrite commutes_fit, H. reflexivity.
Qed.
Print Assumptions C40_no_effect.

(** two series of 10 points: one shapelet of length 3 *)
Definition c40s : @est Z := caseE TAuto VNone (ints [3]) None None.
Definition c40X : pyv Z := VArr [2; 1; 10] DInt64 (intcells [1; 2; 3; 4; 3; 2; 1; 0; 5; 7;  2; 1; 0; 5; 1; 1; 4; 2; 9; 1]).
Example C40_case : let ex := fun ST => @exec_seq Z ST in exists s' h', fit ZN zrng caseV ex c40X [0; 0] c40s [7] = (Ok tt, s', h') /\
  fit ZN zrng caseV ex c40X [0; 0] (set_normout true c40s) [7] = (Ok tt, set_normout true s', h') /\
  transform ZN s' c40X = Ok [[3; 4; 1]; [0; 3; 1]] /\ transform ZN (set_normout true s') c40X = Ok [[3; 4; 1]; [0; 3; 1]].
Proof. eexists _, _. split; [vm_compute; reflexivity|]. split; [vm_compute; reflexivity|]. split; vm_compute; reflexivity. Qed.

(** The documented effect is missing: with normalize_output=True the position of the best match and the number of
    matches are not divided by the number of windows (here 4). *)
Definition caseFitted (b : bool) : @est Z :=
  mkEst (TKind KU) false (VInt 0) b VNone 1 (ints [2]) None (VInt 0) false (VInt 0) (ints [5; 10]) 0 (VBool false) (Some 1) (Some 5)
    (Some KU) (Some (FU (mkUshp [[7; 8]] [2] [1] [1] [false]))).
Theorem C40_documented_refuted : exists s X, e_normout s = true /\
  transform ZN s X = Ok [[0; 3; 1]] /\ shape X = [1; 1; 5].
Proof.
  exists (caseFitted true), (VArr [1; 1; 5] DInt64 (intcells [1; 2; 3; 7; 8])). split; [reflexivity|]. split; [vm_compute; reflexivity|reflexivity].
Qed.
Print Assumptions C40_documented_refuted.

(** ** C41.  Constructor validation *)

Definition numeric {F} (v : pyv F) : Prop := (exists z, v = VInt z) \/ exists x, v = VFloat x.
Definition type_value {F} (v : pyv F) (t : ttype) : Prop := exists str, v = VStr str /\
  ((lower str = "auto"%string /\ t = TAuto) \/ (lower str = "univariate"%string /\ t = TKind KU) \/
   (lower str = "multivariate"%string /\ t = TKind KM) \/ (lower str = "multivariate_variable"%string /\ t = TKind KMV)).
(** a non-empty one-dimensional array, or a list numpy makes such an array of *)
Definition array1 {F} (N : NumOps F) (v A : pyv F) : Prop := array_of N false v A /\ exists n, shape A = [n] /\ n <> 0.
Definition seed_value {F RS} (V : pyenv RS) (v : pyv F) (h : heap) (id : Z) (h' : heap) : Prop :=
  (v = VNone /\ id = 0 /\ h' = h) \/ (v = VRng id /\ h' = h) \/
  (exists z, (v = VInt z \/ v = VBool (z =? 1) /\ 0 <= z <= 1) /\ 0 <= z < 2 ^ 32 /\ id = zlen h /\ h' = h ++ [v_new V z]).
Definition jobs_value {F RS} (V : pyenv RS) (v w : pyv F) : Prop :=
  (exists b, v = VBool b /\ w = v) \/
  (exists n, w = VInt n /\ 1 <= n <= v_threads V /\
     ((v = VNone /\ n = 1) \/ exists z, v = VInt z /\ n = (if z <? 0 then v_cpus V + z + 1 else Z.min z (v_cpus V)))).

(** R_DST(...) returns exactly when every argument is of the accepted kind, and then stores the value given. *)
Theorem C41_constructor : forall F (N : NumOps F) RS (V : pyenv RS) a h s h',
  init N V a h = (Ok s, h') <->
  type_value (p_transform_type a) (e_type s) /\
  p_phase_invariance a = VBool (e_phase s) /\ p_normalize_output a = VBool (e_normout s) /\ p_prime_dilations a = VBool (e_prime s) /\
  (numeric (p_alpha a) /\ e_alpha s = p_alpha a) /\
  ((p_n_samples a = VNone \/ numeric (p_n_samples a)) /\ e_n_samples s = p_n_samples a) /\
  (p_n_shapelets a = VInt (e_n_shapelets s) \/ exists x, p_n_shapelets a = VFloat x /\ e_n_shapelets s = ntrunc N x) /\
  array1 N (p_shapelet_lengths a) (e_lengths s) /\
  ((p_bounds a = VNone /\ e_bounds s = None) \/
   exists b0 b1, py_len (p_bounds a) = Ok 2 /\ py_item (p_bounds a) 0 = Ok b0 /\ py_item (p_bounds a) 1 = Ok b1 /\ e_bounds s = Some (b0, b1)) /\
  (numeric (p_reduction a) /\ (forall r, as_F N (p_reduction a) = Ok r -> nleb N (n1 N) r = false) /\ e_reduction s = p_reduction a) /\
  (numeric (p_proba_norm a) /\ e_proba_norm s = p_proba_norm a) /\
  (array1 N (p_percentiles a) (e_percentiles s) /\ exists sh dt c0 c1 cs x0 x1, e_percentiles s = VArr sh dt (c0 :: c1 :: cs) /\
     (dt = DInt64 \/ dt = DFloat64) /\ as_F N c0 = Ok x0 /\ as_F N c1 = Ok x1 /\ nleb N x0 x1 = true) /\
  seed_value V (p_random_state a) h (e_rs s) h' /\ jobs_value V (p_n_jobs a) (e_n_jobs s) /\
  e_max_channels s = p_max_channels a /\ e_min_len s = p_min_len a /\ e_kind s = None /\ e_shapelets s = None.
Proof.
  intros F N RS V a h s h'. unfold init.
  assert (CN : forall v w : pyv F, check_is_numeric v = Ok w <-> numeric v /\ w = v).
  { intros v w. unfold numeric. split.
    - destruct v; cbn; intros H; try discriminate; injection H as <-; split; eauto.
    - intros [[(z & ->)|(z & ->)] ->]; reflexivity. }
  assert (CB : forall (v : pyv F) b, check_is_boolean v = Ok b <-> v = VBool b).
  { intros v b. split; [|intros ->; reflexivity]. destruct v; cbn; intros H; congruence. }
  assert (CT : forall (v : pyv F) t, validate_transform_type v = Ok t <-> type_value v t).
  { intros v t. unfold type_value, validate_transform_type. split.
    - destruct v; try discriminate. intros H. exists s0. split; [reflexivity|].
      destruct (String.eqb_spec (lower s0) "auto"); [left; split; congruence|].
      destruct (String.eqb_spec (lower s0) "univariate"); [right; left; split; congruence|].
      destruct (String.eqb_spec (lower s0) "multivariate"); [right; right; left; split; congruence|].
      destruct (String.eqb_spec (lower s0) "multivariate_variable"); [right; right; right; split; congruence|discriminate].
    - intros (str & -> & [[-> ->]|[[-> ->]|[[-> ->]|[-> ->]]]]); reflexivity. }
  assert (CA : forall v A : pyv F, check_array_1D N v = Ok A <-> array1 N v A).
  { intros v A. unfold array1. rewrite (proj1 (C42_check_array_1D N v)). split.
    - intros (H1 & n & H2 & H3). eauto.
    - intros (H1 & n & H2 & H3). eauto. }
  assert (CP : forall v A : pyv F, validate_percentiles N v = Ok A <-> array1 N v A /\ exists sh dt c0 c1 cs x0 x1, A = VArr sh dt (c0 :: c1 :: cs) /\
     (dt = DInt64 \/ dt = DFloat64) /\ as_F N c0 = Ok x0 /\ as_F N c1 = Ok x1 /\ nleb N x0 x1 = true).
  { intros v A. unfold validate_percentiles. split.
    - intros H. apply bind_inv in H as (p & Hp & H). apply CA in Hp. destruct p; try discriminate.
      destruct (dtype_eqb dt DInt64 || dtype_eqb dt DFloat64) eqn:Ed; [|discriminate].
      apply bind_inv in H as (p0 & H0 & H). apply bind_inv in H as (p1 & H1 & H).
      apply bind_inv in H as (x0 & F0 & H). apply bind_inv in H as (x1 & F1 & H).
      destruct (nleb N x0 x1) eqn:El; [|discriminate]. injection H as <-. split; [exact Hp|].
      destruct cells as [|c0 [|c1 cs]]; [discriminate H0|discriminate H1|].
      assert (c0 = p0) by (change (Ok c0 = Ok p0) in H0; congruence). assert (c1 = p1) by (change (Ok c1 = Ok p1) in H1; congruence). subst.
      exists shape, dt, p0, p1, cs, x0, x1. split; [reflexivity|]. split; [destruct dt; try discriminate; auto|]. auto.
    - intros (HA & sh & dt & c0 & c1 & cs & x0 & x1 & -> & Hd & F0 & F1 & Hl). apply CA in HA. rewrite HA. cbn [bind].
      replace (dtype_eqb dt DInt64 || dtype_eqb dt DFloat64) with true by (destruct Hd as [-> | ->]; reflexivity).
      change (get (c0 :: c1 :: cs) 0) with (Ok c0). cbn [bind].
      change (get (c0 :: c1 :: cs) 1) with (Ok c1).
      cbn [bind]. rewrite F0, F1. cbn [bind]. rewrite Hl. reflexivity. }
  split.
  - intros H.
    match type of H with match ?b with Ok _ => _ | Err _ => _ end = _ => destruct b as [[[[[[[[[[[[ty ph] al] no] ns] nsh] sl] bo] re] pr] pn] pc]|e] eqn:Eb; [|discriminate] end.
    apply bind_inv in Eb as (ty' & B1 & Eb). apply bind_inv in Eb as (ph' & B2 & Eb). apply bind_inv in Eb as (al' & B3 & Eb).
    apply bind_inv in Eb as (no' & B4 & Eb). apply bind_inv in Eb as (ns' & B5 & Eb). apply bind_inv in Eb as (nsh' & B6 & Eb).
    apply bind_inv in Eb as (sl' & B7 & Eb). apply bind_inv in Eb as (bo' & B8 & Eb). apply bind_inv in Eb as (re' & B9 & Eb).
    apply bind_inv in Eb as (u & B10 & Eb). apply bind_inv in Eb as (pr' & B11 & Eb). apply bind_inv in Eb as (pn' & B12 & Eb).
    apply bind_inv in Eb as (pc' & B13 & Eb). injection Eb as <- <- <- <- <- <- <- <- <- <- <- <-.
    destruct (check_random_state V (p_random_state a) h) as [r h1] eqn:Er. injection H as H <-.
    apply bind_inv in H as (id & Hid & H). apply bind_inv in H as (nj & Hnj & H). injection H as <-. subst r. cbn.
    apply CT in B1. apply CB in B2, B4, B11. apply CN in B3, B9, B12. apply CA in B7. apply CP in B13.
    split; [exact B1|]. split; [exact B2|]. split; [exact B4|]. split; [exact B11|]. split; [exact B3|]. split.
    { destruct (p_n_samples a) eqn:En; try (apply CN in B5 as [B5 ->]; split; auto). injection B5 as <-. split; auto. }
    split.
    { apply bind_inv in B6 as (w & B6 & B6'). apply CN in B6 as [[(z & E)|(z & E)] ->]; rewrite E in B6' |- *; injection B6' as <-; eauto. }
    split; [exact B7|]. split.
    { destruct (p_bounds a) eqn:Ep; try (right; rewrite <- Ep in *; apply bind_inv in B8 as (n & L & B8); destruct (Z.eqb_spec n 2) as [->|]; [|discriminate];
        apply bind_inv in B8 as (b0 & I0 & B8); apply bind_inv in B8 as (b1 & I1 & B8); injection B8 as <-; exists b0, b1; auto).
      left. injection B8 as <-. auto. }
    split.
    { destruct B9 as [B9 ->]. split; [exact B9|]. split; [|reflexivity]. intros r Hr. rewrite Hr in B10. cbn [bind] in B10.
      destruct u. apply guard_ok in B10. apply negb_true_iff in B10. exact B10. }
    split; [exact B12|]. split; [exact B13|]. split.
    { unfold check_random_state in Er. unfold seed_value.
      assert (SD : forall z, (if (0 <=? z) && (z <? 2 ^ 32) then (Ok (zlen h), h ++ [v_new V z]) else (Err ValueError, h)) = (Ok id, h1) ->
                0 <= z < 2 ^ 32 /\ id = zlen h /\ h1 = h ++ [v_new V z]).
      { intros z Hz. destruct (Z.leb_spec 0 z), (Z.ltb_spec z (2 ^ 32)); cbn [andb] in Hz; try discriminate.
        injection Hz as <- <-. auto. }
      destruct (p_random_state a) eqn:Es; try discriminate.
      - injection Er as <- <-. auto.
      - apply SD in Er. right. right. exists (if b then 1 else 0). split; [|exact Er]. right. destruct b; split; try reflexivity; lia.
      - apply SD in Er. right. right. exists z. split; [left; reflexivity|exact Er].
      - injection Er as <- <-. auto. }
    split; [|auto].
    { unfold init_n_jobs in Hnj. unfold jobs_value.
      assert (JD : forall v : pyv F, (let* n := check_n_jobs (v_cpus V) v in let* _ := set_num_threads V n in Ok (VInt n)) = Ok nj ->
         exists n, nj = VInt n /\ 1 <= n <= v_threads V /\ ((v = VNone /\ n = 1) \/ exists z, v = VInt z /\ n = (if z <? 0 then v_cpus V + z + 1 else Z.min z (v_cpus V)))).
      { intros v Hv. apply bind_inv in Hv as (n & Hn & Hv). apply bind_inv in Hv as (u0 & Ht & Hv). injection Hv as <-. exists n. split; [reflexivity|].
        unfold set_num_threads in Ht. destruct u0. apply guard_ok in Ht. apply andb_true_iff in Ht as [T1 T2]. apply Z.leb_le in T1, T2. split; [lia|].
        destruct v; try discriminate Hn; cbn [check_n_jobs] in Hn.
        - injection Hn as <-. auto.
        - right. exists z. split; [reflexivity|]. destruct (z <? 0); congruence. }
      destruct (p_n_jobs a) eqn:Ej; try (right; apply JD in Hnj; exact Hnj).
      left. exists b. injection Hnj as <-. auto. }
  - intros (B1 & B2 & B4 & B11 & B3 & B5 & B6 & B7 & B8 & B9 & B12 & B13 & B14 & B15 & B16 & B17 & B18 & B19).
    apply CT in B1. apply CB in B2, B4, B11. apply CN in B3, B12. apply CA in B7. apply CP in B13.
    destruct B9 as (B9 & B10 & B9e). assert (B9' : check_is_numeric (p_reduction a) = Ok (e_reduction s)) by (apply CN; auto).
    assert (B5' : match p_n_samples a with VNone => Ok VNone | v => check_is_numeric v end = Ok (e_n_samples s)).
    { destruct B5 as [B5 E5]. rewrite E5. destruct B5 as [B5|B5]; [rewrite B5; reflexivity|].
      destruct B5 as [(z & B5)|(z & B5)]; rewrite B5; reflexivity. }
    assert (B6' : (let* v := check_is_numeric (p_n_shapelets a) in as_int N v) = Ok (e_n_shapelets s)).
    { destruct B6 as [B6|(x & B6 & E6)]; rewrite B6; cbn; congruence. }
    assert (B8' : match p_bounds a with VNone => Ok None | v => let* n := py_len v in
                      if n =? 2 then let* b0 := py_item v 0 in let* b1 := py_item v 1 in Ok (Some (b0, b1)) else Err ValueError end = Ok (e_bounds s)).
    { destruct B8 as [[B8 E8]|(b0 & b1 & L & I0 & I1 & E8)]; [rewrite B8, E8; reflexivity|].
      rewrite E8. revert L I0 I1. generalize (p_bounds a). intros v L I0 I1.
      destruct v; try discriminate L; cbv zeta; rewrite L; cbn [bind Z.eqb Pos.eqb]; rewrite I0; cbn [bind]; rewrite I1; reflexivity. }
    assert (B10' : (let* r := as_F N (e_reduction s) in guard (negb (nleb N (n1 N) r)) ValueError) = Ok tt).
    { rewrite B9e. destruct (as_F N (p_reduction a)) as [r|e] eqn:Er.
      - cbn [bind]. rewrite (B10 r eq_refl). reflexivity.
      - destruct B9 as [(z & B9)|(z & B9)]; rewrite B9 in Er; discriminate. }
    rewrite B1. cbn [bind]. rewrite B2. cbn [bind]. rewrite B3. cbn [bind]. rewrite B4. cbn [bind]. rewrite B5'. cbn [bind].
    rewrite B6'. cbn [bind]. rewrite B7. cbn [bind]. cbv zeta in B8' |- *. rewrite B8'. cbn [bind]. rewrite B9'. cbn [bind]. rewrite B10'. cbn [bind].
    rewrite B11. cbn [bind]. rewrite B12. cbn [bind]. rewrite B13. cbn [bind].
    assert (B14' : check_random_state V (p_random_state a) h = (Ok (e_rs s), h')).
    { destruct B14 as [(E & E1 & E2)|[(E & E2)|(z & E & Hz & E1 & E2)]].
      - rewrite E, E1, E2. reflexivity.
      - rewrite E, E2. reflexivity.
      - rewrite E1, E2. destruct E as [E|[E Hz']]; rewrite E; cbn [check_random_state].
        + destruct (Z.leb_spec 0 z), (Z.ltb_spec z (2 ^ 32)); try lia. reflexivity.
        + assert (Ez : z = 0 \/ z = 1) by lia. destruct Ez as [-> | ->]; reflexivity. }
    rewrite B14'. cbn [bind].
    assert (B15' : init_n_jobs V (p_n_jobs a) = Ok (e_n_jobs s)).
    { destruct B15 as [(b & E & E1)|(n & E & Hn & Hv)].
      - rewrite E1, E. reflexivity.
      - rewrite E. unfold init_n_jobs. assert (T : set_num_threads V n = Ok tt).
        { unfold set_num_threads. destruct (Z.leb_spec 1 n), (Z.leb_spec n (v_threads V)); try lia. reflexivity. }
        destruct Hv as [[-> ->]|(z & -> & En)]; cbn [check_n_jobs bind]; [rewrite T; reflexivity|].
        destruct (z <? 0); rewrite <- En; cbn [bind]; rewrite T; reflexivity. }
    rewrite B15'. cbn [bind]. rewrite <- B16, <- B17, <- B18, <- B19. destruct s; reflexivity.
Qed.
Print Assumptions C41_constructor.

(** The defaults of the documentation, with random_state=3. *)
Definition caseArgs : @rargs Z :=
  mkArgs (VStr "Auto") (VBool false) (VInt 0) (VBool false) VNone (VInt 10) (VList [VInt 11]) VNone (VInt 0) (VBool true) (VInt 1)
    (VList [VInt 5; VInt 10]) (VInt 3) None None (VInt (-1)).
Example C41_case : init ZN caseV caseArgs [0] =
  (Ok (mkEst TAuto false (VInt 0) false VNone 10 (ints [11]) None (VInt 0) true (VInt 1) (ints [5; 10]) 1 (VInt 4) None None None None), [0; 3]) /\
  fst (init ZN caseV (mkArgs (VStr "auto") (VInt 0) (VInt 0) (VBool false) VNone (VInt 10) (VList [VInt 11]) VNone (VInt 0) (VBool true) (VInt 1)
    (VList [VInt 5; VInt 10]) (VInt 3) None None (VInt (-1))) [0]) = Err ValueError.
Proof. split; vm_compute; reflexivity. Qed.
