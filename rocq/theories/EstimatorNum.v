(** Shapelet lengths and padding in R_DST. *)
From Coq Require Import String ZArith List Bool Lia Reals Lra.
From Verif Require Import Prelude Num RealBase Kernel Parallel Apply Gen Checks ChecksProofs Estimator EstimatorProofs EstimatorLaws.
Import ListNotations.
Open Scope Z_scope.

(** ** [l[::step]] *)

Lemma every_zrange a b step : 0 < step -> a <= b ->
  every step (zrange a b) = map (fun i => a + i * step) (zrange 0 ((b - a + step - 1) / step)).
Proof.
  intros Hs Hab. unfold every. rewrite zlen_zrange, Z.max_r by lia.
  assert (E : combine (zrange 0 (b - a)) (zrange a b) = map (fun i => (i, a + i)) (zrange 0 (b - a))).
  { replace (zrange a b) with (map (fun i => a + i) (zrange 0 (b - a))).
    - generalize (zrange 0 (b - a)). intros l. induction l as [|x t IH]; [reflexivity|]. cbn. rewrite IH. reflexivity.
    - pose proof (zrange_shift 0 (b - a) a) as H. replace (0 + a) with a in H by lia. replace (b - a + a) with b in H by lia.
      rewrite H. apply map_ext. intros i. lia. }
  rewrite E. clear E.
  remember (b - a) as n eqn:En.
  assert (G : forall k : nat, forall n, n = Z.of_nat k ->
     map snd (filter (fun p : Z * Z => fst p mod step =? 0) (map (fun i => (i, a + i)) (zrange 0 n))) =
     map (fun i => a + i * step) (zrange 0 ((n + step - 1) / step))).
  { clear n En Hab b. induction k as [|k IH]; intros n ->.
    - rewrite zrange_empty by lia. cbn [map filter]. replace ((Z.of_nat 0 + step - 1) / step) with 0.
      + rewrite zrange_empty by lia. reflexivity.
      + symmetry. apply Z.div_small. lia.
    - rewrite Nat2Z.inj_succ. unfold Z.succ. rewrite zrange_snoc by lia.
      rewrite map_app, filter_app, map_app, (IH _ eq_refl). cbn [map filter].
      set (k' := Z.of_nat k) in *. assert (0 <= k') by lia. clearbody k'.
      cbn [fst]. destruct (Z.eqb_spec (k' mod step) 0) as [E|E].
      + cbn [map snd].
        assert (Q : k' = step * (k' / step)) by (pose proof (Z.div_mod k' step); lia).
        set (q := k' / step) in *. assert (0 <= q) by (apply Z.div_pos; lia). clearbody q. subst k'.
        replace ((step * q + step - 1) / step) with q.
        2:{ apply (Z.div_unique _ _ _ (step - 1)); lia. }
        replace ((step * q + 1 + step - 1) / step) with (q + 1).
        2:{ apply (Z.div_unique _ _ _ 0); lia. }
        rewrite zrange_snoc by lia. rewrite map_app. cbn [map]. f_equal. f_equal. lia.
      + cbn [map]. rewrite app_nil_r.
        replace ((k' + 1 + step - 1) / step) with ((k' + step - 1) / step); [reflexivity|].
        pose proof (Z.div_mod k' step ltac:(lia)) as Q. pose proof (Z.mod_pos_bound k' step Hs) as B.
        set (q := k' / step) in *. set (r := k' mod step) in *. clearbody q r. subst k'.
        transitivity (q + 1).
        * symmetry. apply (Z.div_unique _ _ _ (r - 1)); lia.
        * apply (Z.div_unique _ _ _ r); lia. }
  rewrite (G (Z.to_nat n) n) by lia. reflexivity.
Qed.

Lemma every_count n k step : 0 < k -> k <= n -> step = n / k -> 1 <= step /\ k <= (n + step - 1) / step.
Proof.
  intros Hk Hn Es. assert (H1 : 1 <= step) by (subst step; apply Z.div_le_lower_bound; lia). split; [exact H1|].
  apply Z.div_le_lower_bound; [lia|]. subst step. pose proof (Z.mul_div_le n k Hk). lia.
Qed.

Lemma all_kept n step : step = 1 -> (n + step - 1) / step = n.
Proof. intros ->. rewrite Z.div_1_r. lia. Qed.

(** ** Shapelet lengths over the reals *)

Lemma Rtrunc_lt1 (x : R) : (x < 1)%R -> Rtrunc x <= 0.
Proof.
  intros H. unfold Rtrunc. destruct (Rlt_dec x 0) as [L|L].
  - fold (Rfloor (- x)). destruct (Rfloor_spec (- x)) as [A B].
    assert ((0 < IZR (Rfloor (-x)) + 1)%R) by lra. assert (0 < Rfloor (- x) + 1). { apply lt_IZR. rewrite plus_IZR. exact H0. } lia.
  - fold (Rfloor x). destruct (Rfloor_spec x) as [A B]. assert (Rfloor x < 1). { apply lt_IZR. lra. } lia.
Qed.

Lemma Rtrunc_ge1 (x : R) : (1 <= x)%R -> Rtrunc x = Rfloor x /\ 1 <= Rfloor x.
Proof.
  intros H. split; [apply Rtrunc_nonneg; lra|]. destruct (Rfloor_spec x) as [A B].
  assert (0 < Rfloor x). { apply lt_IZR. lra. } lia.
Qed.

Section Bounds.
Context (m b0 b1 : Z) (r : R).
Hypothesis Hr : (r < 1)%R.
Let lo := Z.max 3 b0.
Let hi := Z.max 3 (Z.max b0 b1).
Let n := hi - lo + 1.

Lemma bounds_lengths_real :
  exists step ls, bounds_lengths RN m b0 b1 (VFloat r) = Ok ls /\ 1 <= step /\
    ls = map (fun i => lo + i * step) (zrange 0 ((n + step - 1) / step)) /\
    (n <= 3 \/ (IZR n * r < 1)%R -> step = 1) /\
    (3 < n -> (1 <= IZR n * r)%R -> 1 <= Rfloor (IZR n * r) <= n /\ step = n / Rfloor (IZR n * r)).
Proof.
  unfold bounds_lengths. fold lo.
  assert (Eh : Z.max 4 (Z.max (b0 + 1) (b1 + 1)) = hi + 1) by (unfold hi; lia). rewrite Eh.
  assert (Hl : lo <= hi) by (unfold lo, hi; lia).
  assert (Hn : zlen (zrange lo (hi + 1)) = n) by (rewrite zlen_zrange; unfold n; lia). rewrite Hn.
  assert (A1 : zrange lo (hi + 1) = map (fun i => lo + i * 1) (zrange 0 ((n + 1 - 1) / 1))).
  { rewrite Z.div_1_r. replace (n + 1 - 1) with (hi + 1 - lo) by (unfold n; lia).
    pose proof (zrange_shift 0 (hi + 1 - lo) lo) as H. replace (0 + lo) with lo in H by lia.
    replace (hi + 1 - lo + lo) with (hi + 1) in H by lia. rewrite H. apply map_ext. intros i. lia. }
  destruct (Z.ltb_spec 3 n) as [L|L].
  - cbn [as_F bind]. change (ntrunc RN (nmul RN (nofZ RN n) r)) with (Rtrunc (IZR n * r)).
    destruct (Rlt_dec (IZR n * r) 1) as [G|G].
    + pose proof (Rtrunc_lt1 _ G). destruct (Z.ltb_spec 0 (Rtrunc (IZR n * r))); [lia|].
      exists 1, (zrange lo (hi + 1)). split; [reflexivity|]. split; [lia|]. split; [exact A1|]. split; [auto|].
      intros _ H1. lra.
    + destruct (Rtrunc_ge1 (IZR n * r)) as [E1 E2]; [lra|]. rewrite E1.
      destruct (Z.ltb_spec 0 (Rfloor (IZR n * r))); [|lia].
      assert (Hk : Rfloor (IZR n * r) <= n).
      { rewrite <- (Rfloor_IZR n) at 2. apply Rfloor_le. pose proof (IZR_lt 3 n L). nra. }
      set (step := n / Rfloor (IZR n * r)).
      destruct (every_count n (Rfloor (IZR n * r)) step) as [S1 S2]; [lia|lia|reflexivity|].
      exists step. eexists. split; [reflexivity|]. split; [exact S1|]. split.
      * rewrite every_zrange by lia. replace (hi + 1 - lo) with n by (unfold n; lia). reflexivity.
      * split; [|auto]. intros [C|C]; [lia|lra].
  - exists 1, (zrange lo (hi + 1)). split; [reflexivity|]. split; [lia|]. split; [exact A1|]. split; [auto|]. lia.
Qed.
End Bounds.

Section P.
Context {F : Type} (N : NumOps F).

(** ** _check_params *)

Lemma check_lengths_spec dt (cells : list (pyv F)) ls n :
  mapM (as_int N) cells = Ok ls -> ls <> [] ->
  (forall out, check_lengths N (VArr [zlen cells] dt cells) n = Ok out <->
     (forall l, In l ls -> 1 < l) /\ ((forall l, In l ls -> l <= n) \/ 3 <= n) /\
     out = map (fun l => if l <=? n then l else n / 2) ls) /\
  (forall e, check_lengths N (VArr [zlen cells] dt cells) n = Err e -> e = ValueError).
Proof.
  intros Hm Hne.
  assert (Hl : zlen cells <> 0).
  { apply mapM_length in Hm. unfold zlen. destruct ls; [congruence|]. cbn in Hm. lia. }
  unfold check_lengths, check_array_1D, check_is_numpy. cbn [bind shape]. rewrite prod_1.
  change (zlen [zlen cells] =? 1) with true. cbn [guard bind].
  destruct (Z.eqb_spec (zlen cells) 0); [contradiction|]. cbn [negb guard bind]. rewrite Hm. cbn [bind].
  assert (Em : forall (l : list Z), map (fun l => if n <? l then n / 2 else l) l = map (fun l => if l <=? n then l else n / 2) l).
  { intros l. apply map_ext. intros a. destruct (Z.ltb_spec n a), (Z.leb_spec a n); lia. }
  assert (Ei : (forall l, In l ls -> l <= n) -> map (fun l => if l <=? n then l else n / 2) ls = ls).
  { intros H. rewrite <- (map_id ls) at 2. apply map_ext_in. intros a Ha. apply H in Ha. destruct (Z.leb_spec a n); lia. }
  destruct (forallb (fun l => 1 <? l) ls) eqn:E1; cbn [guard bind].
  - rewrite forallb_forall in E1.
    assert (E1' : forall l, In l ls -> 1 < l) by (intros l H; specialize (E1 l H); apply Z.ltb_lt in E1; exact E1).
    destruct (forallb (fun l => l <=? n) ls) eqn:E2.
    + rewrite forallb_forall in E2.
      assert (E2' : forall l, In l ls -> l <= n) by (intros l H; specialize (E2 l H); apply Z.leb_le in E2; exact E2).
      split; [|discriminate]. intros out. rewrite (Ei E2'). split.
      * intros H. injection H as <-. auto.
      * intros (_ & _ & ->). reflexivity.
    + assert (E2' : ~ (forall l, In l ls -> l <= n)).
      { intros H. assert (forallb (fun l => l <=? n) ls = true); [|congruence].
        apply forallb_forall. intros l Hl'. apply Z.leb_le. auto. }
      destruct (Z.ltb_spec n 3).
      * split; [|congruence]. intros out. split; [discriminate|]. intros (_ & [H0|H0] & _); [contradiction|lia].
      * split; [|discriminate]. intros out. rewrite Em. split.
        -- intros H0. injection H0 as <-. split; [exact E1'|]. split; [right; lia|reflexivity].
        -- intros (_ & _ & ->). reflexivity.
  - split; [|congruence]. intros out. split; [discriminate|]. intros (H & _).
    assert (forallb (fun l => 1 <? l) ls = true); [|congruence]. apply forallb_forall. intros l Hl'. apply Z.ltb_lt. auto.
Qed.

(** ** Padding *)

Lemma skipn_twice {A} (l : list A) a b : skipn a (skipn b l) = skipn (b + a) l.
Proof.
  revert l. induction b as [|b IH]; intros l; [reflexivity|]. destruct l; cbn [skipn Nat.add]; [destruct a; reflexivity|apply IH].
Qed.

Lemma chunks_length {A} k n (l : list A) : length (chunks k n l) = k.
Proof. revert l. induction k as [|k IH]; intros l; cbn; [reflexivity|]. rewrite IH. reflexivity. Qed.

Lemma nthZ_chunks {A} k n (l : list A) i : 0 <= i < Z.of_nat k ->
  nthZ (chunks k n l) i = Some (firstn n (skipn (Z.to_nat i * n) l)).
Proof.
  revert l i. induction k as [|k IH]; intros l i Hi; [lia|]. cbn [chunks].
  destruct (Z.eq_dec i 0) as [->|].
  - cbn. reflexivity.
  - unfold nthZ in *. destruct (Z.ltb_spec i 0); [lia|].
    specialize (IH (skipn n l) (i - 1) ltac:(lia)). destruct (Z.ltb_spec (i - 1) 0); [lia|].
    replace (Z.to_nat i) with (Datatypes.S (Z.to_nat (i - 1))) by lia. cbn [nth_error]. rewrite IH.
    f_equal. f_equal. rewrite skipn_twice. reflexivity.
Qed.

(** a sequence of samples: a list, an array of objects, or the first axis of an array *)
Definition collection (X : pyv F) (items : list (pyv F)) : Prop :=
  py_len X = Ok (zlen items) /\ forall i x, nthZ items i = Some x -> py_item X i = Ok x.

Lemma collection_list items : collection (VList items) items.
Proof.
  split; [reflexivity|]. intros i x H. cbn [py_item]. apply get_nthZ; [|exact H]. apply nthZ_range in H. lia.
Qed.
Lemma collection_objects items dt : collection (VArr [zlen items] dt items) items.
Proof.
  split; [reflexivity|]. intros i x H. cbn [py_item]. apply get_nthZ; [|exact H]. apply nthZ_range in H. lia.
Qed.

Lemma mapM_collection {B} X items (f : pyv F -> res B) : collection X items ->
  mapM (fun i => let* x := py_item X i in f x) (zrange 0 (zlen items)) = mapM f items.
Proof.
  intros [_ H].
  assert (G : forall t pre, items = pre ++ t ->
    mapM (fun i => let* x := py_item X i in f x) (zrange (zlen pre) (zlen pre + zlen t)) = mapM f t).
  { induction t as [|x t IH]; intros pre E.
    - change (zlen (@nil (pyv F))) with 0. rewrite zrange_empty by lia. reflexivity.
    - rewrite zlen_cons. pose proof (zlen_nonneg t). rewrite zrange_cons by lia. cbn [mapM].
      rewrite (H (zlen pre) x).
      2:{ rewrite E. unfold nthZ, zlen. destruct (Z.ltb_spec (Z.of_nat (length pre)) 0); [lia|].
          rewrite Nat2Z.id. rewrite nth_error_app2 by lia. rewrite Nat.sub_diag. reflexivity. }
      cbn [bind]. specialize (IH (pre ++ [x])). rewrite zlen_app in IH. change (zlen [x]) with 1 in IH.
      replace (zlen pre + (zlen t + 1)) with (zlen pre + 1 + zlen t) by lia.
      rewrite IH; [reflexivity|]. rewrite E, <- app_assoc. reflexivity. }
  apply (G items []). reflexivity.
Qed.

(** [x] is a numpy array with r rows (features), c columns (timestamps) and entries v *)
Definition series (x : pyv F) (r c : Z) (v : Z -> Z -> F) : Prop :=
  0 <= r /\ 0 <= c /\ exists dt cells, x = VArr [r; c] dt cells /\ zlen cells = r * c /\
    forall i j, 0 <= i < r -> 0 <= j < c -> exists cell, nthZ cells (i * c + j) = Some cell /\ as_F N cell = Ok (v i j).

(** row-major position *)
Lemma rm_range r c k : 0 <= c -> 0 <= k < r * c -> 0 <= k / c < r /\ 0 <= k mod c < c /\ k = (k / c) * c + k mod c.
Proof.
  intros Hc Hk. assert (0 < c) by (destruct (Z.eq_dec c 0) as [E|E]; [rewrite E, Z.mul_0_r in Hk|]; lia). pose proof (Z.div_mod k c ltac:(lia)). pose proof (Z.mod_pos_bound k c ltac:(lia)).
  split; [|split; [assumption|rewrite Z.mul_comm; assumption]]. split; [apply Z.div_pos; lia|]. apply Z.div_lt_upper_bound; [lia|]. rewrite Z.mul_comm. lia.
Qed.

Lemma series_cells x r c v : series x r c v -> exists dt cells xs, x = VArr [r; c] dt cells /\
  mapM (as_F N) cells = Ok xs /\ zlen xs = r * c /\ forall i j, 0 <= i < r -> 0 <= j < c -> nthZ xs (i * c + j) = Some (v i j).
Proof.
  intros (Hr & Hc & dt & cells & E & Hl & H). exists dt, cells.
  set (g := fun k : Z => v (k / c) (k mod c)).
  assert (Hm : mapM (as_F N) cells = Ok (map g (zrange 0 (zlen cells)))).
  { apply mapM_Forall2.
    assert (G : forall t pre, cells = pre ++ t -> Forall2 (fun x y => as_F N x = Ok y) t (map g (zrange (zlen pre) (zlen pre + zlen t)))).
    { induction t as [|cell t IH]; intros pre Ec.
      - change (zlen (@nil (pyv F))) with 0. rewrite zrange_empty by lia. constructor.
      - rewrite zlen_cons. pose proof (zlen_nonneg t). rewrite zrange_cons by lia. cbn [map]. constructor.
        + assert (Hn : nthZ cells (zlen pre) = Some cell).
          { rewrite Ec. unfold nthZ, zlen. destruct (Z.ltb_spec (Z.of_nat (length pre)) 0); [lia|].
            rewrite Nat2Z.id, nth_error_app2 by lia. rewrite Nat.sub_diag. reflexivity. }
          pose proof (nthZ_range _ _ _ Hn) as Hk. rewrite Hl in Hk.
          destruct (rm_range r c (zlen pre) Hc Hk) as (A & B & C).
          destruct (H _ _ A B) as (cell' & Hc1 & Hc2). rewrite <- C in Hc1. unfold g. congruence.
        + specialize (IH (pre ++ [cell])). rewrite zlen_app in IH. change (zlen [cell]) with 1 in IH.
          replace (zlen pre + (zlen t + 1)) with (zlen pre + 1 + zlen t) by lia. apply IH. rewrite Ec, <- app_assoc. reflexivity. }
    apply (G cells []). reflexivity. }
  exists (map g (zrange 0 (zlen cells))). split; [exact E|]. split; [exact Hm|].
  assert (Hrc : 0 <= r * c) by (apply Z.mul_nonneg_nonneg; assumption). rewrite zlen_map, zlen_zrange. split; [rewrite Hl; clear - Hrc; lia|].
  intros i j Hi Hj. rewrite nthZ_map, nthZ_zrange by (rewrite Hl; clear - Hi Hj; nia). cbn. f_equal. unfold g.
  assert (Q : i = (i * c + j) / c) by (apply Z.div_unique with (r := j); lia).
  assert (R : j = (i * c + j) mod c) by (apply Z.mod_unique with (q := i); lia).
  replace (0 + (i * c + j)) with (i * c + j) by lia. rewrite <- Q, <- R. reflexivity.
Qed.

Lemma rows2_nth {A} r c (xs : list A) i : 0 <= i < r -> 0 <= c -> zlen xs = r * c ->
  exists row, nthZ (rows2 r c xs) i = Some row /\ zlen row = c /\
    forall j, 0 <= j < c -> nthZ row j = nthZ xs (i * c + j).
Proof.
  intros Hi Hc Hl. unfold rows2. rewrite nthZ_chunks by lia. eexists. split; [reflexivity|].
  assert (Hle : (Z.to_nat i * Z.to_nat c + Z.to_nat c <= length xs)%nat).
  { apply Nat2Z.inj_le. rewrite Nat2Z.inj_add, Nat2Z.inj_mul, !Z2Nat.id by lia. fold (zlen xs). rewrite Hl. clear - Hi Hc. nia. }
  split.
  - unfold zlen. rewrite firstn_length, skipn_length. lia.
  - intros j Hj. rewrite nthZ_firstn by lia. rewrite nthZ_skipn by lia. f_equal. nia.
Qed.

Lemma pad_sample_ok x r c v w : series x r c v -> c <= w ->
  exists rows, pad_sample N w x = Ok rows /\ zlen rows = r /\
    forall ch, 0 <= ch < r -> exists row, nthZ rows ch = Some row /\ zlen row = w /\
      (forall j, 0 <= j < c -> nthZ row j = Some (v ch j)) /\ (forall j, c <= j < w -> nthZ row j = Some (n0 N)).
Proof.
  intros Hs Hw. pose proof Hs as (Hr & Hc & _). destruct (series_cells _ _ _ _ Hs) as (dt & cells & xs & -> & Hm & Hl & Hv).
  unfold pad_sample. rewrite Hm. cbn [bind]. eexists. split; [reflexivity|]. split.
  - rewrite zlen_map. unfold zlen, rows2. rewrite chunks_length. lia.
  - intros ch Hch. destruct (rows2_nth r c xs ch Hch Hc Hl) as (row & E & El & Ev).
    rewrite nthZ_map, E. cbn. eexists. split; [reflexivity|]. rewrite zlen_app, zlen_repeat, El. split; [lia|]. split.
    + intros j Hj. rewrite nthZ_app. destruct (Z.ltb_spec j (zlen row)); [|lia]. rewrite Ev by lia. apply Hv; lia.
    + intros j Hj. rewrite nthZ_app. destruct (Z.ltb_spec j (zlen row)); [lia|]. apply nthZ_repeat. lia.
Qed.

(** ** _format_uneven_timestamps *)

(** [D] holds the series of [items], each channel followed by zeros up to width [w] *)
Definition padded (D : dataset F) (n r w : Z) (c : Z -> Z) (v : Z -> Z -> Z -> F) : Prop :=
  zlen D = n /\ forall i, 0 <= i < n -> exists s, nthZ D i = Some s /\ zlen s = r /\
    forall ch, 0 <= ch < r -> exists row, nthZ s ch = Some row /\ zlen row = w /\
      (forall j, 0 <= j < c i -> nthZ row j = Some (v i ch j)) /\ (forall j, c i <= j < w -> nthZ row j = Some (n0 N)).

Lemma mapM_indexed {A B} (f : A -> res B) (l : list A) (P : Z -> B -> Prop) :
  (forall i x, nthZ l i = Some x -> exists y, f x = Ok y /\ P i y) ->
  exists ys, mapM f l = Ok ys /\ zlen ys = zlen l /\ forall i y, nthZ ys i = Some y -> P i y.
Proof.
  revert P. induction l as [|x t IH]; intros P H.
  - exists []. split; [reflexivity|]. split; [reflexivity|]. intros i y Hy. apply nthZ_range in Hy. cbn in Hy. lia.
  - destruct (H 0 x) as (y & Hy & HP); [reflexivity|].
    destruct (IH (fun i => P (i + 1))) as (ys & Hys & Hl & HPs).
    { intros i x' Hx'. apply H. rewrite nthZ_cons. pose proof (nthZ_range _ _ _ Hx').
      destruct (Z.eqb_spec (i + 1) 0); [lia|]. replace (i + 1 - 1) with i by lia. exact Hx'. }
    exists (y :: ys). cbn [mapM]. rewrite Hy. cbn [bind]. rewrite Hys. split; [reflexivity|].
    rewrite !zlen_cons, Hl. split; [reflexivity|]. intros i z Hz. rewrite nthZ_cons in Hz.
    destruct (Z.eqb_spec i 0) as [->|]; [congruence|]. apply HPs in Hz. replace (i - 1 + 1) with i in Hz by lia. exact Hz.
Qed.

Section Uneven.
Context (X : pyv F) (items : list (pyv F)) (rows cols : Z -> Z) (v : Z -> Z -> Z -> F).
Hypothesis HX : collection X items.
Hypothesis Hne : items <> [].
Hypothesis Hs : forall i x, nthZ items i = Some x -> series x (rows i) (cols i) (v i).

Lemma shapes_ok : mapM (fun x => sample_shape x) items = Ok (map (fun i => (rows i, cols i)) (zrange 0 (zlen items))).
Proof.
  destruct (mapM_indexed (fun x : pyv F => sample_shape x) items (fun i p => p = (rows i, cols i))) as (ys & E & El & Ei).
  { intros i x Hx. destruct (Hs i x Hx) as (_ & _ & dt & cells & -> & _). cbn. eauto. }
  rewrite E. f_equal. apply nthZ_ext; [rewrite zlen_map, zlen_zrange; pose proof (zlen_nonneg items); lia|].
  intros i Hi. rewrite nthZ_map, nthZ_zrange by lia. cbn [option_map]. replace (0 + i) with i by lia.
  destruct (nthZ_some ys i) as (y & Hy); [lia|]. rewrite Hy. f_equal. apply Ei. exact Hy.
Qed.

Lemma format_uneven_ok : (forall i, 0 <= i < zlen items -> rows i = rows 0) ->
  exists D w, format_uneven N X = Ok (D, [zlen items; rows 0; w], map cols (zrange 0 (zlen items))) /\
    (exists i, 0 <= i < zlen items /\ w = cols i) /\ (forall i, 0 <= i < zlen items -> cols i <= w) /\
    padded D (zlen items) (rows 0) w cols v.
Proof.
  intros Heq. assert (Hn : 0 < zlen items) by (destruct items; [congruence|rewrite zlen_cons; pose proof (zlen_nonneg l); lia]).
  unfold format_uneven. rewrite (proj1 HX). cbn [bind]. rewrite (mapM_collection X items (fun x => sample_shape x) HX), shapes_ok. cbn [bind].
  rewrite !map_map. cbn [fst snd].
  assert (G0 : get (map rows (zrange 0 (zlen items))) 0 = Ok (rows 0)).
  { apply get_nthZ; [lia|]. rewrite nthZ_map, nthZ_zrange by lia. reflexivity. }
  change (map (fun x : Z => rows x)) with (map rows). change (map (fun x : Z => cols x)) with (map cols). rewrite G0. cbn [bind].
  assert (Ef : forallb (Z.eqb (rows 0)) (map rows (zrange 0 (zlen items))) = true).
  { apply forallb_forall. intros r Hr. apply in_map_iff in Hr as (i & <- & Hi). apply in_zrange in Hi. apply Z.eqb_eq. symmetry. auto. }
  rewrite Ef. destruct (max_list_ok (map cols (zrange 0 (zlen items)))) as (w & Ew).
  { intros E. apply map_eq_nil in E. rewrite zrange_cons in E by lia. discriminate. }
  rewrite Ew. cbn [bind]. destruct (max_list_spec _ _ Ew) as [M1 M2]. apply in_map_iff in M1 as (i0 & Ei0 & Hi0). apply in_zrange in Hi0.
  assert (Hle : forall i, 0 <= i < zlen items -> cols i <= w).
  { intros i Hi. apply M2. apply in_map. apply in_zrange. lia. }
  rewrite (mapM_collection X items (fun x => pad_sample N w x) HX).
  destruct (mapM_indexed (pad_sample N w) items (fun i s => zlen s = rows 0 /\ forall ch, 0 <= ch < rows 0 ->
      exists row, nthZ s ch = Some row /\ zlen row = w /\ (forall j, 0 <= j < cols i -> nthZ row j = Some (v i ch j)) /\
        (forall j, cols i <= j < w -> nthZ row j = Some (n0 N)))) as (D & ED & El & HD).
  { intros i x Hx. pose proof (nthZ_range _ _ _ Hx) as Hi. rewrite <- (Heq i Hi). apply pad_sample_ok; auto. }
  change (fun x => pad_sample N w x) with (pad_sample N w). rewrite ED. cbn [bind]. exists D, w. split; [reflexivity|].
  split; [exists i0; split; [lia|congruence]|]. split; [exact Hle|]. split; [exact El|].
  intros i Hi. destruct (nthZ_some D i) as (s & Es); [lia|]. exists s. split; [exact Es|]. apply HD. exact Es.
Qed.

Lemma format_uneven_err i : 0 <= i < zlen items -> rows i <> rows 0 -> format_uneven N X = Err ValueError.
Proof.
  intros Hi Hr. unfold format_uneven. rewrite (proj1 HX). cbn [bind]. rewrite (mapM_collection X items (fun x => sample_shape x) HX), shapes_ok. cbn [bind].
  rewrite !map_map. cbn [fst snd].
  assert (G0 : get (map rows (zrange 0 (zlen items))) 0 = Ok (rows 0)).
  { apply get_nthZ; [lia|]. rewrite nthZ_map, nthZ_zrange by lia. reflexivity. }
  change (map (fun x : Z => rows x)) with (map rows). rewrite G0. cbn [bind].
  destruct (forallb (Z.eqb (rows 0)) (map rows (zrange 0 (zlen items)))) eqn:Ef; [|reflexivity].
  exfalso. rewrite forallb_forall in Ef. specialize (Ef (rows i)). rewrite Z.eqb_eq in Ef. apply Hr. symmetry. apply Ef.
  apply in_map. apply in_zrange. lia.
Qed.
End Uneven.

End P.
