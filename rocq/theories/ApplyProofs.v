(** Proofs about transform: grouping has no effect, every column is written. *)
From Coq Require Import ZArith List Bool Lia Permutation.
From Verif Require Import Prelude Num Kernel Spec KernelProofs CombProofs Parallel Apply.
Import ListNotations.
Open Scope Z_scope.

(** ** Grouping *)

(** indices of the shapelets with parameters [p] *)
Definition ix_of (lengths dilations : list Z) (p : Z * Z) : list Z :=
  where_ (map (fun q : Z * Z => (fst q =? fst p) && (snd q =? snd p)) (combine lengths dilations)).

Lemma zlen_combine {A B} (x : list A) (y : list B) : zlen x = zlen y -> zlen (combine x y) = zlen x.
Proof. unfold zlen. rewrite combine_length. lia. Qed.

Lemma nthZ_combine {A B} (x : list A) (y : list B) i :
  nthZ (combine x y) i = match nthZ x i, nthZ y i with Some a, Some b => Some (a, b) | _, _ => None end.
Proof.
  unfold nthZ. destruct (i <? 0); [reflexivity|]. generalize (Z.to_nat i) as n. clear i.
  revert y. induction x as [|a x IH]; intros [|b y] [|n]; simpl; auto.
  destruct (nth_error x n); reflexivity.
Qed.

Lemma in_ix_of ls ds p k : zlen ls = zlen ds ->
  In k (ix_of ls ds p) <-> nthZ ls k = Some (fst p) /\ nthZ ds k = Some (snd p).
Proof.
  intros HL. unfold ix_of. rewrite in_where, nthZ_map, nthZ_combine.
  destruct (nthZ ls k) as [l|], (nthZ ds k) as [d|]; simpl;
    try (split; [discriminate|intros [? ?]; discriminate]).
  split.
  - intros H. injection H as H. apply andb_true_iff in H as [H1 H2]. apply Z.eqb_eq in H1, H2. subst. auto.
  - intros [H1 H2]. injection H1 as ->. injection H2 as ->. rewrite !Z.eqb_refl. reflexivity.
Qed.

Lemma ix_of_NoDup ls ds p : NoDup (ix_of ls ds p).
Proof. apply where_NoDup. Qed.

Lemma NoDup_app_intro {A} (l1 l2 : list A) :
  NoDup l1 -> NoDup l2 -> (forall x, In x l1 -> ~ In x l2) -> NoDup (l1 ++ l2).
Proof.
  induction 1 as [|x l H1 H IH]; simpl; intros H2 Hd; [exact H2|].
  constructor.
  - rewrite in_app_iff. intros [C|C]; [contradiction|]. apply (Hd x); auto.
  - apply IH; auto.
Qed.

Lemma groups_NoDup ls ds ps : zlen ls = zlen ds -> NoDup ps -> NoDup (concat (map (ix_of ls ds) ps)).
Proof.
  intros HL. induction 1 as [|p ps Hp H IH]; simpl; [constructor|].
  apply NoDup_app_intro; [apply ix_of_NoDup|exact IH|].
  intros k Hk Hin. apply in_concat in Hin as (g & Hg & Hkg). apply in_map_iff in Hg as (q & <- & Hq).
  apply in_ix_of in Hk; [|exact HL]. apply in_ix_of in Hkg; [|exact HL].
  apply Hp. destruct p, q. simpl in *. replace (z, z0) with (z1, z2); [exact Hq|].
  destruct Hk, Hkg. congruence.
Qed.

Lemma groups_bound ls ds ps : zlen ls = zlen ds -> NoDup ps ->
  zlen (concat (map (ix_of ls ds) ps)) <= zlen ls.
Proof.
  intros HL HN. pose proof (groups_NoDup ls ds ps HL HN) as H.
  assert (Hi : incl (concat (map (ix_of ls ds) ps)) (zrange 0 (zlen ls))).
  { intros k Hk. apply in_concat in Hk as (g & Hg & Hkg). apply in_map_iff in Hg as (q & <- & Hq).
    apply in_ix_of in Hkg as [Hk _]; [|exact HL]. apply nthZ_range in Hk. apply in_zrange. lia. }
  pose proof (NoDup_incl_length H Hi) as HH. rewrite zrange_length in HH.
  unfold zlen in *. lia.
Qed.

Lemma NoDup_prefix {A} (l1 l2 : list A) : NoDup (l1 ++ l2) -> NoDup l1.
Proof.
  induction l1 as [|x l IH]; simpl; intros H; [constructor|]. inversion H; subst. constructor.
  - intros C. apply H2. apply in_or_app. auto.
  - apply IH. assumption.
Qed.

Lemma upd_app_mid {A} (l1 l2 : list A) x y : upd (l1 ++ x :: l2) (length l1) y = l1 ++ y :: l2.
Proof. induction l1; simpl; [reflexivity|]. rewrite IHl1. reflexivity. Qed.

Lemma repeat_split {A} (x : A) n m : (m <= n)%nat -> repeat x n = repeat x m ++ repeat x (n - m).
Proof. intros H. rewrite <- repeat_app. f_equal. lia. Qed.

Lemma group_shapelets_ok ls ds : zlen ls = zlen ds ->
  exists rest, group_shapelets ls ds =
    Ok (dedup (combine ls ds),
        concat (map (ix_of ls ds) (dedup (combine ls ds))) ++ rest,
        cumsum (0 :: map (fun p => zlen (ix_of ls ds p)) (dedup (combine ls ds)))).
Proof.
  intros HL. unfold group_shapelets. rewrite combinations_1d_ok by exact HL. cbn [bind].
  set (ps := dedup (combine ls ds)). pose proof (dedup_NoDup (combine ls ds)) as HN. fold ps in HN.
  set (gr := fun qs => concat (map (ix_of ls ds) qs)).
  set (f := fun (st : Z * list Z * list Z) i => _).
  assert (HG : forall pre post, ps = pre ++ post ->
     exists r, foldM f (zrange 0 (zlen pre)) (0, repeat 0 (Z.to_nat (zlen ls)), repeat 0 (Z.to_nat (zlen ps + 1)))
       = Ok (zlen (gr pre), gr pre ++ r, (0 :: map (fun p => zlen (ix_of ls ds p)) pre) ++ repeat 0 (length post))
       /\ zlen (gr pre) + zlen r = zlen ls).
  { induction pre as [|p pre IH] using rev_ind; intros post E.
    - exists (repeat 0 (Z.to_nat (zlen ls))). split.
      + cbn. do 2 f_equal. rewrite E. unfold zlen. cbn [app].
        replace (Z.to_nat (Z.of_nat (length post) + 1)) with (S (length post)) by lia. reflexivity.
      + unfold gr. cbn [map concat]. change (zlen (@nil Z)) with 0. rewrite zlen_repeat. pose proof (zlen_nonneg ls). lia.
    - destruct (IH (p :: post)) as (r & Hr & Hrl). { rewrite E, <- app_assoc. reflexivity. }
      assert (HB : zlen (gr (pre ++ [p])) <= zlen ls).
      { apply groups_bound; [exact HL|]. rewrite E in HN. eapply NoDup_prefix. exact HN. }
      assert (Egr : gr (pre ++ [p]) = gr pre ++ ix_of ls ds p).
      { unfold gr. rewrite map_app, concat_app. simpl. rewrite app_nil_r. reflexivity. }
      rewrite Egr, zlen_app in HB.
      exists (skipn (length (ix_of ls ds p)) r). split.
      + rewrite zlen_app. change (zlen [p]) with 1. rewrite zrange_snoc by apply zlen_nonneg.
        rewrite foldM_app. rewrite Hr. cbn [bind foldM].
        assert (Hget : get ps (zlen pre) = Ok p).
        { apply get_nthZ; [apply zlen_nonneg|]. rewrite E, nthZ_app, zlen_app. change (zlen [p]) with 1.
          destruct (Z.ltb_spec (zlen pre) (zlen pre + 1)); [|lia].
          rewrite nthZ_app. destruct (Z.ltb_spec (zlen pre) (zlen pre)); [lia|].
          rewrite Z.sub_diag. reflexivity. }
        unfold f at 1. cbn [fst snd]. rewrite Hget. cbn [bind].
        change (where_ (map (fun q : Z * Z => (fst q =? fst p) && (snd q =? snd p)) (combine ls ds)))
          with (ix_of ls ds p).
        pose proof (zlen_nonneg (gr pre)). pose proof (zlen_nonneg (ix_of ls ds p)).
        rewrite set_slice_ok by (rewrite ?zlen_app; lia). cbn [bind].
        rewrite set_ok.
        2:{ rewrite !zlen_app, zlen_cons, zlen_map, zlen_repeat. pose proof (zlen_nonneg pre). simpl length. lia. }
        cbn [bind]. f_equal. f_equal; [f_equal|].
        * rewrite Egr, zlen_app. lia.
        * rewrite Egr, <- app_assoc. unfold zlen at 1. rewrite Nat2Z.id, firstn_app, firstn_all, Nat.sub_diag.
          simpl. rewrite app_nil_r. f_equal. f_equal.
          unfold zlen. rewrite <- Nat2Z.inj_add, Nat2Z.id, skipn_app.
          rewrite skipn_all2 by lia. simpl. f_equal. lia.
        * assert (E2 : Z.to_nat (zlen pre + 1) = length (0 :: map (fun p0 : Z * Z => zlen (ix_of ls ds p0)) pre)).
          { simpl. rewrite map_length. unfold zlen. lia. }
          rewrite E2. change (repeat 0 (length (p :: post))) with (0 :: repeat 0 (length post)).
          rewrite upd_app_mid. rewrite map_app. simpl. rewrite <- app_assoc. reflexivity.
      + rewrite Egr, zlen_app. unfold zlen in *. rewrite skipn_length. lia. }
  destruct (HG ps []) as (r & Hr & _). { rewrite app_nil_r. reflexivity. }
  exists r. rewrite Hr. cbn [bind]. simpl repeat. rewrite app_nil_r. reflexivity.
Qed.

Lemma zsum_zlen_concat (gs : list (list Z)) : zsum (map (@zlen Z) gs) = zlen (concat gs).
Proof.
  induction gs as [|g gs IH]; [reflexivity|]. simpl. rewrite zsum_cons, IH, zlen_app. reflexivity.
Qed.

Lemma zlen_cumsum (a : list Z) : zlen (cumsum a) = zlen a.
Proof. unfold zlen, cumsum. rewrite cumsum_from_length. reflexivity. Qed.

Lemma get_cumsum (a : list Z) i : 0 <= i < zlen a ->
  get (cumsum a) i = Ok (zsum (firstn (Z.to_nat (i + 1)) a)).
Proof.
  intros H. apply get_nthZ; [lia|]. unfold nthZ. destruct (Z.ltb_spec i 0); [lia|].
  unfold cumsum. rewrite nth_cumsum_from by (unfold zlen in H; lia).
  f_equal. replace (S (Z.to_nat i)) with (Z.to_nat (i + 1)) by lia. reflexivity.
Qed.

(** the slice of idx_shp belonging to parameter pair number [j] *)
Lemma group_slice ls ds ps rest j p : zlen ls = zlen ds ->
  nthZ ps j = Some p ->
  let idx := concat (map (ix_of ls ds) ps) ++ rest in
  let cum := cumsum (0 :: map (fun p => zlen (ix_of ls ds p)) ps) in
  exists a b, get cum j = Ok a /\ get cum (j + 1) = Ok b /\ slice idx a b = ix_of ls ds p.
Proof.
  intros HL Hj idx cum. pose proof (nthZ_range _ _ _ Hj) as Hr.
  assert (Esplit : exists pre post, ps = pre ++ p :: post /\ zlen pre = j).
  { unfold nthZ in Hj. destruct (Z.ltb_spec j 0); [lia|]. apply nth_error_split in Hj as (pre & post & -> & Hl).
    exists pre, post. split; [reflexivity|]. unfold zlen. lia. }
  destruct Esplit as (pre & post & Eps & Hpre).
  assert (Hsum : forall qs more, zsum (firstn (Z.to_nat (zlen qs + 1)) (0 :: map (fun p => zlen (ix_of ls ds p)) (qs ++ more)))
     = zlen (concat (map (ix_of ls ds) qs))).
  { intros qs more. replace (Z.to_nat (zlen qs + 1)) with (S (length qs)) by (unfold zlen; lia).
    simpl. rewrite zsum_cons, map_app, firstn_app, map_length, Nat.sub_diag.
    rewrite <- (map_length (fun p => zlen (ix_of ls ds p)) qs), firstn_all. simpl. rewrite app_nil_r.
    rewrite <- zsum_zlen_concat, map_map. lia. }
  exists (zlen (concat (map (ix_of ls ds) pre))), (zlen (concat (map (ix_of ls ds) (pre ++ [p])))).
  split; [|split].
  - unfold cum. rewrite get_cumsum. 2:{ rewrite zlen_cons, zlen_map. lia. }
    f_equal. subst j. rewrite Eps. apply Hsum.
  - unfold cum. rewrite get_cumsum. 2:{ rewrite zlen_cons, zlen_map. lia. }
    f_equal. rewrite Eps. replace (pre ++ p :: post) with ((pre ++ [p]) ++ post) by (rewrite <- app_assoc; reflexivity).
    rewrite <- Hsum with (more := post). do 2 f_equal. rewrite zlen_app. change (zlen [p]) with 1. lia.
  - unfold idx. rewrite Eps, !map_app, !concat_app. simpl. rewrite app_nil_r.
    rewrite zlen_app, <- !app_assoc. apply slice_app_mid.
Qed.

(** ** Tasks *)

Section A.
Context {F : Type} (N : NumOps F).

(** the cell (r, 3k+q) holds component q of the features of sample r, shapelet k *)
Definition tri (f : F * F * F) (q : Z) : F :=
  let '(m, a, c) := f in if q =? 0 then m else if q =? 1 then a else c.
Definition cell (tr : Z -> Z -> F * F * F) (r c : Z) : F := tri (tr r (c / 3)) (c mod 3).

Lemma in_feature_writes i k f r c v : In (r, c, v) (feature_writes i k f) <->
  r = i /\ exists q, 0 <= q < 3 /\ c = 3 * k + q /\ v = tri f q.
Proof.
  destruct f as [[m a] b]. unfold feature_writes, tri. simpl. split.
  - intros [H|[H|[H|[]]]]; injection H as <- <- <-; split; auto; [exists 0|exists 1|exists 2];
      (split; [lia|]); split; try lia; reflexivity.
  - intros (-> & q & Hq & -> & ->).
    assert (Hq3 : q = 0 \/ q = 1 \/ q = 2) by lia. destruct Hq3 as [Hq3 | [Hq3 | Hq3]]; subst q; simpl; auto.
    left. f_equal. f_equal. lia.
Qed.

Lemma cell_tri tr r k q : 0 <= q < 3 -> cell tr r (3 * k + q) = tri (tr r k) q.
Proof.
  intros H. unfold cell. replace ((3 * k + q) / 3) with k by lia.
  replace ((3 * k + q) mod 3) with q by lia. reflexivity.
Qed.

Lemma mapM_get_where {A} (l : list A) (fl : list bool) : length fl = length l ->
  mapM (get l) (where_ fl) = Ok (mask_select fl l).
Proof.
  intros H. destruct l as [|d l0] eqn:E.
  - destruct fl; [reflexivity|discriminate].
  - rewrite <- E in *. rewrite (mask_select_nthd d) by exact H. apply mapM_ok. intros i Hi.
    apply in_where in Hi. apply nthZ_range in Hi. apply get_nthd. unfold zlen in *. lia.
Qed.

Lemma mask_select_filter {A} (p : A -> bool) l : mask_select (map p l) l = filter p l.
Proof.
  unfold mask_select. induction l as [|x l IH]; simpl; [reflexivity|]. destruct (p x); simpl; rewrite IH; reflexivity.
Qed.

Section Tasks.
Context {ST : Type} (strides_of : Z -> Z -> Z -> res ST) (norm_strides : ST -> ST)
  (one : ST -> Z -> Z -> res (F * F * F)) (ls ds : list Z) (nm : list bool) (n_samples : Z).
Context (tr : Z -> Z -> F * F * F).
Hypothesis HL : zlen ls = zlen ds.
Hypothesis HN : zlen nm = zlen ls.
Hypothesis Hns : 0 <= n_samples.

Lemma apply_task_local rest i j l d st :
  let ps := dedup (combine ls ds) in
  nthZ ps j = Some (l, d) ->
  strides_of i l d = Ok st ->
  (forall k b, nthZ ls k = Some l -> nthZ ds k = Some d -> nthZ nm k = Some b ->
     one (if b then norm_strides st else st) k l = Ok (tr i k)) ->
  exists ws,
  apply_task strides_of norm_strides one nm ps
    (concat (map (ix_of ls ds) ps) ++ rest) (cumsum (0 :: map (fun p => zlen (ix_of ls ds p)) ps)) i j
  = Ok ws /\ Permutation ws (flat_map (fun k => feature_writes i k (tr i k)) (ix_of ls ds (l, d))).
Proof.
  intros ps Hp Hst Hloc.
  destruct (group_slice ls ds ps rest j (l, d) HL Hp) as (a & b & Ga & Gb & Gs).
  pose proof (nthZ_range _ _ _ Hp) as Hj.
  set (ix := ix_of ls ds (l, d)) in *.
  assert (Hex : forall k, In k ix -> exists bk, nthZ nm k = Some bk).
  { intros k Hk. apply in_ix_of in Hk as [Hk _]; [|exact HL]. apply nthZ_range in Hk.
    apply nthZ_some. lia. }
  assert (Hone' : forall k, In k ix -> one (if nthd false nm k then norm_strides st else st) k l = Ok (tr i k)).
  { intros k Hk. destruct (Hex k Hk) as (bk & Hbk). apply in_ix_of in Hk as [H1 H2]; [|exact HL].
    unfold nthd. rewrite Hbk. apply Hloc; assumption. }
  assert (Hflags : mapM (get nm) ix = Ok (map (nthd false nm) ix)).
  { apply mapM_ok. intros k Hk. apply get_nthd. destruct (Hex k Hk) as (bk & Hbk). apply nthZ_range in Hbk. exact Hbk. }
  set (fl := map (nthd false nm) ix) in *.
  unfold apply_task.
  rewrite (proj2 (get_nthZ ps j (l, d) ltac:(lia))) by exact Hp. cbn [bind].
  rewrite Hst. cbn [bind]. rewrite Ga, Gb. cbn [bind]. rewrite Gs, Hflags. cbn [bind].
  rewrite mapM_get_where by (unfold fl; rewrite !map_length; reflexivity).
  rewrite mapM_get_where by (unfold fl; rewrite !map_length; reflexivity).
  assert (E1 : mask_select (map negb fl) ix = filter (fun k => negb (nthd false nm k)) ix).
  { unfold fl. rewrite map_map. apply mask_select_filter. }
  assert (E2 : mask_select fl ix = filter (nthd false nm) ix) by apply mask_select_filter.
  rewrite E1, E2. cbn [bind].
  rewrite (mapM_ok _ (fun k => feature_writes i k (tr i k))).
  2:{ intros k Hk. apply filter_In in Hk as [Hk Hb]. apply negb_true_iff in Hb.
      specialize (Hone' k Hk). rewrite Hb in Hone'. rewrite Hone'. reflexivity. }
  cbn [bind].
  assert (Ew2 : (if 0 <? zlen (filter (nthd false nm) ix)
      then mapM (fun i_shp => let* f := one (norm_strides st) i_shp l in Ok (feature_writes i i_shp f))
             (filter (nthd false nm) ix)
      else Ok []) = Ok (map (fun k => feature_writes i k (tr i k)) (filter (nthd false nm) ix))).
  { destruct (Z.ltb_spec 0 (zlen (filter (nthd false nm) ix))).
    - apply mapM_ok. intros k Hk. apply filter_In in Hk as [Hk Hb].
      specialize (Hone' k Hk). rewrite Hb in Hone'. rewrite Hone'. reflexivity.
    - destruct (filter (nthd false nm) ix); [reflexivity|]. rewrite zlen_cons in H. pose proof (zlen_nonneg l0). lia. }
  cbn zeta. rewrite Ew2. cbn [bind]. eexists. split; [reflexivity|].
  rewrite <- !flat_map_concat_map, <- flat_map_app.
  apply Permutation_flat_map.
  clear. induction ix as [|k ix IH]; simpl; [constructor|]. destruct (nthd false nm k); simpl.
  - etransitivity; [symmetry; apply Permutation_middle|]. constructor. exact IH.
  - constructor. exact IH.
Qed.

Lemma apply_task_err rest cum i j l d e :
  let ps := dedup (combine ls ds) in
  nthZ ps j = Some (l, d) -> strides_of i l d = Err e ->
  apply_task strides_of norm_strides one nm ps rest cum i j = Err e.
Proof.
  intros ps Hp Hst. pose proof (nthZ_range _ _ _ Hp). unfold apply_task.
  rewrite (proj2 (get_nthZ ps j (l, d) ltac:(lia))) by exact Hp. cbn [bind]. rewrite Hst. reflexivity.
Qed.

Lemma in_params l d : In (l, d) (dedup (combine ls ds)) <-> exists k, nthZ ls k = Some l /\ nthZ ds k = Some d.
Proof.
  rewrite in_dedup. split.
  - intros H. apply In_nthZ in H as (k & Hk). exists k. rewrite nthZ_combine in Hk.
    destruct (nthZ ls k), (nthZ ds k); try discriminate. injection Hk as <- <-. auto.
  - intros (k & H1 & H2). apply (nthZ_In _ k). rewrite nthZ_combine, H1, H2. reflexivity.
Qed.

Lemma mapM_some_err {A B} (f : A -> res B) e l :
  (forall x, In x l -> (exists y, f x = Ok y) \/ f x = Err e) ->
  (exists x, In x l /\ f x = Err e) -> mapM f l = Err e.
Proof.
  induction l as [|x l IH]; intros H (x0 & Hin & He); [destruct Hin|]. simpl.
  destruct (H x (or_introl eq_refl)) as [(y & Hy)|Hx].
  - rewrite Hy. simpl. rewrite IH; [reflexivity| |].
    + intros; apply H; simpl; auto.
    + destruct Hin as [->|Hin]; [congruence|]. eauto.
  - rewrite Hx. reflexivity.
Qed.

(** If the windows of some sample cannot be built for some shapelet, the whole call fails
    with that exception. *)
Lemma apply_tasks_err e :
  (forall i k l d, 0 <= i < n_samples -> nthZ ls k = Some l -> nthZ ds k = Some d ->
     strides_of i l d = Err e \/
     exists st, strides_of i l d = Ok st /\
       forall k' b, nthZ ls k' = Some l -> nthZ ds k' = Some d -> nthZ nm k' = Some b ->
         one (if b then norm_strides st else st) k' l = Ok (tr i k')) ->
  (exists i k l d, 0 <= i < n_samples /\ nthZ ls k = Some l /\ nthZ ds k = Some d /\ strides_of i l d = Err e) ->
  apply_tasks strides_of norm_strides one ls ds nm n_samples = Err e.
Proof.
  intros H (i & k & l & d & Hi & Hl & Hd & He). unfold apply_tasks.
  destruct (group_shapelets_ok ls ds HL) as (rest & Hg). rewrite Hg. cbn [bind].
  set (ps := dedup (combine ls ds)) in *.
  set (cum := cumsum (0 :: map (fun p => zlen (ix_of ls ds p)) ps)) in *.
  assert (Hc : zlen cum - 1 = zlen ps).
  { unfold cum. rewrite zlen_cumsum, zlen_cons, zlen_map. lia. }
  rewrite Hc. apply mapM_some_err.
  - intros [i' j'] Hin. apply in_flat_map in Hin as (i2 & Hi2 & Hin). apply in_map_iff in Hin as (j2 & E & Hj2).
    injection E as -> ->. apply in_zrange in Hi2, Hj2. cbn [fst snd].
    destruct (nthZ_some ps j' Hj2) as ((l', d') & Hp).
    pose proof (nthZ_In _ _ _ Hp) as Hin. apply in_params in Hin as (k' & Hl' & Hd').
    destruct (H i' k' l' d' Hi2 Hl' Hd') as [He'|(st & Hst & Hloc)].
    + right. eapply apply_task_err; eauto.
    + left. destruct (apply_task_local rest i' j' l' d' st Hp Hst Hloc) as (ws & Hws & _). eauto.
  - assert (Hin : In (l, d) ps) by (apply in_params; eauto). apply In_nthZ in Hin as (j & Hj).
    exists (i, j). split.
    + apply in_flat_map. exists i. split; [apply in_zrange; exact Hi|]. apply in_map. apply in_zrange.
      apply nthZ_range in Hj. exact Hj.
    + cbn [fst snd]. eapply apply_task_err; eauto.
Qed.

(** every (sample, shapelet) computation succeeds in isolation, with result [tr] *)
Hypothesis Hone : forall i k l d b, 0 <= i < n_samples ->
  nthZ ls k = Some l -> nthZ ds k = Some d -> nthZ nm k = Some b ->
  exists st, strides_of i l d = Ok st /\
             one (if b then norm_strides st else st) k l = Ok (tr i k).

Lemma apply_task_ok rest i j p :
  0 <= i < n_samples ->
  let ps := dedup (combine ls ds) in
  nthZ ps j = Some p ->
  exists ws,
  apply_task strides_of norm_strides one nm ps
    (concat (map (ix_of ls ds) ps) ++ rest) (cumsum (0 :: map (fun p => zlen (ix_of ls ds p)) ps)) i j
  = Ok ws /\ Permutation ws (flat_map (fun k => feature_writes i k (tr i k)) (ix_of ls ds p)).
Proof.
  intros Hi ps Hp. destruct p as [l d].
  pose proof (nthZ_In _ _ _ Hp) as Hin. apply in_params in Hin as (k & Hl & Hd).
  assert (Hb : exists b, nthZ nm k = Some b).
  { apply nthZ_some. apply nthZ_range in Hl. lia. }
  destruct Hb as (b & Hb). destruct (Hone i k l d b Hi Hl Hd Hb) as (st & Hst & _).
  apply (apply_task_local rest i j l d st Hp Hst).
  intros k' b' H1 H2 H3. destruct (Hone i k' l d b' Hi H1 H2 H3) as (st' & Hst' & H).
  rewrite Hst in Hst'. injection Hst' as <-. exact H.
Qed.

Lemma mapM_exists {A B} (f : A -> res B) (P : A -> B -> Prop) l :
  (forall x, In x l -> exists y, f x = Ok y /\ P x y) -> exists ys, mapM f l = Ok ys /\ Forall2 P l ys.
Proof.
  induction l as [|x l IH]; intros H; simpl.
  - exists []. split; constructor.
  - destruct (H x (or_introl eq_refl)) as (y & Hy & Py). rewrite Hy. simpl.
    destruct IH as (ys & Hys & Pys). { intros; apply H; simpl; auto. }
    rewrite Hys. simpl. exists (y :: ys). split; [reflexivity|]. constructor; assumption.
Qed.

Lemma Forall2_perm_concat {A B} (f : A -> list B) l ys :
  Forall2 (fun x y => Permutation y (f x)) l ys -> Permutation (concat ys) (flat_map f l).
Proof. induction 1; simpl; [constructor|]. apply Permutation_app; assumption. Qed.

Definition all_writes : list (write F) :=
  flat_map (fun i => flat_map (fun k => feature_writes i k (tr i k)) (zrange 0 (zlen ls))) (zrange 0 n_samples).

Lemma groups_perm : Permutation (flat_map (ix_of ls ds) (dedup (combine ls ds))) (zrange 0 (zlen ls)).
Proof.
  apply NoDup_Permutation.
  - rewrite flat_map_concat_map. apply groups_NoDup; [exact HL|apply dedup_NoDup].
  - apply zrange_NoDup.
  - intros k. rewrite in_flat_map, in_zrange. split.
    + intros (p & _ & Hk). apply in_ix_of in Hk as [Hk _]; [|exact HL]. apply nthZ_range in Hk. exact Hk.
    + intros Hk. destruct (nthZ_some ls k Hk) as (l & Hl). destruct (nthZ_some ds k) as (d & Hd); [lia|].
      exists (l, d). split.
      * apply in_dedup. apply (nthZ_In _ k). rewrite nthZ_combine, Hl, Hd. reflexivity.
      * apply in_ix_of; auto.
Qed.

Lemma apply_tasks_ok : exists ts,
  apply_tasks strides_of norm_strides one ls ds nm n_samples = Ok ts /\ Permutation (concat ts) all_writes.
Proof.
  unfold apply_tasks. destruct (group_shapelets_ok ls ds HL) as (rest & Hg). rewrite Hg. cbn [bind].
  set (ps := dedup (combine ls ds)) in *.
  set (cum := cumsum (0 :: map (fun p => zlen (ix_of ls ds p)) ps)) in *.
  assert (Hc : zlen cum - 1 = zlen ps).
  { unfold cum. rewrite zlen_cumsum, zlen_cons, zlen_map. lia. }
  rewrite Hc.
  destruct (mapM_exists (fun t : Z * Z => apply_task strides_of norm_strides one nm ps
     (concat (map (ix_of ls ds) ps) ++ rest) cum (fst t) (snd t))
     (fun t ws => Permutation ws (flat_map (fun k => feature_writes (fst t) k (tr (fst t) k))
                                     (ix_of ls ds (nthd (0, 0) ps (snd t)))))
     (flat_map (fun i => map (pair i) (zrange 0 (zlen ps))) (zrange 0 n_samples))) as (ts & Hts & HP).
  - intros [i j] Hin. apply in_flat_map in Hin as (i' & Hi & Hin). apply in_map_iff in Hin as (j' & E & Hj).
    injection E as -> ->. apply in_zrange in Hi, Hj. cbn [fst snd].
    apply (apply_task_ok rest i j). { exact Hi. } apply nthZ_nthd. exact Hj.
  - exists ts. split; [exact Hts|].
    etransitivity; [exact (Forall2_perm_concat _ _ _ HP)|].
    unfold all_writes.
    assert (E : forall (t : Z * Z -> list (write F)) (l : list Z), Permutation (flat_map t (flat_map (fun i => map (pair i) (zrange 0 (zlen ps))) l))
      (flat_map (fun i => flat_map (fun j => t (i, j)) (zrange 0 (zlen ps))) l : list (write F))).
    { intros t l. induction l as [|i l IH]; simpl; [constructor|]. rewrite flat_map_app. apply Permutation_app; [|exact IH].
      rewrite (flat_map_concat_map t), map_map, <- flat_map_concat_map. reflexivity. }
    etransitivity; [apply E|]. cbn [fst snd]. clear E Hts HP.
    induction (zrange 0 n_samples) as [|i l IH]; simpl; [constructor|]. apply Permutation_app; [|exact IH].
    transitivity (flat_map (fun k => feature_writes i k (tr i k)) (flat_map (ix_of ls ds) ps)).
    + rewrite <- (map_nthd_zrange (0, 0) ps) at 2.
      clear -i. induction (zrange 0 (zlen ps)) as [|j r IH]; simpl; [constructor|].
      rewrite flat_map_app. apply Permutation_app; [reflexivity|exact IH].
    + apply Permutation_flat_map. exact groups_perm.
Qed.

Lemma in_all_writes r c v : In (r, c, v) all_writes <->
  0 <= r < n_samples /\ 0 <= c < 3 * zlen ls /\ v = cell tr r c.
Proof.
  unfold all_writes. rewrite in_flat_map. split.
  - intros (i & Hi & Hin). apply in_flat_map in Hin as (k & Hk & Hin). apply in_zrange in Hi, Hk.
    apply in_feature_writes in Hin as (-> & q & Hq & -> & ->).
    split; [exact Hi|]. split; [lia|]. symmetry. apply cell_tri. exact Hq.
  - intros (Hr & Hc & ->). exists r. split; [apply in_zrange; exact Hr|].
    apply in_flat_map. exists (c / 3). split; [apply in_zrange; lia|].
    apply in_feature_writes. split; [reflexivity|]. exists (c mod 3). split; [lia|]. split; [lia|]. reflexivity.
Qed.

(** no cell of the output is written twice *)
Lemma all_writes_cells : NoDup (cells all_writes).
Proof.
  unfold cells, all_writes.
  assert (G : forall l, NoDup l -> NoDup (map fst (flat_map (fun i => flat_map (fun k => feature_writes i k (tr i k)) (zrange 0 (zlen ls))) l))).
  { induction 1 as [|i l Hi H IH]; simpl; [constructor|]. rewrite map_app. apply NoDup_app_intro; [|exact IH|].
    - assert (G2 : forall m, NoDup m -> NoDup (map fst (flat_map (fun k => feature_writes i k (tr i k)) m))).
      { induction 1 as [|k m Hk Hm IHm]; [constructor|]. cbn [flat_map]. rewrite map_app. apply NoDup_app_intro; [|exact IHm|].
        - destruct (tr i k) as [[? ?] ?]. cbn [feature_writes map fst].
          repeat constructor; cbn [In]; intros C;
            repeat (destruct C as [C|C]; [apply (f_equal snd) in C; cbn [snd] in C; lia|]); exact C.
        - intros [r c] Hin Hin2. apply in_map_iff in Hin as ([[? ?] v] & E & Hin). cbn [fst] in E. injection E as -> ->.
          apply in_feature_writes in Hin as (-> & q & Hq & Ec & ->).
          apply in_map_iff in Hin2 as ([[? ?] v] & E & Hin). cbn [fst] in E. injection E as -> ->.
          apply in_flat_map in Hin as (k' & Hk' & Hin). apply in_feature_writes in Hin as (_ & q' & Hq' & E & _).
          assert (k = k') by lia. subst. contradiction. }
      apply G2. apply zrange_NoDup.
    - intros [r c] Hin Hin2. apply in_map_iff in Hin as ([[? ?] v] & E & Hin). cbn [fst] in E. injection E as -> ->.
      apply in_flat_map in Hin as (k & _ & Hin). apply in_feature_writes in Hin as (-> & _).
      apply in_map_iff in Hin2 as ([[? ?] v2] & E & Hin). cbn [fst] in E. injection E as -> ->.
      apply in_flat_map in Hin as (i' & Hi' & Hin). apply in_flat_map in Hin as (k' & _ & Hin).
      apply in_feature_writes in Hin as (-> & _). contradiction. }
  apply G. apply zrange_NoDup.
Qed.

Lemma apply_par_ok : exists ts,
  apply_tasks strides_of norm_strides one ls ds nm n_samples = Ok ts /\
  NoDup (cells (concat ts)) /\
  forall out, interleave ts out ->
    run_writes out (X_new0 N n_samples (zlen ls)) = Ok (tab (cell tr) n_samples (3 * zlen ls)).
Proof.
  destruct apply_tasks_ok as (ts & Hts & HP). exists ts. split; [exact Hts|]. split.
  - unfold cells. eapply Permutation_NoDup; [|apply all_writes_cells]. unfold cells. apply Permutation_map.
    symmetry. exact HP.
  - intros out HI. pose proof (zlen_nonneg ls).
    eapply run_writes_interleave; [apply full_dims; lia|lia|lia| | |exact HI].
    + intros r c v Hin. apply in_all_writes. eapply Permutation_in; [exact HP|exact Hin].
    + intros r c Hr Hc. exists (cell tr r c). eapply Permutation_in; [symmetry; exact HP|].
      apply in_all_writes. auto.
Qed.
End Tasks.
End A.
