(** Proofs about Kernel.v. *)
From Coq Require Import ZArith List Bool Lia Permutation.
From Verif Require Import Prelude Num Kernel Spec.
Import ListNotations.
Open Scope Z_scope.

Section Generic.
Context {F : Type} (N : NumOps F).

(** ** Strides *)

Lemma pos_range ph n k : 0 < n -> (ph = false -> 0 <= k < n) -> 0 <= pos ph n k < n.
Proof.
  intros Hn H. unfold pos. destruct ph; [apply Z.mod_pos_bound; lia | auto].
Qed.

Lemma window_index ph n l d i j :
  fits ph n l d -> 0 <= i < nwin ph n l d -> 0 <= j < l -> 0 <= pos ph n (i + j * d) < n.
Proof.
  unfold fits, nwin. destruct ph; intros Hf Hi Hj.
  - apply Z.mod_pos_bound. lia.
  - unfold pos. nia.
Qed.

Lemma strides_1D_ok X w d : fits false (zlen X) w d ->
  strides_1D X w d = Ok (windows N false X w d).
Proof.
  intros Hf. unfold strides_1D. pose proof Hf as Hf'. unfold fits in Hf'.
  destruct (Z.leb_spec 0 (zlen X - (w - 1) * d)); [|lia].
  destruct (Z.leb_spec 0 w); [|lia]. simpl guard. cbv [bind].
  unfold windows. apply mapM_ok. intros i Hi. apply in_zrange in Hi.
  unfold window. apply mapM_ok. intros j Hj. apply in_zrange in Hj.
  unfold pt. apply get_nthd.
  pose proof (window_index false (zlen X) w d i j Hf). unfold nwin, pos in *. lia.
Qed.

Lemma strides_1D_phase_ok X w d : 0 <= w ->
  strides_1D_phase X w d = Ok (windows N true X w d).
Proof.
  intros Hw. unfold strides_1D_phase.
  destruct (Z.leb_spec 0 w); [|lia]. simpl guard. cbv [bind].
  unfold windows. apply mapM_ok. intros i Hi. apply in_zrange in Hi. unfold nwin in Hi.
  unfold window. apply mapM_ok. intros j Hj. apply in_zrange in Hj.
  unfold pt. apply get_nthd. unfold pos. apply Z.mod_pos_bound. lia.
Qed.

Lemma generate_strides_1D_ok X w d ph : fits ph (zlen X) w d ->
  generate_strides_1D X w d ph = Ok (windows N ph X w d).
Proof.
  intros H. unfold generate_strides_1D. destruct ph.
  - apply strides_1D_phase_ok. exact H.
  - apply strides_1D_ok. exact H.
Qed.

Definition regular {A} (n : Z) (X : list (list A)) : Prop := forall r, In r X -> zlen r = n.

Lemma shape1_regular {A} n (X : list (list A)) : regular n X -> X <> [] -> shape1 X = n.
Proof. destruct X; [congruence|]. simpl. intros H _. apply H. simpl; auto. Qed.

Lemma get_row {A} (X : list (list A)) ft n : regular n X -> 0 <= ft < zlen X ->
  exists r, get X ft = Ok r /\ nthZ X ft = Some r /\ zlen r = n.
Proof.
  intros HR H. destruct (get_ok X ft H) as (r & H1 & H2). exists r. repeat split; auto.
  apply HR. eapply nthZ_In; eauto.
Qed.

Lemma generate_strides_2D_ok X w d ph n : X <> [] -> regular n X -> fits ph n w d ->
  generate_strides_2D X w d ph = Ok (map (fun row => windows N ph row w d) X).
Proof.
  intros HX HR Hf.
  pose proof (shape1_regular n X HR HX) as HS.
  assert (E : map (fun row => windows N ph row w d) X =
     map (fun ft => windows N ph (nthd [] X ft) w d) (zrange 0 (zlen X))).
  { rewrite <- (map_nthd_zrange [] X) at 1. rewrite map_map. reflexivity. }
  rewrite E. clear E.
  assert (Hw : 0 <= w) by (unfold fits in Hf; destruct ph; lia).
  unfold generate_strides_2D. destruct ph.
  - unfold strides_2D_phase. rewrite HS. destruct (Z.leb_spec 0 w); [|lia]. simpl guard. cbv [bind].
    apply mapM_ok. intros ft Hft. apply in_zrange in Hft.
    destruct (get_row X ft n HR Hft) as (r & Hr1 & Hr2 & Hr3).
    unfold nthd. rewrite Hr2. unfold windows. unfold nwin. rewrite Hr3.
    apply mapM_ok. intros i Hi. apply in_zrange in Hi.
    unfold window. apply mapM_ok. intros j Hj. apply in_zrange in Hj.
    rewrite Hr1. unfold pt. rewrite Hr3. unfold pos. apply get_nthd. rewrite Hr3.
    apply Z.mod_pos_bound. lia.
  - unfold strides_2D. rewrite HS. pose proof Hf as Hf'. unfold fits in Hf'.
    destruct (Z.leb_spec 0 (n - (w - 1) * d)); [|lia].
    destruct (Z.leb_spec 0 w); [|lia]. simpl guard. cbv [bind].
    apply mapM_ok. intros ft Hft. apply in_zrange in Hft.
    destruct (get_row X ft n HR Hft) as (r & Hr1 & Hr2 & Hr3).
    unfold nthd. rewrite Hr2. unfold windows. unfold nwin. rewrite Hr3.
    apply mapM_ok. intros i Hi. apply in_zrange in Hi.
    unfold window. apply mapM_ok. intros j Hj. apply in_zrange in Hj.
    rewrite Hr1. unfold pt. rewrite Hr3. unfold pos. apply get_nthd. rewrite Hr3.
    pose proof (window_index false n w d i j Hf). unfold nwin, pos in *. lia.
Qed.

Lemma zlen_windows ph X l d : 0 <= nwin ph (zlen X) l d -> zlen (windows N ph X l d) = nwin ph (zlen X) l d.
Proof. intros H. unfold windows. rewrite zlen_map, zlen_zrange. lia. Qed.

Lemma zlen_window ph X l d i : 0 <= l -> zlen (window N ph X l d i) = l.
Proof. intros H. unfold window. rewrite zlen_map, zlen_zrange. lia. Qed.

Lemma nthZ_windows ph X l d i : 0 <= i < nwin ph (zlen X) l d ->
  nthZ (windows N ph X l d) i = Some (window N ph X l d i).
Proof.
  intros H. unfold windows. rewrite nthZ_map, nthZ_zrange by lia. simpl. reflexivity.
Qed.

Lemma nthZ_window ph X l d i j : fits ph (zlen X) l d -> 0 <= i < nwin ph (zlen X) l d -> 0 <= j < l ->
  nthZ (window N ph X l d i) j = nthZ X (pos ph (zlen X) (i + j * d)).
Proof.
  intros Hf Hi Hj. unfold window. rewrite nthZ_map, nthZ_zrange by lia. simpl.
  unfold pt. symmetry. apply nthZ_nthd. apply (window_index ph (zlen X) l d i j); assumption.
Qed.

Lemma nwin_nonneg ph n l d : 0 <= n -> fits ph n l d -> 0 <= nwin ph n l d.
Proof. unfold fits, nwin. destruct ph; lia. Qed.

(** ** get_subsequence *)

Lemma walk_ok (X : list F) step n idx (p : Z -> Z) :
  p 0 = idx ->
  (forall j, 0 <= j < Z.of_nat n - 1 -> p (j + 1) = step (p j)) ->
  (forall j, 0 <= j < Z.of_nat n -> 0 <= p j < zlen X) ->
  walk X step n idx = Ok (map (fun j => pt N X (p j)) (zrange 0 (Z.of_nat n))).
Proof.
  revert idx p. induction n as [|n IH]; intros idx p H0 Hs Hr.
  - reflexivity.
  - simpl walk. rewrite zrange_cons by lia. cbn [map].
    rewrite (get_nthd (n0 N)) by (rewrite <- H0; apply Hr; lia). simpl bind.
    destruct n as [|n].
    + simpl. unfold pt. rewrite H0. reflexivity.
    + rewrite (IH (step idx) (fun j => p (j + 1))).
      * simpl bind. unfold pt at 1. rewrite H0. f_equal. f_equal.
        replace (Z.of_nat (S (S n))) with (Z.of_nat (S n) + 1) by lia.
        rewrite (zrange_shift 0 (Z.of_nat (S n)) 1), map_map. reflexivity.
      * rewrite <- H0. apply Hs. lia.
      * intros j Hj. apply Hs. lia.
      * intros j Hj. apply Hr. lia.
Qed.

Lemma get_subsequence_ok X i l d nm ph :
  fits ph (zlen X) l d -> 0 <= i < nwin ph (zlen X) l d ->
  get_subsequence N X i l d nm ph =
  Ok (if nm then znorm N (window N ph X l d i) else window N ph X l d i).
Proof.
  intros Hf Hi.
  assert (Hl : 0 <= l) by (unfold fits in Hf; destruct ph; lia).
  unfold get_subsequence. destruct ph.
  - unfold get_subsequence_phase. destruct (Z.leb_spec 0 l); [|lia]. simpl guard. cbv [bind].
    unfold nwin in Hi.
    rewrite (walk_ok X _ _ i (fun j => (i + j * d) mod zlen X)).
    + rewrite Z2Nat.id by lia. reflexivity.
    + rewrite Z.mul_0_l, Z.add_0_r. apply Z.mod_small. lia.
    + intros j Hj. rewrite Zplus_mod_idemp_l. f_equal. lia.
    + intros j Hj. apply Z.mod_pos_bound. lia.
  - unfold get_subsequence_nophase. destruct (Z.leb_spec 0 l); [|lia]. simpl guard. cbv [bind].
    rewrite (walk_ok X _ _ i (fun j => i + j * d)).
    + rewrite Z2Nat.id by lia. reflexivity.
    + lia.
    + intros j Hj. lia.
    + intros j Hj. pose proof (window_index false (zlen X) l d i j Hf Hi). unfold pos in *. lia.
Qed.

(** ** Distances *)

Lemma manhattan_ok x y : zlen x <= zlen y -> manhattan N x y = Ok (l1 N x y).
Proof.
  intros H. unfold manhattan, l1, sumF.
  rewrite (foldM_ok _ (fun s i => nadd N s (nabs N (nsub N (pt N x i) (pt N y i))))).
  - f_equal. generalize (n0 N). induction (zrange 0 (zlen x)) as [|k t IH]; intros s; simpl; [reflexivity|].
    apply IH.
  - intros s i Hi. apply in_zrange in Hi.
    rewrite (get_nthd (n0 N)) by lia. simpl. rewrite (get_nthd (n0 N)) by lia. reflexivity.
Qed.

Lemma foldM_err {A S} (f : S -> A -> res S) l s x e :
  In x l -> (forall s, f s x = Err e) ->
  (forall s y, In y l -> exists s', f s y = Ok s' \/ f s y = Err e) ->
  foldM f l s = Err e.
Proof.
  revert s. induction l as [|y t IH]; intros s Hin Hx Ha; [destruct Hin|].
  simpl. destruct Hin as [->|Hin].
  - rewrite Hx. reflexivity.
  - destruct (Ha s y (or_introl eq_refl)) as (s' & [E|E]); rewrite E; simpl; [|reflexivity].
    apply IH; auto. intros; apply Ha; simpl; auto.
Qed.

Lemma manhattan_oob x y : zlen y < zlen x -> manhattan N x y = Err OutOfBounds.
Proof.
  intros H. pose proof (zlen_nonneg y).
  assert (Hg : forall (l : list F) i, 0 <= i -> zlen l <= i -> get l i = Err OutOfBounds).
  { intros l i H1 H2. unfold get, wrap. destruct (Z.ltb_spec i 0); [lia|].
    replace (nthZ l i) with (@None F); [reflexivity|]. symmetry. apply nthZ_none. lia. }
  unfold manhattan. apply (foldM_err _ _ _ (zlen y)).
  - apply in_zrange. lia.
  - intros s. rewrite (get_nthd (n0 N)) by lia. simpl. rewrite Hg by lia. reflexivity.
  - intros s i Hi. apply in_zrange in Hi. rewrite (get_nthd (n0 N)) by lia. simpl.
    destruct (Z.lt_ge_cases i (zlen y)).
    + rewrite (get_nthd (n0 N)) by lia. simpl. eauto.
    + rewrite Hg by lia. eexists. right. reflexivity.
      Unshelve. exact s.
Qed.

Lemma zlen_znorm v : zlen (znorm N v) = zlen v.
Proof. unfold znorm. apply zlen_map. Qed.

(** normalise the window when the shapelet asks for it *)
Definition wnorm (nm : bool) (w : list F) : list F := if nm then znorm N w else w.

Lemma zlen_wnorm nm w : zlen (wnorm nm w) = zlen w.
Proof. destruct nm; simpl; [apply zlen_znorm | reflexivity]. Qed.

(** distances of a shapelet to all windows of a series *)
Definition dists (ph nm : bool) (X v : list F) (l d : Z) : list F :=
  map (fun w => l1 N (wnorm nm w) v) (windows N ph X l d).

Lemma in_windows_len ph X l d w : 0 <= l -> In w (windows N ph X l d) -> zlen w = l.
Proof.
  intros Hl H. unfold windows in H. apply in_map_iff in H as (i & <- & _). apply zlen_window. exact Hl.
Qed.

Lemma compute_dist_vector_ok X v l d nm ph :
  fits ph (zlen X) l d -> l <= zlen v ->
  compute_shapelet_dist_vector N X v l d nm ph = Ok (dists ph nm X v l d).
Proof.
  intros Hf Hv.
  assert (Hl : 0 <= l) by (unfold fits in Hf; destruct ph; lia).
  assert (HM : forall ph (g : list F -> list F), (forall w, zlen (g w) = zlen w) ->
     mapM (fun row => manhattan N (g row) v) (windows N ph X l d) = Ok (map (fun w => l1 N (g w) v) (windows N ph X l d))).
  { intros ph' g Hg. apply mapM_ok. intros w Hw. apply manhattan_ok.
    rewrite Hg, (in_windows_len ph' X l d w Hl Hw). exact Hv. }
  unfold compute_shapelet_dist_vector, dists.
  destruct nm, ph; simpl.
  - unfold dist_vector_norm_phase. rewrite strides_1D_phase_ok by exact Hl. simpl. apply (HM true). apply zlen_znorm.
  - unfold dist_vector_norm. rewrite strides_1D_ok by exact Hf. simpl. apply (HM false). apply zlen_znorm.
  - unfold dist_vector_phase. rewrite strides_1D_phase_ok by exact Hl. simpl. apply (HM true (fun w => w)). reflexivity.
  - unfold dist_vector. rewrite strides_1D_ok by exact Hf. simpl. apply (HM false (fun w => w)). reflexivity.
Qed.

(** ** The running minimum *)

(** The loop as a pure fold over the distances. *)
Fixpoint feat_fold (thr : F) (st : F * Z * Z) (i : Z) (ds : list F) : F * Z * Z :=
  match ds with
  | [] => st
  | x :: t => feat_fold thr (feat_step N thr st i x) (i + 1) t
  end.

Definition feats (ds : list F) (thr : F) : F * F * F :=
  let '(m, a, c) := feat_fold thr (nm1 N, 0, 0) 0 ds in (m, nofZ N a, nofZ N c).

Lemma feat_loop {A} (f : A -> res F) (g : A -> F) (xs : list A) (get_i : Z -> res A) thr st :
  (forall i x, nthZ xs i = Some x -> get_i i = Ok x) ->
  (forall x, In x xs -> f x = Ok (g x)) ->
  foldM (fun st i => let* row := get_i i in let* dist := f row in Ok (feat_step N thr st i dist))
        (zrange 0 (zlen xs)) st
  = Ok (feat_fold thr st 0 (map g xs)).
Proof.
  intros Hg Hf.
  assert (L : forall post pre st, xs = pre ++ post ->
     foldM (fun st i => let* row := get_i i in let* dist := f row in Ok (feat_step N thr st i dist))
        (zrange (zlen pre) (zlen xs)) st = Ok (feat_fold thr st (zlen pre) (map g post))).
  { induction post as [|x t IH]; intros pre st0 E.
    - rewrite app_nil_r in E. subst. rewrite zrange_empty by lia. reflexivity.
    - pose proof (zlen_nonneg t). rewrite zrange_cons by (rewrite E, zlen_app, zlen_cons; lia).
      cbn [foldM]. rewrite (Hg (zlen pre) x).
      + simpl bind at 1. rewrite Hf by (rewrite E; apply in_or_app; simpl; auto).
        simpl bind. replace (zlen pre + 1) with (zlen (pre ++ [x])) by (rewrite zlen_app, zlen_cons, zlen_nil; lia).
        rewrite IH by (rewrite <- app_assoc; exact E).
        cbn [map feat_fold]. rewrite zlen_app, zlen_cons, zlen_nil. f_equal. 
      + rewrite E, nthZ_app. destruct (Z.ltb_spec (zlen pre) (zlen pre)); [lia|].
        rewrite Z.sub_diag. reflexivity. }
  apply (L xs [] st). reflexivity.
Qed.

Lemma apply_one_univariate_ok x v thr :
  (forall r, In r x -> zlen r <= zlen v) ->
  apply_one_univariate N x v thr = Ok (feats (map (fun r => l1 N r v) x) thr).
Proof.
  intros H. unfold apply_one_univariate, feats.
  rewrite (feat_loop (fun row => manhattan N row v) (fun r => l1 N r v) x (get x)).
  - simpl. destruct (feat_fold _ _ _ _) as [[? ?] ?]. reflexivity.
  - intros i r Hr. apply get_nthZ; [|exact Hr]. apply nthZ_range in Hr. lia.
  - intros r Hr. apply manhattan_ok. auto.
Qed.

(** sum over channels of the distances at window i *)
Definition mdist (x : list (list (list F))) (v : list (list F)) (i : Z) : F :=
  sumF N (map (fun ft => l1 N (nthd [] (nthd [] x ft) i) (nthd [] v ft)) (zrange 0 (zlen x))).

Lemma fold_left_map {A B S} (f : S -> B -> S) (g : A -> B) l s :
  fold_left (fun s a => f s (g a)) l s = fold_left f (map g l) s.
Proof. revert s. induction l; intros; simpl; auto. Qed.

Lemma apply_one_multivariate_ok x v thr n :
  x <> [] -> regular n x -> zlen x <= zlen v ->
  (forall ft i r w, nthZ x ft = Some r -> nthZ r i = Some w ->
       forall u, nthZ v ft = Some u -> zlen w <= zlen u) ->
  apply_one_multivariate N x v thr = Ok (feats (map (mdist x v) (zrange 0 n)) thr).
Proof.
  intros Hx HR Hv Hl. unfold apply_one_multivariate, feats.
  pose proof (shape1_regular n x HR Hx) as HS. rewrite HS.
  assert (Hn : 0 <= n).
  { rewrite <- HS. destruct x; [congruence|]. apply zlen_nonneg. }
  assert (HF : forall i, 0 <= i < n ->
    foldM (fun acc ft => let* xf := get x ft in let* row := get xf i in
           let* v0 := get v ft in let* m := manhattan N row v0 in Ok (nadd N acc m)) 
      (zrange 0 (zlen x)) (n0 N) = Ok (mdist x v i)).
  { intros i Hi. unfold mdist, sumF.
    rewrite (foldM_ok _ (fun acc ft => nadd N acc (l1 N (nthd [] (nthd [] x ft) i) (nthd [] v ft)))).
    - f_equal. apply (fold_left_map (nadd N)).
    - intros s ft Hft. apply in_zrange in Hft.
      destruct (get_row x ft n HR Hft) as (r & Hr1 & Hr2 & Hr3).
      rewrite Hr1. simpl. rewrite (get_nthd []) by lia. simpl.
      rewrite (get_nthd []) by lia. simpl.
      rewrite manhattan_ok.
      + simpl. replace (nthd [] x ft) with r by (unfold nthd; rewrite Hr2; reflexivity). reflexivity.
      + apply (Hl ft i r).
        * exact Hr2.
        * apply nthZ_nthd. lia.
        * apply nthZ_nthd. lia. }
  assert (E : zrange 0 n = zrange 0 (zlen (zrange 0 n))) by (rewrite zlen_zrange; f_equal; lia).
  rewrite E at 1.
  rewrite (foldM_ext _ (fun st i => let* row := (if (0 <=? i) && (i <? n) then Ok i else Err OutOfBounds) in
       let* dist := Ok (mdist x v row) in Ok (feat_step N thr st i dist))).
  - rewrite (feat_loop (fun i => Ok (mdist x v i)) (mdist x v) (zrange 0 n)).
    + simpl. destruct (feat_fold _ _ _ _) as [[? ?] ?]. reflexivity.
    + intros i k Hk. pose proof (nthZ_range _ _ _ Hk) as Hr. rewrite zlen_zrange in Hr.
      rewrite nthZ_zrange in Hk by lia. injection Hk as <-.
      destruct (Z.leb_spec 0 i), (Z.ltb_spec i n); simpl; try lia. reflexivity.
    + reflexivity.
  - intros st i Hi. apply in_zrange in Hi. rewrite zlen_zrange in Hi.
    rewrite HF by lia.
    destruct (Z.leb_spec 0 i), (Z.ltb_spec i n); simpl; try lia. reflexivity.
Qed.

(** ** Meaning of the loop, for any lawful order *)

Lemma feat_fold_count thr st i ds :
  snd (feat_fold thr st i ds) = snd st + zlen (filter (fun x => nleb N x thr) ds).
Proof.
  revert st i. induction ds as [|x t IH]; intros [[m a] c] i; cbn [feat_fold filter].
  - rewrite zlen_nil. simpl. lia.
  - rewrite IH. unfold feat_step.
    destruct (nltb N x m || neqb N m (nm1 N)); destruct (nleb N x thr); cbn [snd];
      rewrite ?zlen_cons; lia.
Qed.

Lemma feat_fold_min ok thr : OrdLaws N ok -> forall post pre m a c,
  (forall x, In x (pre ++ post) -> ok x /\ nleb N (n0 N) x = true) ->
  nthZ pre a = Some m ->
  (forall i x, nthZ pre i = Some x -> nleb N m x = true) ->
  (forall i x, nthZ pre i = Some x -> i < a -> nltb N m x = true) ->
  let '(m', a', _) := feat_fold thr (m, a, c) (zlen pre) post in
  nthZ (pre ++ post) a' = Some m' /\
  (forall i x, nthZ (pre ++ post) i = Some x -> nleb N m' x = true) /\
  (forall i x, nthZ (pre ++ post) i = Some x -> i < a' -> nltb N m' x = true).
Proof.
  intros OL. induction post as [|x t IH]; intros pre m a c Hok Ha Hle Hlt.
  - simpl. rewrite app_nil_r. auto.
  - cbn [feat_fold]. 
    assert (Hm : ok m /\ nleb N (n0 N) m = true).
    { apply Hok. apply in_or_app. left. eapply nthZ_In; eauto. }
    assert (Hx : ok x /\ nleb N (n0 N) x = true).
    { apply Hok. apply in_or_app. right. simpl; auto. }
    destruct Hm as [Hm Hm0], Hx as [Hx Hx0].
    assert (Em : neqb N m (nm1 N) = false) by (eapply ol_m1; eauto).
    unfold feat_step. rewrite Em, orb_false_r.
    replace (pre ++ x :: t) with ((pre ++ [x]) ++ t) in * by (rewrite <- app_assoc; reflexivity).
    replace (zlen pre + 1) with (zlen (pre ++ [x])) by (rewrite zlen_app, zlen_cons, zlen_nil; lia).
    assert (Hnth : forall i y, nthZ (pre ++ [x]) i = Some y ->
       (i < zlen pre /\ nthZ pre i = Some y) \/ (i = zlen pre /\ y = x)).
    { intros i y Hi. rewrite nthZ_app in Hi. destruct (Z.ltb_spec i (zlen pre)); [auto|].
      rewrite nthZ_cons in Hi. destruct (Z.eqb_spec (i - zlen pre) 0).
      - right. split; [lia|congruence].
      - apply nthZ_range in Hi. cbn in Hi. lia. }
    assert (Hokp : forall i y, nthZ pre i = Some y -> ok y).
    { intros i y Hi. apply Hok. apply in_or_app. left. apply in_or_app. left. eapply nthZ_In; eauto. }
    destruct (nltb N x m) eqn:Exm.
    + apply IH; auto.
      * rewrite nthZ_app. destruct (Z.ltb_spec (zlen pre) (zlen pre)); [lia|].
        rewrite Z.sub_diag. reflexivity.
      * intros i y Hi. destruct (Hnth i y Hi) as [[_ Hi']|[_ ->]].
        -- eapply ol_le_trans with (y := m); eauto. eapply ol_lt_le; eauto.
        -- rewrite (ol_leb_ltb _ _ OL) by assumption.
           destruct (nltb N x x) eqn:Exx; [|reflexivity].
           pose proof (ol_lt_le _ _ OL _ _ Hx Hx Exx) as C.
           rewrite (ol_leb_ltb _ _ OL) in C by assumption. rewrite Exx in C. discriminate.
      * intros i y Hi Hlt'. destruct (Hnth i y Hi) as [[_ Hi']|[-> _]]; [|lia].
        specialize (Hle i y Hi').
        destruct (nltb N x y) eqn:Exy; [reflexivity|exfalso].
        assert (nleb N y x = true) by (rewrite (ol_leb_ltb _ _ OL), Exy; eauto).
        assert (C : nleb N m x = true) by (eapply ol_le_trans with (y := y); eauto).
        rewrite (ol_leb_ltb _ _ OL), Exm in C by assumption. discriminate.
    + apply IH; auto.
      * rewrite nthZ_app. destruct (Z.ltb_spec a (zlen pre)); [exact Ha|].
        apply nthZ_range in Ha. lia.
      * intros i y Hi. destruct (Hnth i y Hi) as [[_ Hi']|[_ ->]]; [eauto|].
        rewrite (ol_leb_ltb _ _ OL), Exm by assumption. reflexivity.
      * intros i y Hi Hlt'. destruct (Hnth i y Hi) as [[_ Hi']|[-> _]]; [eauto|].
        apply nthZ_range in Ha. lia.
Qed.

Theorem feats_spec ok ds thr : OrdLaws N ok ->
  (forall x, In x ds -> ok x /\ nleb N (n0 N) x = true) ->
  is_features N ds thr (feats ds thr).
Proof.
  intros OL Hok. destruct ds as [|x t].
  - left. cbn. auto.
  - unfold feats. pose proof (feat_fold_count thr (nm1 N, 0, 0) 0 (x :: t)) as HC.
    assert (Hx : ok x /\ nleb N (n0 N) x = true) by (apply Hok; simpl; auto).
    destruct Hx as [Hx Hx0].
    pose proof (feat_fold_min ok thr OL t [x] x 0 (if nleb N x thr then 1 else 0)) as HM.
    cbn [feat_fold] in HC |- *.
    unfold feat_step in HC |- *. rewrite (ol_m1_refl _ _ OL), orb_true_r in *.
    change (zlen [x]) with 1 in HM. change (0 + 1) with 1 in *.
    destruct (feat_fold thr (x, 0, if nleb N x thr then 1 else 0) 1 t) as [[m a] c].
    right. exists a. 
    destruct HM as (H1 & H2 & H3); auto.
    + intros i y Hi. rewrite nthZ_cons in Hi. destruct (Z.eqb_spec i 0).
      * injection Hi as <-. rewrite (ol_leb_ltb _ _ OL) by assumption.
        destruct (nltb N x x) eqn:Exx; [|reflexivity].
        pose proof (ol_lt_le _ _ OL _ _ Hx Hx Exx) as C.
        rewrite (ol_leb_ltb _ _ OL) in C by assumption. rewrite Exx in C. discriminate.
      * apply nthZ_range in Hi. cbn in Hi. lia.
    + intros i y Hi Hl. rewrite nthZ_cons in Hi. destruct (Z.eqb_spec i 0); [lia|].
      apply nthZ_range in Hi. cbn in Hi. lia.
    + cbn [snd] in HC. repeat split; auto. f_equal. lia.
Qed.

End Generic.
