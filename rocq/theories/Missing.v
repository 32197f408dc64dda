(** Helper lemmas for property C100: missing values (NaN) in the binary64 instance of the feature loop
    (convst/transformers/_commons.py 40-44 manhattan, 474-574 the two loops).  Strict IEEE arithmetic. *)
From Coq Require Import ZArith List Bool Lia Floats.
From Verif Require Import Prelude Num Kernel Spec KernelProofs FloatLaws.
Import ListNotations.
Open Scope Z_scope.

Definition fnan (x : float) : Prop := Prim2SF x = S754_nan.

Lemma fnan_prim x : fnan x <-> PrimFloat.is_nan x = true.
Proof.
  pose proof (is_number_nan x) as H. unfold fnan, is_number in *. destruct (PrimFloat.is_nan x).
  - split; [reflexivity|]. intros _. destruct (Prim2SF x); try reflexivity; exfalso; assert (true = false) by (apply H; discriminate); discriminate.
  - split; [|discriminate]. intros E. exfalso. apply H in E; auto.
Qed.
Lemma fnan_or x : {fnan x} + {is_number x}.
Proof. unfold fnan, is_number. destruct (Prim2SF x); auto; right; discriminate. Qed.

Lemma fadd_nan x y : fnan x \/ fnan y -> fnan (x + y)%float.
Proof. unfold fnan. rewrite add_spec. intros [E|E]; rewrite E; [reflexivity|]. destruct (Prim2SF x); reflexivity. Qed.
Lemma fsub_nan x y : fnan x \/ fnan y -> fnan (x - y)%float.
Proof. unfold fnan. rewrite sub_spec. intros [E|E]; rewrite E; [reflexivity|]. destruct (Prim2SF x); reflexivity. Qed.
Lemma fdiv_nan x y : fnan x \/ fnan y -> fnan (x / y)%float.
Proof. unfold fnan. rewrite div_spec. intros [E|E]; rewrite E; [reflexivity|]. destruct (Prim2SF x); reflexivity. Qed.
Lemma fabs_nan x : fnan x -> fnan (abs x).
Proof. unfold fnan. rewrite abs_spec. intros ->. reflexivity. Qed.
Lemma fnan_eq x y : fnan x -> fnan y -> x = y.
Proof. unfold fnan. intros H1 H2. apply Prim2SF_inj. congruence. Qed.
Lemma fsub_number x y : is_number x -> is_finite y -> is_number (x - y)%float.
Proof.
  intros Hx Hy. destruct (Prim2SF x) eqn:E.
  - apply fsub_finite; [unfold is_finite; rewrite E; exact I|exact Hy].
  - unfold is_number, is_finite in *. rewrite sub_spec, E in *. destruct (Prim2SF y); try contradiction; discriminate.
  - contradiction.
  - apply fsub_finite; [unfold is_finite; rewrite E; exact I|exact Hy].
Qed.
Lemma flt_nan_r x y : fnan y -> PrimFloat.ltb x y = false.
Proof. unfold fnan. intros E. rewrite ltb_spec, E. destruct (Prim2SF x); reflexivity. Qed.
Lemma flt_nan_l x y : fnan x -> PrimFloat.ltb x y = false.
Proof. unfold fnan. intros E. rewrite ltb_spec, E. reflexivity. Qed.
Lemma fle_nan_l x y : fnan x -> PrimFloat.leb x y = false.
Proof. unfold fnan. intros E. rewrite leb_spec, E. reflexivity. Qed.
Lemma feq_nan_l x y : fnan x -> PrimFloat.eqb x y = false.
Proof. unfold fnan. intros E. rewrite eqb_spec, E. reflexivity. Qed.

Section Missing.
Context (log2 log pow2 : float -> float).
Notation N := (FN log2 log pow2).

Lemma sumF_nan l : (exists x, In x l /\ fnan x) -> fnan (sumF N l).
Proof.
  unfold sumF. cbn [nadd n0 FN].
  assert (G : forall l a, fnan a \/ (exists x, In x l /\ fnan x) -> fnan (fold_left PrimFloat.add l a)).
  { clear l. induction l as [|b t IH]; intros a [H|(x & Hx & Hn)]; cbn [fold_left]; try contradiction.
    - exact H.
    - apply IH. left. apply fadd_nan. auto.
    - destruct Hx as [->|Hx]; apply IH; [left; apply fadd_nan; auto|right; exists x; auto]. }
  intros H. apply G. right. exact H.
Qed.

Lemma l1_nan x y : (exists j, 0 <= j < zlen x /\ fnan (pt N x j)) -> fnan (l1 N x y).
Proof.
  intros (j & Hj & H). unfold l1. apply sumF_nan. eexists. split.
  - apply in_map_iff. exists j. split; [reflexivity|]. apply in_zrange. lia.
  - cbn [nabs nsub FN]. apply fabs_nan, fsub_nan. left. exact H.
Qed.

Lemma l1_nan_r x y : (exists j, 0 <= j < zlen x /\ fnan (pt N y j)) -> fnan (l1 N x y).
Proof.
  intros (j & Hj & H). unfold l1. apply sumF_nan. eexists. split.
  - apply in_map_iff. exists j. split; [reflexivity|]. apply in_zrange. lia.
  - cbn [nabs nsub FN]. apply fabs_nan, fsub_nan. right. exact H.
Qed.

Lemma l1_number x y : (forall j, 0 <= j < zlen x -> is_number (pt N x j)) -> (forall j, 0 <= j < zlen x -> is_finite (pt N y j)) -> fpos (l1 N x y).
Proof.
  intros Hx Hy. unfold l1. apply sumF_pos. intros z Hz. apply in_map_iff in Hz as (j & <- & Hj). apply in_zrange in Hj. cbn [nabs nsub FN].
  apply fabs_pos. apply fsub_number; [apply Hx|apply Hy]; lia.
Qed.

Lemma zscore_nan w : (exists x, In x w /\ fnan x) -> forall y, In y (zscore N w) -> fnan y.
Proof.
  intros H y Hy. apply in_map_iff in Hy as (v & <- & _). cbn [ndiv nsub FN]. apply fdiv_nan. left. apply fsub_nan. right.
  unfold avg. cbn [ndiv FN]. apply fdiv_nan. left. apply sumF_nan. exact H.
Qed.

Lemma seen_nan nm w v : (exists x, In x w /\ fnan x) -> fnan (l1 N (seen N nm w) v).
Proof.
  intros (x & Hx & Hn). apply l1_nan. apply In_nthZ in Hx as (q & Hq). pose proof (nthZ_range _ _ _ Hq) as R. exists q. destruct nm; cbn [seen].
  - assert (E : zlen (zscore N w) = zlen w) by (unfold zscore; apply zlen_map). split; [lia|].
    apply (zscore_nan w); [exists x; split; [eapply nthZ_In; eauto|exact Hn]|]. unfold pt. apply (nthZ_In _ q). apply nthZ_nthd. lia.
  - split; [lia|]. unfold pt. unfold nthd; rewrite Hq. exact Hn.
Qed.

(** a distance is NaN or a number that is not negative, whatever the data *)
Lemma sumF_any l : (forall x, In x l -> fnan x \/ fpos x) -> fnan (sumF N l) \/ fpos (sumF N l).
Proof.
  unfold sumF. cbn [nadd n0 FN].
  assert (G : forall l a, fnan a \/ fpos a -> (forall x, In x l -> fnan x \/ fpos x) -> fnan (fold_left PrimFloat.add l a) \/ fpos (fold_left PrimFloat.add l a)).
  { clear l. induction l as [|b t IH]; intros a Ha H; cbn [fold_left]; [exact Ha|]. apply IH; [|intros; apply H; right; assumption].
    destruct Ha as [Ha|Ha]; [left; apply fadd_nan; auto|]. destruct (H b (or_introl eq_refl)) as [Hb|Hb]; [left; apply fadd_nan; auto|right; apply fadd_pos; assumption]. }
  intros H. apply G; [right; reflexivity|exact H].
Qed.

Lemma l1_any x y : fnan (l1 N x y) \/ fpos (l1 N x y).
Proof.
  unfold l1. apply sumF_any. intros z Hz. apply in_map_iff in Hz as (j & <- & _). cbn [nabs nsub FN].
  destruct (fnan_or (pt N x j - pt N y j)%float) as [H|H]; [left; apply fabs_nan, H|right; apply fabs_pos, H].
Qed.

(** the loop once its minimum is NaN *)
Lemma feat_fold_nan thr ds : forall m a c i, fnan m -> exists c', feat_fold N thr (m, a, c) i ds = (m, a, c').
Proof.
  induction ds as [|x t IH]; intros m a c i Hm; cbn [feat_fold]; [eauto|]. unfold feat_step. cbn [nltb neqb FN].
  rewrite flt_nan_r, feq_nan_l by exact Hm. cbn [orb]. apply IH. exact Hm.
Qed.

(** the loop from a minimum that is a number *)
Lemma feat_fold_skip thr : forall post pre m a c,
  (forall x, In x (pre ++ post) -> fnan x \/ fpos x) -> nthZ pre a = Some m -> fpos m ->
  (forall i x, nthZ pre i = Some x -> fpos x -> nleb N m x = true) ->
  (forall i x, nthZ pre i = Some x -> fpos x -> i < a -> nltb N m x = true) ->
  let '(m', a', _) := feat_fold N thr (m, a, c) (zlen pre) post in
  nthZ (pre ++ post) a' = Some m' /\ fpos m' /\
  (forall i x, nthZ (pre ++ post) i = Some x -> fpos x -> nleb N m' x = true) /\
  (forall i x, nthZ (pre ++ post) i = Some x -> fpos x -> i < a' -> nltb N m' x = true).
Proof.
  pose proof (float_ord_laws log2 log pow2) as OL.
  assert (P : forall x, fpos x -> is_number x) by (intros; apply fnonneg_number, fpos_nonneg; assumption).
  assert (P0 : forall x, fpos x -> nleb N (n0 N) x = true) by (intros x Hx; cbn [nleb n0 FN]; apply fnonneg_iff, fpos_nonneg, Hx).
  induction post as [|x t IH]; intros pre m a c Hok Ha Hm Hle Hlt.
  - cbn [feat_fold]. rewrite app_nil_r. auto.
  - cbn [feat_fold].
    assert (Em : neqb N m (nm1 N) = false) by (eapply ol_m1; eauto).
    unfold feat_step. rewrite Em, orb_false_r.
    replace (pre ++ x :: t) with ((pre ++ [x]) ++ t) in * by (rewrite <- app_assoc; reflexivity).
    replace (zlen pre + 1) with (zlen (pre ++ [x])) by (rewrite zlen_app, zlen_cons, zlen_nil; lia).
    assert (Hx : fnan x \/ fpos x) by (apply Hok; apply in_or_app; left; apply in_or_app; right; left; reflexivity).
    assert (Hnth : forall i y, nthZ (pre ++ [x]) i = Some y -> (i < zlen pre /\ nthZ pre i = Some y) \/ (i = zlen pre /\ y = x)).
    { intros i y Hi. rewrite nthZ_app in Hi. destruct (Z.ltb_spec i (zlen pre)); [auto|].
      rewrite nthZ_cons in Hi. destruct (Z.eqb_spec (i - zlen pre) 0); [right; split; [lia|congruence]|]. apply nthZ_range in Hi. cbn in Hi. lia. }
    assert (Ha' : nthZ (pre ++ [x]) a = Some m).
    { rewrite nthZ_app. destruct (Z.ltb_spec a (zlen pre)); [exact Ha|]. apply nthZ_range in Ha. lia. }
    destruct (nltb N x m) eqn:Exm.
    + assert (Fx : fpos x) by (destruct Hx as [Hx|Hx]; [cbn [nltb FN] in Exm; rewrite flt_nan_l in Exm by exact Hx; discriminate|exact Hx]).
      apply IH; auto.
      * rewrite nthZ_app. destruct (Z.ltb_spec (zlen pre) (zlen pre)); [lia|]. rewrite Z.sub_diag. reflexivity.
      * intros i y Hi Fy. destruct (Hnth i y Hi) as [[_ Hi']|[_ ->]].
        -- eapply ol_le_trans with (y := m); eauto. eapply ol_lt_le; eauto.
        -- rewrite (ol_leb_ltb _ _ OL) by auto. destruct (nltb N x x) eqn:Exx; [|reflexivity].
           pose proof (ol_lt_le _ _ OL _ _ (P x Fx) (P x Fx) Exx) as C. rewrite (ol_leb_ltb _ _ OL), Exx in C by auto. discriminate.
      * intros i y Hi Fy Hl. destruct (Hnth i y Hi) as [[_ Hi']|[-> _]]; [|lia]. specialize (Hle i y Hi' Fy).
        destruct (nltb N x y) eqn:Exy; [reflexivity|exfalso].
        assert (nleb N y x = true) by (rewrite (ol_leb_ltb _ _ OL), Exy; auto).
        assert (C : nleb N m x = true) by (eapply ol_le_trans with (y := y); eauto).
        rewrite (ol_leb_ltb _ _ OL), Exm in C by auto. discriminate.
    + apply IH; auto.
      * intros i y Hi Fy. destruct (Hnth i y Hi) as [[_ Hi']|[_ ->]]; [eauto|]. rewrite (ol_leb_ltb _ _ OL), Exm by auto. reflexivity.
      * intros i y Hi Fy Hl. destruct (Hnth i y Hi) as [[_ Hi']|[-> _]]; [eauto|]. apply nthZ_range in Ha. lia.
Qed.

(** the three features of distances some of which are NaN *)
Lemma feats_first_nan ds thr x : nthZ ds 0 = Some x -> fnan x ->
  feats N ds thr = (x, nofZ N 0, nofZ N (zlen (filter (fun z => nleb N z thr) ds))).
Proof.
  intros H0 Hx. destruct ds as [|y t]; [discriminate|]. rewrite nthZ_cons in H0. injection H0 as ->. unfold feats.
  pose proof (feat_fold_count N thr (nm1 N, 0, 0) 0 (x :: t)) as HC. cbn [feat_fold] in HC |- *. unfold feat_step in HC |- *.
  rewrite (ol_m1_refl _ _ (float_ord_laws log2 log pow2)), orb_true_r in *.
  destruct (feat_fold_nan thr t x 0 (if nleb N x thr then 0 + 1 else 0) (0 + 1) Hx) as (c' & E). rewrite E in *. cbn [snd] in HC. rewrite HC. reflexivity.
Qed.

Lemma feats_all_nan ds thr : ds <> [] -> (forall x, In x ds -> fnan x) -> feats N ds thr = (nan, 0, 0)%float.
Proof.
  intros Hd H. destruct ds as [|x t]; [contradiction|]. rewrite (feats_first_nan (x :: t) thr x); [|reflexivity|apply H; left; reflexivity].
  assert (E : filter (fun z => nleb N z thr) (x :: t) = []).
  { revert H. generalize (x :: t). clear. induction l as [|y r IH]; intros H; [reflexivity|]. cbn [filter]. cbn [nleb FN].
    rewrite fle_nan_l by (apply H; left; reflexivity). apply IH. intros z Hz. apply H. right. exact Hz. }
  rewrite E. rewrite (fnan_eq x nan); [reflexivity|apply H; left; reflexivity|reflexivity].
Qed.

Lemma feats_first_number ds thr x : (forall y, In y ds -> fnan y \/ fpos y) -> nthZ ds 0 = Some x -> fpos x ->
  exists m k, feats N ds thr = (m, nofZ N k, nofZ N (zlen (filter (fun z => nleb N z thr) ds))) /\ nthZ ds k = Some m /\ fpos m /\
    (forall i y, nthZ ds i = Some y -> fpos y -> nleb N m y = true) /\ (forall i y, nthZ ds i = Some y -> fpos y -> i < k -> nltb N m y = true).
Proof.
  intros Hok H0 Hx. destruct ds as [|y t]; [discriminate|]. rewrite nthZ_cons in H0. injection H0 as ->. unfold feats.
  pose proof (feat_fold_count N thr (nm1 N, 0, 0) 0 (x :: t)) as HC.
  pose proof (feat_fold_skip thr t [x] x 0 (if nleb N x thr then 0 + 1 else 0)) as HM.
  cbn [feat_fold] in HC |- *. unfold feat_step in HC |- *. rewrite (ol_m1_refl _ _ (float_ord_laws log2 log pow2)), orb_true_r in *.
  change (zlen [x]) with (0 + 1) in HM.
  destruct (feat_fold N thr (x, 0, if nleb N x thr then 0 + 1 else 0) (0 + 1) t) as [[m a] c]. cbn [snd] in HC.
  exists m, a. split; [rewrite HC; reflexivity|]. apply HM; auto.
  - intros i z Hi _. rewrite nthZ_cons in Hi. destruct (Z.eqb_spec i 0).
    + injection Hi as <-. assert (Px : is_number x) by (apply fnonneg_number, fpos_nonneg, Hx). pose proof (float_ord_laws log2 log pow2) as OL.
      rewrite (ol_leb_ltb _ _ OL) by assumption. destruct (nltb N x x) eqn:Exx; [|reflexivity].
      pose proof (ol_lt_le _ _ OL _ _ Px Px Exx) as C. rewrite (ol_leb_ltb _ _ OL), Exx in C by assumption. discriminate.
    + apply nthZ_range in Hi. cbn in Hi. lia.
  - intros i z Hi _ Hl. rewrite nthZ_cons in Hi. destruct (Z.eqb_spec i 0); [lia|]. apply nthZ_range in Hi. cbn in Hi. lia.
Qed.

End Missing.
