(** Proofs about the computations of convst/utils/plot_utils.py. *)
From Coq Require Import ZArith List Bool Lia Permutation Sorted.
From Verif Require Import Prelude Num Kernel ApplyProofs Sorting NumbaUtilsProofs ExperimentsProofs PlotUtils.
Import ListNotations.
Open Scope Z_scope.

Lemma nthZ_nil_none {A} i (x : A) : nthZ [] i = Some x -> False.
Proof. intros H. apply nthZ_range in H. change (zlen (@nil A)) with 0 in H. lia. Qed.

Lemma filter_partition3 {A} (f g h : A -> bool) l :
  (forall x, In x l -> Z.b2z (f x) + Z.b2z (g x) + Z.b2z (h x) = 1) ->
  zlen (filter f l) + zlen (filter g l) + zlen (filter h l) = zlen l.
Proof.
  induction l as [|x l IH]; intros H; [reflexivity|]. specialize (IH (fun y Hy => H y (or_intror Hy))).
  specialize (H x (or_introl eq_refl)). simpl. rewrite zlen_cons.
  destruct (f x), (g x), (h x); simpl in H; rewrite ?zlen_cons; lia.
Qed.

Lemma reshape_rows {A B} (f : B -> list A) n (l : list B) : (forall b, In b l -> zlen (f b) = n) ->
  reshape (zlen l) n (flat_map f l) = Ok (map f l).
Proof.
  intros H. unfold reshape.
  assert (E : zlen (flat_map f l) = zlen l * n).
  { clear -H. induction l as [|b l IH]; [reflexivity|]. cbn [flat_map]. rewrite zlen_app, zlen_cons, IH, (H b) by (auto with datatypes). lia. }
  rewrite E, Z.eqb_refl. f_equal.
  assert (G : forall l2 l1, (forall b, In b (l1 ++ l2) -> zlen (f b) = n) ->
     map (fun i => slice (flat_map f (l1 ++ l2)) (i * n) ((i + 1) * n)) (zrange (zlen l1) (zlen l1 + zlen l2)) = map f l2).
  { clear. induction l2 as [|b l2 IH]; intros l1 H.
    - change (zlen (@nil B)) with 0. rewrite zrange_empty by lia. reflexivity.
    - pose proof (zlen_nonneg l2). rewrite zlen_cons, zrange_cons by lia. cbn [map]. f_equal.
      + rewrite flat_map_app. simpl.
        assert (E1 : zlen (flat_map f l1) = zlen l1 * n).
        { assert (H1 : forall b, In b l1 -> zlen (f b) = n) by (intros; apply H, in_or_app; auto). clear -H1.
          induction l1 as [|a l IH]; [reflexivity|]. cbn [flat_map]. rewrite zlen_app, zlen_cons, IH, (H1 a) by (auto with datatypes). lia. }
        assert (Eb : zlen (f b) = n) by (apply H, in_or_app; right; left; auto).
        rewrite <- E1. replace ((zlen l1 + 1) * n) with (zlen (flat_map f l1) + zlen (f b)) by lia. apply slice_app_mid.
      + specialize (IH (l1 ++ [b])). rewrite <- app_assoc in IH. simpl in IH. rewrite zlen_app in IH. change (zlen [b]) with 1 in IH.
        replace (zlen l1 + (zlen l2 + 1)) with (zlen l1 + 1 + zlen l2) by lia. apply IH. exact H. }
  apply (G l []). exact H.
Qed.

Section PLOTP.
Context {F : Type} (N : NumOps F).

(** ** Holm *)

Lemma holm_nth alpha k l : (forall v, In v l -> snd v = false) -> forall i q v, nthZ l q = Some v ->
  exists b, nthZ (holm N alpha k i l) q = Some (fst v, b) /\
    (b = true <-> forall j u, j <= q -> nthZ l j = Some u -> nleb N (pv_p u) (ndiv N alpha (nofZ N (k - (i + j)))) = true).
Proof.
  intros HF. induction l as [|w l IH]; intros i q v Hq; [destruct (nthZ_nil_none _ _ Hq)|].
  pose proof (nthZ_range _ _ _ Hq) as Hr. simpl holm. destruct (nleb N (pv_p w) (ndiv N alpha (nofZ N (k - i)))) eqn:E.
  - rewrite nthZ_cons in Hq. rewrite nthZ_cons. destruct (Z.eqb_spec q 0) as [->|Hn].
    + injection Hq as <-. exists true. split; [reflexivity|]. split; [|reflexivity]. intros _ j u Hj Hu.
      pose proof (nthZ_range _ _ _ Hu). assert (j = 0) as -> by lia. injection Hu as <-. rewrite Z.add_0_r. exact E.
    + destruct (IH (fun u Hu => HF u (or_intror Hu)) (i + 1) (q - 1) v Hq) as (b & Eb & Hb). exists b. split; [exact Eb|]. rewrite Hb. split.
      * intros H j u Hj Hu. pose proof (nthZ_range _ _ _ Hu). rewrite nthZ_cons in Hu. destruct (Z.eqb_spec j 0) as [->|Hj0].
        -- injection Hu as <-. rewrite Z.add_0_r. exact E.
        -- replace (i + j) with (i + 1 + (j - 1)) by lia. apply H; [lia|exact Hu].
      * intros H j u Hj Hu. pose proof (nthZ_range _ _ _ Hu). replace (i + 1 + j) with (i + (j + 1)) by lia. apply H; [lia|].
        rewrite nthZ_cons. destruct (Z.eqb_spec (j + 1) 0); [lia|]. replace (j + 1 - 1) with j by lia. exact Hu.
  - exists false. assert (Hv : snd v = false) by (apply HF; eapply nthZ_In; eauto). split.
    + transitivity (Some v); [exact Hq|]. destruct v as [v b]. simpl in *. congruence.
    + split; [discriminate|]. intros H. exfalso. specialize (H 0 w). rewrite Z.add_0_r in H. rewrite H in E; [discriminate|lia|reflexivity].
Qed.

Lemma holm_fst alpha k l : forall i, map fst (holm N alpha k i l) = map fst l.
Proof.
  induction l as [|w l IH]; intros i; [reflexivity|]. simpl. destruct (nleb N _ _); [simpl; rewrite IH; reflexivity|reflexivity].
Qed.

(** ** Pairs *)

Lemma in_mapM {A B} (f : A -> res B) l ys y : mapM f l = Ok ys -> In y ys <-> exists x, In x l /\ f x = Ok y.
Proof.
  intros H. apply mapM_Forall2 in H. induction H as [|x z l ys Hx H IH]; [split; [intros []|intros (x & [] & _)]|].
  simpl. rewrite IH. split.
  - intros [<-|(w & Hw & E)]; [exists x; auto|exists w; auto].
  - intros (w & [<-|Hw] & E); [left; congruence|right; exists w; auto].
Qed.

Lemma mapM_NoDup {A B} (f : A -> res B) l ys : mapM f l = Ok ys -> NoDup l ->
  (forall x x' y, In x l -> In x' l -> f x = Ok y -> f x' = Ok y -> x = x') -> NoDup ys.
Proof.
  intros H. apply mapM_Forall2 in H. induction H as [|x z l ys Hx H IH]; intros Hnd Hinj; constructor; inversion Hnd; subst.
  - intros Hz. assert (K : exists x', In x' l /\ f x' = Ok z).
    { clear -H Hz. induction H as [|a b l ys Ha H IH]; [destruct Hz|]. destruct Hz as [<-|Hz]; [exists a; split; [left|]; auto|].
      destruct (IH Hz) as (x' & Hx' & E). exists x'. split; [right|]; auto. }
    destruct K as (x' & Hx' & E). assert (x = x') by (apply (Hinj x x' z); [left|right| |]; auto). congruence.
  - apply IH; [assumption|]. intros a b y Ha Hb. apply Hinj; right; auto.
Qed.

Lemma incr_get (l : list Z) i j a b : incr l -> nthZ l i = Some a -> nthZ l j = Some b -> (i < j <-> a < b).
Proof.
  intros HI Ha Hb.
  assert (G : forall l, incr l -> forall i j a b, nthZ l i = Some a -> nthZ l j = Some b -> i < j -> a < b).
  { clear. induction l as [|x l IH]; intros HI i j a b Ha Hb Hij; [apply nthZ_range in Ha; change (zlen (@nil Z)) with 0 in Ha; lia|].
    cbn [incr] in HI. destruct HI as [Hx HI]. pose proof (nthZ_range _ _ _ Ha). rewrite nthZ_cons in Ha. rewrite nthZ_cons in Hb.
    destruct (Z.eqb_spec j 0); [lia|]. destruct (Z.eqb_spec i 0).
    - injection Ha as <-. apply nthZ_In in Hb. apply Hx. exact Hb.
    - apply (IH HI (i - 1) (j - 1)); auto; lia. }
  split; intros H; [eapply G; eauto|]. destruct (Z.lt_trichotomy i j) as [K|[->|K]]; [exact K| |].
  - assert (a = b) by congruence. lia.
  - pose proof (G l HI j i b a Hb Ha K). lia.
Qed.

Section PAIRS.
Context (wilcoxon : list F -> list F -> res F).

Lemma all_pairs_ok df cls ps : incr cls -> all_pairs wilcoxon df cls = Ok ps ->
  NoDup (map (fun v : @pval F => fst (fst v)) ps) /\
  (forall c1 c2, In (c1, c2) (map (fun v : @pval F => fst (fst v)) ps) <-> In c1 cls /\ In c2 cls /\ c1 < c2) /\
  (forall c1 c2 p b, In (c1, c2, p, b) ps -> b = false /\ wilcoxon (perf c1 df) (perf c2 df) = Ok p) /\
  2 * zlen ps = zlen cls * (zlen cls - 1).
Proof.
  intros HI H. unfold all_pairs in H. cbv zeta in H. apply bind_inv in H as (ls & H & E). injection E as <-.
  assert (HE : forall c1 c2 p b, In (c1, c2, p, b) (concat ls) <->
     exists i j, i < j /\ nthZ cls i = Some c1 /\ nthZ cls j = Some c2 /\ b = false /\ wilcoxon (perf c1 df) (perf c2 df) = Ok p).
  { intros c1 c2 p b. rewrite in_concat. split.
    - intros (l & Hl & Hv). rewrite (in_mapM _ _ _ _ H) in Hl. destruct Hl as (i & Hi & El). apply in_zrange in Hi.
      apply bind_inv in El as (d1 & E1 & El). cbv zeta in El. rewrite (in_mapM _ _ _ _ El) in Hv. destruct Hv as (j & Hj & Ev). apply in_zrange in Hj.
      apply bind_inv in Ev as (d2 & E2 & Ev). apply bind_inv in Ev as (q & Eq & Ev). injection Ev as <- <- <- <-.
      apply get_nthZ in E1; [|lia]. apply get_nthZ in E2; [|lia]. exists i, j. repeat split; auto; lia.
    - intros (i & j & Hij & H1 & H2 & -> & Hw). pose proof (nthZ_range _ _ _ H1). pose proof (nthZ_range _ _ _ H2).
      assert (Hi : In i (zrange 0 (zlen cls - 1))) by (apply in_zrange; lia).
      pose proof (proj1 (mapM_Forall2 _ _ _) H) as HF.
      assert (K : forall i, In i (zrange 0 (zlen cls - 1)) -> exists l, In l ls /\ (let* c1 := get cls i in
          let perf_1 := perf c1 df in mapM (fun j => let* c2 := get cls j in let* p := wilcoxon perf_1 (perf c2 df) in Ok (c1, c2, p, false)) (zrange (i + 1) (zlen cls))) = Ok l).
      { clear -HF. induction HF as [|x y xs ys Hxy HF IH]; intros i Hi; [destruct Hi|]. destruct Hi as [<-|Hi]; [exists y; split; [left|]; auto|].
        destruct (IH i Hi) as (l & Hl & E). exists l. split; [right|]; auto. }
      destruct (K i Hi) as (l & Hl & El). exists l. split; [exact Hl|].
      apply bind_inv in El as (d1 & E1 & El). cbv zeta in El. apply get_nthZ in E1; [|lia]. assert (d1 = c1) as -> by congruence.
      rewrite (in_mapM _ _ _ _ El). exists j. split; [apply in_zrange; lia|].
      assert (E2 : get cls j = Ok c2) by (apply get_nthZ; [lia|exact H2]). rewrite E2, bind_Ok, Hw, bind_Ok. reflexivity. }
  assert (HP : map (fun v : @pval F => fst (fst v)) (concat ls) =
      flat_map (fun i => map (fun j => (nthd 0 cls i, nthd 0 cls j)) (zrange (i + 1) (zlen cls))) (zrange 0 (zlen cls - 1))).
  { apply mapM_Forall2 in H. clear HE.
    assert (G : forall is (ls : list (list (@pval F))), (forall i, In i is -> 0 <= i) -> Forall2 (fun i l => (let* c1 := get cls i in
          let perf_1 := perf c1 df in mapM (fun j => let* c2 := get cls j in let* p := wilcoxon perf_1 (perf c2 df) in Ok (c1, c2, p, false)) (zrange (i + 1) (zlen cls))) = Ok l) is ls ->
        map (fun v : @pval F => fst (fst v)) (concat ls) = flat_map (fun i => map (fun j => (nthd 0 cls i, nthd 0 cls j)) (zrange (i + 1) (zlen cls))) is).
    { clear. intros is ls Hpos HF. induction HF as [|i l is ls Hl HF IH]; [reflexivity|]. simpl. rewrite map_app, IH by (intros; apply Hpos; right; auto). f_equal.
      apply bind_inv in Hl as (c1 & E1 & Hl). cbv zeta in Hl. specialize (Hpos i (or_introl eq_refl)). apply get_nthZ in E1; [|lia].
      assert (N1 : nthd 0 cls i = c1) by (unfold nthd; rewrite E1; reflexivity). rewrite N1. apply mapM_Forall2 in Hl.
      assert (Hj : forall j, In j (zrange (i + 1) (zlen cls)) -> 0 <= j) by (intros j Hj; apply in_zrange in Hj; lia).
      revert Hj Hl. generalize (zrange (i + 1) (zlen cls)) as js. intros js Hj Hl. induction Hl as [|j v js l Hv Hl IHl]; [reflexivity|]. simpl. rewrite IHl by (intros; apply Hj; right; auto). f_equal.
      apply bind_inv in Hv as (c2 & E2 & Hv). apply bind_inv in Hv as (p & _ & Hv). injection Hv as <-. simpl.
      specialize (Hj j (or_introl eq_refl)). apply get_nthZ in E2; [|lia]. unfold nthd. rewrite E2. reflexivity. }
    apply G; [|exact H]. intros i Hi. apply in_zrange in Hi. lia. }
  split; [|split; [|split]].
  - rewrite HP. assert (G : forall is, NoDup is -> (forall i, In i is -> 0 <= i) -> NoDup (flat_map (fun i => map (fun j => (nthd 0 cls i, nthd 0 cls j)) (zrange (i + 1) (zlen cls))) is)).
    { assert (ND : forall i j, 0 <= i < zlen cls -> 0 <= j < zlen cls -> nthd 0 cls i = nthd 0 cls j -> i = j).
      { intros i j Hi Hj E. pose proof (nthZ_nthd 0 cls i Hi) as Ei. pose proof (nthZ_nthd 0 cls j Hj) as Ej. rewrite <- E in Ej.
        pose proof (incr_get cls i j _ _ HI Ei Ej). pose proof (incr_get cls j i _ _ HI Ej Ei). lia. }
      induction is as [|i is IH]; intros Hnd Hp; [constructor|]. inversion Hnd; subst. simpl. pose proof (Hp i (or_introl eq_refl)). apply NoDup_app_intro.
      - assert (G2 : forall js, NoDup js -> (forall j, In j js -> 0 <= j < zlen cls) -> NoDup (map (fun j => (nthd 0 cls i, nthd 0 cls j)) js)).
        { induction js as [|j js IHj]; intros Hj Hb; simpl; constructor; inversion Hj; subst.
          - intros Hin. apply in_map_iff in Hin as (j' & E & Hj'). injection E as E.
            assert (j' = j) by (apply ND; [apply Hb; right; auto|apply Hb; left; auto|exact E]). congruence.
          - apply IHj; [assumption|]. intros; apply Hb; right; auto. }
        apply G2; [apply zrange_NoDup|]. intros j Hj. apply in_zrange in Hj. lia.
      - apply IH; [assumption|]. intros; apply Hp; right; auto.
      - intros [a b] Ha Hb. apply in_map_iff in Ha as (j & E & Hj). injection E as <- <-. apply in_zrange in Hj.
        apply in_flat_map in Hb as (i' & Hi' & Hb). apply in_map_iff in Hb as (j' & E & Hj'). injection E as E1 E2. apply in_zrange in Hj'.
        pose proof (Hp i' (or_intror Hi')). assert (i' = i) by (apply ND; [lia|lia|exact E1]). congruence. }
    apply G; [apply zrange_NoDup|]. intros i Hi. apply in_zrange in Hi. lia.
  - intros c1 c2. rewrite in_map_iff. split.
    + intros ([[[d1 d2] p] b] & E & Hv). simpl in E. injection E as -> ->. apply HE in Hv as (i & j & Hij & H1 & H2 & _ & _).
      split; [eapply nthZ_In; eauto|]. split; [eapply nthZ_In; eauto|]. apply (incr_get cls i j); auto.
    + intros (H1 & H2 & Hlt). assert (K : In (c1, c2) (map (fun v : @pval F => fst (fst v)) (concat ls))).
      { rewrite HP. apply In_nthZ in H1 as (i & Hi). apply In_nthZ in H2 as (j & Hj).
        assert (i < j) by (apply (incr_get cls i j c1 c2); auto). pose proof (nthZ_range _ _ _ Hi). pose proof (nthZ_range _ _ _ Hj).
        apply in_flat_map. exists i. split; [apply in_zrange; lia|]. apply in_map_iff. exists j. split; [|apply in_zrange; lia].
        unfold nthd. rewrite Hi, Hj. reflexivity. }
      apply in_map_iff in K. exact K.
  - intros c1 c2 p b Hv. apply HE in Hv as (i & j & _ & _ & _ & Hb & Hw). auto.
  - assert (EL : zlen (concat ls) = zlen (flat_map (fun i => map (fun j => (nthd 0 cls i, nthd 0 cls j)) (zrange (i + 1) (zlen cls))) (zrange 0 (zlen cls - 1)))).
    { rewrite <- HP, zlen_map. reflexivity. }
    refine (eq_trans (f_equal (fun z => 2 * z) EL) _). clear. set (n := zlen cls).
    assert (G : forall k, 0 <= k -> k <= n -> 2 * zlen (flat_map (fun i => map (fun j => (nthd 0 cls i, nthd 0 cls j)) (zrange (i + 1) n)) (zrange 0 k)) = k * (2 * n - k - 1)).
    { intros k Hk. pattern k. apply natlike_ind; [|clear k Hk; intros k Hk IH|exact Hk].
      - intros _. reflexivity.
      - intros Hkn. replace (Z.succ k) with (k + 1) by lia. rewrite zrange_snoc by lia. rewrite flat_map_app, zlen_app. specialize (IH ltac:(lia)).
        cbn [flat_map]. rewrite app_nil_r, zlen_map, zlen_zrange. rewrite Z.max_r by lia. rewrite Z.mul_add_distr_l, IH. ring. }
    pose proof (zlen_nonneg cls) as H0. fold n in H0. destruct (Z.eq_dec n 0) as [->|Hn]; [reflexivity|]. rewrite (G (n - 1)) by lia. nia.
Qed.
End PAIRS.

(** ** Classifiers with the most rows *)

Lemma tested_ok df cls : tested df = Ok cls -> incr cls /\ exists mx, @max_count F df = Ok mx /\
  forall c, In c cls <-> In c (map p_name df) /\ zlen (rows_of c df) = mx /\ forall c', zlen (rows_of c' df) <= zlen (rows_of c df).
Proof.
  unfold tested. intros H. apply bind_inv in H as (mx & Em & E). injection E as <-. split; [apply incr_filter, unique_incr|].
  exists mx. split; [exact Em|]. unfold max_count in Em. apply max_list_spec in Em as [Hin Hmax].
  assert (HM : forall c, zlen (rows_of c df) <= mx).
  { intros c. destruct (in_dec Z.eq_dec c (unique (map p_name df))) as [Hc|Hc].
    - apply Hmax. apply in_map_iff. eauto.
    - apply in_map_iff in Hin as (c0 & <- & _). assert (E : rows_of c df = []).
      { destruct (rows_of c df) as [|r l] eqn:E; [reflexivity|]. exfalso. apply Hc. apply in_unique, in_map_iff. exists r.
        assert (Hr : In r (rows_of c df)) by (rewrite E; left; auto). apply filter_In in Hr as [Hr Hn]. apply Z.eqb_eq in Hn. auto. }
      rewrite E. apply zlen_nonneg. }
  intros c. rewrite filter_In, in_unique, Z.eqb_eq. split.
  - intros [H1 H2]. split; [exact H1|]. split; [exact H2|]. intros c'. rewrite H2. apply HM.
  - intros (H1 & H2 & _). auto.
Qed.

(** ** The table of accuracies *)

Section TABLE.
Variables (df : list (@prow F)) (cls D : list Z) (acc : Z -> Z -> F).
Hypothesis Hcls : incr cls.
Hypothesis HD : incr D.
Hypothesis HDin : forall r, In r df -> In (p_name r) cls -> In (p_data r) D.
(** exactly one row per classifier and dataset *)
Hypothesis Hone : forall c d, In c cls -> In d D -> filter (fun r => (p_name r =? c) && (p_data r =? d)) df = [(c, d, acc c d)].

Definition grid : list (@prow F) := flat_map (fun c => map (fun d => (c, d, acc c d)) D) cls.

Lemma in_grid r : In r grid <-> In (p_name r) cls /\ In (p_data r) D /\ r = (p_name r, p_data r, acc (p_name r) (p_data r)).
Proof.
  unfold grid. rewrite in_flat_map. split.
  - intros (c & Hc & Hr). apply in_map_iff in Hr as (d & <- & Hd). simpl. auto.
  - intros (Hc & Hd & E). exists (p_name r). split; [exact Hc|]. apply in_map_iff. exists (p_data r). auto.
Qed.

Definition selected : list (@prow F) := filter (fun r => existsb (Z.eqb (p_name r)) cls) df.

Lemma in_selected r : In r selected <-> In r df /\ In (p_name r) cls.
Proof.
  unfold selected. rewrite filter_In. split; intros [H1 H2]; split; auto.
  - apply existsb_exists in H2 as (c & Hc & E). apply Z.eqb_eq in E. congruence.
  - apply existsb_exists. exists (p_name r). split; [auto|apply Z.eqb_refl].
Qed.

Lemma selected_grid_in r : In r selected <-> In r grid.
Proof.
  rewrite in_selected, in_grid. split.
  - intros [Hr Hc]. pose proof (HDin r Hr Hc) as Hd. split; [exact Hc|]. split; [exact Hd|].
    assert (K : In r (filter (fun s => (p_name s =? p_name r) && (p_data s =? p_data r)) df)) by (apply filter_In; rewrite !Z.eqb_refl; auto).
    rewrite (Hone _ _ Hc Hd) in K. destruct K as [K|[]]. auto.
  - intros (Hc & Hd & E). split; [|exact Hc].
    assert (K : In r (filter (fun s => (p_name s =? p_name r) && (p_data s =? p_data r)) df)) by (rewrite (Hone _ _ Hc Hd); left; auto).
    apply filter_In in K. tauto.
Qed.

Lemma selected_NoDup : NoDup selected.
Proof.
  assert (G : forall pre post, df = pre ++ post -> NoDup (filter (fun r => existsb (Z.eqb (p_name r)) cls) post)).
  { intros pre post. revert pre. induction post as [|r post IH]; intros pre E; [constructor|]. simpl.
    assert (Hpost : NoDup (filter (fun r => existsb (Z.eqb (p_name r)) cls) post)) by (apply (IH (pre ++ [r])); rewrite <- app_assoc; exact E).
    destruct (existsb (Z.eqb (p_name r)) cls) eqn:EX; [|exact Hpost]. constructor; [|exact Hpost].
    intros Hin. apply filter_In in Hin as [Hin _].
    assert (Hc : In (p_name r) cls) by (apply existsb_exists in EX as (c & Hc & Ec); apply Z.eqb_eq in Ec; congruence).
    assert (Hd : In (p_data r) D) by (apply HDin; [rewrite E; apply in_or_app; right; left; auto|exact Hc]).
    pose proof (Hone _ _ Hc Hd) as K. rewrite E, filter_app in K. simpl in K. rewrite !Z.eqb_refl in K. simpl in K.
    apply (f_equal (@length _)) in K. rewrite app_length in K. simpl in K.
    assert (K2 : In r (filter (fun s => (p_name s =? p_name r) && (p_data s =? p_data r)) post)) by (apply filter_In; rewrite !Z.eqb_refl; auto).
    destruct (filter (fun s => (p_name s =? p_name r) && (p_data s =? p_data r)) post); [destruct K2|simpl in K; lia]. }
  apply (G [] df eq_refl).
Qed.

Lemma grid_NoDup : NoDup grid.
Proof.
  unfold grid. pose proof (incr_NoDup _ Hcls) as Hnd. pose proof (incr_NoDup _ HD) as HDnd. clear -Hnd HDnd.
  induction cls as [|c l IH]; [constructor|]. inversion Hnd; subst. simpl. apply NoDup_app_intro; [|auto|].
  - clear -HDnd. induction D as [|d D' IH]; [constructor|]. inversion HDnd; subst. simpl. constructor; [|auto].
    intros Hin. apply in_map_iff in Hin as (d' & E & Hd'). injection E as -> _. contradiction.
  - intros r Hr Hr2. apply in_map_iff in Hr as (d & <- & Hd). apply in_flat_map in Hr2 as (c' & Hc' & Hr2).
    apply in_map_iff in Hr2 as (d' & E & _). injection E as -> _ _. contradiction.
Qed.

Lemma row_ltb_lt a b : row_ltb a b = true <-> p_name a < p_name b \/ (p_name a = p_name b /\ @p_data F a < p_data b).
Proof. unfold row_ltb. rewrite orb_true_iff, andb_true_iff, !Z.ltb_lt, Z.eqb_eq. reflexivity. Qed.

Lemma grid_sorted : StronglySorted (fun a b => row_ltb a b = true) grid.
Proof.
  unfold grid. clear Hone HDin. induction cls as [|c l IH]; [constructor|]. simpl. cbn [incr] in Hcls. destruct Hcls as [Hc Hl].
  assert (HT := IH Hl). clear IH. induction D as [|d D' IHD]; [exact HT|]. 
  simpl. cbn [incr] in HD. destruct HD as [Hd HD']. constructor.
  - clear IHD.
    assert (G : forall Dx, incr Dx -> (forall x, In x Dx -> True) -> StronglySorted (fun a b => row_ltb a b = true) (map (fun d0 => (c, d0, acc c d0)) Dx ++ flat_map (fun c0 => map (fun d0 => (c0, d0, acc c0 d0)) (d :: D')) l)).
    { induction Dx as [|x Dx IHx]; intros HI _; [exact HT|]. cbn [incr] in HI. destruct HI as [Hx HI]. simpl. constructor; [apply IHx; auto|].
      apply Forall_forall. intros r Hr. apply row_ltb_lt. apply in_app_or in Hr as [Hr|Hr].
      - apply in_map_iff in Hr as (y & <- & Hy). right. split; [reflexivity|]. simpl. apply Hx. exact Hy.
      - apply in_flat_map in Hr as (c' & Hc' & Hr). left. destruct Hr as [<-|Hr].
        + simpl. apply Hc. exact Hc'.
        + apply in_map_iff in Hr as (y & <- & _). simpl. apply Hc. exact Hc'. }
    apply G; auto.
  - apply Forall_forall. intros r Hr. apply row_ltb_lt. apply in_app_or in Hr as [Hr|Hr].
    + apply in_map_iff in Hr as (y & <- & Hy). right. split; [reflexivity|]. simpl. apply Hd. exact Hy.
    + apply in_flat_map in Hr as (c' & Hc' & Hr). left. destruct Hr as [<-|Hr].
      * simpl. apply Hc. exact Hc'.
      * apply in_map_iff in Hr as (y & <- & _). simpl. apply Hc. exact Hc'.
Qed.

Lemma sorted_selected : ssort row_ltb selected = grid.
Proof.
  assert (HP : Permutation selected grid).
  { apply NoDup_Permutation; [apply selected_NoDup|apply grid_NoDup|apply selected_grid_in]. }
  apply (sorted_perm_eq (fun a b => row_ltb a b = true)).
  - intros x y H1 H2. apply row_ltb_lt in H1, H2. lia.
  - (* equal keys do not occur twice *)
    assert (HS : StronglySorted (keyed row_ltb (fun _ _ => True)) (ssort row_ltb selected)).
    { apply ssort_keyed with (P := fun _ : @prow F => True).
      - intros x y z _ _ _ H1 H2. apply row_ltb_lt in H1, H2. apply row_ltb_lt. lia.
      - intros x y z _ _ _ H1. apply row_ltb_lt in H1. rewrite !row_ltb_lt. lia.
      - apply Forall_forall. auto.
      - clear. induction selected; constructor; auto. apply Forall_forall. auto. }
    pose proof (ssort_perm row_ltb selected) as HP2.
    assert (Hnd : NoDup (ssort row_ltb selected)) by (eapply Permutation_NoDup; [exact HP2|apply selected_NoDup]).
    assert (Hg : forall r, In r (ssort row_ltb selected) -> In r grid).
    { intros r Hr. apply selected_grid_in. eapply Permutation_in; [apply Permutation_sym; exact HP2|exact Hr]. }
    revert HS Hnd Hg. generalize (ssort row_ltb selected) as l. clear. intros l HS Hnd Hg.
    induction HS as [|a l HS IH HF]; constructor; inversion Hnd; subst.
    + apply IH; [assumption|]. intros r Hr. apply Hg. right. exact Hr.
    + rewrite Forall_forall in *. intros b Hb. destruct (HF b Hb) as [K|(K1 & K2 & _)]; [exact K|]. exfalso.
      assert (Ea : a = (p_name a, p_data a, acc (p_name a) (p_data a))) by (apply (proj1 (in_grid a)); apply Hg; left; auto).
      assert (Eb : b = (p_name b, p_data b, acc (p_name b) (p_data b))) by (apply (proj1 (in_grid b)); apply Hg; right; auto).
      assert (~ (p_name a < p_name b \/ (p_name a = p_name b /\ p_data a < p_data b))) by (rewrite <- row_ltb_lt; congruence).
      assert (~ (p_name b < p_name a \/ (p_name b = p_name a /\ p_data b < p_data a))) by (rewrite <- row_ltb_lt; congruence).
      assert (p_name a = p_name b) as E1 by lia. assert (p_data a = p_data b) as E2 by lia.
      assert (a = b) by (rewrite Ea, Eb, E1, E2; reflexivity). congruence.
  - apply grid_sorted.
  - transitivity selected; [apply Permutation_sym, ssort_perm|exact HP].
Qed.

Lemma rank_table_ok : cls <> [] -> rank_table df cls (zlen D) = Ok (map (fun c => map (acc c) D) cls).
Proof.
  intros Hne. unfold rank_table. fold selected. rewrite sorted_selected. cbv zeta.
  assert (E : map p_acc grid = flat_map (fun c => map (acc c) D) cls).
  { unfold grid, prow. clear. induction cls as [|c l IH]; [reflexivity|]. simpl. rewrite map_app, IH, map_map. reflexivity. }
  rewrite E, reshape_rows, bind_Ok by (intros; apply zlen_map).
  assert (EU : unique (map p_data grid) = D).
  { apply incr_ext; [apply unique_incr|exact HD|]. intros d. rewrite in_unique, in_map_iff. split.
    - intros (r & <- & Hr). apply in_grid in Hr. tauto.
    - intros Hd. assert (Hc : exists c, In c cls) by (destruct cls as [|c l]; [contradiction|exists c; left; auto]).
      destruct Hc as (c & Hc). exists (c, d, acc c d). split; [reflexivity|]. apply in_grid. simpl. auto. }
  rewrite EU, Z.eqb_refl. reflexivity.
Qed.

Lemma mean_ranks_ok : mean_ranks N (map (fun c => map (acc c) D) cls) (zlen D) =
  Ok (map (fun c => mean N (map (fun d => rank_in N (map (fun c' => acc c' d) cls) (acc c d)) D)) cls).
Proof.
  unfold mean_ranks. set (T := map (fun c => map (acc c) D) cls).
  transitivity (mapM (fun c => Ok (mean N (map (fun d => rank_in N (map (fun c' => acc c' d) cls) (acc c d)) D))) cls); [|apply mapM_ok; reflexivity].
  unfold T at 2. rewrite mapM_map. apply mapM_ext. intros c Hc.
  rewrite (mapM_ok _ (fun k => rank_in N (map (fun c' => acc c' (nthd 0 D k)) cls) (acc c (nthd 0 D k)))).
  - rewrite bind_Ok. do 2 f_equal. rewrite <- (map_nthd_zrange 0 D) at 2. rewrite map_map. reflexivity.
  - intros k Hk. apply in_zrange in Hk. pose proof (nthZ_nthd 0 D k Hk) as Ek.
    assert (G : forall c', get (map (acc c') D) k = Ok (acc c' (nthd 0 D k))) by (intros c'; apply get_nthZ; [lia|]; rewrite nthZ_map, Ek; reflexivity).
    rewrite (mapM_ok _ (fun s => nthd (n0 N) s k)).
    + rewrite bind_Ok, G, bind_Ok. unfold T. rewrite map_map. do 2 f_equal. apply map_ext. intros c'. unfold nthd at 1. rewrite nthZ_map, Ek. reflexivity.
    + intros s Hs. unfold T in Hs. apply in_map_iff in Hs as (c' & <- & _). rewrite G. f_equal. unfold nthd at 2. rewrite nthZ_map, Ek. reflexivity.
Qed.
End TABLE.
End PLOTP.
