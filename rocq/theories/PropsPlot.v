(** Properties C53, C54, C64, C65, C66: convst/utils/plot_utils.py. *)
From Coq Require Import ZArith List Bool Lia Permutation Sorted Reals Lra Floats.
From Verif Require Import Prelude Num Kernel Spec Sorting RealBase RealProofs ApplyProofs NumbaUtilsProofs ExperimentsProofs PlotUtils PlotProofs PlotReal.
Import ListNotations.
Open Scope Z_scope.

(** ** C53.  Win/draw/loss counts partition the datasets *)

(** How many datasets have a difference (baseline minus competitor) with the property [P]. *)
Definition count_diff (P : R -> bool) (x y : list R) : Z := zlen (filter P (map (fun p => (snd p - fst p)%R) (combine x y))).

Lemma zlen_filter_map {A B} (f : A -> B) P l : zlen (filter P (map f l)) = zlen (filter (fun x => P (f x)) l).
Proof. induction l as [|x l IH]; [reflexivity|]. simpl. destruct (P (f x)); rewrite ?zlen_cons, IH; reflexivity. Qed.

(** In exact arithmetic with margin >= 0: a win is a dataset where the baseline leads by more than the margin, a loss one
    where it trails by more than the margin, a draw any other; the three counts add up to the number of datasets. *)
Theorem C53_partition : forall margin (x y : list R), (0 <= margin)%R -> zlen x = zlen y ->
  exists W D L, wdl RN margin x y = (W, D, L) /\ W + D + L = zlen x /\
  W = count_diff (fun d => Rltb margin d) x y /\
  D = count_diff (fun d => Rleb (Rabs d) margin) x y /\
  L = count_diff (fun d => Rltb d (- margin)) x y.
Proof.
  intros margin x y Hm Hlen. do 3 eexists. split; [reflexivity|]. split.
  - rewrite filter_partition3.
    + unfold zlen in *. rewrite combine_length. lia.
    + intros [u v] _. simpl. destruct (Rltb (u + margin) v) eqn:E1, (Rleb u (v + margin)) eqn:E2, (Rleb (v - margin) u) eqn:E3, (Rltb v (u - margin)) eqn:E4;
        try reflexivity; exfalso; rewrite ?Rltb_true, ?Rltb_false, ?Rleb_true, ?Rleb_false in *; lra.
  - unfold count_diff. rewrite !zlen_filter_map. simpl. repeat split; f_equal; apply filter_ext; intros [u v]; simpl.
    + destruct (Rltb (u + margin) v) eqn:E1, (Rltb margin (v - u)) eqn:E2; try reflexivity; exfalso; rewrite ?Rltb_true, ?Rltb_false in *; lra.
    + destruct (Rleb u (v + margin)) eqn:E1, (Rleb (v - margin) u) eqn:E2, (Rleb (Rabs (v - u)) margin) eqn:E3; try reflexivity; exfalso;
        rewrite ?Rleb_true, ?Rleb_false in *; revert E3; unfold Rabs; destruct (Rcase_abs (v - u)); lra.
    + destruct (Rltb v (u - margin)) eqn:E1, (Rltb (v - u) (- margin)) eqn:E2; try reflexivity; exfalso; rewrite ?Rltb_true, ?Rltb_false in *; lra.
Qed.
Print Assumptions C53_partition.

(** A negative margin counts a dataset twice. *)
Theorem C53_negative_margin_refuted : exists margin x y, zlen x = zlen y /\ let '(W, D, L) := wdl ZN margin x y in W + D + L <> zlen x.
Proof. exists (-1), [5], [5]. split; [reflexivity|]. vm_compute. discriminate. Qed.
Print Assumptions C53_negative_margin_refuted.

(** In binary64 a dataset can be counted in no class, or in two: accuracies 0.001 and 0.016 with margin 0.015. *)
Theorem C53_binary64_refuted : forall log2 log pow2,
  wdl (FN log2 log pow2) 0x1.eb851eb851eb8p-7%float [0x1.0624dd2f1a9fcp-10%float] [0x1.0624dd2f1a9fcp-6%float] = (0, 0, 0) /\
  wdl (FN log2 log pow2) 0x1.eb851eb851eb8p-7%float [0x1.0624dd2f1a9fcp-6%float] [0x1.0624dd2f1a9fcp-10%float] = (0, 1, 1).
Proof. intros. split; vm_compute; reflexivity. Qed.
Print Assumptions C53_binary64_refuted.

Example C53_case : wdl ZN 2 [90; 85; 70; 60] [90; 88; 68; 50] = (1, 2, 1).
Proof. vm_compute. reflexivity. Qed.

(** ** C54.  Holm correction *)

Definition pair_of {F} (v : @pval F) : Z * Z := fst (fst v).

Section C54.
Context {F : Type} (N : NumOps F) (wilcoxon : list F -> list F -> res F).

(** The accuracies of a classifier in the order of its rows. *)
Definition accuracies (c : Z) (df : list (Z * Z * F)) : list F := map snd (filter (fun r => fst (fst r) =? c) df).
(** The classifiers with the most rows. *)
Definition most_tested (df : list (Z * Z * F)) (c : Z) : Prop :=
  In c (map (fun r => fst (fst r)) df) /\ forall c', zlen (accuracies c' df) <= zlen (accuracies c df).

Lemma accuracies_len c df : zlen (accuracies c df) = zlen (rows_of c df).
Proof. unfold accuracies. apply zlen_map. Qed.

Lemma wh_inv alpha df pv ranks mx : wilcoxon_holm N wilcoxon alpha df = Ok (pv, ranks, mx) ->
  exists cls ps, tested df = Ok cls /\ 3 <= zlen cls /\ max_count df = Ok mx /\ all_pairs wilcoxon df cls = Ok ps /\
  pv = holm N alpha (zlen ps) 0 (sort_pvals N ps) /\
  exists table rk, rank_table df cls mx = Ok table /\ mean_ranks N table mx = Ok rk /\ ranks = ssort (fun a b => nltb N (snd b) (snd a)) (combine cls rk).
Proof.
  unfold wilcoxon_holm. destruct (tested df) as [cls|e] eqn:E; [|discriminate]. intros H. apply bind_inv in H as ([] & Eg & H).
  apply bind_inv in H as (mx' & Em & H). apply bind_inv in H as (ps & Ep & H). apply bind_inv in H as (tb & Et & H). apply bind_inv in H as (rk & Er & H).
  injection H as <- <- <-. exists cls, ps. split; [reflexivity|]. unfold guard in Eg. destruct (3 <=? zlen cls) eqn:E3; [|discriminate]. apply Z.leb_le in E3.
  repeat split; auto. exists tb, rk. auto.
Qed.

(** Whenever the analysis succeeds: the tested pairs are exactly the unordered pairs of most tested classifiers, each
    once; each carries the p-value of the test on the accuracies of the two; there are m(m-1)/2 of them. *)
Theorem C54_pairs : forall alpha df pv ranks mx, wilcoxon_holm N wilcoxon alpha df = Ok (pv, ranks, mx) ->
  NoDup (map pair_of pv) /\
  (forall c1 c2, In (c1, c2) (map pair_of pv) <-> most_tested df c1 /\ most_tested df c2 /\ c1 < c2) /\
  (forall c1 c2 p b, In (c1, c2, p, b) pv -> wilcoxon (accuracies c1 df) (accuracies c2 df) = Ok p) /\
  exists m, 3 <= m /\ 2 * zlen pv = m * (m - 1) /\ exists cls, NoDup cls /\ zlen cls = m /\ forall c, In c cls <-> most_tested df c.
Proof.
  intros alpha df pv ranks mx H. apply wh_inv in H as (cls & ps & E1 & E2 & E3 & E4 & -> & _).
  apply tested_ok in E1 as (HI & mx' & Em & Hc). destruct (all_pairs_ok wilcoxon df cls ps HI E4) as (P1 & P2 & P3 & P4).
  assert (Hmt : forall c, In c cls <-> most_tested df c).
  { intros c. rewrite Hc. unfold most_tested. setoid_rewrite accuracies_len. split.
    - intros (K1 & _ & K2). auto.
    - intros (K1 & K2). split; [exact K1|]. split; [|exact K2]. unfold max_count in Em. apply max_list_spec in Em as [M1 M2].
      apply in_map_iff in M1 as (c0 & <- & Hc0). pose proof (K2 c0) as K4. assert (zlen (rows_of c df) <= zlen (rows_of c0 df)).
      { apply M2. apply in_map_iff. exists c. split; [reflexivity|]. apply in_unique. exact K1. } lia. }
  set (sorted := sort_pvals N ps). assert (HP : Permutation ps sorted) by apply ssort_perm.
  assert (EM : map pair_of (holm N alpha (zlen ps) 0 sorted) = map pair_of sorted).
  { assert (G : forall l : list (@pval F), map pair_of l = map fst (map fst l)) by (intros l; rewrite map_map; reflexivity). rewrite !G, holm_fst. reflexivity. }
  rewrite EM. assert (HPm : Permutation (map pair_of ps) (map pair_of sorted)) by (apply Permutation_map; exact HP).
  split; [apply (Permutation_NoDup HPm); exact P1|]. split; [|split].
  - intros c1 c2. rewrite <- !Hmt, <- P2. split; intros Hin; [apply (Permutation_in _ (Permutation_sym HPm))|apply (Permutation_in _ HPm)]; exact Hin.
  - intros c1 c2 p b Hin. assert (K : In (c1, c2, p) (map fst sorted)) by (rewrite <- (holm_fst N alpha (zlen ps) sorted 0); apply in_map_iff; exists (c1, c2, p, b); auto).
    apply in_map_iff in K as (w & Ew & Hw). destruct w as [w b']. simpl in Ew. subst w. apply Permutation_sym in HP. apply (Permutation_in _ HP) in Hw.
    apply (P3 _ _ _ _ Hw).
  - exists (zlen cls). split; [exact E2|]. split.
    + rewrite <- P4. f_equal. transitivity (zlen (map fst (holm N alpha (zlen ps) 0 sorted))); [rewrite zlen_map; reflexivity|].
      rewrite holm_fst, zlen_map. unfold zlen. f_equal. symmetry. apply Permutation_length. exact HP.
    + exists cls. split; [apply incr_NoDup; exact HI|]. split; [reflexivity|exact Hmt].
Qed.

(** The pairs come in increasing order of p-value, and pair i is significant iff p_j <= alpha/(k-j) for every j <= i. *)
Theorem C54_holm : forall ok, OrderLaws N ok -> (forall a b p, wilcoxon a b = Ok p -> ok p) ->
  forall alpha df pv ranks mx, wilcoxon_holm N wilcoxon alpha df = Ok (pv, ranks, mx) ->
  (forall i j c c' p q b b', i < j -> nthZ pv i = Some (c, p, b) -> nthZ pv j = Some (c', q, b') -> nltb N q p = false) /\
  (forall i c p b, nthZ pv i = Some (c, p, b) ->
     (b = true <-> forall j c' q b', j <= i -> nthZ pv j = Some (c', q, b') -> nleb N q (ndiv N alpha (nofZ N (zlen pv - j))) = true)).
Proof.
  intros ok HO Hok alpha df pv ranks mx H. apply wh_inv in H as (cls & ps & E1 & E2 & E3 & E4 & -> & _).
  apply tested_ok in E1 as (HI & mx' & _ & Hc). destruct (all_pairs_ok wilcoxon df cls ps HI E4) as (P1 & P2 & P3 & P4).
  set (sorted := sort_pvals N ps). assert (HP : Permutation ps sorted) by apply ssort_perm.
  assert (Hf : forall v, In v sorted -> snd v = false).
  { intros [[[c1 c2] p] b] Hv. apply Permutation_sym in HP. apply (Permutation_in _ HP) in Hv. apply (P3 _ _ _ _ Hv). }
  assert (EL : zlen (holm N alpha (zlen ps) 0 sorted) = zlen ps).
  { transitivity (zlen (map fst (holm N alpha (zlen ps) 0 sorted))); [rewrite zlen_map; reflexivity|].
    rewrite holm_fst, zlen_map. unfold zlen. f_equal. symmetry. apply Permutation_length. exact HP. }
  assert (Hback : forall i c p b, nthZ (holm N alpha (zlen ps) 0 sorted) i = Some (c, p, b) -> nthZ sorted i = Some (c, p, false)).
  { intros i c p b Hi. assert (K : nthZ (map fst sorted) i = Some (c, p)) 
      by (rewrite <- (holm_fst N alpha (zlen ps) sorted 0); refine (eq_trans (nthZ_map _ _ _) _); exact (f_equal (option_map fst) Hi)).
    rewrite nthZ_map in K. unfold pval in *. destruct (nthZ sorted i) as [w|] eqn:Ew; [|discriminate K]. cbn [option_map] in K. destruct w as [w b']. cbn [fst] in K.
    apply (f_equal (fun o => match o with Some x => x | None => w end)) in K. subst w. f_equal. f_equal.
    apply (Hf (c, p, b')). eapply nthZ_In; eauto. }
  split.
  - intros i j c c' p q b b' Hij Hi Hj. apply Hback in Hi. apply Hback in Hj.
    assert (HS : StronglySorted (keyed (fun a b : @pval F => nltb N (pv_p a) (pv_p b)) (fun _ _ => True)) sorted).
    { apply (ssort_keyed _ (fun v : @pval F => ok (pv_p v))).
      - intros x y z. apply (or_trans N ok HO).
      - intros x y z. apply (or_split N ok HO).
      - apply Forall_forall. intros [[[c1 c2] r] b0] Hv. simpl. destruct (P3 _ _ _ _ Hv) as [_ K]. apply (Hok _ _ _ K).
      - clear. induction ps as [|v ps IH]; [constructor|]. constructor; [exact IH|]. apply Forall_forall. auto. }
    pose proof (sorted_nthZ _ _ HS i j _ _ Hij Hi Hj) as [K|(_ & K & _)]; [|exact K].
    unfold pv_p in K. simpl in K. destruct (nltb N q p) eqn:E; [|reflexivity]. exfalso.
    assert (Ho : forall i c p, nthZ sorted i = Some (c, p, false) -> ok p).
    { intros i0 [c1 c2] p0 Hi0. apply nthZ_In in Hi0. apply Permutation_sym in HP. apply (Permutation_in _ HP) in Hi0. destruct (P3 _ _ _ _ Hi0) as [_ K']. apply (Hok _ _ _ K'). }
    pose proof (or_trans N ok HO p q p (Ho _ _ _ Hi) (Ho _ _ _ Hj) (Ho _ _ _ Hi) K E) as K2. rewrite (or_irrefl N ok HO) in K2 by (eapply Ho; eauto). discriminate.
  - intros i c p b Hi. rewrite EL. pose proof (Hback _ _ _ _ Hi) as Hi'.
    destruct (holm_nth N alpha (zlen ps) sorted Hf 0 i _ Hi') as (b1 & K1 & K2). pose proof (eq_trans (eq_sym Hi) K1) as K0. cbn [fst] in K0. injection K0 as <-. rewrite K2. split.
    + intros K j c' q b' Hj Hq. apply Hback in Hq. apply (K j _ Hj Hq).
    + intros K j [[c' q] b'] Hj Hq. assert (Hb : nthZ (holm N alpha (zlen ps) 0 sorted) j <> None).
      { apply nthZ_range in Hq. destruct (holm_nth N alpha (zlen ps) sorted Hf 0 j (nthd (0, 0, n0 N, false) sorted j)) as (b2 & K3 & _); [|congruence].
        apply nthZ_nthd. exact Hq. }
      destruct (nthZ (holm N alpha (zlen ps) 0 sorted) j) as [[[c'' q'] b'']|] eqn:E; [|contradiction].
      pose proof (eq_trans (eq_sym Hq) (Hback _ _ _ _ E)) as E'. injection E' as -> -> ->. apply (K j _ _ _ Hj E).
Qed.

(** Significant pairs come first. *)
Corollary C54_prefix : forall ok, OrderLaws N ok -> (forall a b p, wilcoxon a b = Ok p -> ok p) ->
  forall alpha df pv ranks mx i j v w, wilcoxon_holm N wilcoxon alpha df = Ok (pv, ranks, mx) ->
  i <= j -> nthZ pv i = Some v -> nthZ pv j = Some w -> snd w = true -> snd v = true.
Proof.
  intros ok HO Hok alpha df pv ranks mx i j [[c p] b] [[c' q] b'] H Hij Hi Hj Hb. destruct (C54_holm ok HO Hok _ _ _ _ _ H) as [_ K].
  simpl in *. apply (proj2 (K i c p b Hi)). intros k d r b0 Hk Hr. apply (proj1 (K j c' q b' Hj) Hb k d r b0); [lia|exact Hr].
Qed.

(** With fewer than three most tested classifiers the call is rejected. *)
Theorem C54_two_classifiers : forall alpha df cls, (forall c, most_tested df c -> In c cls) -> zlen cls <= 2 ->
  wilcoxon_holm N wilcoxon alpha df = Err ValueError.
Proof.
  intros alpha df cls H1 H2. unfold wilcoxon_holm. destruct (tested df) as [l|e] eqn:E; [|reflexivity].
  apply tested_ok in E as (HI & mx & _ & Hc). unfold guard. destruct (Z.leb_spec 3 (zlen l)); [|reflexivity]. exfalso.
  assert (zlen l <= zlen cls); [|lia]. unfold zlen. apply Nat2Z.inj_le, NoDup_incl_length; [apply incr_NoDup; exact HI|].
  intros c Hin. apply H1. apply Hc in Hin as (K1 & _ & K2). split; [exact K1|]. intros c'. rewrite !accuracies_len. apply K2.
Qed.
End C54.
Print Assumptions C54_pairs.
Print Assumptions C54_holm.
Print Assumptions C54_prefix.
Print Assumptions C54_two_classifiers.

(** Three classifiers and two datasets; the "test" returns twice the sum of absolute differences (scaled so that one
    difference is significant at level 60). *)
Definition toy_test (a b : list Z) : res Z := Ok (fold_right Z.add 0 (map (fun p => 40 - Z.abs (fst p - snd p)) (combine a b))).
Definition toy_df : list (Z * Z * Z) := [(1, 1, 10); (1, 2, 12); (2, 1, 40); (2, 2, 45); (3, 1, 14); (3, 2, 11)].
Example C54_case : exists ranks, wilcoxon_holm ZN toy_test 60 toy_df = Ok ([(1, 2, 17, true); (2, 3, 20, true); (1, 3, 75, false)], ranks, 2).
Proof. eexists. vm_compute. reflexivity. Qed.

(** ** C64.  Average ranks *)

(** A complete comparison: the rows are exactly one per classifier in [cls] and dataset in [D], with accuracy [acc]. *)
Definition complete {F} (df : list (Z * Z * F)) (cls D : list Z) (acc : Z -> Z -> F) : Prop :=
  incr cls /\ incr D /\ Permutation df (flat_map (fun c => map (fun d => (c, d, acc c d)) D) cls).

Lemma combine_map_self {A B} (g : A -> B) l : combine l (map g l) = map (fun x => (x, g x)) l.
Proof. induction l as [|x l IH]; [reflexivity|]. simpl. rewrite IH. reflexivity. Qed.

Lemma complete_one {F} (df : list (Z * Z * F)) cls D acc : complete df cls D acc ->
  (forall r, In r df -> In (p_data r) D) /\ (forall r, In r df -> In (p_name r) cls) /\
  forall c d, In c cls -> In d D -> filter (fun r => (p_name r =? c) && (p_data r =? d)) df = [(c, d, acc c d)].
Proof.
  intros (Hc & HD & HP). set (g := flat_map (fun c => map (fun d => (c, d, acc c d)) D) cls) in *.
  assert (Hin : forall r, In r df <-> In r (grid cls D acc)) by (intros r; split; apply Permutation_in; [exact HP|apply Permutation_sym; exact HP]).
  split; [intros r Hr; apply Hin, in_grid in Hr; tauto|]. split; [intros r Hr; apply Hin, in_grid in Hr; tauto|].
  intros c d Hic Hid.
  assert (K : Permutation (filter (fun r => (p_name r =? c) && (p_data r =? d)) df) [(c, d, acc c d)]).
  { apply NoDup_Permutation.
    - apply NoDup_filter. apply (Permutation_NoDup (l := grid cls D acc)); [apply Permutation_sym; exact HP|]. apply grid_NoDup; auto.
    - constructor; [intros []|constructor].
    - intros r. rewrite filter_In, Hin, in_grid, andb_true_iff, !Z.eqb_eq. split.
      + intros ((_ & _ & E) & <- & <-). left. symmetry. exact E.
      + intros [<-|[]]. simpl. auto. }
  apply Permutation_sym, Permutation_length_1_inv in K. exact K.
Qed.

Lemma complete_count {F} (df : list (Z * Z * F)) cls D acc c : complete df cls D acc -> In c cls -> zlen (rows_of c df) = zlen D.
Proof.
  intros HC Hc. pose proof (complete_one _ _ _ _ HC) as (H1 & H2 & H3). destruct HC as (Hi & HD & HP).
  assert (K : Permutation (rows_of c df) (map (fun d => (c, d, acc c d)) D)).
  { apply NoDup_Permutation.
    - apply NoDup_filter. apply (Permutation_NoDup (l := grid cls D acc)); [apply Permutation_sym; exact HP|]. apply grid_NoDup; auto.
    - pose proof (incr_NoDup _ HD) as Hnd. clear -Hnd. induction Hnd as [|d l Hd Hl IH]; [constructor|]. simpl. constructor; [|exact IH].
      intros K. apply in_map_iff in K as (d' & E & Hd'). injection E as ->. contradiction.
    - intros r. unfold rows_of. rewrite filter_In, Z.eqb_eq, in_map_iff.
      assert (Hin : In r df <-> In r (grid cls D acc)) by (split; apply Permutation_in; [exact HP|apply Permutation_sym; exact HP]).
      rewrite Hin, in_grid. split.
      + intros ((_ & K1 & E) & <-). exists (p_data r). auto.
      + intros (d & <- & Hd). simpl. auto. }
  apply Permutation_length in K. rewrite map_length in K. unfold zlen. rewrite K. reflexivity.
Qed.

Lemma complete_names {F} (df : list (Z * Z * F)) cls D acc : complete df cls D acc -> D <> [] -> unique (map p_name df) = cls.
Proof.
  intros HC HDne. pose proof (complete_one _ _ _ _ HC) as (H1 & H2 & H3). destruct HC as (Hi & HD & HP).
  apply incr_ext; [apply unique_incr|exact Hi|]. intros c. rewrite in_unique, in_map_iff. split.
  - intros (r & <- & Hr). apply H2, Hr.
  - intros Hc. destruct D as [|d D']; [contradiction|]. exists (c, d, acc c d). split; [reflexivity|].
    assert (K : In (c, d, acc c d) (filter (fun r => (p_name r =? c) && (p_data r =? d)) df)) by (rewrite (H3 c d Hc (or_introl eq_refl)); left; auto).
    apply filter_In in K. tauto.
Qed.

Lemma complete_max {F} (df : list (Z * Z * F)) cls D acc : complete df cls D acc -> D <> [] -> cls <> [] -> max_count df = Ok (zlen D) /\ tested df = Ok cls.
Proof.
  intros HC HDne Hne. assert (E : max_count df = Ok (zlen D)).
  { unfold max_count. rewrite (complete_names _ _ _ _ HC HDne).
    rewrite (map_ext_in _ (fun _ => zlen D)) by (intros c Hc; apply (complete_count _ _ _ _ _ HC Hc)).
    clear -Hne. destruct cls as [|c cls]; [contradiction|]. simpl. f_equal. clear Hne. induction cls as [|c' cls IH]; [reflexivity|]. simpl.
    rewrite Z.max_id. exact IH. }
  split; [exact E|]. unfold tested. rewrite E, bind_Ok, (complete_names _ _ _ _ HC HDne). f_equal.
  assert (K : forall l, (forall c, In c l -> In c cls) -> filter (fun c => zlen (rows_of c df) =? zlen D) l = l).
  { induction l as [|c l IH]; intros Hl; [reflexivity|]. simpl. rewrite (complete_count _ _ _ _ c HC) by (apply Hl; left; auto).
    rewrite Z.eqb_refl, IH by (intros; apply Hl; right; auto). reflexivity. }
  apply K. auto.
Qed.

(** On a complete comparison the analysis succeeds whenever every test does, and its ranking is, for any arithmetic, the
    list of classifiers with the mean over the datasets of their ranks among all classifiers on that dataset. *)
Lemma complete_result {F} (N : NumOps F) wilcoxon alpha (df : list (Z * Z * F)) cls D acc : complete df cls D acc -> D <> [] -> 3 <= zlen cls ->
  (forall a b, exists p, wilcoxon a b = Ok p) ->
  exists pv, wilcoxon_holm N wilcoxon alpha df = Ok (pv,
    ssort (fun a b => nltb N (snd b) (snd a)) (map (fun c => (c, mean N (map (fun d => rank_in N (map (fun c' => acc c' d) cls) (acc c d)) D))) cls), zlen D).
Proof.
  intros HC HDne H3 HW. assert (Hne : cls <> []) by (intros ->; vm_compute in H3; apply H3; reflexivity).
  destruct (complete_max _ _ _ _ HC HDne Hne) as [E1 E2]. pose proof (complete_one _ _ _ _ HC) as (K1 & K2 & K3). destruct HC as (Hi & HD & HP).
  unfold wilcoxon_holm. rewrite E2. unfold guard. rewrite (proj2 (Z.leb_le 3 _) H3), bind_Ok, E1, bind_Ok.
  assert (EP : exists ps, all_pairs wilcoxon df cls = Ok ps).
  { unfold all_pairs. match goal with |- context[bind (mapM ?f ?l) _] => assert (EM : exists ls, mapM f l = Ok ls) end.
    { match goal with |- exists ls, mapM ?f ?l = Ok ls => destruct (mapM_exists f (fun _ _ => True) l) as (ls & E & _) end; [|eauto].
      intros i Hin. apply in_zrange in Hin. destruct (get_ok cls i) as (c1 & Eg & _); [lia|]. rewrite Eg, bind_Ok. cbv zeta.
      match goal with |- exists ls, mapM ?f ?l = Ok ls /\ _ => destruct (mapM_exists f (fun _ _ => True) l) as (ls & E & _) end; [|eauto].
      intros j Hj. apply in_zrange in Hj. destruct (get_ok cls j) as (c2 & Eg2 & _); [lia|]. rewrite Eg2, bind_Ok.
      destruct (HW (perf c1 df) (perf c2 df)) as (p & Ep). rewrite Ep, bind_Ok. eauto. }
    destruct EM as (ls & EM). rewrite EM, bind_Ok. eauto. }
  destruct EP as (ps & EP). rewrite EP, bind_Ok. cbv zeta.
  rewrite (rank_table_ok df cls D acc Hi HD (fun r Hr _ => K1 r Hr) K3 Hne), bind_Ok, (mean_ranks_ok N df cls D acc K3), bind_Ok. eexists. repeat f_equal.
  match goal with |- combine cls (map ?g cls) = _ => exact (combine_map_self g cls) end.
Qed.

Section C64R.
Open Scope R_scope.
(** The place of a classifier on a dataset: one more than the number of strictly better classifiers, plus half a place per
    other classifier it is tied with. *)
Definition place (cls : list Z) (acc : Z -> Z -> R) (d c : Z) : R :=
  1 + IZR (zlen (filter (fun c' => Rltb (acc c d) (acc c' d)) cls))
    + IZR (zlen (filter (fun c' => negb (c' =? c)%Z && Reqb (acc c d) (acc c' d)) cls)) / 2.
Definition mean_place (cls D : list Z) (acc : Z -> Z -> R) (c : Z) : R := avg RN (map (fun d => place cls acc d c) D).

Lemma rank_place cls acc d c : NoDup cls -> In c cls -> rank_in RN (map (fun c' => acc c' d) cls) (acc c d) = place cls acc d c.
Proof.
  intros Hnd Hc. rewrite rank_in_R. unfold place, n_above, n_equal. rewrite !zlen_filter_map.
  assert (E : (zlen (filter (fun x => Reqb (acc c d) (acc x d)) cls) = 1 + zlen (filter (fun c' => negb (c' =? c) && Reqb (acc c d) (acc c' d)) cls))%Z).
  { assert (G : forall l, NoDup l -> (zlen (filter (fun x => Reqb (acc c d) (acc x d)) l) =
       (if existsb (Z.eqb c) l then 1 else 0) + zlen (filter (fun c' => negb (c' =? c) && Reqb (acc c d) (acc c' d)) l))%Z).
    { induction 1 as [|x l Hx Hl IH]; [reflexivity|]. cbn [filter existsb]. rewrite (Z.eqb_sym c x). destruct (Z.eqb_spec x c) as [->|Hn]; cbn [negb andb orb].
      - assert (Ex : existsb (Z.eqb c) l = false).
        { destruct (existsb (Z.eqb c) l) eqn:E; [|reflexivity]. apply existsb_exists in E as (y & Hy & E). apply Z.eqb_eq in E. subst y. contradiction. }
        rewrite Ex in IH. replace (Reqb (acc c d) (acc c d)) with true by (symmetry; apply Reqb_true; reflexivity). rewrite zlen_cons, IH. lia.
      - destruct (Reqb (acc c d) (acc x d)); rewrite ?zlen_cons, IH; lia. }
    rewrite (G cls Hnd). replace (existsb (Z.eqb c) cls) with true; [reflexivity|]. symmetry. apply existsb_exists. exists c. split; [exact Hc|apply Z.eqb_refl]. }
  rewrite E, plus_IZR. field.
Qed.
End C64R.

(** On a complete comparison, in exact arithmetic, the ranking lists every classifier once with its mean place, the worst
    mean place first. *)
Theorem C64_ranks : forall wilcoxon alpha (df : list (Z * Z * R)) cls D acc, complete df cls D acc -> D <> [] -> 3 <= zlen cls ->
  (forall a b, exists p, wilcoxon a b = Ok p) ->
  exists pv ranks, wilcoxon_holm RN wilcoxon alpha df = Ok (pv, ranks, zlen D) /\
  Permutation ranks (map (fun c => (c, mean_place cls D acc c)) cls) /\
  forall i j c c' r r', i < j -> nthZ ranks i = Some (c, r) -> nthZ ranks j = Some (c', r') -> (r' <= r)%R.
Proof.
  intros wilcoxon alpha df cls D acc HC HD H3 HW. destruct (complete_result RN wilcoxon alpha df cls D acc HC HD H3 HW) as (pv & E).
  do 2 eexists. split; [exact E|]. destruct HC as (Hi & _ & _). set (l := map _ cls).
  assert (El : l = map (fun c => (c, mean_place cls D acc c)) cls).
  { unfold l. apply map_ext_in. intros c Hc. f_equal. unfold mean_place. change (mean RN) with (avg RN). f_equal. apply map_ext. intros d.
    apply rank_place; [apply incr_NoDup; exact Hi|exact Hc]. }
  split; [rewrite <- El; apply Permutation_sym, ssort_perm|].
  intros i j c c' r r' Hij Hx Hy.
  assert (HS : StronglySorted (keyed (fun a b : Z * R => Rltb (snd b) (snd a)) (fun _ _ => True)) (ssort (fun a b : Z * R => Rltb (snd b) (snd a)) l)).
  { apply (ssort_keyed _ (fun _ => True)).
    - intros x y z _ _ _. rewrite !Rltb_true. lra.
    - intros x y z _ _ _ K. rewrite !Rltb_true in *. destruct (Rlt_dec (snd y) (snd x)); [left; auto|right; lra].
    - apply Forall_forall. auto.
    - clear. induction l as [|v l IH]; [constructor|]. constructor; [exact IH|]. apply Forall_forall. auto. }
  destruct (sorted_nthZ _ _ HS i j _ _ Hij Hx Hy) as [K|(K1 & K2 & _)]; simpl in *.
  - apply Rltb_true in K. lra.
  - rewrite Rltb_false in *. lra.
Qed.
Print Assumptions C64_ranks.

(** The mean places of m classifiers lie between 1 and m and sum to m(m+1)/2, whatever the ties. *)
Theorem C64_sum : forall cls D acc, NoDup cls -> D <> [] ->
  rsum (map (mean_place cls D acc) cls) = (IZR (zlen cls) * (IZR (zlen cls) + 1) / 2)%R /\
  forall c, In c cls -> (1 <= mean_place cls D acc c <= IZR (zlen cls))%R.
Proof.
  intros cls D acc Hnd HD. assert (Hn : (0 < IZR (zlen D))%R).
  { apply IZR_lt. destruct D; [contradiction|]. rewrite zlen_cons. pose proof (zlen_nonneg D). lia. }
  assert (EM : forall c, mean_place cls D acc c = (rsum (map (fun d => place cls acc d c) D) / IZR (zlen D))%R).
  { intros c. unfold mean_place. rewrite avg_R, zlen_map. reflexivity. }
  split.
  - rewrite (rsum_map_ext _ (fun c => (/ IZR (zlen D) * rsum (map (fun d => place cls acc d c) D))%R)) by (intros; rewrite EM; field; lra).
    rewrite rsum_map_scal, (rsum_swap (fun c d => place cls acc d c)).
    rewrite (rsum_map_ext _ (fun _ => (IZR (zlen cls) * (IZR (zlen cls) + 1) / 2)%R)).
    + rewrite rsum_map_const. field. lra.
    + intros d _. transitivity (rsum (map (rank_in RN (map (fun c' => acc c' d) cls)) (map (fun c' => acc c' d) cls))).
      * rewrite map_map. apply rsum_map_ext. intros c Hc. symmetry. apply rank_place; auto.
      * rewrite rank_sum, zlen_map. reflexivity.
  - intros c Hc. rewrite EM.
    assert (B : forall d, In d D -> (1 <= place cls acc d c <= IZR (zlen cls))%R).
    { intros d _. rewrite <- rank_place by auto. rewrite <- (zlen_map (fun c' => acc c' d) cls). apply rank_bounds. apply in_map_iff. exists c. auto. }
    assert (L : (rsum (map (fun _ => 1%R) D) <= rsum (map (fun d => place cls acc d c) D))%R) by (apply rsum_map_le; intros; apply B; auto).
    assert (U : (rsum (map (fun d => place cls acc d c) D) <= rsum (map (fun _ => IZR (zlen cls)) D))%R) by (apply rsum_map_le; intros; apply B; auto).
    rewrite rsum_map_const in L, U. split.
    + apply (Rmult_le_reg_r (IZR (zlen D))); [lra|]. replace (rsum (map (fun d => place cls acc d c) D) / IZR (zlen D) * IZR (zlen D))%R with (rsum (map (fun d => place cls acc d c) D)) by (field; lra). lra.
    + apply (Rmult_le_reg_r (IZR (zlen D))); [lra|]. replace (rsum (map (fun d => place cls acc d c) D) / IZR (zlen D) * IZR (zlen D))%R with (rsum (map (fun d => place cls acc d c) D)) by (field; lra). lra.
Qed.
Print Assumptions C64_sum.

(** A classifier that is better on every dataset has the better (smaller) mean place. *)
Theorem C64_dominance : forall cls D acc c c', NoDup cls -> D <> [] -> In c cls -> In c' cls ->
  (forall d, In d D -> (acc c' d < acc c d)%R) -> (mean_place cls D acc c < mean_place cls D acc c')%R.
Proof.
  intros cls D acc c c' Hnd HD Hc Hc' H. assert (Hn : (0 < IZR (zlen D))%R).
  { apply IZR_lt. destruct D; [contradiction|]. rewrite zlen_cons. pose proof (zlen_nonneg D). lia. }
  unfold mean_place. rewrite !avg_R, !zlen_map. apply Rmult_lt_compat_r; [apply Rinv_0_lt_compat; exact Hn|].
  apply rsum_map_lt; [exact HD|]. intros d Hd. rewrite <- !rank_place by auto. apply rank_lt.
  - apply in_map_iff. exists c'. auto.
  - apply H, Hd.
  - apply in_map_iff. exists c. auto.
Qed.
Print Assumptions C64_dominance.

(** Not so without completeness: if a classifier has one dataset twice and another missing, the counts still agree, no
    error is raised, and accuracies of different datasets are ranked against each other. *)
Theorem C64_duplicate_refuted : exists (df : list (Z * Z * Z)) pv ranks,
  wilcoxon_holm ZN toy_test 60 df = Ok (pv, ranks, 2) /\
  (* on dataset 1, the only one where all three are compared, classifier 1 is the best *)
  (forall r, In r df -> p_data r = 1 -> p_name r <> 1 -> p_acc r < 50) /\ In (1, 1, 50) df /\
  (* yet classifier 1's second row (dataset 1 again) is ranked in the column of dataset 2 *)
  ~ In (1, 2) (map fst df) /\ In (1, 2) ranks.
Proof.
  exists [(1, 1, 50); (1, 1, 10); (2, 1, 40); (2, 2, 45); (3, 1, 20); (3, 2, 30)]. do 2 eexists. split; [vm_compute; reflexivity|].
  split; [|split; [|split]].
  - intros r Hr H1 H2. repeat destruct Hr as [<-|Hr]; cbn in *; try lia; destruct Hr.
  - left. reflexivity.
  - vm_compute. intros K. repeat destruct K as [K|K]; try discriminate; destruct K.
  - vm_compute. tauto.
Qed.
Print Assumptions C64_duplicate_refuted.

Example C64_case : complete toy_df [1; 2; 3] [1; 2] (fun c d => nthd 0 (nthd [] [[]; [0; 10; 12]; [0; 40; 45]; [0; 14; 11]] c) d) /\
  exists pv, wilcoxon_holm ZN toy_test 60 toy_df = Ok (pv, [(1, 2); (3, 2); (2, 1)], 2).
Proof.
  split; [split; [cbn; intuition lia|split; [cbn; intuition lia|apply Permutation_refl]]|]. eexists. vm_compute. reflexivity.
Qed.

(** ** C65.  The order of the rows *)

(** The average ranks do not depend on the order of the rows. *)
Theorem C65_ranks_order : forall (F : Type) (N : NumOps F) wilcoxon alpha (df df' : list (Z * Z * F)) cls D acc, complete df cls D acc -> D <> [] -> 3 <= zlen cls ->
  (forall a b, exists p, wilcoxon a b = Ok p) -> Permutation df df' ->
  exists pv pv' ranks, wilcoxon_holm N wilcoxon alpha df = Ok (pv, ranks, zlen D) /\ wilcoxon_holm N wilcoxon alpha df' = Ok (pv', ranks, zlen D).
Proof.
  intros F N wilcoxon alpha df df' cls D acc HC HD H3 HW HP.
  assert (HC' : complete df' cls D acc).
  { destruct HC as (K1 & K2 & K3). repeat split; auto. exact (Permutation_trans (Permutation_sym HP) K3). }
  destruct (complete_result N wilcoxon alpha df cls D acc HC HD H3 HW) as (pv & E). destruct (complete_result N wilcoxon alpha df' cls D acc HC' HD H3 HW) as (pv' & E').
  exists pv, pv'. eexists. split; [exact E|exact E'].
Qed.
Print Assumptions C65_ranks_order.

(** The tests pair the accuracies by position.  If the rows of all classifiers come in the same order of datasets, position k
    is the same dataset for both classifiers of a pair. *)
Theorem C65_pairs_aligned : forall (F : Type) (N : NumOps F) wilcoxon alpha (df : list (Z * Z * F)) cls D acc order pv ranks mx, complete df cls D acc ->
  (forall c, In c cls -> map p_data (filter (fun r => fst (fst r) =? c) df) = order) ->
  wilcoxon_holm N wilcoxon alpha df = Ok (pv, ranks, mx) ->
  forall c1 c2 p b, In (c1, c2, p, b) pv -> wilcoxon (map (acc c1) order) (map (acc c2) order) = Ok p.
Proof.
  intros F N wilcoxon alpha df cls D acc order pv ranks mx HC Ho HW c1 c2 p b Hin.
  assert (HA : forall c, In c cls -> accuracies c df = map (acc c) order).
  { intros c Hc. unfold accuracies. rewrite <- (Ho c Hc), map_map. apply map_ext_in. intros r Hr. apply filter_In in Hr as [Hr E]. apply Z.eqb_eq in E.
    destruct HC as (_ & _ & HP). apply (Permutation_in _ HP) in Hr. apply in_grid in Hr as (_ & _ & Er). rewrite Er. simpl. change (fst (fst r)) with (p_name r) in E. rewrite E. reflexivity. }
  destruct (C54_pairs N wilcoxon alpha df pv ranks mx HW) as (_ & K2 & K3 & _).
  assert (Hp : In (c1, c2) (map pair_of pv)) by (apply in_map_iff; exists (c1, c2, p, b); auto). apply K2 in Hp as ([N1 _] & [N2 _] & _).
  pose proof (complete_one _ _ _ _ HC) as (_ & Hn & _).
  assert (I : forall c, In c (map (fun r : Z * Z * F => fst (fst r)) df) -> In c cls) by (intros c Hc; apply in_map_iff in Hc as (r & <- & Hr); apply (Hn r Hr)).
  rewrite <- (HA c1 (I _ N1)), <- (HA c2 (I _ N2)). apply (K3 _ _ _ _ Hin).
Qed.
Print Assumptions C65_pairs_aligned.

(** The table of C64_case with the rows of the classifiers interleaved. *)
Example C65_case : let acc := fun c d => nthd 0 (nthd [] [[]; [0; 10; 12]; [0; 40; 45]; [0; 14; 11]] c) d in
  let df := [(3, 2, 11); (1, 2, 12); (2, 2, 45); (1, 1, 10); (3, 1, 14); (2, 1, 40)] in
  complete df [1; 2; 3] [1; 2] acc /\ (forall c, In c [1; 2; 3] -> map p_data (filter (fun r => fst (fst r) =? c) df) = [2; 1]) /\
  Permutation toy_df df /\
  exists pv, wilcoxon_holm ZN toy_test 60 df = Ok (pv, [(1, 2); (3, 2); (2, 1)], 2) /\ In (1, 3, 75, false) pv /\ toy_test (map (acc 1) [2; 1]) (map (acc 3) [2; 1]) = Ok 75.
Proof.
  intros acc df. assert (HP : Permutation df toy_df).
  { unfold df, toy_df. apply Permutation_sym. repeat (apply NoDup_Permutation; [repeat constructor; cbn; intuition discriminate|repeat constructor; cbn; intuition discriminate|]). intros x. cbn. tauto. }
  split; [split; [cbn; intuition lia|split; [cbn; intuition lia|exact HP]]|].
  split; [intros c [<-|[<-|[<-|[]]]]; reflexivity|]. split; [exact (Permutation_sym HP)|].
  eexists. split; [vm_compute; reflexivity|]. split; [cbn; tauto|reflexivity].
Qed.

(** In general the p-values and the significance marks depend on the order of the rows, even for a test that does not
    depend on the order in which the pairs of accuracies are given. *)
Theorem C65_pvalues_refuted :
  (forall a b a' b', Permutation (combine a b) (combine a' b') -> toy_test a b = toy_test a' b') /\
  exists df df' pv pv' ranks, Permutation df df' /\
    wilcoxon_holm ZN toy_test 60 df = Ok (pv, ranks, 2) /\ wilcoxon_holm ZN toy_test 60 df' = Ok (pv', ranks, 2) /\
    In (1, 2, 73, false) pv /\ In (1, 2, 17, true) pv'.
Proof.
  split.
  - intros a b a' b' H. unfold toy_test. f_equal. revert H. generalize (combine a b) (combine a' b'). intros l l' H.
    induction H; cbn [map fold_right]; lia.
  - exists [(1, 1, 10); (1, 2, 40); (2, 1, 12); (2, 2, 45); (3, 1, 14); (3, 2, 50)], [(1, 2, 40); (1, 1, 10); (2, 1, 12); (2, 2, 45); (3, 1, 14); (3, 2, 50)].
    do 3 eexists. split; [apply perm_swap|]. split; [vm_compute; reflexivity|]. split; [vm_compute; reflexivity|]. split; vm_compute; tauto.
Qed.
Print Assumptions C65_pvalues_refuted.

(** ** C66.  The graph of indistinguishable classifiers *)

(** For names without repetition that contain every tested classifier: the matrix handed to networkx is square, has a 1
    exactly at the cells (a, b), a < b, whose classifiers form a non-significant pair, and 0 elsewhere. *)
Theorem C66_matrix : forall (F : Type) (pvs : list (@pval F)) names, NoDup names ->
  (forall c1 c2 p b, In (c1, c2, p, b) pvs -> c1 <> c2 /\ In c1 names /\ In c2 names) ->
  exists g, clique_matrix pvs names = Ok g /\ zlen g = zlen names /\ (forall r, In r g -> zlen r = zlen names) /\
  forall a b ca cb, nthZ names a = Some ca -> nthZ names b = Some cb ->
    nthd 0 (nthd [] g a) b = 0 /\ ~ (a < b /\ exists p, In (ca, cb, p, false) pvs \/ In (cb, ca, p, false) pvs) \/
    nthd 0 (nthd [] g a) b = 1 /\ a < b /\ exists p, In (ca, cb, p, false) pvs \/ In (cb, ca, p, false) pvs.
Proof.
  intros F pvs names Hnd Hin. destruct (clique_matrix_ok pvs names Hnd) as (g & E & [S1 S2] & HC); [intros; eapply Hin; eauto|].
  exists g. split; [exact E|]. split; [exact S1|]. split; [exact S2|]. intros a b ca cb Ha Hb.
  destruct (HC a b (nthZ_range _ _ _ Ha) (nthZ_range _ _ _ Hb)) as [K1 [K2|K2]]; [left|right]; (split; [exact K2|]).
  - intros (Hab & p & [Hp|Hp]); (assert (K3 : gcell g a b = 1); [apply K1; split; [lia|eauto 8]|congruence]).
  - apply K1 in K2 as (Hab & c1 & c2 & p & Hp & Hc). destruct (Hin _ _ _ _ Hp) as (Hne & _).
    destruct Hc as [[H1 H2]|[H1 H2]]; rewrite Ha in H1; rewrite Hb in H2; injection H1 as ->; injection H2 as ->.
    + split; [destruct (Z.eq_dec a b) as [->|]; [congruence|lia]|]. eauto.
    + split; [destruct (Z.eq_dec a b) as [->|]; [congruence|lia]|]. eauto.
Qed.
Print Assumptions C66_matrix.

Example C66_case : clique_matrix [(1, 2, 17, true); (2, 3, 20, true); (1, 3, 75, false)] [3; 2; 1] = Ok [[0; 0; 1]; [0; 0; 0]; [0; 0; 0]].
Proof. vm_compute. reflexivity. Qed.
