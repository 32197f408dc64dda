(** C70: the critical difference diagram shows the ranking and the groups of indistinguishable classifiers. *)
From Coq Require Import String ZArith List Bool Lia Permutation Reals Lra.
From Verif Require Import Prelude Num RealBase Kernel PlotUtils PlotProofs PlotReal CdDiagram CdProofs PropsPlot TransformProofs NumbaUtilsProofs.
Import ListNotations.
Open Scope Z_scope.

(** ** C70.  The diagram *)

(** The abscissa of a mean place [r] among [m] classifiers in a figure [width] inches wide: the place m at the left end of the axis
    (1.25 inches from the border), the place 1 at the right end. *)
Definition abscissa (width : R) (m : Z) (r : R) : R := (1.25 + (width - 2.5) * (IZR m - r) / (IZR m - 1))%R.

Lemma abscissa_mono width m r r' : 2 <= m -> (2.5 <= width)%R -> (r' <= r)%R -> (abscissa width m r <= abscissa width m r')%R.
Proof.
  intros Hm Hw Hr. unfold abscissa. apply IZR_le in Hm. apply Rplus_le_compat_l, Rmult_le_compat_r; [left; apply Rinv_0_lt_compat; lra|].
  apply Rmult_le_compat_l; lra.
Qed.

Lemma rankpos_R width m r : (2 <= m) -> rankpos RN width (dec RN 125 100) true 1 m r = abscissa width m r.
Proof.
  intros Hm. unfold rankpos, scalewidth, abscissa, dec. cbn. rewrite minus_IZR. assert (IZR m - 1 <> 0)%R by (apply IZR_le in Hm; lra).
  replace 1.25%R with (125 / 100)%R by lra. replace 2.5%R with (5 / 2)%R by lra. field. exact H.
Qed.

(** The names written, from left to right and top to bottom. *)
Definition names_shown {F} (l : list (cmd F)) : list Z :=
  flat_map (fun x => match x with CText _ _ (LName c) _ => [c] | _ => [] end) l.
(** The pair is among the tested ones and was not found significant. *)
Definition alike {F} (pv : list (@pval F)) (c c' : Z) : Prop := exists p, In (c, c', p, false) pv \/ In (c', c, p, false) pv.

Lemma complete_in {F} (df : list (Z * Z * F)) cls D acc c : complete df cls D acc -> In c (map (fun r => fst (fst r)) df) -> In c cls.
Proof.
  intros (_ & _ & HP) H. apply in_map_iff in H as ([[c0 d] a] & <- & H). apply (Permutation_in _ HP) in H. apply in_flat_map in H as (c & Hc & H).
  apply in_map_iff in H as (d' & E & _). injection E as <- _ _. exact Hc.
Qed.

Lemma Forall2_in_l {A B} (P : A -> B -> Prop) l l' x : Forall2 P l l' -> In x l -> exists y, In y l' /\ P x y.
Proof. induction 1 as [|a b l l' H _ IH]; [intros []|]. intros [<-|K]; [exists b; simpl; auto|]. destruct (IH K) as (y & ? & ?). exists y; simpl; auto. Qed.
Lemma Forall2_in_r {A B} (P : A -> B -> Prop) l l' y : Forall2 P l l' -> In y l' -> exists x, In x l /\ P x y.
Proof. induction 1 as [|a b l l' H _ IH]; [intros []|]. intros [<-|K]; [exists a; simpl; auto|]. destruct (IH K) as (x & ? & ?). exists x; simpl; auto. Qed.
Lemma two_len {A} (l : list A) a b : In a l -> In b l -> a <> b -> zlen l <> 1.
Proof.
  destruct l as [|x [|y l]]; [intros []|intros [->|[]] [->|[]] H; congruence|]. intros _ _ _. rewrite !zlen_cons. pose proof (zlen_nonneg l). lia.
Qed.

(** On a complete comparison, with a test that always answers and cliques as networkx documents them, the diagram is drawn and:
    - every classifier is named exactly once, the worst mean place first;
    - each classifier has a line from its mean place on the axis to the height of its name, red exactly for the highlighted one;
    - the numbers 1 to m are written at their places on the axis;
    - every pair of classifiers not found significantly different lies between the ends of one bar;
    - the classifiers at the two ends of a bar are not significantly different, and the bars are at different heights. *)
Theorem C70_diagram : forall fc wilcoxon alpha width labels path highlight (df : list (Z * Z * R)) cls D acc,
  enumerates fc -> complete df cls D acc -> D <> [] -> 3 <= zlen cls -> (forall a b, exists p, wilcoxon a b = Ok p) -> (2.5 <= width)%R ->
  let x := fun c => abscissa width (zlen cls) (mean_place cls D acc c) in
  exists pv ranks cmds files,
  wilcoxon_holm RN wilcoxon alpha df = Ok (pv, ranks, zlen D) /\
  draw_cd_diagram RN fc wilcoxon alpha width labels path highlight df = Ok (cmds, files) /\
  Permutation (names_shown cmds) cls /\
  (forall i j c c', i < j -> nthZ (names_shown cmds) i = Some c -> nthZ (names_shown cmds) j = Some c' -> (mean_place cls D acc c' <= mean_place cls D acc c)%R) /\
  (forall c, In c cls -> exists y edge xt red, (red = true <-> highlight = Some c) /\
     In (CLine 2 [(x c, 0.65); (x c, y); (edge, y)]%R red) cmds /\ In (CText xt y (LName c) red) cmds) /\
  (forall a, (exists u v red, In (CText u v (LRank a) red) cmds) <-> 1 <= a <= zlen cls) /\
  (forall a u v red, In (CText u v (LRank a) red) cmds -> u = abscissa width (zlen cls) (IZR a)) /\
  (forall c c', alike pv c c' -> exists a b y, In (CLine 4 [(a + 0.02, y); (b - 0.02, y)]%R false) cmds /\ (a <= x c <= b)%R /\ (a <= x c' <= b)%R) /\
  (forall pts red, In (CLine 4 pts red) cmds -> exists c c' y, alike pv c c' /\ (x c <= x c')%R /\ red = false /\ pts = [(x c + 0.02, y); (x c' - 0.02, y)]%R) /\
  (exists ys, NoDup ys /\ Forall2 line_height (filter (fun k => match k with CLine 4 _ _ => true | _ => false end) cmds) ys).
Proof.
  intros fc wilcoxon alpha width labels path highlight df cls D acc Hfc HC HD H3 HW Hw x.
  destruct (C64_ranks wilcoxon alpha df cls D acc HC HD H3 HW) as (pv & ranks & EW & HP & HS).
  assert (Hnd : NoDup cls) by (destruct HC as (Hi & _); apply incr_NoDup; exact Hi).
  set (nnames := map fst ranks). set (ssums := map snd ranks).
  assert (HN : Permutation nnames cls).
  { unfold nnames. apply (Permutation_map fst) in HP. rewrite map_map in HP. cbn [fst] in HP. rewrite map_id in HP. exact HP. }
  assert (Hm : zlen ranks = zlen cls) by (apply Permutation_length in HP; rewrite map_length in HP; unfold zlen; congruence).
  assert (Hmn : zlen nnames = zlen cls) by (unfold nnames; rewrite zlen_map; exact Hm).
  assert (Hms : zlen ssums = zlen cls) by (unfold ssums; rewrite zlen_map; exact Hm).
  assert (HNd : NoDup nnames) by (apply (Permutation_NoDup (Permutation_sym HN)); exact Hnd).
  assert (HR : forall i c s, nthZ nnames i = Some c -> nthZ ssums i = Some s -> In c cls /\ s = mean_place cls D acc c).
  { intros i c s Hc Hs. unfold nnames, ssums in *. rewrite nthZ_map in Hc. rewrite nthZ_map in Hs. destruct (nthZ ranks i) as [[c0 s0]|] eqn:E; [|discriminate].
    cbn in Hc, Hs. injection Hc as ->. injection Hs as ->. apply nthZ_In in E. apply (Permutation_in _ HP) in E. apply in_map_iff in E as (c1 & E & Hc1).
    injection E as -> <-. auto. }
  destruct (C64_sum cls D acc Hnd HD) as [_ HB].
  assert (HRg : forall r, In r ssums -> (1 <= r <= IZR (zlen ssums))%R).
  { intros r Hr. apply In_nthZ in Hr as (i & Hi). destruct (get_ok nnames i) as (c & _ & Hc); [apply nthZ_range in Hi; lia|].
    destruct (HR i c r Hc Hi) as (Hin & ->). rewrite Hms. apply HB, Hin. }
  assert (Hne : ssums <> []) by (intros E; rewrite E in Hms; cbn in Hms; lia).
  destruct (axis_R ssums Hne HRg) as [EL EH]. rewrite Hms in EH.
  destruct (C54_pairs RN wilcoxon alpha df pv ranks (zlen D) EW) as (_ & HPairs & _ & _).
  assert (Hpv : forall c1 c2 p b, In (c1, c2, p, b) pv -> c1 <> c2 /\ In c1 nnames /\ In c2 nnames).
  { intros c1 c2 p b Hin. assert (K : In (c1, c2) (map pair_of pv)) by (apply in_map_iff; exists (c1, c2, p, b); auto).
    apply HPairs in K as ((K1 & _) & (K2 & _) & K3). split; [lia|]. split; eapply Permutation_in; try (apply Permutation_sym; exact HN); eapply complete_in; eauto. }
  destruct (C66_matrix R pv nnames HNd Hpv) as (g & EG & Hg & _ & HCell).
  assert (HEdge : forall a b ca cb, a <> b -> nthZ nnames a = Some ca -> nthZ nnames b = Some cb -> (edge g a b <-> alike pv ca cb)).
  { intros a b ca cb Hab Ha Hb. unfold edge, alike. pose proof (HCell a b ca cb Ha Hb) as K1. pose proof (HCell b a cb ca Hb Ha) as K2. split.
    - intros [K|K]; [destruct K1 as [[K1 _]|(_ & _ & K1)]; [contradiction|exact K1]|].
      destruct K2 as [[K2 _]|(_ & _ & p & K2)]; [contradiction|]. exists p. tauto.
    - intros (p & Hp). destruct (Z.lt_ge_cases a b).
      + left. destruct K1 as [[_ K1]|[K1 _]]; [exfalso; apply K1; split; [lia|]; exists p; exact Hp|lia].
      + right. destruct K2 as [[_ K2]|[K2 _]]; [exfalso; apply K2; split; [lia|]; exists p; tauto|lia]. }
  destruct (Hfc g) as [HF1 HF2].
  assert (HQ : forall q, In q (fc g) -> q <> [] /\ forall v, In v q -> 0 <= v < zlen ssums).
  { intros q Hq. destruct (HF1 q Hq) as ((K1 & _ & K2 & _) & _). split; [exact K1|]. intros v Hv. rewrite Hms, <- Hmn, <- Hg. apply K2, Hv. }
  destruct (names_ok RN ssums nnames width (dec RN 125 100) true labels highlight 1 (zlen cls)) as (ln & rn & E1 & E2 & N1 & N2 & N3 & N4); [lia|].
  destruct (bars_gen RN ssums nnames width (dec RN 125 100) true 1 (zlen cls) (fc g) ((nadd RN (cline RN) (dec RN 2 10), false), []) HQ) as (st & bars & EB & EO & HBars).
  destruct (heights_R ssums nnames width (dec RN 125 100) true 1 (zlen cls) (fc g) HQ st EB) as (ys & HY & HYd).
  cbn [snd app] in EO. rewrite EO in HY.
  exists pv, ranks. do 2 eexists. split; [exact EW|]. split.
  { unfold draw_cd_diagram. rewrite EW, bind_Ok. unfold graph_ranks. fold ssums nnames. rewrite EL, EH, !bind_Ok.
    assert (EGd : guard (negb (zlen cls - 1 =? 0)) ZeroDivisionError = Ok tt) by (destruct (Z.eqb_spec (zlen cls - 1) 0); [lia|reflexivity]).
    rewrite EGd, bind_Ok, E1, bind_Ok, E2, bind_Ok, EG, bind_Ok, EB, !bind_Ok. reflexivity. }
  rewrite EO.
  assert (HX : forall c, In c cls -> rankpos RN width (dec RN 125 100) true 1 (zlen cls) (mean_place cls D acc c) = x c).
  { intros c _. apply rankpos_R. lia. }
  assert (HBr : forall k, In k bars -> exists q, In q (fc g) /\ zlen q <> 1 /\ bar_of RN ssums width (dec RN 125 100) true 1 (zlen cls) q k).
  { intros k Hk. destruct (Forall2_in_r _ _ _ _ HBars Hk) as (q & Hq & K). apply filter_In in Hq as [Hq Hz]. exists q. split; [exact Hq|]. split; [|exact K].
    intros E. rewrite E in Hz. discriminate. }
  assert (HNone : forall l, (forall k, In k l -> exists w p r, k = CLine w p r) -> names_written (F := R) l = []).
  { induction l as [|k l IH]; intros Hl; [reflexivity|]. cbn. destruct (Hl k (or_introl eq_refl)) as (w & p & r & ->). cbn. apply IH. intros; apply Hl; right; auto. }
  set (axis := CLine 2 _ false). set (tk := ticks RN _ _ _ _ _). set (tt_ := tick_texts RN _ _ _ _ _).
  assert (HTk : forall k, In k tk -> exists p, k = CLine 2 p false) by (intros k Hk; unfold tk, ticks in Hk; apply in_map_iff in Hk as (h & <- & _); eauto).
  assert (HTt : forall k, In k tt_ -> exists a v, 1 <= a <= zlen cls /\ k = CText (abscissa width (zlen cls) (IZR a)) v (LRank a) false).
  { intros k Hk. unfold tt_, tick_texts in Hk. apply in_map_iff in Hk as (a & <- & Ha). apply in_zrange in Ha. rewrite rankpos_R by lia. exists a. eexists. split; [lia|reflexivity]. }
  assert (HNames : names_written ([axis] ++ tk ++ tt_ ++ ln ++ rn ++ bars) = nnames).
  { rewrite !names_written_app. rewrite (HNone [axis]) by (intros k [<-|[]]; do 3 eexists; reflexivity).
    rewrite (HNone tk) by (intros k Hk; destruct (HTk k Hk) as (p & ->); eauto). rewrite (HNone bars).
    2:{ intros k Hk. destruct (HBr k Hk) as (q & _ & _ & a & b & s1 & s2 & y & _ & _ & _ & _ & ->). eauto. }
    assert (ET : names_written tt_ = []).
    { clear -HTt. induction tt_ as [|k l IH]; [reflexivity|]. cbn. destruct (HTt k (or_introl eq_refl)) as (a & v & _ & ->). cbn. apply IH. intros; apply HTt; right; auto. }
    rewrite ET, app_nil_r. cbn [app]. rewrite <- names_written_app. exact N1. }
  change names_shown with (@names_written R). rewrite HNames.
  split; [exact HN|]. split.
  { intros i j c c' Hij Hi Hj. destruct (get_ok ssums i) as (s & _ & Hs); [apply nthZ_range in Hi; lia|]. destruct (get_ok ssums j) as (s' & _ & Hs'); [apply nthZ_range in Hj; lia|].
    destruct (HR i c s Hi Hs) as (_ & <-). destruct (HR j c' s' Hj Hs') as (_ & <-).
    unfold nnames, ssums in *. rewrite nthZ_map in Hi. rewrite nthZ_map in Hj. rewrite nthZ_map in Hs. rewrite nthZ_map in Hs'. destruct (nthZ ranks i) as [[ci si]|] eqn:Ei; [|discriminate]. destruct (nthZ ranks j) as [[cj sj]|] eqn:Ej; [|discriminate].
    cbn in *. injection Hs as ->. injection Hs' as ->. exact (HS i j _ _ _ _ Hij Ei Ej). }
  assert (HSort : forall i j s s', i <= j -> nthZ ssums i = Some s -> nthZ ssums j = Some s' -> (s' <= s)%R).
  { intros i j s s' Hij Hi Hj. destruct (Z.eq_dec i j) as [->|]; [rewrite Hi in Hj; injection Hj as ->; lra|].
    unfold ssums in *. rewrite nthZ_map in Hi. rewrite nthZ_map in Hj. destruct (nthZ ranks i) as [[ci si]|] eqn:Ei; [|discriminate]. destruct (nthZ ranks j) as [[cj sj]|] eqn:Ej; [|discriminate].
    cbn in *. injection Hi as ->. injection Hj as ->. refine (HS i j _ _ _ _ _ Ei Ej). lia. }
  split.
  { intros c Hc. apply (Permutation_in _ (Permutation_sym HN)) in Hc as Hc'. apply In_nthZ in Hc' as (i & Hi).
    destruct (N4 i) as (s & c' & y & e & xt & Hs & Hc' & K1 & K2); [apply nthZ_range in Hi; lia|]. rewrite Hi in Hc'. injection Hc' as <-.
    destruct (HR i c s Hi Hs) as (_ & ->). rewrite HX in K1 by exact Hc. exists y, e, xt, (is_highlight highlight c). split; [|split].
    - unfold is_highlight. destruct highlight as [h|]; [|split; discriminate]. rewrite Z.eqb_eq. split; [intros ->; reflexivity|intros K; injection K as ->; reflexivity].
    - assert (E65 : cline RN = 0.65%R) by (unfold cline, dec; cbn; lra). rewrite E65 in K1.
      apply in_or_app. right. apply in_or_app. right. apply in_or_app. right. rewrite app_assoc. apply in_or_app. left. exact K1.
    - apply in_or_app. right. apply in_or_app. right. apply in_or_app. right. rewrite app_assoc. apply in_or_app. left. exact K2. }
  assert (HTxt : forall u v a red, In (CText u v (LRank a) red) ([axis] ++ tk ++ tt_ ++ ln ++ rn ++ bars) <-> In (CText u v (LRank a) red) tt_).
  { intros u v a red. split.
    - intros K. apply in_app_or in K as [[K|[]]|K]; [discriminate|]. apply in_app_or in K as [K|K]; [destruct (HTk _ K) as (p & K'); discriminate|].
      apply in_app_or in K as [K|K]; [exact K|]. rewrite app_assoc in K. apply in_app_or in K as [K|K]; [exfalso; exact (N3 _ _ _ _ K)|].
      destruct (HBr _ K) as (q & _ & _ & a0 & b & s1 & s2 & y & _ & _ & _ & _ & K'). discriminate.
    - intros K. apply in_or_app. right. apply in_or_app. right. apply in_or_app. left. exact K. }
  split.
  { intros a. split.
    - intros (u & v & red & K). apply HTxt, HTt in K as (a' & v' & Ha & K). injection K as _ _ -> _. exact Ha.
    - intros Ha. do 3 eexists. apply HTxt. unfold tt_, tick_texts. apply in_map_iff. exists a. split; [reflexivity|apply in_zrange; lia]. }
  split.
  { intros a u v red K. apply HTxt, HTt in K as (a' & v' & Ha & K). injection K as -> _ -> _. reflexivity. }
  assert (HPos : forall s, rankpos RN width (dec RN 125 100) true 1 (zlen cls) s = abscissa width (zlen cls) s) by (intros; apply rankpos_R; lia).
  split.
  { intros c c' HA.
    assert (HA' : c <> c' /\ In c nnames /\ In c' nnames).
    { destruct HA as (p & [K|K]); apply Hpv in K as (K1 & K2 & K3); [auto|repeat split; auto; congruence]. }
    destruct HA' as (Hcc & Hc & Hc'). apply In_nthZ in Hc as (i & Hi), Hc' as (j & Hj).
    assert (Hij : i <> j) by (intros ->; rewrite Hi in Hj; injection Hj as ->; contradiction).
    pose proof (nthZ_range _ _ _ Hi) as Ri. pose proof (nthZ_range _ _ _ Hj) as Rj.
    destruct (clique_extends g [i; j]) as (q & Hq & Hinc).
    { split; [discriminate|]. split; [constructor; [intros [K|[]]; congruence|constructor; [intros []|constructor]]|]. split.
      - intros v [<-|[<-|[]]]; rewrite Hg; assumption.
      - intros a b [<-|[<-|[]]] [<-|[<-|[]]] Hab; try congruence; [apply (HEdge _ _ _ _ Hab Hi Hj); exact HA|].
        apply edge_sym, (HEdge _ _ _ _ Hij Hi Hj); exact HA. }
    destruct (HF2 q Hq) as (q' & Hq' & Heq).
    assert (Hi' : In i q') by (apply Heq, Hinc; left; reflexivity). assert (Hj' : In j q') by (apply Heq, Hinc; right; left; reflexivity).
    assert (Hz : zlen q' <> 1) by exact (two_len q' i j Hi' Hj' Hij).
    destruct (Forall2_in_l _ _ _ q' HBars) as (k & Hk & a & b & s1 & s2 & y & Ea & Eb & Hs1 & Hs2 & ->).
    { apply filter_In. split; [exact Hq'|]. destruct (Z.eqb_spec (zlen q') 1); [contradiction|reflexivity]. }
    exists (abscissa width (zlen cls) s1), (abscissa width (zlen cls) s2), y. split.
    { do 4 (apply in_or_app; right). apply in_or_app. right. rewrite !HPos in Hk.
      match type of Hk with In ?k1 _ => match goal with |- In ?k2 _ => replace k2 with k1; [exact Hk|] end end.
      unfold dec. cbn. do 2 f_equal; [f_equal; lra|f_equal; f_equal; lra]. }
    destruct (min_list_spec _ _ Ea) as [_ Ma]. destruct (max_list_spec _ _ Eb) as [_ Mb].
    destruct (get_ok ssums i) as (si & _ & Hsi); [lia|]. destruct (get_ok ssums j) as (sj & _ & Hsj); [lia|].
    destruct (HR i c si Hi Hsi) as (_ & Ei). destruct (HR j c' sj Hj Hsj) as (_ & Ej). unfold x. rewrite <- Ei, <- Ej.
    repeat split; apply abscissa_mono; try assumption; try lia.
    - eapply HSort; [|exact Hs1|exact Hsi]. apply Ma, Hi'.
    - eapply HSort; [|exact Hsi|exact Hs2]. apply Mb, Hi'.
    - eapply HSort; [|exact Hs1|exact Hsj]. apply Ma, Hj'.
    - eapply HSort; [|exact Hsj|exact Hs2]. apply Mb, Hj'. }
  split.
  { intros pts red K. assert (Hk : In (CLine 4 pts red) bars).
    { apply in_app_or in K as [[K|[]]|K]; [discriminate|]. apply in_app_or in K as [K|K]; [destruct (HTk _ K) as (p & K'); discriminate|].
      apply in_app_or in K as [K|K]; [destruct (HTt _ K) as (a & v & _ & K'); discriminate|]. rewrite app_assoc in K.
      apply in_app_or in K as [K|K]; [apply N2 in K; discriminate|exact K]. }
    destruct (HBr _ Hk) as (q & Hq & Hz & a & b & s1 & s2 & y & Ea & Eb & Hs1 & Hs2 & E). injection E as -> ->.
    destruct (min_list_spec _ _ Ea) as [Ia Ma]. destruct (max_list_spec _ _ Eb) as [Ib Mb].
    assert (Hab : a <> b).
    { intros <-. apply Hz. destruct (HF1 q Hq) as ((K1 & K2 & _) & _). destruct q as [|v [|w q]]; [contradiction|reflexivity|]. exfalso.
      inversion K2 as [|? ? K3 _]. apply K3. left.
      pose proof (Ma v (or_introl eq_refl)). pose proof (Mb v (or_introl eq_refl)). pose proof (Ma w (or_intror (or_introl eq_refl))). pose proof (Mb w (or_intror (or_introl eq_refl))). lia. }
    destruct (get_ok nnames a) as (ca & _ & Hca); [apply nthZ_range in Hs1; lia|]. destruct (get_ok nnames b) as (cb & _ & Hcb); [apply nthZ_range in Hs2; lia|].
    destruct (HR a ca s1 Hca Hs1) as (_ & E1'). destruct (HR b cb s2 Hcb Hs2) as (_ & E2').
    exists ca, cb, y. split; [apply (HEdge a b ca cb Hab Hca Hcb); destruct (HF1 q Hq) as ((_ & _ & _ & KE) & _); apply KE; auto|].
    split; [unfold x; rewrite <- E1', <- E2'; apply abscissa_mono; [lia|exact Hw|]; eapply HSort; [|exact Hs1|exact Hs2]; apply Ma, Ib|]. split; [reflexivity|].
    pose proof (HPos s1) as P1. pose proof (HPos s2) as P2. unfold rankpos, scalewidth, dec in P1, P2. cbn in P1, P2. rewrite P1, P2, E1', E2'.
    fold (x ca) (x cb). f_equal; [f_equal; lra|f_equal; f_equal; lra]. }
  exists ys. split; [exact HYd|]. 
  assert (EF : filter (fun k : cmd R => match k with CLine 4 _ _ => true | _ => false end) ([axis] ++ tk ++ tt_ ++ ln ++ rn ++ bars) = bars).
  { assert (F0 : forall l : list (cmd R), (forall w p r, In (CLine w p r) l -> w = 2) -> filter (fun k : cmd R => match k with CLine 4 _ _ => true | _ => false end) l = []).
    { induction l as [|k l IH]; intros Hl; [reflexivity|]. cbn [filter]. rewrite IH by (intros; eapply Hl; right; eauto).
      destruct k as [w p r|]; [|reflexivity]. rewrite (Hl w p r (or_introl eq_refl)). reflexivity. }
    assert (F1 : forall l : list (cmd R), (forall k, In k l -> exists p r, k = CLine 4 p r) -> filter (fun k : cmd R => match k with CLine 4 _ _ => true | _ => false end) l = l).
    { induction l as [|k l IH]; intros Hl; [reflexivity|]. cbn [filter]. rewrite IH by (intros; eapply Hl; right; eauto).
      destruct (Hl k (or_introl eq_refl)) as (p & r & ->). reflexivity. }
    rewrite (app_assoc ln), !filter_app, (F0 [axis]), (F0 tk), (F0 tt_).
    - rewrite <- filter_app, (F0 (ln ++ rn)) by (intros; eapply N2; eauto). cbn [app]. apply F1. intros k Hk.
      destruct (HBr k Hk) as (q & _ & _ & a & b & s1 & s2 & y & _ & _ & _ & _ & ->). eauto.
    - intros w p r K. destruct (HTt _ K) as (a & v & _ & K'). discriminate.
    - intros w p r K. destruct (HTk _ K) as (p' & K'). injection K' as -> _ _. reflexivity.
    - intros w p r [K|[]]. injection K as <- _ _. reflexivity. }
  rewrite EF. exact HY.
Qed.
Print Assumptions C70_diagram.

(** A clique enumeration by brute force meets the hypothesis. *)
Fixpoint subsets (l : list Z) : list (list Z) := match l with [] => [[]] | v :: t => subsets t ++ map (cons v) (subsets t) end.

Lemma subsets_filter P l : In (filter P l) (subsets l).
Proof. induction l as [|v l IH]; [left; reflexivity|]. cbn [filter subsets]. apply in_or_app. destruct (P v); [right; apply in_map; exact IH|left; exact IH]. Qed.

Lemma forall_in_dec {A} (P : A -> Prop) (l : list A) : (forall x, {P x} + {~ P x}) -> {forall x, In x l -> P x} + {~ forall x, In x l -> P x}.
Proof. intros HD. destruct (Forall_dec P HD l) as [K|K]; [left|right]; [apply Forall_forall; exact K|intros H; apply K, Forall_forall, H]. Defined.

Lemma nodup_dec (l : list Z) : {NoDup l} + {~ NoDup l}.
Proof.
  induction l as [|x l [IH|IH]]; [left; constructor| |right; intros H; inversion H; contradiction].
  destruct (in_dec Z.eq_dec x l) as [K|K]; [right; intros H; inversion H; contradiction|left; constructor; assumption].
Defined.

Lemma maximal_dec g q : {maximal g q} + {~ maximal g q}.
Proof.
  assert (C : {clique g q} + {~ clique g q}).
  { unfold clique. destruct q as [|q0 qt] eqn:E; [right; intros [K _]; apply K; reflexivity|]. rewrite <- E.
    destruct (nodup_dec q) as [H1|H1]; [|right; tauto].
    destruct (forall_in_dec (fun v => 0 <= v < zlen g) q) as [H2|H2].
    { intros v. destruct (Z_le_dec 0 v), (Z_lt_dec v (zlen g)); [left; lia|right; lia..]. }
    - destruct (forall_in_dec (fun a => forall b, In b q -> a <> b -> edge g a b) q) as [H3|H3].
      { intros a. destruct (forall_in_dec (fun b => a <> b -> edge g a b) q) as [K|K].
        - intros b. destruct (Z.eq_dec a b); [left; congruence|]. destruct (edge_dec g a b); [left; auto|right; auto].
        - left. exact K.
        - right. exact K. }
      + left. split; [rewrite E; discriminate|]. auto.
      + right. intros (_ & _ & _ & K). apply H3. auto.
    - right. intros (_ & _ & K & _). apply H2. exact K. }
  destruct C as [C|C]; [|right; intros [K _]; contradiction].
  destruct (forall_in_dec (fun v => ~ In v q -> ~ forall a, In a q -> edge g a v) (zrange 0 (zlen g))) as [K|K].
  - intros v. destruct (in_dec Z.eq_dec v q); [left; contradiction|].
    destruct (forall_in_dec (fun a => edge g a v) q) as [H|H]; [intros a; apply edge_dec|right; tauto|left; auto].
  - left. split; [exact C|]. intros v Hv Hn. specialize (K v (proj2 (in_zrange 0 (zlen g) v) Hv) Hn).
    clear -K. induction q as [|a q IH]; [exfalso; apply K; intros a []|]. destruct (edge_dec g a v) as [E|E]; [|exists a; split; [left; reflexivity|exact E]].
    destruct IH as (b & Hb & Hn).
    + intros H. apply K. intros b [<-|Hb]; auto.
    + exists b. split; [right|]; assumption.
  - right. intros [_ H]. apply K. intros v Hv Hn HA. apply in_zrange in Hv. destruct (H v Hv Hn) as (a & Ha & He). apply He, HA, Ha.
Defined.

Definition brute (g : list (list Z)) : list (list Z) := filter (fun q => if maximal_dec g q then true else false) (subsets (zrange 0 (zlen g))).

Lemma brute_ok : enumerates brute.
Proof.
  intros g. unfold brute. split.
  - intros q Hq. apply filter_In in Hq as [_ Hq]. destruct (maximal_dec g q); [assumption|discriminate].
  - intros q Hq. set (q' := filter (fun v => if in_dec Z.eq_dec v q then true else false) (zrange 0 (zlen g))).
    assert (E : forall v, In v q <-> In v q').
    { intros v. unfold q'. rewrite filter_In, in_zrange. destruct (in_dec Z.eq_dec v q) as [K|K]; [|split; [contradiction|intros [_ D]; discriminate]].
      split; [|auto]. intros _. split; [|reflexivity]. apply Hq, K. }
    exists q'. split; [|exact E]. apply filter_In. split; [apply subsets_filter|]. destruct (maximal_dec g q') as [|K]; [reflexivity|]. exfalso. apply K.
    destruct Hq as ((K1 & K2 & K3 & K4) & K5). split; [split; [|split; [|split]]|].
    + intros E0. destruct q as [|x q]; [contradiction|]. assert (In x q') by (apply E; left; reflexivity). rewrite E0 in H. destruct H.
    + unfold q'. apply NoDup_filter. apply incr_NoDup, incr_zrange.
    + intros v Hv. apply K3, E, Hv.
    + intros a b Ha Hb. apply K4; apply E; assumption.
    + intros v Hv Hn. destruct (K5 v Hv) as (a & Ha & He); [intros K'; apply Hn, E, K'|]. exists a. split; [apply E, Ha|exact He].
Qed.

(** Three classifiers on two datasets, 1 always better than 2 and 2 always better than 3; the test finds only 1 and 3 alike. *)
Definition cd_acc (c d : Z) : R := (IZR (3 - c) / 2)%R.
Definition cd_df : list (Z * Z * R) := flat_map (fun c => map (fun d => (c, d, cd_acc c d)) [1; 2]) [1; 2; 3].
Definition cd_test (a b : list R) : res R := Ok (if Req_EM_T (nthd 0 a 0 - nthd 0 b 0) 1 then 1 else 0)%R.

Example C70_case : enumerates brute /\ complete cd_df [1; 2; 3] [1; 2] cd_acc /\ [1; 2] <> [] /\ 3 <= zlen [1; 2; 3] /\
  (forall a b, exists p, cd_test a b = Ok p) /\ (2.5 <= 10)%R.
Proof.
  split; [apply brute_ok|]. split; [split; [cbn; intuition lia|split; [cbn; intuition lia|apply Permutation_refl]]|]. split; [discriminate|].
  split; [apply Z.leb_le; reflexivity|]. split; [|lra]. intros a b. unfold cd_test. eauto.
Qed.

(** A bar may cover a classifier that is significantly different from those at its ends. *)
Theorem C70_bar_refuted : exists fc wilcoxon alpha width (df : list (Z * Z * R)) cls D acc pv ranks mx cmds files c c' p a b y,
  enumerates fc /\ complete df cls D acc /\ wilcoxon_holm RN wilcoxon alpha df = Ok (pv, ranks, mx) /\
  draw_cd_diagram RN fc wilcoxon alpha width false None None df = Ok (cmds, files) /\
  In (c, c', p, true) pv /\ In (CLine 4 [(a + 0.02, y); (b - 0.02, y)]%R false) cmds /\
  (a <= abscissa width (zlen cls) (mean_place cls D acc c) <= b)%R /\ (a <= abscissa width (zlen cls) (mean_place cls D acc c') <= b)%R.
Proof.
  destruct C70_case as (H1 & H2 & H3 & H4 & H5 & H6).
  destruct (C70_diagram brute cd_test 0.05%R 10%R false None None cd_df [1; 2; 3] [1; 2] cd_acc H1 H2 H3 H4 H5 H6)
    as (pv & ranks & cmds & files & E1 & E2 & _ & _ & _ & _ & _ & HB & _).
  destruct (C54_pairs RN cd_test 0.05%R cd_df pv ranks _ E1) as (_ & HP & HT & m & Hm & Hz & clsm & Hnd & Hzm & Hcm).
  destruct (C54_holm RN cd_test (fun _ => True) R_order_laws (fun _ _ _ _ => I) 0.05%R cd_df pv ranks _ E1) as (HS & HH).
  assert (HMT : forall c, most_tested cd_df c <-> In c [1; 2; 3]).
  { intros c. split.
    - intros [K _]. eapply complete_in; eauto.
    - intros K. split; [cbn in *; tauto|]. intros c'. assert (EQ : zlen (accuracies c cd_df) = 2) by (destruct K as [<-|[<-|[<-|[]]]]; reflexivity). rewrite EQ.
      unfold accuracies. rewrite zlen_map. unfold cd_df. cbn [flat_map map app filter fst].
      destruct (1 =? c') eqn:A1, (2 =? c') eqn:A2, (3 =? c') eqn:A3; rewrite ?Z.eqb_eq in *; try lia; apply Z.leb_le; reflexivity. }
  assert (Hm3 : m = 3).
  { rewrite <- Hzm. transitivity (zlen [1; 2; 3]); [|reflexivity]. unfold zlen. f_equal. apply Permutation_length. apply NoDup_Permutation; [exact Hnd| |].
    - repeat constructor; cbn; intuition lia.
    - intros c. rewrite Hcm. apply HMT. }
  subst m. rewrite Hm3 in Hz. assert (Hz3 : zlen pv = 3) by lia.
  assert (HF : forall c1 c2, In c1 [1; 2; 3] -> In c2 [1; 2; 3] -> c1 < c2 -> exists p b, In (c1, c2, p, b) pv).
  { intros c1 c2 K1 K2 K3. assert (K : In (c1, c2) (map pair_of pv)) by (apply HP; rewrite !HMT; auto).
    apply in_map_iff in K as ([[[d1 d2] p] b] & K & Hin). cbn in K. injection K as -> ->. eauto. }
  destruct (HF 1 2) as (p12 & b12 & I12); [cbn; tauto..|lia|]. destruct (HF 1 3) as (p13 & b13 & I13); [cbn; tauto..|lia|].
  pose proof (HT _ _ _ _ I12) as T12. pose proof (HT _ _ _ _ I13) as T13. cbn in T12, T13.
  unfold cd_test in T12, T13. injection T12 as T12. injection T13 as T13.
  assert (P12 : p12 = 0%R) by (clear T13; rewrite <- T12; clear T12; destruct (Req_EM_T _ 1) as [K|]; [exfalso; unfold cd_acc, nthd in K; cbn in K; lra|reflexivity]).
  assert (P13 : p13 = 1%R) by (clear T12; rewrite <- T13; clear T13; destruct (Req_EM_T _ 1) as [|K]; [reflexivity|exfalso; apply K; unfold cd_acc, nthd; cbn; lra]).
  clear T12 T13. subst p12 p13.
  apply In_nthZ in I12 as K12. destruct K12 as (i12 & K12). apply In_nthZ in I13 as K13. destruct K13 as (i13 & K13).
  assert (B12 : b12 = true).
  { apply (HH i12 (1, 2) 0%R b12 K12). intros j c' q b' Hj Hq. assert (Rj : 0 <= j < 3) by (rewrite <- Hz3; exact (nthZ_range _ _ _ Hq)). cbn. replace (zlen pv) with 3 by (symmetry; exact Hz3).
    assert (Hq0 : (q <= 0)%R).
    { destruct (Z.eq_dec j i12) as [->|]; [pose proof (eq_trans (eq_sym K12) Hq) as KK; assert (KQ : 0%R = q) by congruence; lra|].
      assert (L : j < i12) by lia. pose proof (HS j i12 c' (1, 2) q 0%R b' b12 L Hq K12) as N0. cbn in N0. apply Rltb_false in N0. lra. }
    apply Rleb_true. apply Rle_trans with 0%R; [exact Hq0|]. unfold Rdiv. apply Rmult_le_pos; [lra|]. left. apply Rinv_0_lt_compat. apply IZR_lt. lia. }
  assert (B13 : b13 = false).
  { destruct b13; [|reflexivity]. exfalso. pose proof (proj1 (HH i13 (1, 3) 1%R true K13) eq_refl i13 (1, 3) 1%R true (Z.le_refl _) K13) as K. cbn in K.
    apply Rleb_true in K. assert (Rj : 0 <= i13 < 3) by (rewrite <- Hz3; exact (nthZ_range _ _ _ K13)). replace (zlen pv) with 3 in K by (symmetry; exact Hz3).
    assert (L : (1 <= IZR (3 - i13))%R) by (apply IZR_le; lia). assert (K2 : (0.05 / IZR (3 - i13) <= 0.05)%R).
    { unfold Rdiv. rewrite <- (Rmult_1_r 0.05) at 2. apply Rmult_le_compat_l; [lra|]. rewrite <- Rinv_1. apply Rinv_le_contravar; lra. }
    lra. }
  subst b12 b13. destruct (HB 1 3) as (a & b & y & Hbar & X1 & X3); [exists 1%R; auto|].
  exists brute, cd_test, 0.05%R, 10%R, cd_df, [1; 2; 3], [1; 2], cd_acc, pv, ranks. do 3 eexists. exists 1, 2, 0%R, a, b, y.
  split; [exact H1|]. split; [exact H2|]. split; [exact E1|]. split; [exact E2|]. split; [exact I12|]. split; [exact Hbar|]. split; [exact X1|].
  pose (mp := fun c => mean_place [1; 2; 3] [1; 2] cd_acc c). assert (Hord : (mp 1%Z <= mp 2%Z <= mp 3%Z)%R).
  { assert (Hnd3 : NoDup [1; 2; 3]) by (repeat constructor; cbn; intuition lia).
    split; left; apply (C64_dominance [1; 2; 3] [1; 2] cd_acc); auto; try (cbn; tauto); intros d _; unfold cd_acc; cbn; lra. }
  split.
  - eapply Rle_trans; [apply X3|]. apply abscissa_mono; [apply Z.leb_le; reflexivity|lra|apply Hord].
  - eapply Rle_trans; [|apply X1]. apply abscissa_mono; [apply Z.leb_le; reflexivity|lra|apply Hord].
Qed.
Print Assumptions C70_bar_refuted.

(** A path given by the caller is never written: the only file is "cd-diagram.png", and only when no path is given. *)
Theorem C70_path_refuted : forall (F : Type) (N : NumOps F) fc wilcoxon alpha width labels path highlight df cmds files,
  draw_cd_diagram N fc wilcoxon alpha width labels (Some path) highlight df = Ok (cmds, files) -> files = [].
Proof.
  intros F N fc wilcoxon alpha width labels path highlight df cmds files H. unfold draw_cd_diagram in H.
  apply bind_inv in H as ([[pv ranks] mx] & _ & H). apply bind_inv in H as (c & _ & H). injection H as _ <-. reflexivity.
Qed.
Print Assumptions C70_path_refuted.

(** The height of the figure, in inches, for [m] classifiers (everything is drawn in it, and lines are cut at its border). *)
Definition figure_height (m : Z) : R := (0.65 + (IZR m + 1) / 2 * 0.2 + 0.4)%R.

Lemma height_R (ssums : list R) : height RN ssums = figure_height (zlen ssums).
Proof. unfold height, figure_height, half, minnotsignificant, cline, dec. cbn. rewrite plus_IZR. lra. Qed.

(** the height of the line of text number [row] *)
Definition row_y (row : Z) : R := (1.05 + IZR row * 0.24)%R.

Lemma name_rows ssums nnames width textspace reverse labels highlight lo hi i row e xt xl l :
  name_cmds RN ssums nnames width textspace reverse labels highlight lo hi i row e xt xl = Ok l ->
  (exists x r, In (CLine 2 [(x, cline RN); (x, row_y row); (e, row_y row)] r) l) /\
  (forall w pts r x y, In (CLine w pts r) l -> In (x, y) pts -> y = 0.65%R \/ y = row_y row).
Proof.
  unfold name_cmds. intros H. apply bind_inv in H as (s & _ & H). apply bind_inv in H as (c & _ & H).
  match type of H with Ok ?a = Ok ?b => assert (EL : b = a) by congruence end. clear H. subst l.
  assert (E : nadd RN (nadd RN (cline RN) (minnotsignificant RN)) (nmul RN (nofZ RN row) (dec RN 24 100)) = row_y row)
    by (unfold row_y, cline, minnotsignificant, dec; cbn; lra).
  assert (E65 : cline RN = 0.65%R) by (unfold cline, dec; cbn; lra). rewrite E. split.
  - do 2 eexists. left. reflexivity.
  - intros w pts r x y K Hp. apply in_app_or in K as [[K|[]]|K].
    + match type of K with CLine _ ?a _ = CLine _ ?b _ => assert (EP : b = a) by congruence end. clear K. subst pts. rewrite E65 in Hp. destruct Hp as [Hp|[Hp|[Hp|[]]]]; injection Hp as _ <-; auto.
    + apply in_app_or in K as [K|[K|[]]]; [|discriminate]. destruct labels; [destruct K as [K|[]]; discriminate|destruct K].
Qed.

Lemma draw_inv fc wilcoxon alpha width labels path highlight (df : list (Z * Z * R)) pv ranks mx cmds files :
  wilcoxon_holm RN wilcoxon alpha df = Ok (pv, ranks, mx) -> draw_cd_diagram RN fc wilcoxon alpha width labels path highlight df = Ok (cmds, files) ->
  exists lo hi ln rn tail, let ssums := map snd ranks in let nnames := map fst ranks in
    left_names RN ssums nnames width (dec RN 125 100) true labels highlight lo hi = Ok ln /\
    right_names RN ssums nnames width (dec RN 125 100) true labels highlight lo hi = Ok rn /\
    (forall k, In k tail -> exists pts, k = CLine 4 pts false) /\
    cmds = [CLine 2 [(dec RN 125 100, cline RN); (nsub RN width (dec RN 125 100), cline RN)] false] ++ ticks RN width (dec RN 125 100) true lo hi ++
      tick_texts RN width (dec RN 125 100) true lo hi ++ ln ++ rn ++ tail.
Proof.
  intros EW H. unfold draw_cd_diagram in H. rewrite EW, bind_Ok in H. apply bind_inv in H as (c & HG & H). injection H as <- _. unfold graph_ranks in HG.
  apply bind_inv in HG as (lo & _ & HG). apply bind_inv in HG as (hi & _ & HG). apply bind_inv in HG as (? & _ & HG).
  apply bind_inv in HG as (ln & E1 & HG). apply bind_inv in HG as (rn & E2 & HG). apply bind_inv in HG as (g & _ & HG). apply bind_inv in HG as (st & EB & HG).
  injection HG as <-. exists lo, hi, ln, rn, (snd st). split; [exact E1|]. split; [exact E2|]. split; [|reflexivity].
  revert EB. apply (foldM_inv _ (fun _ st => forall k, In k (snd st) -> exists pts, k = CLine 4 pts false)).
  - intros k [].
  - intros pre q post [[s a] out] s' _ HI EB. unfold bar in EB. destruct (zlen q =? 1); [injection EB as <-; exact HI|].
    apply bind_inv in EB as (mn & _ & EB). apply bind_inv in EB as (mxx & _ & EB).
    destruct ((zlen (map fst ranks) <=? 2 * mn) && negb a); apply bind_inv in EB as (s1 & _ & EB); apply bind_inv in EB as (s2 & _ & EB); injection EB as <-;
      cbn [snd] in *; intros k Hk; apply in_app_or in Hk as [Hk|[<-|[]]]; eauto.
Qed.

(** With at most twelve classifiers every line of the axis and of the names is inside the figure. *)
Theorem C70_figure : forall fc wilcoxon alpha width labels path highlight (df : list (Z * Z * R)) pv ranks mx cmds files,
  wilcoxon_holm RN wilcoxon alpha df = Ok (pv, ranks, mx) -> draw_cd_diagram RN fc wilcoxon alpha width labels path highlight df = Ok (cmds, files) ->
  zlen ranks <= 12 -> forall pts red x y, In (CLine 2 pts red) cmds -> In (x, y) pts -> (0 <= y <= figure_height (zlen ranks))%R.
Proof.
  intros fc wilcoxon alpha width labels path highlight df pv ranks mx cmds files EW H Hm pts red x y HI HP.
  destruct (draw_inv _ _ _ _ _ _ _ _ _ _ _ _ _ EW H) as (lo & hi & ln & rn & tail & E1 & E2 & HT & ->).
  pose proof (zlen_nonneg ranks) as H0.
  assert (E65 : cline RN = 0.65%R) by (unfold cline, dec; cbn; lra).
  assert (Hh : (0.65 <= figure_height (zlen ranks))%R) by (unfold figure_height; apply IZR_le in H0; lra).
  assert (Hrow : forall row, 0 <= row -> 2 * row + 1 <= zlen ranks -> row <= 5 -> (0 <= row_y row <= figure_height (zlen ranks))%R).
  { intros row R1 R2 R3. unfold row_y, figure_height. apply IZR_le in R1, R2, R3. rewrite plus_IZR, mult_IZR in R2. lra. }
  assert (HL : forall (is : list Z) l f, mapM f is = Ok l -> In (CLine 2 pts red) (concat l) -> exists i li, In i is /\ f i = Ok li /\ In (CLine 2 pts red) li).
  { intros is l f EM K. apply in_concat in K as (li & Hli & K). apply mapM_Forall2 in EM. clear -EM Hli K.
    induction EM as [|i lj is l Hj _ IH]; [destruct Hli|]. destruct Hli as [->|Hli]; [exists i, li; simpl; auto|].
    destruct (IH Hli) as (i' & li' & ? & ? & ?). exists i', li'. simpl. auto. }
  apply in_app_or in HI as [[HI|[]]|HI].
  { match type of HI with CLine _ ?a _ = CLine _ ?b _ => assert (EP : b = a) by congruence end. clear HI. subst pts. rewrite E65 in HP. destruct HP as [HP|[HP|[]]]; injection HP as _ <-; lra. }
  apply in_app_or in HI as [HI|HI].
  { unfold ticks in HI. apply in_map_iff in HI as (h & HI & _). match type of HI with CLine _ ?a _ = CLine _ ?b _ => assert (EP : b = a) by congruence end. clear HI. subst pts. rewrite E65 in HP. unfold half, dec in HP. cbn in HP.
    destruct (h mod 2 =? 0); destruct HP as [HP|[HP|[]]]; injection HP as _ <-; lra. }
  apply in_app_or in HI as [HI|HI]; [unfold tick_texts in HI; apply in_map_iff in HI as (a & HI & _); discriminate|].
  apply in_app_or in HI as [HI|HI].
  { unfold left_names in E1. rewrite zlen_map in E1. apply bind_inv in E1 as (l & EM & E1). injection E1 as <-.
    destruct (HL _ _ _ EM HI) as (i & li & Hi & Eli & Hin). apply in_zrange in Hi. destruct (name_rows _ _ _ _ _ _ _ _ _ _ _ _ _ _ _ Eli) as [_ K].
    destruct (K _ _ _ _ _ Hin HP) as [->| ->]; [lra|]. apply Hrow; lia. }
  apply in_app_or in HI as [HI|HI]; [|destruct (HT _ HI) as (p & K); discriminate].
  unfold right_names in E2. rewrite zlen_map in E2. apply bind_inv in E2 as (l & EM & E2). injection E2 as <-.
  destruct (HL _ _ _ EM HI) as (i & li & Hi & Eli & Hin). apply in_zrange in Hi. destruct (name_rows _ _ _ _ _ _ _ _ _ _ _ _ _ _ _ Eli) as [_ K].
  destruct (K _ _ _ _ _ Hin HP) as [->| ->]; [lra|]. apply Hrow; lia.
Qed.
Print Assumptions C70_figure.

(** With seventeen or more, the line leading to some name leaves the figure. *)
Theorem C70_figure_refuted : forall fc wilcoxon alpha width labels path highlight (df : list (Z * Z * R)) pv ranks mx cmds files,
  wilcoxon_holm RN wilcoxon alpha df = Ok (pv, ranks, mx) -> draw_cd_diagram RN fc wilcoxon alpha width labels path highlight df = Ok (cmds, files) ->
  17 <= zlen ranks -> exists pts red x y, In (CLine 2 pts red) cmds /\ In (x, y) pts /\ (figure_height (zlen ranks) < y)%R.
Proof.
  intros fc wilcoxon alpha width labels path highlight df pv ranks mx cmds files EW H Hm.
  destruct (draw_inv _ _ _ _ _ _ _ _ _ _ _ _ _ EW H) as (lo & hi & ln & rn & tail & E1 & _ & _ & ->).
  unfold left_names in E1. rewrite zlen_map in E1. apply bind_inv in E1 as (l & EM & E1). injection E1 as <-.
  set (k := zlen ranks) in *. set (i := (k + 1) / 2 - 1). apply mapM_Forall2 in EM.
  destruct (Forall2_in_l _ _ _ i EM) as (li & Hli & Eli); [apply in_zrange; unfold i; lia|].
  destruct (name_rows _ _ _ _ _ _ _ _ _ _ _ _ _ _ _ Eli) as [(x & r & Hin) _].
  do 2 eexists. exists x, (row_y i). split; [|split].
  - do 3 (apply in_or_app; right). apply in_or_app. left. apply in_concat. exists li. split; [exact Hli|exact Hin].
  - right. left. reflexivity.
  - unfold row_y, figure_height. assert (Hi : 2 * i >= k - 2 /\ (k = 17 -> i = 8)) by (unfold i; split; [lia|intros ->; reflexivity]). destruct Hi as [Hi1 Hi2].
    destruct (Z.eq_dec k 17) as [E|E]; [rewrite (Hi2 E), E; lra|]. assert (H18 : 18 <= k) by lia.
    apply Z.ge_le, IZR_le in Hi1. rewrite mult_IZR, minus_IZR in Hi1. apply IZR_le in H18. lra.
Qed.
Print Assumptions C70_figure_refuted.

(** Diagrams of three and of seventeen classifiers exist. *)
Example C70_figure_case : forall m, m = 3 \/ m = 17 -> exists df pv ranks mx cmds files, zlen ranks = m /\
  wilcoxon_holm RN cd_test 0.05%R df = Ok (pv, ranks, mx) /\ draw_cd_diagram RN brute cd_test 0.05%R 10%R true None (Some 1) df = Ok (cmds, files).
Proof.
  intros m Hm. pose (cls := zrange 0 m). assert (Hz : zlen cls = m) by (unfold cls; destruct Hm as [->| ->]; reflexivity).
  pose (df := flat_map (fun c => map (fun d => (c, d, cd_acc c d)) [1; 2]) cls).
  assert (HC : complete df cls [1; 2] cd_acc) by (split; [apply incr_zrange|split; [cbn; intuition lia|apply Permutation_refl]]).
  assert (HD : [1; 2] <> []) by discriminate. assert (H3 : 3 <= zlen cls) by lia. assert (HW : forall a b, exists p, cd_test a b = Ok p) by (unfold cd_test; eauto).
  assert (H25 : (2.5 <= 10)%R) by lra.
  destruct (C70_diagram brute cd_test 0.05%R 10%R true None (Some 1) df cls [1; 2] cd_acc brute_ok HC HD H3 HW H25) as (pv & ranks & cmds & files & E1 & E2 & _).
  destruct (C64_ranks cd_test 0.05%R df cls [1; 2] cd_acc HC HD H3 HW) as (pv' & ranks' & E1' & HP & _). rewrite E1 in E1'. injection E1' as <- <-.
  exists df, pv, ranks. do 3 eexists. split; [|split; [exact E1|exact E2]]. rewrite <- Hz. apply Permutation_length in HP. rewrite map_length in HP. unfold zlen. rewrite HP. reflexivity.
Qed.
