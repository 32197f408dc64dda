(** Property C91: how the channels of a multivariate series enter the features. *)
From Coq Require Import ZArith List Bool Lia Reals Lra Permutation.
From Verif Require Import Prelude Num Kernel Spec KernelProofs RealBase Apply ApplyProofs ApplyUni ApplyMulti TransformProofs TransformLaws RealProofs SampleLaws Cases.
Import ListNotations.
Open Scope Z_scope.

(** the multivariate transformers *)
Definition multivariate {F} (c : call F) : Prop := match c with CallMS _ _ _ _ _ => True | CallMV _ _ _ _ _ _ => True | _ => False end.

Lemma dist_of_multi {F} (N : NumOps F) (c : call F) ph i k x chs vs l d thr nm n : multivariate c -> wf_call c -> sample_at c i x -> shapelet_at c k chs vs l d thr nm ->
  (forall r, In r x -> zlen r = n) -> dist_of N ph c i k (mdistances N ph nm n x chs vs l d) thr.
Proof.
  intros HM HW HS HK Hn.
  destruct HS as [X s i x sr H1 H2|X X_len s i sr H|nf n' X s L i x H|nf n' X X_len s L i ni x H]; [destruct HM|destruct HM| |]; inversion HK; subst;
    match goal with HM : mshp_at _ _ _ _ _ _ _ _ _ |- _ => rename HM into HMS end.
  - cbn in HW. destruct HW as ((M1 & M2 & M3) & _). destruct (M3 x (nthZ_In _ _ _ H)) as [E HR].
    assert (n = n').
    { destruct x as [|r t]; [change (zlen (@nil (list F))) with 0 in E; lia|]. rewrite <- (Hn r), <- (HR r); auto; left; reflexivity. }
    subst n'. eapply dist_MS; eauto.
  - cbn in HW. destruct HW as (HX & HV & _). pose proof H as H'. apply mreal_points_ser in H' as (E1 & E2 & Hi).
    destruct (mser_vl_at nf n' X X_len i HX HV Hi) as (_ & A & B & C & D). rewrite E1, E2 in *.
    assert (Hnn : n = ni). { destruct x as [|r t]; [congruence|]. rewrite <- (Hn r), <- (B r); auto; left; reflexivity. }
    rewrite Hnn. eapply dist_MV; [exact H|eassumption].
Qed.

(** the channels in other places *)
Lemma mdistances_renamed {F} (N : NumOps F) ph nm n x x' g chs vs l d : (forall ch, In ch chs -> nthZ x' (g ch) = nthZ x ch) ->
  mdistances N ph nm n x' (map g chs) vs l d = mdistances N ph nm n x chs vs l d.
Proof.
  intros H. unfold mdistances. apply map_ext. intros i. f_equal. revert vs. induction chs as [|ch t IH]; intros vs; [reflexivity|]. destruct vs as [|v vs]; [reflexivity|].
  cbn [map combine fst snd]. f_equal; [|apply IH; intros c Hc; apply H; right; exact Hc]. unfold nthd. rewrite (H ch) by (left; reflexivity). reflexivity.
Qed.

(** In any arithmetic, also binary64, normalised or not: a series whose channels are moved, added or removed, and a shapelet
    that looks at the moved channels.  If the channels that the shapelet uses hold the same values, the three numbers
    are the same.  With [g ch = ch]: the channels that a shapelet does not use have no influence. *)
Theorem C91_renamed : forall F (N : NumOps F) (c c' : call F) ph T T' i i' x x' n k k' g chs vs l d thr nm f,
  multivariate c -> multivariate c' -> wf_call c -> wf_call c' -> run N c ph = Ok T -> run N c' ph = Ok T' ->
  sample_at c i x -> sample_at c' i' x' -> (forall r, In r x -> zlen r = n) -> (forall r, In r x' -> zlen r = n) ->
  shapelet_at c k chs vs l d thr nm -> shapelet_at c' k' (map g chs) vs l d thr nm -> (forall ch, In ch chs -> nthZ x' (g ch) = nthZ x ch) ->
  cell3 T i k f -> cell3 T' i' k' f.
Proof.
  intros F N c c' ph T T' i i' x x' n k k' g chs vs l d thr nm f M M' HW HW' HT HT' HS HS' Hn Hn' HK HK' HX HC.
  pose proof (call_cell N c ph T i k _ _ HW HT (dist_of_multi N c ph i k x chs vs l d thr nm n M HW HS HK Hn)) as C1.
  pose proof (call_cell N c' ph T' i' k' _ _ HW' HT' (dist_of_multi N c' ph i' k' x' (map g chs) vs l d thr nm n M' HW' HS' HK' Hn')) as C2.
  rewrite (mdistances_renamed N ph nm n x x' g chs vs l d HX) in C2. rewrite (cell3_unique T i k _ _ HC C1). exact C2.
Qed.
Print Assumptions C91_renamed.

(** The shapelet (chs, vs) consists of the two shapelets (chs1, vs1) and (chs2, vs2), on other channels. *)
Definition parts (chs : list Z) (vs : list (list R)) chs1 vs1 chs2 vs2 : Prop := Permutation (combine chs vs) (combine chs1 vs1 ++ combine chs2 vs2).

Lemma mdistances_parts ph nm n x chs vs chs1 vs1 chs2 vs2 l d : parts chs vs chs1 vs1 chs2 vs2 -> forall i y, nthZ (mdistances RN ph nm n x chs vs l d) i = Some y ->
  exists y1 y2, nthZ (mdistances RN ph nm n x chs1 vs1 l d) i = Some y1 /\ nthZ (mdistances RN ph nm n x chs2 vs2 l d) i = Some y2 /\ y = (y1 + y2)%R.
Proof.
  intros HP i y. unfold mdistances. rewrite !nthZ_map. destruct (nthZ (zrange 0 (nwin ph n l d)) i) as [j|]; [|discriminate]. cbn [option_map]. intros E. injection E as <-.
  do 2 eexists. split; [reflexivity|]. split; [reflexivity|]. rewrite !sumF_rsum, <- rsum_app, <- map_app. apply rsum_perm, Permutation_map, HP.
Qed.
Lemma zlen_mdistances_eq ph nm n x chs vs chs1 vs1 l d : zlen (mdistances RN ph nm n x chs vs l d) = zlen (mdistances RN ph nm n x chs1 vs1 l d).
Proof. unfold mdistances. rewrite !zlen_map. reflexivity. Qed.

Lemma count_parts thr thr1 thr2 : (thr1 + thr2 <= thr)%R -> forall D D1 D2 : list R, zlen D1 = zlen D -> zlen D2 = zlen D ->
  (forall i y, nthZ D i = Some y -> exists y1 y2, nthZ D1 i = Some y1 /\ nthZ D2 i = Some y2 /\ y = (y1 + y2)%R) ->
  zlen (filter (fun x => Rleb x thr1) D1) + zlen (filter (fun x => Rleb x thr2) D2) - zlen D <= zlen (filter (fun x => Rleb x thr) D).
Proof.
  intros Ht. induction D as [|y D IH]; intros D1 D2 Z1 Z2 H.
  - change (zlen (@nil R)) with 0 in *. destruct D1 as [|q D1]; [|rewrite zlen_cons in Z1; pose proof (zlen_nonneg D1); lia]. destruct D2 as [|q D2]; [|rewrite zlen_cons in Z2; pose proof (zlen_nonneg D2); lia]. cbn. lia.
  - rewrite zlen_cons in Z1, Z2. pose proof (zlen_nonneg D) as ZD.
    destruct D1 as [|y1 D1]; [change (zlen (@nil R)) with 0 in Z1; lia|]. destruct D2 as [|y2 D2]; [change (zlen (@nil R)) with 0 in Z2; lia|]. rewrite !zlen_cons in Z1, Z2.
    destruct (H 0 y eq_refl) as (q1 & q2 & E1 & E2 & E). rewrite nthZ_cons in E1, E2. injection E1 as <-. injection E2 as <-.
    assert (HT : forall i z, nthZ D i = Some z -> exists z1 z2, nthZ D1 i = Some z1 /\ nthZ D2 i = Some z2 /\ z = (z1 + z2)%R).
    { intros i z Hz. pose proof (nthZ_range _ _ _ Hz) as Ri. destruct (H (i + 1) z) as (z1 & z2 & A & B & Q).
      - rewrite nthZ_cons. replace (i + 1 =? 0) with false by lia. replace (i + 1 - 1) with i by lia. exact Hz.
      - rewrite nthZ_cons in A, B. replace (i + 1 =? 0) with false in A, B by lia. replace (i + 1 - 1) with i in A, B by lia. eauto. }
    specialize (IH D1 D2 ltac:(lia) ltac:(lia) HT). cbn [filter]. rewrite zlen_cons.
    assert (Q : Rleb y1 thr1 = true -> Rleb y2 thr2 = true -> Rleb y thr = true) by (rewrite !Rleb_true; lra).
    destruct (Rleb y1 thr1), (Rleb y2 thr2), (Rleb y thr); rewrite ?zlen_cons; try lia; discriminate (Q eq_refl eq_refl).
Qed.

Lemma features_parts w (D D1 D2 : list R) thr thr1 thr2 m a cnt m1 a1 cnt1 m2 a2 cnt2 : 0 < w -> zlen D = w -> zlen D1 = w -> zlen D2 = w ->
  (forall i y, nthZ D i = Some y -> exists y1 y2, nthZ D1 i = Some y1 /\ nthZ D2 i = Some y2 /\ y = (y1 + y2)%R) ->
  is_features RN D thr (m, a, cnt) -> is_features RN D1 thr1 (m1, a1, cnt1) -> is_features RN D2 thr2 (m2, a2, cnt2) ->
  (m1 + m2 <= m)%R /\ (a1 = a2 -> m = m1 + m2 /\ a = a1)%R /\ (thr1 + thr2 <= thr -> cnt1 + cnt2 - IZR w <= cnt)%R.
Proof.
  intros Hw Z0 Z1 Z2 H F0 F1 F2.
  assert (NE : forall L : list R, zlen L = w -> L <> []) by (intros L E Q; rewrite Q in E; change (zlen (@nil R)) with 0 in E; lia).
  destruct F0 as [(E & _)|(p & P1 & P2 & P3 & P4 & P5)]; [destruct (NE D Z0 E)|]. destruct F1 as [(E & _)|(p1 & A1 & A2 & A3 & A4 & A5)]; [destruct (NE D1 Z1 E)|].
  destruct F2 as [(E & _)|(p2 & B1 & B2 & B3 & B4 & B5)]; [destruct (NE D2 Z2 E)|]. cbn [nofZ nleb nltb RN] in *.
  destruct (H p m P1) as (y1 & y2 & E1 & E2 & E). pose proof (A3 _ _ E1) as L1. pose proof (B3 _ _ E2) as L2. apply Rleb_true in L1, L2.
  split; [lra|]. split.
  - intros Ea. assert (Q : p1 = p2) by (apply eq_IZR; congruence). subst p2.
    destruct (nthZ_some D p1) as (y & Hy); [apply nthZ_range in A1; lia|]. destruct (H p1 y Hy) as (u1 & u2 & U1 & U2 & U). assert (u1 = m1) by congruence. assert (u2 = m2) by congruence. subst u1 u2.
    pose proof (P3 _ _ Hy) as L. apply Rleb_true in L. split; [lra|]. rewrite P2, A2. f_equal.
    destruct (Z.lt_trichotomy p p1) as [Hp|[Hp|Hp]]; [|exact Hp|].
    + pose proof (A4 _ _ E1 Hp) as L'. apply Rltb_true in L'. lra.
    + pose proof (P4 _ _ Hy Hp) as L'. apply Rltb_true in L'. lra.
  - intros Ht. rewrite P5, A5, B5, <- plus_IZR, <- minus_IZR. apply IZR_le. rewrite <- Z0 at 1. apply (count_parts thr thr1 thr2 Ht D D1 D2); [congruence|congruence|exact H].
Qed.

(** The features of the whole shapelet and of its two parts on the same series: the minimum is at least the sum of the minima,
    with equality, at the same position, if both parts are closest at the same position.  A match of both parts is a match
    of the whole if the thresholds add up. *)
Theorem C91_parts : forall (c c1 c2 : call R) ph T T1 T2 i i1 i2 x n k k1 k2 chs vs chs1 vs1 chs2 vs2 l d thr thr1 thr2 nm m a cnt m1 a1 cnt1 m2 a2 cnt2,
  wf_call c -> wf_call c1 -> wf_call c2 -> run RN c ph = Ok T -> run RN c1 ph = Ok T1 -> run RN c2 ph = Ok T2 ->
  sample_at c i x -> sample_at c1 i1 x -> sample_at c2 i2 x -> (forall r, In r x -> zlen r = n) -> 0 < nwin ph n l d ->
  shapelet_at c k chs vs l d thr nm -> shapelet_at c1 k1 chs1 vs1 l d thr1 nm -> shapelet_at c2 k2 chs2 vs2 l d thr2 nm -> parts chs vs chs1 vs1 chs2 vs2 ->
  cell3 T i k (m, a, cnt) -> cell3 T1 i1 k1 (m1, a1, cnt1) -> cell3 T2 i2 k2 (m2, a2, cnt2) ->
  (m1 + m2 <= m)%R /\ (a1 = a2 -> m = m1 + m2 /\ a = a1)%R /\ (thr1 + thr2 <= thr -> cnt1 + cnt2 - IZR (nwin ph n l d) <= cnt)%R.
Proof.
  intros c c1 c2 ph T T1 T2 i i1 i2 x n k k1 k2 chs vs chs1 vs1 chs2 vs2 l d thr thr1 thr2 nm m a cnt m1 a1 cnt1 m2 a2 cnt2 W W1 W2 R R1 R2 S S1 S2 Hn Hw K K1 K2 HP C C1 C2.
  pose proof (cell_features c ph T i k x chs vs l d thr nm n _ W R S K Hn C) as F0. pose proof (cell_features c1 ph T1 i1 k1 x chs1 vs1 l d thr1 nm n _ W1 R1 S1 K1 Hn C1) as F1.
  pose proof (cell_features c2 ph T2 i2 k2 x chs2 vs2 l d thr2 nm n _ W2 R2 S2 K2 Hn C2) as F2.
  pose proof (mdistances_parts ph nm n x chs vs chs1 vs1 chs2 vs2 l d HP) as HD.
  assert (ZL : forall chs vs, zlen (mdistances RN ph nm n x chs vs l d) = nwin ph n l d) by (intros u w; unfold mdistances; rewrite zlen_map, zlen_zrange; lia).
  pose proof (ZL chs vs) as Z0. pose proof (ZL chs1 vs1) as Z1. pose proof (ZL chs2 vs2) as Z2.
  exact (features_parts (nwin ph n l d) _ _ _ thr thr1 thr2 m a cnt m1 a1 cnt1 m2 a2 cnt2 Hw Z0 Z1 Z2 HD F0 F1 F2).
Qed.
Print Assumptions C91_parts.

(** The channels of the shapelet listed in another order, with their values: the same three numbers. *)
Theorem C91_order : forall (c c' : call R) ph T T' i i' x n k k' chs vs chs' vs' l d thr nm f,
  wf_call c -> wf_call c' -> run RN c ph = Ok T -> run RN c' ph = Ok T' -> sample_at c i x -> sample_at c' i' x -> (forall r, In r x -> zlen r = n) ->
  shapelet_at c k chs vs l d thr nm -> shapelet_at c' k' chs' vs' l d thr nm -> Permutation (combine chs vs) (combine chs' vs') -> cell3 T i k f -> cell3 T' i' k' f.
Proof.
  intros c c' ph T T' i i' x n k k' chs vs chs' vs' l d thr nm f W W' HT HT' S S' Hn K K' HP HC.
  pose proof (call_cell RN c ph T i k _ _ W HT (dist_of_sample c ph i k x chs vs l d thr nm n W S K Hn)) as C1.
  pose proof (call_cell RN c' ph T' i' k' _ _ W' HT' (dist_of_sample c' ph i' k' x chs' vs' l d thr nm n W' S' K' Hn)) as C2.
  assert (E : mdistances RN ph nm n x chs vs l d = mdistances RN ph nm n x chs' vs' l d).
  { unfold mdistances. apply map_ext. intros j. rewrite !sumF_rsum. apply rsum_perm, Permutation_map, HP. }
  rewrite (cell3_unique T i k _ _ HC C1), E. exact C2.
Qed.
Print Assumptions C91_order.

(** A shapelet without some of its channels is at least as close, and matches at least as often for the same threshold. *)
Theorem C91_fewer : forall (c c' : call R) ph T T' i i' x n k k' chs vs chs1 vs1 chs2 vs2 l d thr nm m a cnt m' a' cnt',
  wf_call c -> wf_call c' -> run RN c ph = Ok T -> run RN c' ph = Ok T' -> sample_at c i x -> sample_at c' i' x -> (forall r, In r x -> zlen r = n) -> 0 < nwin ph n l d ->
  shapelet_at c k chs vs l d thr nm -> shapelet_at c' k' chs1 vs1 l d thr nm -> parts chs vs chs1 vs1 chs2 vs2 ->
  cell3 T i k (m, a, cnt) -> cell3 T' i' k' (m', a', cnt') -> (m' <= m /\ cnt <= cnt')%R.
Proof.
  intros c c' ph T T' i i' x n k k' chs vs chs1 vs1 chs2 vs2 l d thr nm m a cnt m' a' cnt' W W' HT HT' S S' Hn Hw K K' HP C C'.
  pose proof (cell_features c ph T i k x chs vs l d thr nm n _ W HT S K Hn C) as F0. pose proof (cell_features c' ph T' i' k' x chs1 vs1 l d thr nm n _ W' HT' S' K' Hn C') as F1.
  pose proof (mdistances_parts ph nm n x chs vs chs1 vs1 chs2 vs2 l d HP) as HD.
  assert (ZL : forall chs vs, zlen (mdistances RN ph nm n x chs vs l d) = nwin ph n l d) by (intros u w; unfold mdistances; rewrite zlen_map, zlen_zrange; lia).
  assert (NE : forall L : list R, zlen L = nwin ph n l d -> L <> []) by (intros L E Q; rewrite Q in E; change (zlen (@nil R)) with 0 in E; lia).
  assert (HD' : forall j y, nthZ (mdistances RN ph nm n x chs vs l d) j = Some y -> exists y1, nthZ (mdistances RN ph nm n x chs1 vs1 l d) j = Some y1 /\ (y1 <= y)%R).
  { intros j y Hy. destruct (HD j y Hy) as (y1 & y2 & E1 & E2 & ->). exists y1. split; [exact E1|]. apply nthZ_In, mdistances_nonneg in E2. lra. }
  destruct F0 as [(E & _)|(p & P1 & _ & P3 & _ & P5)]; [destruct (NE _ (ZL _ _) E)|]. destruct F1 as [(E & _)|(p1 & A1 & _ & A3 & _ & A5)]; [destruct (NE _ (ZL _ _) E)|].
  cbn [nofZ nleb RN] in *. split.
  - destruct (HD' _ _ P1) as (y1 & E1 & L). specialize (A3 _ _ E1). apply Rleb_true in A3. lra.
  - rewrite P5, A5. apply IZR_le. assert (Z1 : zlen (mdistances RN ph nm n x chs1 vs1 l d) = zlen (mdistances RN ph nm n x chs vs l d)) by (rewrite !ZL; reflexivity).
    clear P1 P3 P5 A1 A3 A5 HD ZL NE. revert Z1 HD'. generalize (mdistances RN ph nm n x chs1 vs1 l d) as D1. generalize (mdistances RN ph nm n x chs vs l d) as D.
    induction D as [|y D IH]; intros D1 Z1 H; [apply zlen_nonneg|]. rewrite zlen_cons in Z1. pose proof (zlen_nonneg D) as ZD. destruct D1 as [|y1 D1]; [change (zlen (@nil R)) with 0 in Z1; lia|].
    rewrite zlen_cons in Z1. destruct (H 0 y eq_refl) as (q1 & E1 & L). rewrite nthZ_cons in E1. injection E1 as <-.
    assert (HT1 : zlen (filter (fun z => Rleb z thr) D) <= zlen (filter (fun z => Rleb z thr) D1)).
    { apply IH; [lia|]. intros j z Hz. pose proof (nthZ_range _ _ _ Hz) as Ri. destruct (H (j + 1) z) as (z1 & A & B).
      - rewrite nthZ_cons. replace (j + 1 =? 0) with false by lia. replace (j + 1 - 1) with j by lia. exact Hz.
      - rewrite nthZ_cons in A. replace (j + 1 =? 0) with false in A by lia. replace (j + 1 - 1) with j in A by lia. eauto. }
    cbn [filter]. assert (Q : Rleb y thr = true -> Rleb y1 thr = true) by (rewrite !Rleb_true; lra).
    destruct (Rleb y thr), (Rleb y1 thr); rewrite ?zlen_cons; try lia; discriminate (Q eq_refl).
Qed.
Print Assumptions C91_fewer.

(** Integers.  Series of three channels, shapelets on the channels 2 and 0, on 2 alone and on 0 alone.  The whole: minimum 3 at
    position 2; the parts: minima 0 at position 0 and 2 at position 2 (0 + 2 <= 3).  With other values in channel 1, and with
    the channels 0 and 1 exchanged in the series and in the shapelets: the same numbers. *)
Definition chL (c0 : Z) : list (lshp Z) := [([2; c0], [[7; 1]; [2; 0]]); ([2], [[7; 1]]); ([c0], [[2; 0]])].
Definition chS (c0 : Z) : mshp Z := mkMshp [7; 1; 2; 0; 7; 1; 2; 0] [2; 2; 2] [1; 1; 1] [4; 2; 2] [false; false; false] [2; 1; 1] [2; c0; 2; c0].
Example C91_case :
  run ZN (CallMS 3 5 [[[9; 0; 3; 1; 5]; [1; 2; 3; 4; 5]; [7; 1; 7; 2; 8]]] (chS 0) (chL 0)) false = Ok [[3; 2; 1; 0; 0; 2; 2; 2; 1]] /\
  run ZN (CallMS 3 5 [[[9; 0; 3; 1; 5]; [6; 6; 0; 0; 6]; [7; 1; 7; 2; 8]]] (chS 0) (chL 0)) false = Ok [[3; 2; 1; 0; 0; 2; 2; 2; 1]] /\
  run ZN (CallMS 3 5 [[[1; 2; 3; 4; 5]; [9; 0; 3; 1; 5]; [7; 1; 7; 2; 8]]] (chS 1) (chL 1)) false = Ok [[3; 2; 1; 0; 0; 2; 2; 2; 1]] /\
  Permutation (combine [2; 0] [[7; 1]; [2; 0]]) (combine [2] [[7; 1]] ++ combine [0] [[2; 0]]).
Proof. split; [vm_compute; reflexivity|]. split; [vm_compute; reflexivity|]. split; [vm_compute; reflexivity|]. apply Permutation_refl. Qed.
Example C91_shapelet_case : wf_call (CallMS 3 5 [[[9; 0; 3; 1; 5]; [1; 2; 3; 4; 5]; [7; 1; 7; 2; 8]]] (chS 0) (chL 0)) /\
  shapelet_at (CallMS 3 5 [[[9; 0; 3; 1; 5]; [1; 2; 3; 4; 5]; [7; 1; 7; 2; 8]]] (chS 0) (chL 0)) 0 [2; 0] [[7; 1]; [2; 0]] 2 1 4 false.
Proof.
  split.
  - cbn. split; [split; [lia|split; [lia|]]|].
    + intros x [<-|[]]. split; [reflexivity|]. intros r Hr. cbn in Hr. intuition subst; reflexivity.
    + split; [|intros p ch [<-|[<-|[<-|[]]]] Hch; cbn in Hch; lia].
      apply packed_intro; try reflexivity; cbn [ms_len ms_dil chS chL]; [repeat constructor; unfold zlen; cbn; lia|repeat constructor; lia].
  - constructor. vm_compute. intuition reflexivity.
Qed.
