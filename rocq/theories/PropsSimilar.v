(** Property C94: similar shapelets have similar features, and different shapelets do not match at the same place. *)
From Coq Require Import ZArith List Bool Reals Lra Lia.
From Verif Require Import Prelude Num Kernel Apply Spec KernelProofs RealBase RealProofs ApplyMulti TransformProofs TransformLaws SampleLaws Cases Noise PropsNoise.
From Verif Require Import ApplyUni.
Import ListNotations.
Open Scope Z_scope.

(** ** C94.  Similar shapelets *)

(** the sum of the absolute differences of the values of two shapelets, over all channels *)
Definition apart (vs vs' : list (list R)) : R := rsum (map (fun p => l1 RN (fst p) (snd p)) (combine vs vs')).

Lemma shapelet_rows (c : call R) k chs vs l d thr nm : wf_call c -> shapelet_at c k chs vs l d thr nm -> 1 <= l /\ forall v, In v vs -> zlen v = l.
Proof.
  intros HW HK. destruct HK as [X s k v l d thr nm H|X XL s k v l d thr nm H|nf n X s L k chs vs l d thr nm H|nf n X XL s L k chs vs l d thr nm H]; cbn [wf_call] in HW.
  - destruct HW as (_ & HW). destruct HW as (_ & _ & _ & _ & W5 & _). destruct H as ((v0 & Hv & ->) & Hl & _). destruct (W5 k v0 l Hv Hl) as (A & B). split; [exact A|]. intros q [<-|[]]. apply ApplyUni.zlen_slice0; lia.
  - destruct HW as (_ & _ & HW). destruct HW as (_ & _ & _ & _ & W5 & _). destruct H as ((v0 & Hv & ->) & Hl & _). destruct (W5 k v0 l Hv Hl) as (A & B). split; [exact A|]. intros q [<-|[]]. apply ApplyUni.zlen_slice0; lia.
  - destruct HW as (_ & (_ & _ & _ & _ & _ & _ & _ & P & _) & _). destruct H as (A & B & _). destruct (P k _ l A B) as (_ & E2 & E3 & E4). split; [exact E4|]. exact E3.
  - destruct HW as (_ & _ & (_ & _ & _ & _ & _ & _ & _ & P & _) & _). destruct H as (A & B & _). destruct (P k _ l A B) as (_ & E2 & E3 & E4). split; [exact E4|]. exact E3.
Qed.

Open Scope R_scope.
Lemma l1_two w v v' : zlen v = zlen w -> Rabs (l1 RN w v' - l1 RN w v) <= l1 RN v v' /\ l1 RN v v' <= l1 RN w v + l1 RN w v'.
Proof.
  intros E. rewrite !l1_rsum, E. split.
  - apply rsum_close. intros j _. replace (pt RN v j - pt RN v' j) with ((pt RN w j - pt RN v' j) - (pt RN w j - pt RN v j)) by ring. apply Rabs_triang_inv2.
  - rewrite <- rsum_map_plus. apply rsum_map_le. intros j _. replace (pt RN v j - pt RN v' j) with (- (pt RN w j - pt RN v j) + (pt RN w j - pt RN v' j)) by ring.
    eapply Rle_trans; [apply Rabs_triang|]. rewrite Rabs_Ropp. lra.
Qed.

(** a window and two shapelets *)
Lemma rows_two (W : Z -> list R) l chs : (forall ch, zlen (W ch) = l) -> forall vs vs', zlen vs = zlen chs -> zlen vs' = zlen chs -> (forall v, In v vs -> zlen v = l) ->
  let s := fun us => rsum (map (fun cv : Z * list R => l1 RN (W (fst cv)) (snd cv)) (combine chs us)) in
  Rabs (s vs' - s vs) <= apart vs vs' /\ apart vs vs' <= s vs + s vs'.
Proof.
  intros HZ. unfold apart. induction chs as [|ch chs IH]; intros vs vs' Z1 Z2 HV; change (zlen (@nil Z)) with 0%Z in *.
  - destruct vs as [|v vs]; [|rewrite zlen_cons in Z1; pose proof (zlen_nonneg vs); lia]. cbn. rewrite Rminus_0_r, Rabs_R0. lra.
  - rewrite zlen_cons in Z1, Z2. pose proof (zlen_nonneg chs). destruct vs as [|v vs]; [change (zlen (@nil (list R))) with 0%Z in Z1; lia|]. destruct vs' as [|v' vs']; [change (zlen (@nil (list R))) with 0%Z in Z2; lia|].
    rewrite zlen_cons in Z1, Z2. destruct (IH vs vs' ltac:(lia) ltac:(lia) (fun q Hq => HV q (or_intror Hq))) as (A & B). clear IH. cbn [combine map rsum fst snd].
    destruct (l1_two (W ch) v v') as (C & D); [rewrite HZ; apply HV; left; reflexivity|]. split; [|lra].
    match goal with |- Rabs (?a + ?b - (?x + ?y)) <= _ => replace (a + b - (x + y)) with ((a - x) + (b - y)) by ring end. eapply Rle_trans; [apply Rabs_triang|lra].
Qed.

Lemma zlen_seen nm ph x l d i : (0 <= l)%Z -> zlen (seen RN nm (window RN ph x l d i)) = l.
Proof. intros Hl. unfold seen. destruct nm; [rewrite zlen_zscore|]; unfold window; rewrite zlen_map, zlen_zrange; lia. Qed.

Lemma mdistances_two ph nm n x chs vs vs' l d : (0 <= l)%Z -> zlen vs = zlen chs -> zlen vs' = zlen chs -> (forall v, In v vs -> zlen v = l) ->
  forall j y, nthZ (mdistances RN ph nm n x chs vs l d) j = Some y -> exists y', nthZ (mdistances RN ph nm n x chs vs' l d) j = Some y' /\ Rabs (y' - y) <= apart vs vs' /\ apart vs vs' <= y + y'.
Proof.
  intros Hl Z1 Z2 HV j y. unfold mdistances. rewrite !nthZ_map. destruct (nthZ (zrange 0 (nwin ph n l d)) j) as [u|]; [|discriminate]. cbn [option_map]. intros E. injection E as <-.
  eexists. split; [reflexivity|]. rewrite !sumF_rsum.
  exact (rows_two (fun ch => seen RN nm (window RN ph (nthd [] x ch) l d u)) l chs (fun ch => zlen_seen nm ph _ l d u Hl) vs vs' Z1 Z2 HV).
Qed.

Lemma apart_nonneg vs vs' : 0 <= apart vs vs'.
Proof. unfold apart. apply rsum_nonneg. intros y Hy. apply in_map_iff in Hy as (p & <- & _). apply l1_nonneg. Qed.

Lemma count_two t thr thr' : thr + thr' < t -> forall D D' : list R, zlen D' = zlen D -> (forall j y, nthZ D j = Some y -> exists y', nthZ D' j = Some y' /\ t <= y + y') ->
  (zlen (filter (fun x => Rleb x thr) D) + zlen (filter (fun x => Rleb x thr') D') <= zlen D)%Z.
Proof.
  intros Ht. induction D as [|y D IH]; intros D' Z1 H.
  - change (zlen (@nil R)) with 0%Z in *. destruct D' as [|q D']; [cbn; lia|]. rewrite zlen_cons in Z1; pose proof (zlen_nonneg D'); lia.
  - rewrite zlen_cons in Z1. pose proof (zlen_nonneg D). destruct D' as [|y' D']; [change (zlen (@nil R)) with 0%Z in Z1; lia|]. rewrite zlen_cons in Z1. destruct (H 0%Z y eq_refl) as (q & E & L). rewrite nthZ_cons in E. injection E as <-.
    assert (HT : forall j z, nthZ D j = Some z -> exists z', nthZ D' j = Some z' /\ t <= z + z').
    { intros j z Hz. pose proof (nthZ_range _ _ _ Hz) as Rj. destruct (H (j + 1)%Z z) as (z' & A & B).
      - rewrite nthZ_cons. replace (j + 1 =? 0)%Z with false by lia. replace (j + 1 - 1)%Z with j by lia. exact Hz.
      - rewrite nthZ_cons in A. replace (j + 1 =? 0)%Z with false in A by lia. replace (j + 1 - 1)%Z with j in A by lia. eauto. }
    specialize (IH D' ltac:(lia) HT). cbn [filter]. rewrite zlen_cons. assert (Q : Rleb y thr = true -> Rleb y' thr' = true -> False) by (rewrite !Rleb_true; lra).
    destruct (Rleb y thr), (Rleb y' thr'); rewrite ?zlen_cons; try lia; destruct (Q eq_refl eq_refl).
Qed.
Close Scope R_scope.

(** Two shapelets with the same channels, length, dilation, threshold and normalisation on the same series, with or without phase invariance: no distance differs by more than the values of
    the shapelets do in total ([stable], PropsNoise.v: the minima differ by at most that much, and so on). *)
Theorem C94_similar : forall (c c' : call R) ph T T' i i' x n k k' chs vs vs' l d thr nm f f',
  wf_call c -> wf_call c' -> run RN c ph = Ok T -> run RN c' ph = Ok T' -> sample_at c i x -> sample_at c' i' x -> (forall r, In r x -> zlen r = n) ->
  shapelet_at c k chs vs l d thr nm -> shapelet_at c' k' chs vs' l d thr nm -> cell3 T i k f -> cell3 T' i' k' f' ->
  stable (apart vs vs') (mdistances RN ph nm n x chs vs l d) thr f f'.
Proof.
  intros c c' ph T T' i i' x n k k' chs vs vs' l d thr nm f f' W W' HT HT' S S' Hn K K' C C'.
  destruct (shapelet_rows c k chs vs l d thr nm W K) as (Hl & HV). pose proof (shapelet_chs c k chs vs l d thr nm W K) as Z1. pose proof (shapelet_chs c' k' chs vs' l d thr nm W' K') as Z2.
  apply (stable_features _ _ (mdistances RN ph nm n x chs vs' l d)).
  - apply apart_nonneg.
  - unfold mdistances. rewrite !zlen_map. reflexivity.
  - intros j y Hy. destruct (mdistances_two ph nm n x chs vs vs' l d ltac:(lia) ltac:(lia) ltac:(lia) HV j y Hy) as (y' & A & B & _). eauto.
  - exact (cell_features c ph T i k x chs vs l d thr nm n _ W HT S K Hn C).
  - exact (cell_features c' ph T' i' k' x chs vs' l d thr nm n _ W' HT' S' K' Hn C').
Qed.
Print Assumptions C94_similar.

(** Conversely, two such shapelets (with any thresholds) that are closest at the same position differ by at most the sum of the two minima, and if there are more matches of both together than
    windows, by at most the sum of the two thresholds. *)
Theorem C94_different : forall (c c' : call R) ph T T' i i' x n k k' chs vs vs' l d thr thr' nm m a cnt m' a' cnt',
  wf_call c -> wf_call c' -> run RN c ph = Ok T -> run RN c' ph = Ok T' -> sample_at c i x -> sample_at c' i' x -> (forall r, In r x -> zlen r = n) -> 0 < nwin ph n l d ->
  shapelet_at c k chs vs l d thr nm -> shapelet_at c' k' chs vs' l d thr' nm -> cell3 T i k (m, a, cnt) -> cell3 T' i' k' (m', a', cnt') ->
  (a = a' -> (apart vs vs' <= m + m')%R) /\ ((IZR (nwin ph n l d) < cnt + cnt')%R -> (apart vs vs' <= thr + thr')%R).
Proof.
  intros c c' ph T T' i i' x n k k' chs vs vs' l d thr thr' nm m a cnt m' a' cnt' W W' HT HT' S S' Hn Hw K K' C C'.
  destruct (shapelet_rows c k chs vs l d thr nm W K) as (Hl & HV). pose proof (shapelet_chs c k chs vs l d thr nm W K) as Z1. pose proof (shapelet_chs c' k' chs vs' l d thr' nm W' K') as Z2.
  pose proof (cell_features c ph T i k x chs vs l d thr nm n _ W HT S K Hn C) as F1. pose proof (cell_features c' ph T' i' k' x chs vs' l d thr' nm n _ W' HT' S' K' Hn C') as F2.
  pose proof (mdistances_two ph nm n x chs vs vs' l d ltac:(lia) ltac:(lia) ltac:(lia) HV) as HD.
  assert (ZL : forall us, zlen (mdistances RN ph nm n x chs us l d) = nwin ph n l d) by (intros us; unfold mdistances; rewrite zlen_map, zlen_zrange; lia).
  assert (NE : forall us, mdistances RN ph nm n x chs us l d <> []) by (intros us Q; apply (f_equal zlen) in Q; rewrite ZL in Q; change (zlen (@nil R)) with 0 in Q; lia).
  destruct F1 as [(E & _)|(p & P1 & P2 & P3 & P4 & P5)]; [destruct (NE _ E)|]. destruct F2 as [(E & _)|(q & Q1 & Q2 & Q3 & Q4 & Q5)]; [destruct (NE _ E)|]. cbn [nofZ nleb nltb RN] in *. split.
  - intros Ea. assert (E : p = q) by (apply eq_IZR; congruence). subst q. destruct (HD p m P1) as (y' & A & _ & B). assert (y' = m') by congruence. subst y'. exact B.
  - intros Hc. destruct (Rle_lt_dec (apart vs vs') (thr + thr')) as [L|L]; [exact L|exfalso].
    pose proof (count_two (apart vs vs') thr thr' L (mdistances RN ph nm n x chs vs l d) (mdistances RN ph nm n x chs vs' l d)) as Q. rewrite !ZL in Q. specialize (Q eq_refl).
    rewrite P5, Q5, <- plus_IZR in Hc. apply lt_IZR in Hc. assert (zlen (filter (fun x0 => Rleb x0 thr) (mdistances RN ph nm n x chs vs l d)) + zlen (filter (fun x0 => Rleb x0 thr') (mdistances RN ph nm n x chs vs' l d)) <= nwin ph n l d); [|lia].
    apply Q. intros j y Hy. destruct (HD j y Hy) as (y' & A & _ & B). eauto.
Qed.
Print Assumptions C94_different.

(** Two shapelets of length 3 that differ by 1 + 2 = 3 on a series of 6 points (integers): minima 2 and 1, both at position 2, and 3 = 2 + 1; the count at the threshold 4 is 1 for both. *)
Definition c94T : ushp Z := mkUshp [[4; 6; 1]; [5; 6; 3]] [3; 3] [1; 1] [4; 4] [false; false].
Example C94_case : run ZN (CallUS [[[0; 1; 4; 6; 3; 7]]] c94T) false = Ok [[2; 2; 1; 1; 2; 1]] /\ wf_ushp c94T /\ apart [[4; 6; 1]]%R [[5; 6; 3]]%R = 3%R.
Proof.
  split; [vm_compute; reflexivity|]. split.
  - repeat split; try reflexivity.
    + revert H H0. unfold nthZ. destruct (k <? 0); [discriminate|]. destruct (Z.to_nat k) as [|[|[|m]]]; cbn; intros Hv Hl; try discriminate; injection Hl as <-; lia.
    + revert H H0. unfold nthZ. destruct (k <? 0); [discriminate|]. destruct (Z.to_nat k) as [|[|[|m]]]; cbn; intros Hv Hl; try discriminate; injection Hl as <-; injection Hv as <-; vm_compute; discriminate.
    + intros k d. unfold nthZ. destruct (k <? 0); [discriminate|]. destruct (Z.to_nat k) as [|[|[|m]]]; cbn; intros Hv; try discriminate; injection Hv as <-; lia.
  - unfold apart. cbn [combine map rsum fst snd]. rewrite l1_l1s by (cbn; lia). cbv -[IZR Rplus Rminus Rabs].
    repeat match goal with |- context [Rabs ?r] => unfold Rabs at 1; destruct (Rcase_abs r); try lra end.
Qed.
