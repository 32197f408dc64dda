(** Property C93: a dilated shapelet is the shapelet without dilation on the subsampled series. *)
From Coq Require Import ZArith List Bool Reals Lra Lia.
From Verif Require Import Prelude Num Kernel Apply Spec KernelProofs RealBase RealProofs ApplyMulti TransformProofs TransformLaws SampleLaws Cases.
Import ListNotations.
Open Scope Z_scope.

(** ** C93.  Dilation and subsampling *)

(** [x'] consists of the points r, r+d, r+2d, ... of [x] *)
Definition decimated {A} (d r : Z) (x x' : list A) : Prop := forall j v, nthZ x' j = Some v <-> 0 <= j /\ nthZ x (r + j * d) = Some v.

Lemma decimated_zlen {A} d r (x x' : list A) : 1 <= d -> 0 <= r -> decimated d r x x' -> forall j, 0 <= j -> j < zlen x' <-> r + j * d < zlen x.
Proof.
  intros Hd Hr H j Hj. split; intros L.
  - destruct (nthZ_some x' j) as (v & Hv); [lia|]. apply H in Hv as (_ & Hv). apply nthZ_range in Hv. lia.
  - destruct (nthZ_some x (r + j * d)) as (v & Hv); [nia|]. assert (Q : nthZ x' j = Some v) by (apply H; auto). apply nthZ_range in Q. lia.
Qed.
Lemma decimated_nthZ {A} d r (x x' : list A) j : decimated d r x x' -> 0 <= j -> nthZ x' j = nthZ x (r + j * d).
Proof.
  intros H Hj. destruct (nthZ x (r + j * d)) as [v|] eqn:E; [apply H; auto|]. destruct (nthZ x' j) as [v|] eqn:E'; [|reflexivity]. apply H in E' as (_ & E'). congruence.
Qed.

Lemma window_decimated (r0 r' : list R) d r l j : 0 <= j -> decimated d r r0 r' -> window RN false r' l 1 j = window RN false r0 l d (r + j * d).
Proof.
  intros Hj H. unfold window. apply map_ext_in. intros u Hu. apply in_zrange in Hu. unfold pt, nthd, pos. rewrite (decimated_nthZ d r r0 r' _ H) by lia.
  replace (r + (j + u * 1) * d) with (r + j * d + u * d) by ring. reflexivity.
Qed.

(** the distances of the subsampled series are the subsampled distances *)
Lemma mdistances_decimated nm n n' x x' chs vs l d r : 1 <= d -> 0 <= r -> 1 <= l -> (forall j, 0 <= j -> j < n' <-> r + j * d < n) ->
  (forall ch, In ch chs -> decimated d r (nthd [] x ch) (nthd [] x' ch)) ->
  decimated d r (mdistances RN false nm n x chs vs l d) (mdistances RN false nm n' x' chs vs l 1).
Proof.
  intros Hd Hr Hl Hn HX j y. unfold mdistances, nwin. rewrite !nthZ_map.
  assert (EQ : 0 <= j -> sumF RN (map (fun cv => l1 RN (seen RN nm (window RN false (nthd [] x' (fst cv)) l 1 j)) (snd cv)) (combine chs vs)) =
               sumF RN (map (fun cv => l1 RN (seen RN nm (window RN false (nthd [] x (fst cv)) l d (r + j * d))) (snd cv)) (combine chs vs))).
  { intros Hj. f_equal. apply map_ext_in. intros (ch & v) Hc. cbn [fst snd]. apply in_combine_l in Hc. rewrite (window_decimated _ _ d r l j Hj (HX ch Hc)). reflexivity. }
  assert (IN : 0 <= j -> j < n' - (l - 1) * 1 <-> r + j * d < n - (l - 1) * d).
  { intros Hj. specialize (Hn (j + (l - 1)) ltac:(lia)). replace ((j + (l - 1)) * d) with (j * d + (l - 1) * d) in Hn by ring. lia. }
  split.
  - intros H. destruct (nthZ (zrange 0 (n' - (l - 1) * 1)) j) as [u|] eqn:E; [|discriminate]. pose proof (nthZ_range _ _ _ E) as Rj. rewrite zlen_zrange in Rj.
    rewrite nthZ_zrange in E by lia. injection E as <-. split; [lia|]. rewrite nthZ_zrange by nia. cbn [option_map] in *. rewrite <- H. f_equal. symmetry. apply EQ. lia.
  - intros (Hj & H). destruct (nthZ (zrange 0 (n - (l - 1) * d)) (r + j * d)) as [u|] eqn:E; [|discriminate]. pose proof (nthZ_range _ _ _ E) as Rj. rewrite zlen_zrange in Rj.
    rewrite nthZ_zrange in E by lia. injection E as <-. rewrite nthZ_zrange by lia. cbn [option_map] in *. rewrite <- H. f_equal. apply EQ. exact Hj.
Qed.

(** every position of a list belongs to exactly one of its [d] subsamples *)
Lemma count_decimated {A} (f : A -> bool) d (D : list A) : 1 <= d -> forall G : Z -> list A, (forall r, 0 <= r < d -> decimated d r D (G r)) ->
  IZR (zlen (filter f D)) = rsum (map (fun r => IZR (zlen (filter f (G r)))) (zrange 0 d)).
Proof.
  intros Hd. induction D as [|y D IH]; intros G HG.
  - cbn [filter]. change (zlen (@nil A)) with 0. assert (E : forall r, In r (zrange 0 d) -> IZR (zlen (filter f (G r))) = 0%R).
    { intros r Hr. apply in_zrange in Hr. destruct (G r) as [|v t] eqn:Q; [reflexivity|]. exfalso. specialize (HG r Hr 0 v). rewrite Q in HG. destruct (proj1 HG eq_refl) as (_ & E). apply nthZ_range in E. change (zlen (@nil A)) with 0 in E. lia. }
    rewrite (rsum_map_ext _ (fun _ => 0%R) _ E), rsum_map_const. lra.
  - (* the subsample 0 is [y] and the last subsample of the tail; the subsample r+1 is the subsample r of the tail *)
    set (G' := fun r => if r =? d - 1 then tl (G 0) else G (r + 1)).
    assert (H0 : exists t, G 0 = y :: t).
    { pose proof (HG 0 ltac:(lia) 0 y) as Q. assert (Q' : nthZ (G 0) 0 = Some y) by (apply Q; split; [lia|reflexivity]). destruct (G 0) as [|z t]; [discriminate|]. exists t. rewrite nthZ_cons in Q'. cbn in Q'. congruence. }
    destruct H0 as (t & H0).
    assert (HG' : forall r, 0 <= r < d -> decimated d r D (G' r)).
    { intros r Hr j v. unfold G'. destruct (Z.eqb_spec r (d - 1)) as [E|E].
      - rewrite H0. cbn [tl]. pose proof (HG 0 ltac:(lia) (j + 1) v) as Q. rewrite H0 in Q. destruct (Z.ltb_spec j 0) as [Lj|Lj].
        + split; [intros Q2; apply nthZ_range in Q2; lia|lia].
        + rewrite !nthZ_cons in Q. replace (j + 1 =? 0) with false in Q by lia. replace (j + 1 - 1) with j in Q by lia. rewrite Q. replace (0 + (j + 1) * d =? 0) with false by (symmetry; apply Z.eqb_neq; nia).
          replace (0 + (j + 1) * d - 1) with (r + j * d) by (rewrite E; ring). split; intros [? ?]; split; auto; lia.
      - pose proof (HG (r + 1) ltac:(lia) j v) as Q. rewrite Q. destruct (Z.ltb_spec j 0) as [Lj|Lj]; [lia|]. rewrite nthZ_cons. replace (r + 1 + j * d =? 0) with false by (symmetry; apply Z.eqb_neq; nia).
        replace (r + 1 + j * d - 1) with (r + j * d) by ring. reflexivity. }
    specialize (IH G' HG').
    assert (E1 : rsum (map (fun r => IZR (zlen (filter f (G' r)))) (zrange 0 d)) = (rsum (map (fun r : Z => IZR (zlen (filter f (G (r + 1)%Z)))) (zrange 0 (d - 1)%Z)) + IZR (zlen (filter f t)))%R).
    { replace d with (d - 1 + 1) at 1 by lia. rewrite zrange_snoc, map_app, rsum_app by lia. cbn [map rsum]. unfold G' at 2. rewrite Z.eqb_refl, H0. cbn [tl]. rewrite Rplus_0_r. f_equal.
      apply rsum_map_ext. intros r Hr. apply in_zrange in Hr. unfold G'. replace (r =? d - 1) with false by lia. reflexivity. }
    assert (E2 : rsum (map (fun r => IZR (zlen (filter f (G r)))) (zrange 0 d)) = (IZR (zlen (filter f (G 0%Z))) + rsum (map (fun r : Z => IZR (zlen (filter f (G (r + 1)%Z)))) (zrange 0 (d - 1)%Z)))%R).
    { rewrite (zrange_cons 0 d) by lia. cbn [map rsum]. f_equal. replace (zrange (0 + 1) d) with (zrange (0 + 1) (d - 1 + 1)) by (f_equal; lia). rewrite zrange_shift, map_map. reflexivity. }
    rewrite E2, H0. cbn [filter]. rewrite E1 in IH. destruct (f y); rewrite ?zlen_cons, ?plus_IZR; lra.
Qed.

Open Scope R_scope.
Lemma features_decimated d D thr m a cnt (G : Z -> list R) (mr ar cr : Z -> R) : (1 <= d)%Z -> D <> [] -> is_features RN D thr (m, a, cnt) ->
  (forall r, (0 <= r < d)%Z -> decimated d r D (G r) /\ is_features RN (G r) thr (mr r, ar r, cr r)) ->
  (forall r, (0 <= r < d)%Z -> G r <> [] -> m <= mr r) /\
  (exists r j, (0 <= r < d)%Z /\ a = IZR (r + j * d) /\ mr r = m /\ ar r = IZR j) /\ cnt = rsum (map cr (zrange 0 d)).
Proof.
  intros Hd HN HF HG. destruct HF as [(E & _)|(k & Hk & Ha & Hm & Hf & Hc)]; [congruence|]. cbn [nofZ nleb nltb RN] in *. split; [|split].
  - intros r Hr HNr. destruct (HG r Hr) as (HD & [(E & _)|(j & Hj & _)]); [congruence|]. apply HD in Hj as (_ & Hj). apply Hm in Hj. apply Rleb_true in Hj. exact Hj.
  - exists (k mod d)%Z, (k / d)%Z. pose proof (nthZ_range _ _ _ Hk) as Rk. assert (0 <= k mod d < d)%Z by (apply Z.mod_pos_bound; lia). assert (K : (k = k mod d + k / d * d)%Z) by (rewrite (Z.div_mod k d) at 1 by lia; ring).
    assert (P : (0 <= k / d)%Z) by (apply Z.div_pos; lia). split; [assumption|]. split; [rewrite <- K; exact Ha|]. destruct (HG (k mod d)%Z ltac:(assumption)) as (HD & HF').
    assert (Q : nthZ (G (k mod d)%Z) (k / d) = Some m) by (apply HD; split; [exact P|rewrite <- K; exact Hk]).
    destruct HF' as [(E & _)|(j & Hj & Haj & Hmj & Hfj & _)]; [rewrite E in Q; apply nthZ_range in Q; change (zlen (@nil R)) with 0%Z in Q; lia|]. cbn [nofZ nleb nltb RN] in *.
    pose proof (Hmj _ _ Q) as L1. apply Rleb_true in L1. pose proof Hj as Hj'. apply HD in Hj' as (Pj & Hj'). pose proof (Hm _ _ Hj') as L2. apply Rleb_true in L2.
    assert (E : mr (k mod d)%Z = m) by lra. split; [exact E|]. rewrite Haj. f_equal. destruct (Z.lt_trichotomy j (k / d)) as [L|[L|L]]; [|exact L|].
    + assert (LK : (k mod d + j * d < k)%Z) by nia. pose proof (Hf _ _ Hj' LK) as L3. apply Rltb_true in L3. lra.
    + pose proof (Hfj _ _ Q L) as L3. apply Rltb_true in L3. lra.
  - rewrite Hc, (count_decimated _ d D Hd G) by (intros r Hr; apply (HG r Hr)). apply rsum_map_ext. intros r Hr. apply in_zrange in Hr.
    destruct (HG r Hr) as (_ & [(E & _ & _ & Ec)|(j & _ & _ & _ & _ & Ec)]); rewrite Ec; [rewrite E|]; reflexivity.
Qed.
Close Scope R_scope.

(** Without phase invariance, a shapelet of dilation [d] on a series, and the same shapelet without dilation on the [d] subsamples of the series (points r, r+d, r+2d, ...
    for r = 0 ... d-1; in calls, tables and columns of their own).  Its minimum is the smallest of the minima on the subsamples, at the corresponding position, and its count is the
    sum of the counts. *)
Theorem C93_dilation : forall (c : call R) T i x n k chs vs l d thr nm m a cnt (cr : Z -> call R) Tr ir kr xr nr mr ar cntr,
  wf_call c -> run RN c false = Ok T -> sample_at c i x -> (forall r, In r x -> zlen r = n) -> shapelet_at c k chs vs l d thr nm -> 1 <= d -> (l - 1) * d < n -> cell3 T i k (m, a, cnt) ->
  (forall r, 0 <= r < d -> wf_call (cr r) /\ run RN (cr r) false = Ok (Tr r) /\ sample_at (cr r) (ir r) (xr r) /\ (forall q, In q (xr r) -> zlen q = nr r) /\
     Forall2 (decimated d r) x (xr r) /\ shapelet_at (cr r) (kr r) chs vs l 1 thr nm /\ cell3 (Tr r) (ir r) (kr r) (mr r, ar r, cntr r)) ->
  (forall r, 0 <= r < d -> r + (l - 1) * d < n -> (m <= mr r)%R) /\
  (exists r j, 0 <= r < d /\ a = IZR (r + j * d) /\ mr r = m /\ ar r = IZR j) /\
  cnt = rsum (map cntr (zrange 0 d)).
Proof.
  intros c T i x n k chs vs l d thr nm m a cnt cr Tr ir kr xr nr mr ar cntr HW HT HS Hn HK Hd Hw HC H.
  destruct (run_fits RN c false T i x k chs vs l d thr nm n HW HT HS HK Hn) as (Hl & _ & _).
  pose proof (cell_features c false T i k x chs vs l d thr nm n _ HW HT HS HK Hn HC) as F0.
  assert (NE : mdistances RN false nm n x chs vs l d <> []).
  { intros E. apply (f_equal zlen) in E. unfold mdistances in E. rewrite zlen_map, zlen_zrange in E. change (zlen (@nil R)) with 0 in E. unfold nwin in E. lia. }
  destruct (sample_shape c i x HW HS) as (XNE & _).
  assert (HNR : forall r, 0 <= r < d -> forall j, 0 <= j -> j < nr r <-> r + j * d < n).
  { intros r Hr. destruct (H r Hr) as (_ & _ & _ & Hnr & HX & _). destruct HX as [|q q' x x' Hq _]; [congruence|]. intros j Hj. rewrite <- (Hn q (or_introl eq_refl)), <- (Hnr q' (or_introl eq_refl)). apply decimated_zlen; lia || assumption. }
  assert (HG : forall r, 0 <= r < d -> decimated d r (mdistances RN false nm n x chs vs l d) (mdistances RN false nm (nr r) (xr r) chs vs l 1) /\
    is_features RN (mdistances RN false nm (nr r) (xr r) chs vs l 1) thr (mr r, ar r, cntr r)).
  { intros r Hr. destruct (H r Hr) as (W & HR & S & Hnr & HX & K & C). split; [|exact (cell_features (cr r) false (Tr r) (ir r) (kr r) (xr r) chs vs l 1 thr nm (nr r) _ W HR S K Hnr C)].
    apply mdistances_decimated; [lia|lia|exact Hl|exact (HNR r Hr)|]. intros ch Hch. pose proof (sample_zlen c i x k chs vs l d thr nm ch HW HS HK Hch) as Rc. exact (Forall2_nthd _ x (xr r) [] [] ch HX Rc). }
  destruct (features_decimated d _ thr m a cnt (fun r => mdistances RN false nm (nr r) (xr r) chs vs l 1) mr ar cntr Hd NE F0 HG) as (A & B & C). split; [|split; assumption].
  intros r Hr Hrn. apply A; [exact Hr|]. intros E. apply (f_equal zlen) in E. unfold mdistances in E. rewrite zlen_map, zlen_zrange in E. change (zlen (@nil R)) with 0 in E. unfold nwin in E.
  specialize (HNR r Hr (l - 1) ltac:(lia)). lia.
Qed.
Print Assumptions C93_dilation.

(** A series of 7 points and its two subsamples, a shapelet of length 2 and dilation 2 (integers): the minimum 1 at position 3 is that of the second subsample at position 1, and the
    counts 1 and 2 add up to 3. *)
Definition c93T d : ushp Z := mkUshp [[4; 6]] [2] [d] [3] [false].
Example C93_case :
  run ZN (CallUS [[[1; 4; 5; 4; 8; 7; 2]]] (c93T 2)) false = Ok [[1; 3; 3]] /\
  run ZN (CallUS [[[1; 5; 8; 2]]] (c93T 1)) false = Ok [[3; 1; 1]] /\ run ZN (CallUS [[[4; 4; 7]]] (c93T 1)) false = Ok [[1; 1; 2]] /\
  decimated 2 0 [1; 4; 5; 4; 8; 7; 2] [1; 5; 8; 2] /\ decimated 2 1 [1; 4; 5; 4; 8; 7; 2] [4; 4; 7].
Proof.
  split; [vm_compute; reflexivity|]. split; [vm_compute; reflexivity|]. split; [vm_compute; reflexivity|]. split.
  - intros j v. split.
    + intros H. pose proof (nthZ_range _ _ _ H) as Rj. change (zlen _) with 4 in Rj. assert (C : j = 0 \/ j = 1 \/ j = 2 \/ j = 3) by lia. split; [lia|]. destruct C as [->|[->|[->| ->]]]; exact H.
    + intros (Hj & H). pose proof (nthZ_range _ _ _ H) as Rj. change (zlen _) with 7 in Rj. assert (C : j = 0 \/ j = 1 \/ j = 2 \/ j = 3) by lia. destruct C as [->|[->|[->| ->]]]; exact H.
  - intros j v. split.
    + intros H. pose proof (nthZ_range _ _ _ H) as Rj. change (zlen _) with 3 in Rj. assert (C : j = 0 \/ j = 1 \/ j = 2) by lia. split; [lia|]. destruct C as [->|[->| ->]]; exact H.
    + intros (Hj & H). pose proof (nthZ_range _ _ _ H) as Rj. change (zlen _) with 7 in Rj. assert (C : j = 0 \/ j = 1 \/ j = 2) by lia. destruct C as [->|[->| ->]]; exact H.
Qed.
