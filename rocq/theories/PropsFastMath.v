(** Property C89: distances and features when the compiler may reorder the additions (fastmath=True). *)
From Coq Require Import ZArith List Bool Reals Lra Lia Floats Permutation.
From Verif Require Import Prelude Num Kernel Spec KernelProofs RealBase RealProofs Apply ApplyProofs ApplyUni ApplyMulti TransformProofs TransformLaws SampleLaws
  Cases Longer FloatLaws FloatReal FloatError FastMath PropsFloat PropsAccuracy.
Import ListNotations.
Open Scope Z_scope.

(** ** C89.  Fast-math *)

(** [fast_features] (FastMath.v) holds of every triple that can be returned when each distance is a sum of its terms |window point - shapelet point|
    in any order and with any parentheses.  The result of the model, which adds from left to right, is one of them. *)
Theorem C89_sequential : forall log2 log pow2 (c : call float) ph T i k x n chs vs l d thr, let N := FN log2 log pow2 in
  wf_call c -> run N c ph = Ok T -> sample_at c i x -> (forall r, In r x -> zlen r = n) -> shapelet_at c k chs vs l d thr false ->
  (forall r, In r x -> all_finite r) -> (forall r, In r vs -> all_finite r) -> 0 <= l ->
  exists f, cell3 T i k f /\ fast_features N ph n x chs vs l d thr f.
Proof.
  intros log2 log pow2 c ph T i k x n chs vs l d thr N HW HT HS Hn HK HX Hv Hl.
  pose proof (dist_of_float log2 log pow2 c ph i k x n chs vs l d thr HW HS Hn HK HX Hv) as HD.
  eexists. split; [exact (call_cell N c ph T i k _ _ HW HT HD)|]. eexists. split; [|reflexivity]. apply mdistances_any. exact Hl.
Qed.
Print Assumptions C89_sequential.

(** the distances of a fast-math execution *)
Lemma fast_distances {F} (N : NumOps F) ph n X chs vs l d (ds : list F) : Forall2 (fun i y => any_sum N (terms N ph X chs vs l d i) y) (zrange 0 (nwin ph n l d)) ds ->
  zlen ds = Z.max 0 (nwin ph n l d) /\ forall i y, nthZ ds i = Some y -> 0 <= i < nwin ph n l d /\ any_sum N (terms N ph X chs vs l d i) y.
Proof.
  intros H. assert (Z0 : zlen ds = Z.max 0 (nwin ph n l d)) by (apply Forall2_length in H; pose proof (zlen_zrange 0 (nwin ph n l d)) as Q; unfold zlen in *; lia).
  split; [exact Z0|]. intros i y Hy. pose proof (nthZ_range _ _ _ Hy) as Ri. rewrite Z0 in Ri. split; [lia|].
  apply (Cases.Forall2_nthZ _ _ _ H i i y); [rewrite nthZ_zrange by lia; f_equal; lia|exact Hy].
Qed.
Lemma zlen_mdist {F} (N : NumOps F) ph nm n X chs vs l d : zlen (mdistances N ph nm n X chs vs l d) = Z.max 0 (nwin ph n l d).
Proof. unfold mdistances. rewrite zlen_map, zlen_zrange. lia. Qed.
Lemma feats_fin log2 log pow2 ds thr : (forall y, In y ds -> fin y /\ (0 <= fr y)%R) -> is_features (FN log2 log pow2) ds thr (feats (FN log2 log pow2) ds thr).
Proof.
  intros H. apply (feats_spec (FN log2 log pow2) is_number); [apply float_ord_laws|]. intros y Hy. destruct (H y Hy) as (A & B). split; [apply finite_number; exact A|].
  cbn [nleb FN n0]. apply fr_leb; [exact fin_0|exact A|rewrite fr_0; exact B].
Qed.
Lemma fast_near_at log2 log pow2 ph n X chs vs l d ds : let N := FN log2 log pow2 in
  (forall r a, In r X -> In a r -> moderate a) -> (forall r a, In r vs -> In a r -> moderate a) -> 0 <= l -> l * zlen chs <= 2 ^ 53 ->
  Forall2 (fun i y => any_sum N (terms N ph X chs vs l d i) y) (zrange 0 (nwin ph n l d)) ds ->
  forall i y, nthZ ds i = Some y -> exists r, nthZ (mdistances RN ph false n (map (map fr) X) chs (map (map fr) vs) l d) i = Some r /\ near (Z.to_nat (Z.max 1 (l * zlen chs))) y r.
Proof.
  intros N HX Hv Hl HM H i y Hy. destruct (fast_distances N ph n X chs vs l d ds H) as (_ & HD). destruct (HD i y Hy) as (Ri & HS).
  destruct (nthZ_some (mdistances RN ph false n (map (map fr) X) chs (map (map fr) vs) l d) i) as (r & Er); [rewrite zlen_mdist; lia|]. exists r. split; [exact Er|].
  rewrite (mdistances_terms _ _ _ _ _ _ _ _ _ Hl Er). apply (fast_near log2 log pow2); try assumption; intros; apply moderate_bounded; eauto.
Qed.

(** Data of at most 2^960 and at most 2^53 terms: every sum is finite, so that fast-math may assume that there is neither NaN nor infinity, and every result
    is, as in C80, close to the real features: up to one rounding per term. *)
Theorem C89_features : forall log2 log pow2 ph n X chs vs l d thr f, let N := FN log2 log pow2 in
  (forall r a, In r X -> In a r -> moderate a) -> (forall r a, In r vs -> In a r -> moderate a) -> finite thr ->
  0 <= l -> l * zlen chs <= 2 ^ 53 -> 1 <= nwin ph n l d -> fast_features N ph n X chs vs l d thr f ->
  approximate (Z.to_nat (Z.max 1 (l * zlen chs))) (mdistances RN ph false n (map (map fr) X) chs (map (map fr) vs) l d) (fr thr) f.
Proof.
  intros log2 log pow2 ph n X chs vs l d thr f N HX Hv Ht Hl HM Hw (ds & H & ->).
  pose proof (fast_near_at log2 log pow2 ph n X chs vs l d ds HX Hv Hl HM H) as HN. destruct (fast_distances N ph n X chs vs l d ds H) as (Z0 & _).
  apply (features_near log2 log pow2 _ ds _ thr).
  - rewrite zlen_mdist. exact Z0.
  - intros ->. change (zlen (@nil float)) with 0 in Z0. lia.
  - exact HN.
  - apply is_finite_prim. exact Ht.
  - apply feats_fin. intros y Hy. apply In_nthZ in Hy as (i & Hi). destruct (HN i y Hi) as (r & _ & Q). split; [apply Q|eapply near_nonneg; exact Q].
Qed.
Print Assumptions C89_features.

(** All sums of some of the terms are finite. *)
Theorem C89_finite : forall log2 log pow2 ts y, let N := FN log2 log pow2 in
  (forall t, In t ts -> exists a b, moderate a /\ moderate b /\ t = PrimFloat.abs (a - b)) -> zlen ts <= 2 ^ 53 -> any_sum N ts y -> finite y /\ (0 <= fr y)%R.
Proof.
  intros log2 log pow2 ts y N H HM HS. assert (HR : exists rs, Forall2 term_ok ts rs).
  { clear HM HS. induction ts as [|t ts IH]; [exists []; constructor|]. destruct IH as (rs & HR); [intros q Hq; apply H; right; exact Hq|]. destruct (H t (or_introl eq_refl)) as (a & b & Ha & Hb & ->).
    eexists. constructor; [|exact HR]. apply term_near; apply moderate_bounded; assumption. }
  destruct HR as (rs & HR). destruct (any_sum_near _ _ _ _ _ HS rs HR HM) as (Q & _). split; [apply is_finite_prim; apply Q|eapply near_nonneg; exact Q].
Qed.
Print Assumptions C89_finite.

(** Two executions (two machines, or with and without fast-math) of the same shapelet on the same series: the minima are close;
    the counts are the same when no real distance is within the rounding errors of the threshold; the positions are the same when no other real distance is that close to the minimum. *)
Theorem C89_two_executions : forall log2 log pow2 ph n X chs vs l d thr m a t m' a' t', let N := FN log2 log pow2 in
  (forall r x, In r X -> In x r -> moderate x) -> (forall r x, In r vs -> In x r -> moderate x) -> finite thr ->
  0 <= l -> l * zlen chs <= 2 ^ 53 -> 1 <= nwin ph n l d ->
  fast_features N ph n X chs vs l d thr (m, a, t) -> fast_features N ph n X chs vs l d thr (m', a', t') ->
  let e := Z.to_nat (Z.max 1 (l * zlen chs)) in let D := mdistances RN ph false n (map (map fr) X) chs (map (map fr) vs) l d in
  (lo e * fr m' <= up e * fr m)%R /\
  ((forall x, In x D -> (up e * x <= fr thr)%R \/ (fr thr < lo e * x)%R) -> t' = t) /\
  ((exists k r, nthZ D k = Some r /\ forall j x, nthZ D j = Some x -> j <> k -> (up e * r < lo e * x)%R) -> a' = a).
Proof.
  intros log2 log pow2 ph n X chs vs l d thr m a t m' a' t' N HX Hv Ht Hl HM Hw H H' e D.
  pose proof (C89_features log2 log pow2 ph n X chs vs l d thr _ HX Hv Ht Hl HM Hw H) as A. pose proof (C89_features log2 log pow2 ph n X chs vs l d thr _ HX Hv Ht Hl HM Hw H') as A'.
  fold e in A, A'. fold D in A, A'. destruct A as (r & k & rk & cn & (I & M) & _ & B & Ea & Ek & Bk & Et & Bt). destruct A' as (r' & k' & rk' & cn' & (I' & M') & _ & B' & Ea' & Ek' & Bk' & Et' & Bt').
  assert (r' = r) by (specialize (M r' I'); specialize (M' r I); lra). subst r'.
  assert (PL : (0 < lo e)%R) by (rewrite lo_u; apply pow_low_pos). assert (PU : (1 <= up e)%R) by (rewrite up_u; apply (pow_up_mono e e); lia).
  assert (LU : (lo e <= 1)%R). { rewrite lo_u. destruct (pow_low_mono 0 e ltac:(lia)) as (_ & Q). exact Q. }
  split; [|split].
  - apply Rle_trans with (lo e * (up e * r))%R; [apply Rmult_le_compat_l; lra|]. apply Rle_trans with (up e * (lo e * r))%R; [lra|]. apply Rmult_le_compat_l; lra.
  - intros C. rewrite Et, Et'. f_equal. assert (E : filter (fun x => Rleb (up e * x) (fr thr)) D = filter (fun x => Rleb (lo e * x) (fr thr)) D).
    { apply filter_ext_in. intros x Hx. destruct (C x Hx) as [Q|Q].
      - rewrite (proj2 (Rleb_true _ _) Q). symmetry. apply Rleb_true. assert (0 <= x)%R. { apply In_nthZ in Hx as (j & Hj). rewrite (mdistances_terms _ _ _ _ _ _ _ _ _ Hl Hj). apply rsum_nonneg. intros q Hq. apply in_flat_map in Hq as (cv & _ & Hq). apply in_map_iff in Hq as (z & <- & _). apply Rabs_pos. }
        apply Rle_trans with (2 := Q). apply Rmult_le_compat_r; lra.
      - rewrite (proj2 (Rleb_false _ _) Q). apply Rleb_false. assert (0 <= x)%R. { apply In_nthZ in Hx as (j & Hj). rewrite (mdistances_terms _ _ _ _ _ _ _ _ _ Hl Hj). apply rsum_nonneg. intros q Hq. apply in_flat_map in Hq as (cv & _ & Hq). apply in_map_iff in Hq as (z & <- & _). apply Rabs_pos. }
        apply Rlt_le_trans with (1 := Q). apply Rmult_le_compat_r; lra. }
    rewrite E in *. lia.
  - intros (k0 & r0 & E0 & H0). assert (r <= r0)%R by (apply M; apply (nthZ_In _ _ _ E0)). rewrite Ea, Ea'. f_equal.
    assert (U : (up e * r <= up e * r0)%R) by (apply Rmult_le_compat_l; lra).
    assert (K : forall q y, nthZ D q = Some y -> (lo e * y <= up e * r)%R -> q = k0). { intros q y Q1 Q2. destruct (Z.eq_dec q k0) as [E|E]; [exact E|]. specialize (H0 q y Q1 E). lra. }
    rewrite (K k rk Ek Bk), (K k' rk' Ek' Bk'). reflexivity.
Qed.
Print Assumptions C89_two_executions.

Lemma exact_features log2 log pow2 ds thr f : (forall y, In y ds -> fin y) -> fin thr -> zlen ds <= 2 ^ 53 -> is_features (FN log2 log pow2) ds thr f ->
  let '(m, a, t) := f in is_features RN (map fr ds) (fr thr) (fr m, fr a, fr t).
Proof.
  destruct f as [[m a] t]. intros FD Ht ZD HF. destruct HF as [(E0 & Em & Ea & Ec)|(k0 & Hk & Ha & Hmin & Hfst & Hc)].
  - left. rewrite E0. split; [reflexivity|]. subst m a t. split; [|split; apply fr_0]. cbn [nm1 FN RN]. change (-1)%float with (float_ofZ (-1)). apply (proj2 (fr_ofZ (-1) ltac:(lia))).
  - right. pose proof (nthZ_range _ _ _ Hk) as Rk. exists k0. rewrite nthZ_map, Hk. split; [reflexivity|]. cbn [nofZ RN].
    split; [rewrite Ha; apply fr_ofZ; lia|]. assert (Fm : fin m) by (apply FD, (nthZ_In _ _ _ Hk)).
    assert (AT : forall j y, nthZ (map fr ds) j = Some y -> exists q, nthZ ds j = Some q /\ y = fr q /\ fin q).
    { intros j y Hy. rewrite nthZ_map in Hy. destruct (nthZ ds j) as [q|] eqn:Eq; [|discriminate]. exists q. split; [reflexivity|]. split; [cbn in Hy; congruence|]. apply FD, (nthZ_In _ _ _ Eq). }
    split; [intros j y Hy; destruct (AT j y Hy) as (q & Eq & -> & Fq); cbn [nleb RN]; apply Rleb_true; apply fr_leb; [exact Fm|exact Fq|apply (Hmin j q Eq)]|].
    split; [intros j y Hy Hj; destruct (AT j y Hy) as (q & Eq & -> & Fq); cbn [nltb RN]; apply Rltb_true; apply fr_ltb; [exact Fm|exact Fq|apply (Hfst j q Eq Hj)]|].
    assert (EF : filter (fun y => nleb RN y (fr thr)) (map fr ds) = map fr (filter (fun y => nleb (FN log2 log pow2) y thr) ds)).
    { clear - FD Ht. induction ds as [|q ds IH]; [reflexivity|]. cbn [map filter]. rewrite IH by (intros; apply FD; right; assumption). cbn [nleb RN FN].
      assert (Fq : fin q) by (apply FD; left; reflexivity). pose proof (fr_leb q thr Fq Ht) as Q.
      destruct (PrimFloat.leb q thr); [assert (X : Rleb (fr q) (fr thr) = true) by (apply Rleb_true, Q; reflexivity); rewrite X; reflexivity|].
      assert (X : Rleb (fr q) (fr thr) = false) by (apply Rleb_false; apply Rnot_le_lt; intros Z; apply Q in Z; discriminate). rewrite X. reflexivity. }
    rewrite EF, zlen_map, Hc. apply fr_ofZ. pose proof (Longer.zlen_filter (fun y => nleb (FN log2 log pow2) y thr) ds). pose proof (zlen_nonneg (filter (fun y => nleb (FN log2 log pow2) y thr) ds)). lia.
Qed.

(** Integer data with 2 b l channels at most 2^53: every execution returns exactly the real features. *)
Theorem C89_integers : forall log2 log pow2 ph n X chs vs l d thr b m a t, let N := FN log2 log pow2 in
  (forall r x, In r X -> In x r -> whole b x) -> (forall r x, In r vs -> In x r -> whole b x) -> finite thr ->
  0 <= b -> 1 <= l -> 0 <= d -> 1 <= zlen chs -> 2 * b * l * zlen chs <= 2 ^ 53 -> n <= 2 ^ 53 -> fast_features N ph n X chs vs l d thr (m, a, t) ->
  is_features RN (mdistances RN ph false n (map (map fr) X) chs (map (map fr) vs) l d) (fr thr) (fr m, fr a, fr t).
Proof.
  intros log2 log pow2 ph n X chs vs l d thr b m a t N HX Hv Ht Hb Hl Hd Hc HM Hn (ds & H & HF). apply is_finite_prim in Ht.
  assert (HI : forall q, whole b q -> integer b q) by (intros q (F & z & E & B); exists z; split; [apply is_finite_prim; exact F|auto]).
  destruct (fast_distances N ph n X chs vs l d ds H) as (Z0 & HD). set (D := mdistances RN ph false n (map (map fr) X) chs (map (map fr) vs) l d).
  assert (FE : forall i y, nthZ ds i = Some y -> fin y /\ nthZ D i = Some (fr y)).
  { intros i y Hy. destruct (HD i y Hy) as (Ri & HS). destruct (nthZ_some D i) as (r & Er); [unfold D; rewrite zlen_mdist; lia|].
    destruct (fast_exact log2 log pow2 b ph X chs vs l d i y Hb (fun r a Hr Ha => HI a (HX r a Hr Ha)) (fun r a Hr Ha => HI a (Hv r a Hr Ha)) Hl Hc HM HS) as (F & E).
    split; [exact F|]. rewrite Er. f_equal. rewrite E. apply (mdistances_terms _ n). lia. exact Er. }
  assert (ED : map fr ds = D).
  { apply nthZ_ext; [rewrite zlen_map, Z0; unfold D; rewrite zlen_mdist; reflexivity|]. intros i Hi. rewrite zlen_map in Hi. destruct (nthZ_some ds i Hi) as (y & Ey). rewrite nthZ_map, Ey. cbn. symmetry. apply FE, Ey. }
  rewrite <- ED. assert (FD : forall y, In y ds -> fin y) by (intros y Hy; apply In_nthZ in Hy as (i & Hi); apply (FE i y Hi)).
  assert (PD : forall y, In y ds -> fin y /\ (0 <= fr y)%R).
  { intros y Hy. split; [apply FD, Hy|]. apply In_nthZ in Hy as (i & Hi). destruct (FE i y Hi) as (_ & Er). assert (Hl0 : 0 <= l) by lia. rewrite (mdistances_terms _ _ _ _ _ _ _ _ _ Hl0 Er). apply rsum_nonneg. intros q Hq. apply in_flat_map in Hq as (cv & _ & Hq). apply in_map_iff in Hq as (z & <- & _). apply Rabs_pos. }
  assert (ZD : zlen ds <= 2 ^ 53). { rewrite Z0. unfold nwin. destruct ph; nia. }
  pose proof (exact_features log2 log pow2 ds thr (m, a, t) FD Ht ZD) as Q. rewrite HF in Q at 1. apply Q. apply feats_fin. exact PD.
Qed.
Print Assumptions C89_integers.

(** Results do depend on the order: the terms 2^53, 1, 1 give 2^53 from left to right and 2^53 + 2 from right to left; a threshold between the two counts a match in one execution only. *)
Theorem C89_order_refuted : exists X v thr f f', let N := FN fid fid fid in
  (forall a, In a X -> moderate a) /\ (forall a, In a v -> moderate a) /\ finite thr /\
  fast_features N false 3 [X] [0] [v] 3 1 thr f /\ fast_features N false 3 [X] [0] [v] 3 1 thr f' /\ f = (0x1p53, 0, 1)%float /\ f' = (0x1.0000000000001p53, 0, 0)%float.
Proof.
  exists [0x1p53; 1; 1]%float, [0; 0; 0]%float, 0x1p53%float, (0x1p53, 0, 1)%float, (0x1.0000000000001p53, 0, 0)%float. cbv zeta.
  split; [intros a Ha; cbn in Ha; intuition subst; apply moderate_value; reflexivity|]. split; [intros a Ha; cbn in Ha; intuition subst; apply moderate_value; reflexivity|]. split; [reflexivity|].
  assert (ET : terms (FN fid fid fid) false [[0x1p53; 1; 1]]%float [0] [[0; 0; 0]]%float 3 1 0 = [0x1p53; 1; 1]%float) by (vm_compute; reflexivity).
  split; [|split; [|split; reflexivity]].
  - exists [0x1p53]%float. split; [|vm_compute; reflexivity]. change (zrange 0 (nwin false 3 3 1)) with [0]. constructor; [|constructor]. rewrite ET.
    change [0x1p53; 1; 1]%float with (([0x1p53] ++ [1]) ++ [1])%float. replace 0x1p53%float with (nadd (FN fid fid fid) (nadd (FN fid fid fid) 0x1p53 1) 1)%float at 2 by (vm_compute; reflexivity).
    repeat constructor.
  - exists [0x1.0000000000001p53]%float. split; [|vm_compute; reflexivity]. change (zrange 0 (nwin false 3 3 1)) with [0]. constructor; [|constructor]. rewrite ET.
    change [0x1p53; 1; 1]%float with ([0x1p53] ++ ([1] ++ [1]))%float. replace 0x1.0000000000001p53%float with (nadd (FN fid fid fid) 0x1p53 (nadd (FN fid fid fid) 1 1))%float by (vm_compute; reflexivity).
    repeat constructor.
Qed.
Print Assumptions C89_order_refuted.

(** The first series of the case as binary64 numbers: every execution finds the exact match at position 1 and counts one. *)
Example C89_case : forall m a t, fast_features (FN fid fid fid) false 6 [[0; 1; 3; 1; 0; 2]]%float [0] [[1; 3]]%float 2 1 1%float (m, a, t) -> fr m = 0%R /\ fr a = 1%R /\ fr t = 1%R.
Proof.
  intros m a t H. assert (E : [0; 1; 3; 1; 0; 2]%float = map float_ofZ [0; 1; 3; 1; 0; 2]) by (vm_compute; reflexivity). assert (E' : [1; 3]%float = map float_ofZ [1; 3]) by (vm_compute; reflexivity).
  assert (W : forall L x, In x (map float_ofZ L) -> (forall z, In z L -> Z.abs z <= 3) -> whole 3 x).
  { intros L x Hx HL. apply in_map_iff in Hx as (z & <- & Hz). specialize (HL z Hz). destruct (fr_ofZ z ltac:(lia)) as (Q1 & Q2). split; [apply is_finite_prim; exact Q1|]. exists z. auto. }
  rewrite E, E' in H. assert (FT : finite 1%float) by reflexivity.
  pose proof (C89_integers fid fid fid false 6 [map float_ofZ [0; 1; 3; 1; 0; 2]] [0] [map float_ofZ [1; 3]] 2 1 1%float 3 m a t) as Q. cbv zeta in Q.
  specialize (Q ltac:(intros r x [<-|[]] Hx; apply (W _ _ Hx); intros z Hz; cbn in Hz; lia) ltac:(intros r x [<-|[]] Hx; apply (W _ _ Hx); intros z Hz; cbn in Hz; lia) FT ltac:(lia) ltac:(lia) ltac:(lia) ltac:(cbn; lia)).
  change (zlen [0]) with 1 in Q. specialize (Q ltac:(lia) ltac:(lia) H). clear H.
  assert (M : forall L, (forall z, In z L -> Z.abs z <= 3) -> map fr (map float_ofZ L) = map IZR L) by (intros L HL; rewrite map_map; apply map_ext_in; intros z Hz; apply (fr_ofZ z); specialize (HL z Hz); lia).
  cbn [map] in Q. change [float_ofZ 0; float_ofZ 1; float_ofZ 3; float_ofZ 1; float_ofZ 0; float_ofZ 2] with (map float_ofZ [0; 1; 3; 1; 0; 2]) in Q. change [float_ofZ 1; float_ofZ 3] with (map float_ofZ [1; 3]) in Q.
  change (fr (float_ofZ 0) :: fr (float_ofZ 1) :: fr (float_ofZ 3) :: fr (float_ofZ 1) :: fr (float_ofZ 0) :: [fr (float_ofZ 2)]) with (map fr (map float_ofZ [0; 1; 3; 1; 0; 2])) in Q. change (fr (float_ofZ 1) :: [fr (float_ofZ 3)]) with (map fr (map float_ofZ [1; 3])) in Q.
  rewrite !M, fr_1 in Q by (intros z Hz; cbn in Hz; lia).
  assert (ED : mdistances RN false false 6 [map IZR [0; 1; 3; 1; 0; 2]] [0] [map IZR [1; 3]] 2 1 = [3; 0; 4; 3; 2]%R).
  { unfold mdistances. change (zrange 0 (nwin false 6 2 1)) with [0; 1; 2; 3; 4]. cbv -[IZR Rplus Rminus Rabs].
    repeat match goal with |- context [Rabs ?r] => unfold Rabs at 1; destruct (Rcase_abs r); try lra end. repeat f_equal; lra. }
  rewrite ED in Q. destruct Q as [(Q & _)|(k & Hk & Ha & Hm & Hf & Hc)]; [discriminate Q|]. pose proof (Hm 1 0%R eq_refl) as M1. apply Rleb_true in M1. cbn [nofZ RN] in *.
  assert (K : k = 1). { pose proof (nthZ_range _ _ _ Hk) as Rk. change (zlen _) with 5 in Rk. assert (C : k = 0 \/ k = 1 \/ k = 2 \/ k = 3 \/ k = 4) by lia.
    destruct C as [->|[->|[->|[->| ->]]]]; try reflexivity; apply (f_equal (fun o => match o with Some v => v | None => 0%R end)) in Hk; cbv -[IZR fr] in Hk; lra. }
  subst k. apply (f_equal (fun o => match o with Some v => v | None => 0%R end)) in Hk. cbv -[IZR fr] in Hk. split; [symmetry; exact Hk|]. split; [exact Ha|]. rewrite Hc. cbn [filter nleb RN].
  repeat match goal with |- context [Rleb ?u ?v] => first [rewrite (proj2 (Rleb_true u v)) by lra|rewrite (proj2 (Rleb_false u v)) by lra] end. reflexivity.
Qed.
