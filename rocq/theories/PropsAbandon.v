(** Property C90: early abandoning does not change the distance to the closest window. *)
From Coq Require Import ZArith List Bool Lia Reals Lra Permutation.
From Coq Require Import Floats.
From Verif Require Import Prelude Num Kernel Spec KernelProofs Apply ApplyProofs ApplyUni ApplyMulti TransformProofs TransformLaws SampleLaws FloatLaws FloatReal PropsFloat EarlyAbandon.
Import ListNotations.
Open Scope Z_scope.

(** the constant 1e+100 of the script, in binary64 *)
Definition big64 : float := 0x1.249ad2594c37dp+332%float.

(** binary64, any data (also NaN and infinities): with or without early abandoning, in whatever order the windows are
    visited, the searches give the same number, to the last bit, or the same exception. *)
Theorem C90_same : forall log2 log pow2 early order x v, v <> [] -> Permutation order (zrange 0 (zlen x - zlen v + 1)) ->
  closest (FN log2 log pow2) big64 early order x v = closest (FN log2 log pow2) big64 false (zrange 0 (zlen x - zlen v + 1)) x v.
Proof.
  intros log2 log pow2 early order x v Hv HP.
  assert (H1 : 1 <= zlen v) by (destruct v; [congruence|rewrite zlen_cons; pose proof (zlen_nonneg v); lia]).
  destruct (Z_lt_le_dec (zlen x + 1) (zlen v)) as [H|H]; [rewrite !closest_refused by exact H; reflexivity|].
  assert (HO : forall i, In i order -> 0 <= i < zlen x - zlen v + 1) by (intros i Hi; apply (Permutation_in i HP) in Hi; apply in_zrange in Hi; exact Hi).
  rewrite !(closest_ok _ above) by (try apply rising_F; try lia; try exact HO; intros i Hi; apply in_zrange in Hi; exact Hi). f_equal.
  apply (fold_keep_perm (FN log2 log pow2) dist_like fpos); [apply keep_pos|apply keep_comm|apply Permutation_map; exact HP| |reflexivity].
  intros a Ha. apply in_map_iff in Ha as (i & <- & _). apply l1_like.
Qed.
Print Assumptions C90_same.

(** Real numbers: it is the smallest distance between the values and a window, or 10^100 if no window is closer. *)
Theorem C90_minimum : forall early order x v, v <> [] -> zlen v <= zlen x -> Permutation order (zrange 0 (zlen x - zlen v + 1)) ->
  exists m, closest RN (IZR (10 ^ 100)) early order x v = Ok m /\ (m <= IZR (10 ^ 100))%R /\
    (forall y, In y (distances RN false false x v (zlen v) 1) -> m <= y)%R /\ (In m (distances RN false false x v (zlen v) 1) \/ m = IZR (10 ^ 100)).
Proof.
  intros early order x v Hv Hl HP.
  assert (H1 : 1 <= zlen v) by (destruct v; [congruence|rewrite zlen_cons; pose proof (zlen_nonneg v); lia]).
  assert (HO : forall i, In i order -> 0 <= i < zlen x - zlen v + 1) by (intros i Hi; apply (Permutation_in i HP) in Hi; apply in_zrange in Hi; exact Hi).
  rewrite (closest_ok RN _ (IZR (10 ^ 100)) early order x v rising_R) by (try lia; exact HO). eexists. split; [reflexivity|].
  destruct (fold_keep_R (map (fun i => l1 RN (window RN false x (zlen v) 1 i) v) order) (IZR (10 ^ 100))) as (A & B & C). split; [exact A|].
  assert (HD : forall y, In y (distances RN false false x v (zlen v) 1) <-> In y (map (fun i => l1 RN (window RN false x (zlen v) 1 i) v) order)).
  { intros y. unfold distances. cbn [seen]. rewrite !in_map_iff. assert (Q : forall i, In i order <-> In i (zrange 0 (nwin false (zlen x) (zlen v) 1))).
    { intros i. unfold nwin. replace (zlen x - (zlen v - 1) * 1) with (zlen x - zlen v + 1) by lia. split; apply Permutation_in; [exact HP|apply Permutation_sym; exact HP]. }
    split; intros (i & E & Hi); exists i; (split; [exact E|]); apply Q; exact Hi. }
  split; [intros y Hy; apply B, HD; exact Hy|]. destruct C as [C|C]; [right; exact C|left; apply HD; exact C].
Qed.
Print Assumptions C90_minimum.

Lemma fold_keep_F log2 log pow2 l : let N := FN log2 log pow2 in (forall a, In a l -> fpos a) -> forall m, fpos m ->
  fpos (fold_left (keep N) l m) /\ ~ klt (key (Prim2SF m)) (key (Prim2SF (fold_left (keep N) l m))) /\
  (forall a, In a l -> ~ klt (key (Prim2SF a)) (key (Prim2SF (fold_left (keep N) l m)))) /\ (fold_left (keep N) l m = m \/ In (fold_left (keep N) l m) l).
Proof.
  intros N. induction l as [|b t IH]; intros HG m Hm; cbn [fold_left]; [split; [exact Hm|split; [apply klt_irrefl|split; [intros a []|auto]]]|].
  assert (Hb : fpos b) by (apply HG; left; reflexivity).
  assert (K : keep N m b = b /\ klt (key (Prim2SF b)) (key (Prim2SF m)) \/ keep N m b = m /\ ~ klt (key (Prim2SF b)) (key (Prim2SF m))).
  { pose proof (flt_key b m (fnonneg_number _ (fpos_nonneg _ Hb)) (fnonneg_number _ (fpos_nonneg _ Hm))) as L. unfold keep, N. cbn [nltb FN].
    destruct (PrimFloat.ltb b m); [left; split; [reflexivity|apply L; reflexivity]|right; split; [reflexivity|]]. intros Q. apply L in Q. discriminate. }
  assert (HK : fpos (keep N m b)) by (destruct K as [[-> _]|[-> _]]; assumption).
  destruct (IH ltac:(intros a Ha; apply HG; right; exact Ha) (keep N m b) HK) as (A & B & C & D). set (r := fold_left (keep N) t (keep N m b)) in *.
  assert (T : forall u w, ~ klt (key (Prim2SF w)) (key (Prim2SF u)) -> ~ klt (key (Prim2SF u)) (key (Prim2SF r)) -> ~ klt (key (Prim2SF w)) (key (Prim2SF r))).
  { intros u w H1 H2 H3. destruct (klt_split _ (key (Prim2SF u)) _ H3); contradiction. }
  split; [exact A|]. split.
  - destruct K as [[E K]|[E K]]; rewrite E in *; [|exact B]. apply (T b); [|exact B]. intros Q. exact (klt_irrefl _ (klt_trans _ _ _ K Q)).
  - split.
    + intros a [<-|Ha]; [|auto]. destruct K as [[E K]|[E K]]; rewrite E in *; [exact B|]. apply (T m); assumption.
    + destruct D as [D|D]; [|right; right; exact D]. rewrite D. destruct K as [[E K]|[E K]]; rewrite E; cbn; auto.
Qed.

(** It is the minimum that R_DST.transform returns for the same values as a shapelet of one channel, of dilation 1, not
    normalised, without phase invariance: the same binary64 number, if it is below 1e100. *)
Theorem C90_transform : forall log2 log pow2 (c : call float) T i k x sr n ch v l thr early order m a cnt, let N := FN log2 log pow2 in
  wf_call c -> run N c false = Ok T -> sample_at c i x -> (forall r, In r x -> zlen r = n) -> shapelet_at c k [ch] [v] l 1 thr false ->
  nthZ x ch = Some sr -> all_finite v -> (forall r, In r x -> all_finite r) -> zlen v = l -> 1 <= l <= n ->
  cell3 T i k (m, a, cnt) -> (m <? big64)%float = true -> Permutation order (zrange 0 (n - l + 1)) ->
  closest N big64 early order sr v = Ok m.
Proof.
  intros log2 log pow2 c T i k x sr n ch v l thr early order m a cnt N HW HT HS Hn HK Hc Hv HX Hl Hln HC Hm HP. subst N.
  assert (HX' : all_finite sr) by (apply HX; apply nthZ_In in Hc; exact Hc). assert (Hsr : zlen sr = n) by (apply Hn; apply nthZ_In in Hc; exact Hc).
  destruct (C58_features log2 log pow2 c false T i k x n [ch] [v] l 1 thr HW HT HS Hn HK HX) as (f & HC' & HF); [intros r [<-|[]]; exact Hv|].
  assert (Ef : f = (m, a, cnt)).
  { destruct f as [[m' a'] c']. destruct HC as (row & R1 & B1 & B2 & B3), HC' as (row' & R1' & B1' & B2' & B3'). rewrite R1 in R1'. injection R1' as <-. congruence. }
  subst f. assert (HO : forall j, In j order -> 0 <= j < zlen sr - zlen v + 1) by (intros j Hj; apply (Permutation_in j HP) in Hj; apply in_zrange in Hj; lia).
  rewrite (closest_ok (FN log2 log pow2) above) by (try apply rising_F; try lia; exact HO). f_equal.
  set (ds := map (fun j => l1 (FN log2 log pow2) (window (FN log2 log pow2) false sr (zlen v) 1 j) v) order).
  assert (HD : forall y, In y (mdistances (FN log2 log pow2) false false n x [ch] [v] l 1) <-> In y ds).
  { assert (E : mdistances (FN log2 log pow2) false false n x [ch] [v] l 1 = map (fun j => l1 (FN log2 log pow2) (window (FN log2 log pow2) false sr (zlen v) 1 j) v) (zrange 0 (n - l + 1))).
    { unfold mdistances, nwin. replace (n - (l - 1) * 1) with (n - l + 1) by lia. apply map_ext. intros j. cbn [combine map seen fst snd]. unfold nthd. rewrite Hc, Hl. unfold sumF. cbn [fold_left].
      apply fadd_0_l. apply l1_pos; intros q Hq; apply pt_finite; [|apply all_finite_iff; exact Hv].
      intros w Hw. apply in_map_iff in Hw as (q' & <- & _). apply pt_finite. apply all_finite_iff. exact HX'. }
    intros y. rewrite E. unfold ds. rewrite !in_map_iff. split; intros (j & Ej & Hj); exists j; (split; [exact Ej|]); [apply (Permutation_in j (Permutation_sym HP)); exact Hj|apply (Permutation_in j HP); exact Hj]. }
  assert (HG : forall y, In y ds -> fpos y).
  { intros y Hy. apply HD in Hy. apply (mdistances_number log2 log pow2 false n x [ch] [v] l 1); [intros r w Hr Hw; apply (all_finite_iff r); auto|intros r w [<-|[]] Hw; apply (all_finite_iff v); auto|exact Hy]. }
  destruct (fold_keep_F log2 log pow2 ds HG big64 eq_refl) as (A & B & C & D).  set (r := fold_left (keep (FN log2 log pow2)) ds big64) in *.
  destruct HF as [(E & _)|(p & Ep & _ & Hmin & _)].
  { exfalso. assert (Z0 : zlen (mdistances (FN log2 log pow2) false false n x [ch] [v] l 1) = 0) by (rewrite E; reflexivity). unfold mdistances, nwin in Z0. rewrite zlen_map, zlen_zrange in Z0. lia. }
  apply nthZ_In in Ep. apply HD in Ep. pose proof (HG m Ep) as Pm. apply fpos_key; auto.
  - destruct D as [D|D].
    + rewrite D. apply (flt_key m big64) in Hm; [|apply fnonneg_number, fpos_nonneg; exact Pm|discriminate]. intros Q. exact (klt_irrefl _ (klt_trans _ _ _ Q Hm)).
    + apply HD in D. apply In_nthZ in D as (q & Hq). apply Hmin in Hq. cbn [nleb FN] in Hq. apply fle_key in Hq; [exact Hq| |]; apply fnonneg_number, fpos_nonneg; assumption.
Qed.
Print Assumptions C90_transform.

(** Not so when no window is below 1e100: the script gives 1e100. *)
Theorem C90_capped_refuted : exists x v y, distances (FN fid fid fid) false false x v (zlen v) 1 = [y] /\ (big64 <? y)%float = true /\ PrimFloat.is_finite y = true /\
  closest (FN fid fid fid) big64 true [0] x v = Ok big64.
Proof. exists [0x1p+400%float], [0%float], 0x1p+400%float. vm_compute. auto. Qed.
Print Assumptions C90_capped_refuted.

(** Five windows visited in the order 3, 1, 0, 4, 2 (the first visited is not the closest), a NaN in the series. *)
Example C90_case : let x := [3; 1; 4; 1; 5; nan; 2]%float in let v := [1; 4; 1.5]%float in
  closest (FN fid fid fid) big64 true [3; 1; 0; 4; 2] x v = Ok 0.5%float /\ Permutation [3; 1; 0; 4; 2] (zrange 0 (zlen x - zlen v + 1)) /\
  closest (FN fid fid fid) big64 false [0; 1; 2; 3; 4] x v = Ok 0.5%float /\
  abandon (FN fid fid fid) true 2.5%float 0%float (combine [3; 1; 4]%float v) = 5%float /\ abandon (FN fid fid fid) false 2.5%float 0%float (combine [3; 1; 4]%float v) = 7.5%float.
Proof.
  cbn zeta. split; [vm_compute; reflexivity|]. split.
  - change (zrange 0 _) with [0; 1; 2; 3; 4]. apply NoDup_Permutation; [repeat constructor; cbn; lia|repeat constructor; cbn; lia|]. intros j. cbn. lia.
  - vm_compute. auto.
Qed.

(** The transform of the same series without NaN finds the same 0.5, at position 1. *)
Example C90_transform_case : let N := FN fid fid fid in let x := [3; 1; 4; 1; 5; 9; 2]%float in let v := [1; 4; 1.5]%float in
  run N (CallUS [[x]] (mkUshp [v] [3] [1] [2%float] [false])) false = Ok [[0.5; 1; 1]]%float /\ closest N big64 true [4; 3; 2; 1; 0] x v = Ok 0.5%float.
Proof. split; vm_compute; reflexivity. Qed.
