(** The three searches of the closest window of PaperScripts/early_vs_material.py (lines 13-75): all the windows, with
    early abandoning, and with early abandoning and the windows in a random order. *)
From Flocq Require Import Core IEEE754.BinarySingleNaN IEEE754.PrimFloat.
From Coq Require Import ZArith List Bool Lia Reals Lra Permutation.
From Coq Require Import Floats.
From Verif Require Import Prelude Num Kernel Spec KernelProofs FloatLaws FloatReal.
Import ListNotations.
Open Scope Z_scope.

Section Model.
Context {F : Type} (N : NumOps F).

(** early_vs_material.py 22-25, 43-48, 66-71: the loop over the pairs (x[i, j], values[j]) from _dist = [acc]; with [early] it
    stops as soon as _dist > _min. *)
Fixpoint abandon (early : bool) (mn acc : F) (l : list (F * F)) : F :=
  match l with
  | [] => acc
  | (a, b) :: t => let acc' := nadd N acc (nabs N (nsub N a b)) in if early && nltb N mn acc' then acc' else abandon early mn acc' t
  end.

(** early_vs_material.py 14-30 ([early] = false), 57-75 ([early] = true) and 33-52 (the same with candidates_index shuffled).
    [order] is candidates_index; [big] is the constant 1e+100.  The script imports generate_strides_1D from a module that no
    longer exists; the function is now in _commons.py, and dilation 1 is the only one used. *)
Definition closest (big : F) (early : bool) (order : list Z) (x values : list F) : res F :=
  let* W := generate_strides_1D x (zlen values) 1 false in
  foldM (fun mn i => let* row := get W i in let d := abandon early mn (n0 N) (combine row values) in Ok (if nltb N d mn then d else mn)) order big.

(** The same without the exceptions. *)
Definition keep (mn d : F) : F := if nltb N d mn then d else mn.

(** once above [mn], a sum never gets below it again *)
Definition rising (J : F -> F -> Prop) : Prop :=
  (forall m a, nltb N m a = true -> J m a) /\ (forall m a b, J m a -> J m (nadd N a (nabs N b))) /\ forall m a, J m a -> nltb N a m = false.

Lemma abandon_above J mn l : rising J -> forall acc, J mn acc -> J mn (abandon false mn acc l).
Proof. intros (_ & HA & _). induction l as [|[a b] t IH]; intros acc H; cbn [abandon andb]; [exact H|]. apply IH, HA, H. Qed.
Lemma abandon_keep J early mn l : rising J -> forall acc, keep mn (abandon early mn acc l) = keep mn (abandon false mn acc l).
Proof.
  intros HJ. induction l as [|[a b] t IH]; intros acc; [reflexivity|]. cbn [abandon andb]. destruct (early && nltb N mn _) eqn:E; [|apply IH].
  apply andb_true_iff in E as [_ E]. destruct HJ as (H1 & H2 & H3). apply H1 in E. pose proof (abandon_above J mn t (conj H1 (conj H2 H3)) _ E) as Q.
  unfold keep. rewrite (H3 _ _ E), (H3 _ _ Q). reflexivity.
Qed.
Lemma abandon_sum mn l : forall acc, abandon false mn acc l = fold_left (nadd N) (map (fun p => nabs N (nsub N (fst p) (snd p))) l) acc.
Proof. induction l as [|[a b] t IH]; intros acc; [reflexivity|]. cbn [abandon andb map fold_left fst snd]. apply IH. Qed.

Lemma combine_window ph x v d i : map (fun p => nabs N (nsub N (fst p) (snd p))) (combine (window N ph x (zlen v) d i) v)
  = map (fun j => nabs N (nsub N (pt N (window N ph x (zlen v) d i) j) (pt N v j))) (zrange 0 (zlen v)).
Proof.
  assert (HW : zlen (window N ph x (zlen v) d i) = zlen v) by (unfold window; rewrite zlen_map, zlen_zrange; pose proof (zlen_nonneg v); lia).
  revert HW. generalize (window N ph x (zlen v) d i) as w. induction v as [|b v IH]; intros w HW.
  - destruct w; [reflexivity|]. rewrite zlen_cons in HW. change (zlen (@nil F)) with 0 in HW. pose proof (zlen_nonneg w). lia.
  - destruct w as [|a w]; [rewrite zlen_cons in HW; change (zlen (@nil F)) with 0 in HW; pose proof (zlen_nonneg v); lia|]. rewrite !zlen_cons in HW. cbn [combine map fst snd].
    pose proof (zlen_nonneg v) as Hv. rewrite zlen_cons, zrange_cons by lia. cbn [map]. f_equal. rewrite IH by lia.
    replace (zrange (0 + 1) (1 + zlen v)) with (zrange (0 + 1) (zlen v + 1)) by (f_equal; lia). rewrite zrange_shift.
    rewrite map_map. apply map_ext_in. intros j Hj. apply in_zrange in Hj. unfold pt, nthd. rewrite !nthZ_cons by lia. replace (j + 1 =? 0) with false by lia. replace (j + 1 - 1) with j by lia. reflexivity.
Qed.
Lemma abandon_l1 mn x v i : abandon false mn (n0 N) (combine (window N false x (zlen v) 1 i) v) = l1 N (window N false x (zlen v) 1 i) v.
Proof.
  rewrite abandon_sum, combine_window. unfold l1, sumF.
  assert (HW : zlen (window N false x (zlen v) 1 i) = zlen v) by (unfold window; rewrite zlen_map, zlen_zrange; pose proof (zlen_nonneg v); lia). rewrite HW. reflexivity.
Qed.

Lemma closest_ok J big early order x v : rising J -> 1 <= zlen v <= zlen x + 1 -> (forall i, In i order -> 0 <= i < zlen x - zlen v + 1) ->
  closest big early order x v = Ok (fold_left keep (map (fun i => l1 N (window N false x (zlen v) 1 i) v) order) big).
Proof.
  intros HJ Hf Ho. unfold closest. pose proof (zlen_nonneg v) as Hv. rewrite (generate_strides_1D_ok N) by (unfold fits; lia). cbn [bind]. revert big Ho.
  induction order as [|i t IH]; intros big Ho; [reflexivity|]. cbn [foldM map fold_left].
  assert (Hi : 0 <= i < zlen x - zlen v + 1) by (apply Ho; left; reflexivity).
  assert (E : get (windows N false x (zlen v) 1) i = Ok (window N false x (zlen v) 1 i)).
  { apply get_nthZ; [lia|]. unfold windows. rewrite nthZ_map, nthZ_zrange by (unfold nwin; lia). reflexivity. }
  rewrite E. cbn [bind]. change (if nltb N ?a big then ?a else big) with (keep big a). rewrite (abandon_keep J) by exact HJ. rewrite abandon_l1. apply IH. intros j Hj. apply Ho. right. exact Hj.
Qed.
Lemma closest_refused big early order x v : zlen x + 1 < zlen v -> closest big early order x v = Err ValueError.
Proof.
  intros H. unfold closest, generate_strides_1D, strides_1D. replace (0 <=? zlen x - (zlen v - 1) * 1) with false by lia. reflexivity.
Qed.

(** values taken in another order *)
Lemma fold_keep_perm (G : F -> Prop) (M : F -> Prop) l l' : (forall m a, M m -> G a -> M (keep m a)) ->
  (forall m a b, M m -> G a -> G b -> keep (keep m a) b = keep (keep m b) a) ->
  Permutation l l' -> (forall a, In a l -> G a) -> forall m, M m -> fold_left keep l m = fold_left keep l' m.
Proof.
  intros HM HC HP. induction HP as [|a l l' HP IH|a b l|l1 l2 l3 P1 I1 P2 I2]; intros HG m Hm; cbn [fold_left]; [reflexivity| | |].
  - apply IH; [intros c Hc; apply HG; right; exact Hc|]. apply HM; [exact Hm|]. apply HG. left. reflexivity.
  - rewrite HC; [reflexivity|exact Hm| |]; apply HG; cbn; auto.
  - rewrite I1 by assumption. apply I2; [|exact Hm]. intros c Hc. apply HG. apply (Permutation_in c (Permutation_sym P1)). exact Hc.
Qed.
End Model.

(** ** Real numbers *)

Lemma rising_R : rising RN (fun m a => (m < a)%R).
Proof.
  split; [intros m a H; apply Rltb_true in H; exact H|]. split.
  - intros m a b H. cbn [nadd nabs RN]. pose proof (Rabs_pos b). lra.
  - intros m a H. apply Rltb_false. lra.
Qed.
Lemma fold_keep_R l : forall m, (fold_left (keep RN) l m <= m)%R /\ (forall a, In a l -> fold_left (keep RN) l m <= a)%R /\ (fold_left (keep RN) l m = m \/ In (fold_left (keep RN) l m) l).
Proof.
  induction l as [|b t IH]; intros m; cbn [fold_left]; [split; [lra|split; [intros a []|auto]]|].
  assert (K : keep RN m b = b /\ (b < m)%R \/ keep RN m b = m /\ (m <= b)%R).
  { unfold keep. destruct (nltb RN b m) eqn:E; [left; apply Rltb_true in E; auto|right; apply Rltb_false in E; auto]. }
  destruct (IH (keep RN m b)) as (A & B & C). split; [destruct K as [[E K]|[E K]]; rewrite E in *; lra|]. split.
  - intros a [<-|Ha]; [|auto]. destruct K as [[E K]|[E K]]; rewrite E in *; lra.
  - destruct C as [C|C]; [|right; right; exact C]. rewrite C. destruct K as [[E K]|[E K]]; rewrite E; cbn; auto.
Qed.

(** ** binary64 *)

Section Floats.
Context (log2 log pow2 : float -> float).
Notation N := (FN log2 log pow2).

Definition above (m a : float) : Prop := PrimFloat.ltb m a = true \/ PrimFloat.is_nan a = true.

Lemma ltb_number m a : PrimFloat.ltb m a = true -> is_number m /\ is_number a.
Proof. rewrite ltb_spec. unfold is_number, SFltb. destruct (Prim2SF m), (Prim2SF a); cbn; intros H; split; try discriminate; try (destruct s; discriminate H). Qed.
Lemma nan_iff a : PrimFloat.is_nan a = true <-> Prim2SF a = S754_nan.
Proof.
  destruct (PrimFloat.is_nan a) eqn:E.
  - split; [intros _|reflexivity]. destruct (Prim2SF a) eqn:Q; try reflexivity; exfalso; assert (C : is_number a) by (unfold is_number; rewrite Q; discriminate); apply is_number_nan in C; congruence.
  - apply is_number_nan in E. split; [discriminate|]. intros Q. contradiction.
Qed.
Lemma above_lt m a : above m a -> PrimFloat.ltb a m = false.
Proof.
  intros [H|H].
  - pose proof (ltb_number _ _ H) as [Hm Ha]. apply (flt_key m a Hm Ha) in H. destruct (PrimFloat.ltb a m) eqn:E; [|reflexivity]. apply (flt_key a m Ha Hm) in E.
    exfalso. exact (klt_irrefl _ (klt_trans _ _ _ H E)).
  - apply nan_iff in H. rewrite ltb_spec, H. unfold SFltb. destruct (Prim2SF m); reflexivity.
Qed.

Lemma fin_number_cases x : is_number x -> fin x \/ Prim2SF x = S754_infinity false \/ Prim2SF x = S754_infinity true.
Proof. unfold is_number, fin, FloatLaws.is_finite. destruct (Prim2SF x) as [s|[|]| |s m e]; intros H; auto. Qed.
Lemma add_inf_l x y : Prim2SF x = S754_infinity false -> Prim2SF y <> S754_infinity true -> is_number y -> Prim2SF (x + y)%float = S754_infinity false.
Proof. intros E H1 H2. rewrite add_spec, E. unfold is_number in H2. destruct (Prim2SF y) as [s|[|]| |s m e]; cbn; try reflexivity; contradiction. Qed.
Lemma add_inf_r x y : fin x -> Prim2SF y = S754_infinity false -> Prim2SF (x + y)%float = S754_infinity false.
Proof. intros H E. rewrite add_spec, E. unfold fin, FloatLaws.is_finite in H. destruct (Prim2SF x) as [s|s| |s m e]; cbn; try reflexivity; contradiction. Qed.
Lemma lt_inf m x : is_number m -> Prim2SF m <> S754_infinity false -> Prim2SF x = S754_infinity false -> PrimFloat.ltb m x = true.
Proof. intros H1 H2 E. rewrite ltb_spec, E. unfold is_number in H1. destruct (Prim2SF m) as [s|[|]| |[|] mm e]; cbn; try reflexivity; contradiction. Qed.
Lemma lt_not_inf m x : PrimFloat.ltb m x = true -> Prim2SF m <> S754_infinity false.
Proof. rewrite ltb_spec. intros H E. rewrite E in H. unfold SFltb in H. destruct (Prim2SF x) as [s|[|]| |[|] mm e]; discriminate H. Qed.

(** adding a positive number: the sum is at least the first term, or infinite *)
Lemma add_up x y : fin x -> fin y -> fpos y -> (fin (x + y)%float /\ (fr x <= fr (x + y)%float)%R) \/ Prim2SF (x + y)%float = S754_infinity false.
Proof.
  intros Hx Hy Py. pose proof Hx as Bx. pose proof Hy as By. apply fin_B in Bx, By.
  assert (Sy : Bsign (Prim2B y) = false /\ (0 <= fr y)%R).
  { unfold fpos in Py. unfold fr. rewrite <- (B2SF_Prim2B y) in Py. destruct (Prim2B y) as [s|s| |s m e E]; cbn in Py |- *; subst; try contradiction; split; try reflexivity; try lra.
    apply F2R_ge_0. cbn. lia. }
  destruct Sy as [Sy Ny]. pose proof (Bplus_correct prec emax Hprec Hmax mode_NE _ _ Bx By) as H. fold (fr x) (fr y) in H.
  destruct (Rlt_bool _ _) eqn:E in H.
  - destruct H as (A & B & _). left. rewrite <- add_equiv in A, B. split; [apply fin_B; exact B|]. unfold fr at 2. rewrite A. rewrite <- (rnd_fr x) at 1. apply rnd_le. lra.
  - destruct H as (A & B). right. rewrite B, Sy in A. rewrite <- add_equiv, B2SF_Prim2B in A. exact A.
Qed.

Lemma above_add m a b : above m a -> above m (a + PrimFloat.abs b)%float.
Proof.
  assert (NaN : forall x y, Prim2SF x = S754_nan \/ Prim2SF y = S754_nan -> Prim2SF (x + y)%float = S754_nan).
  { intros x y [E|E]; rewrite add_spec, E; destruct (Prim2SF x); destruct (Prim2SF y); reflexivity. }
  intros [H|H]; [|right; apply nan_iff; apply nan_iff in H; apply NaN; left; exact H].
  destruct (PrimFloat.is_nan b) eqn:Nb.
  { right. apply nan_iff. apply nan_iff in Nb. apply NaN. right. rewrite abs_spec, Nb. reflexivity. }
  apply is_number_nan in Nb. pose proof (fabs_pos b Nb) as Pb. pose proof (ltb_number _ _ H) as [Hm Ha]. pose proof (fnonneg_number _ (fpos_nonneg _ Pb)) as Hb.
  left. revert Pb Hb. generalize (PrimFloat.abs b) as y. clear b Nb. intros y Py Hy. pose proof (lt_not_inf _ _ H) as Hmi.
  assert (Hyi : Prim2SF y <> S754_infinity true) by (intros E; unfold fpos in Py; rewrite E in Py; discriminate Py).
  destruct (fin_number_cases a Ha) as [Fa|[Ia|Ia]].
  - destruct (fin_number_cases y Hy) as [Fy|[Iy|Iy]]; [|apply lt_inf; auto; apply add_inf_r; auto|contradiction].
    destruct (add_up a y Fa Fy Py) as [[Fs L]|Is]; [|apply lt_inf; auto].
    destruct (fin_number_cases m Hm) as [Fm|[Im|Im]]; [|contradiction|].
    + apply (fr_ltb m a Fm Fa) in H. apply (fr_ltb m _ Fm Fs). lra.
    + rewrite ltb_spec, Im. unfold fin, FloatLaws.is_finite in Fs. destruct (Prim2SF (a + y)%float) as [s|s| |s mm e]; try contradiction; reflexivity.
  - apply lt_inf; auto. apply add_inf_l; auto.
  - exfalso. rewrite ltb_spec, Ia in H. destruct (Prim2SF m) as [s|[|]| |[|] mm e]; discriminate H.
Qed.

Lemma rising_F : rising N above.
Proof. split; [intros m a H; left; exact H|]. split; [intros m a b; apply above_add|exact above_lt]. Qed.

(** *** The order of the windows *)

Definition dist_like (a : float) : Prop := fpos a \/ PrimFloat.is_nan a = true.
Lemma fpos_key x y : fpos x -> fpos y -> ~ klt (key (Prim2SF x)) (key (Prim2SF y)) -> ~ klt (key (Prim2SF y)) (key (Prim2SF x)) -> x = y.
Proof.
  unfold fpos. intros Hx Hy A B. apply Prim2SF_inj. destruct (Prim2SF x) as [sx|sx| |sx mx ex], (Prim2SF y) as [sy|sy| |sy my ey]; cbn [sf_sign] in Hx, Hy; try contradiction; subst;
    try reflexivity; try (exfalso; cbn in A, B; lia). cbn in A, B. assert (ex = ey) by lia. assert (Zpos mx = Zpos my) by lia. congruence.
Qed.
Lemma keep_pos m a : fpos m -> dist_like a -> fpos (keep N m a).
Proof.
  intros Hm [Ha|Ha]; unfold keep; cbn [nltb FN]; [destruct (PrimFloat.ltb a m); assumption|]. rewrite (above_lt m a) by (right; exact Ha). exact Hm.
Qed.
Lemma keep_comm m a b : fpos m -> dist_like a -> dist_like b -> keep N (keep N m a) b = keep N (keep N m b) a.
Proof.
  intros Hm [Ha|Ha] [Hb|Hb].
  - unfold keep. cbn [nltb FN]. pose proof (fnonneg_number _ (fpos_nonneg _ Hm)) as Nm. pose proof (fnonneg_number _ (fpos_nonneg _ Ha)) as Na. pose proof (fnonneg_number _ (fpos_nonneg _ Hb)) as Nb.
    pose proof (flt_key a m Na Nm) as L1. pose proof (flt_key b m Nb Nm) as L2. pose proof (flt_key a b Na Nb) as L3. pose proof (flt_key b a Nb Na) as L4.
    destruct (PrimFloat.ltb a m) eqn:E1, (PrimFloat.ltb b m) eqn:E2; rewrite ?E1, ?E2; try reflexivity.
    + destruct (PrimFloat.ltb b a) eqn:E4, (PrimFloat.ltb a b) eqn:E3; try reflexivity.
      * exfalso. apply (klt_irrefl (key (Prim2SF a))). apply (klt_trans _ (key (Prim2SF b))); [apply L3; reflexivity|apply L4; reflexivity].
      * apply fpos_key; auto; intros K; [apply L3 in K; discriminate|apply L4 in K; discriminate].
    + destruct (PrimFloat.ltb b a) eqn:E4; [|reflexivity]. exfalso. assert (K : klt (key (Prim2SF b)) (key (Prim2SF m))) by (apply (klt_trans _ (key (Prim2SF a))); [apply L4|apply L1]; reflexivity).
      apply L2 in K. discriminate.
    + destruct (PrimFloat.ltb a b) eqn:E3; [|reflexivity]. exfalso. assert (K : klt (key (Prim2SF a)) (key (Prim2SF m))) by (apply (klt_trans _ (key (Prim2SF b))); [apply L3|apply L2]; reflexivity).
      apply L1 in K. discriminate.
  - assert (K : forall m, keep N m b = m) by (intros m'; unfold keep; cbn [nltb FN]; rewrite (above_lt m' b) by (right; exact Hb); reflexivity). rewrite !K. reflexivity.
  - assert (K : forall m, keep N m a = m) by (intros m'; unfold keep; cbn [nltb FN]; rewrite (above_lt m' a) by (right; exact Ha); reflexivity). rewrite !K. reflexivity.
  - assert (K : forall m, keep N m a = m) by (intros m'; unfold keep; cbn [nltb FN]; rewrite (above_lt m' a) by (right; exact Ha); reflexivity). rewrite !K. reflexivity.
Qed.
Lemma sum_like l : forall acc, dist_like acc -> dist_like (fold_left (fun s x => s + PrimFloat.abs x)%float l acc).
Proof.
  induction l as [|x t IH]; intros acc H; cbn [fold_left]; [exact H|]. apply IH.
  assert (NaN : forall x y, Prim2SF x = S754_nan \/ Prim2SF y = S754_nan -> Prim2SF (x + y)%float = S754_nan).
  { intros u w [E|E]; rewrite add_spec, E; destruct (Prim2SF u); destruct (Prim2SF w); reflexivity. }
  destruct H as [H|H]; [|right; apply nan_iff; apply nan_iff in H; apply NaN; left; exact H].
  destruct (PrimFloat.is_nan x) eqn:Nx; [right; apply nan_iff; apply nan_iff in Nx; apply NaN; right; rewrite abs_spec, Nx; reflexivity|].
  left. apply fadd_pos; [exact H|]. apply fabs_pos. apply is_number_nan. exact Nx.
Qed.
Lemma l1_like x y : dist_like (l1 N x y).
Proof.
  unfold l1, sumF. cbn [nadd nabs nsub n0 FN]. set (f := fun j => _). replace (map f _) with (map PrimFloat.abs (map (fun j => pt N x j - pt N y j)%float (zrange 0 (zlen x)))) by (rewrite map_map; reflexivity).
  generalize (map (fun j => pt N x j - pt N y j)%float (zrange 0 (zlen x))) as l. intros l.
  assert (E : forall l acc, fold_left PrimFloat.add (map PrimFloat.abs l) acc = fold_left (fun s x => s + PrimFloat.abs x)%float l acc) by (induction l0 as [|c t IH]; intros acc; cbn; auto).
  rewrite E. apply sum_like. left. reflexivity.
Qed.
End Floats.
