(** A concrete random generator and concrete training sets, for the examples on generation. *)
From Coq Require Import ZArith Znumtheory List Bool Reals Lra Lia Permutation.
From Coq Require Import Floats.
From Verif Require Import Prelude Num Kernel Spec KernelProofs RealBase Apply ApplyUni TransformProofs TransformLaws Gen GenSched GenBase GenUni
  GenULoop GenTrace GenURun GenDraw GenSpec GenUFinal GenUTop GenULaws.
Import ListNotations.
Open Scope Z_scope.

(** A generator whose state is a counter. *)
Definition crng : Rng R Z := mkRng R Z (fun s => s) (fun n s => (s mod n, s + 1)) (fun s => ((IZR (s mod 10) / 10)%R, s + 1)).

Lemma crng_laws : RngLaws RN crng.
Proof.
  split.
  - intros n s Hn. cbn. apply Z.mod_pos_bound. exact Hn.
  - intros s. cbn. pose proof (Z.mod_pos_bound s 10 ltac:(lia)) as H. split; [apply Rleb_true|apply Rltb_true].
    + assert (IZR 0 <= IZR (s mod 10))%R by (apply IZR_le; lia). lra.
    + assert (IZR (s mod 10) <= IZR 9)%R by (apply IZR_le; lia). lra.
Qed.

(** the same over the integers and binary64 *)
Definition zrng : Rng Z Z := mkRng Z Z (fun s => s) (fun n s => (s mod n, s + 1)) (fun s => (0, s + 1)).
Definition frng : Rng float Z := mkRng float Z (fun s => s) (fun n s => (s mod n, s + 1)) (fun s => (0.25%float, s + 1)).

(** Two series of two points, of the same class. *)
Definition caseTr : utrain R := TrSL [[[1; 2]]; [[3; 5]]]%R [0; 0].
Definition caseP : gparams R := mkG 1 [2] 7 0%R 0%R 100%R (1/2)%R false false.
(** Three series of 4, 3 and 5 points (padded with 9) in two classes. *)
Definition caseTv : utrain R := TrVL [[[1; 2; 4; 1; 9]]; [[3; 5; 1; 9; 9]]; [[0; 1; 0; 2; 6]]]%R [4; 3; 5] [0; 1; 0] 3.
Definition casePv : gparams R := mkG 4 [2; 3] 7 (1/2)%R 5%R 10%R (1/2)%R true true.

Lemma caseTr_ok : tr_ok caseTr /\ lengths_ok caseP (tr_points caseTr) /\ percentiles_ok caseP.
Proof.
  split; [|split].
  - split; [discriminate|]. split; [intros x [<-|[<-|[]]]; discriminate|]. split; [reflexivity|]. split; [|reflexivity].
    intros x r [<-|[<-|[]]] [<-|[]]; reflexivity.
  - intros l [<-|[]]. split; [lia|]. reflexivity || (cbn; lia).
  - split; cbn; lra.
Qed.

Lemma caseTv_ok : tr_ok caseTv /\ lengths_ok casePv (tr_points caseTv) /\ percentiles_ok casePv.
Proof.
  split; [|split].
  - split; [discriminate|]. split; [intros x [<-|[<-|[<-|[]]]]; discriminate|]. split; [reflexivity|]. split; [reflexivity|]. split; [reflexivity|]. split.
    + intros n [<-|[<-|[<-|[]]]]; lia.
    + intros x r n [<-|[<-|[<-|[]]]] [<-|[]] [<-|[<-|[<-|[]]]]; vm_compute; discriminate.
  - intros l [<-|[<-|[]]]; cbn; lia.
  - split; cbn; lra.
Qed.

(** What any fit on [caseTr] returns: one of the two series, with its distance to the other as threshold. *)
Lemma caseTr_fit T : fitted RN crng caseP caseTr T ->
  us_len T = [2] /\ us_dil T = [1] /\ us_norm T = [false] /\ us_thr T = [5%R] /\ (us_values T = [[1; 2]]%R \/ us_values T = [[3; 5]]%R).
Proof.
  destruct caseTr_ok as (HO & HL & _). intros HF.
  destruct (fitted_sound crng crng_laws caseP caseTr T HO HL HF) as (values & dr & th & s1 & hs & W & Hi & HA & _ & _ & E3 & [HW1 HW2] & HR).
  assert (W = 2) by (destruct HW1 as [E|[]]; auto). subst W.
  pose proof (ac_n _ _ _ _ _ _ _ _ _ _ _ _ HA) as Hn. cbn in Hn. destruct hs as [|q [|q2 hs]]; [discriminate Hn| |rewrite !zlen_cons in Hn; pose proof (zlen_nonneg hs); lia].
  destruct (ac_params _ _ _ _ _ _ _ _ _ _ _ _ HA 0 q eq_refl) as [[Q1|[]] (D1 & D2 & _)]. cbn in D2. rewrite <- Q1 in D2.
  assert (Q2 : q_dil q = 1) by lia. assert (Q3 : q_norm q = false).
  { assert (HB : In (q_norm q) (dr_norm dr)) by (rewrite <- E3; left; reflexivity).
    destruct (U_init_flags crng crng_laws _ _ _ _ _ _ _ _ _ _ _ Hi HB) as (u & Hu & Hb). cbn in Hb. destruct (q_norm q); [|reflexivity].
    assert (u < 0)%R by (apply Hb; reflexivity). lra. }
  destruct (q_origin q) as [o|] eqn:Eo.
  - destruct (ac_some _ _ _ _ _ _ _ _ _ _ _ _ HA 0 q o eq_refl Eo) as ((q' & Hq' & C1 & C2 & _) & (S1 & S2 & S3) & (v & V1 & (a & b & u & PA & PB & Hu & Hthr))).
    assert (q' = q) by (change (Some q = Some q') in Hq'; congruence). subst q'.
    change (tr_samples caseTr) with 2 in *.
    assert (Hs : o_series o = 0 \/ o_series o = 1) by lia.
    assert (Ht : o_start o = 0).
    { rewrite <- Q1, Q2 in C2. unfold nwin in C2. cbn [g_phase caseP] in C2. destruct Hs as [Hs|Hs]; rewrite Hs in C2; [change (zlen (tr_series caseTr 0)) with 2 in C2|change (zlen (tr_series caseTr 1)) with 2 in C2]; cbn in C2; lia. }
    assert (Hte : o_test o = 1 - o_series o).
    { assert (o_test o = 0 \/ o_test o = 1) as [E|E] by lia; destruct Hs as [Hs|Hs]; rewrite Hs, E in *; try reflexivity; exfalso.
      - specialize (S3 eq_refl 1 ltac:(lia) eq_refl). lia.
      - specialize (S3 eq_refl 0 ltac:(lia) eq_refl). lia. }
    assert (PC : forall x p q, is_percentile [x] q p -> p = x).
    { clear. intros x p q (s & HP & HA & H). apply Permutation_length_1_inv in HP. subst s. specialize (H 0). change (zlen [x] - 1) with 0 in H.
      rewrite Rmult_0_l in H. rewrite H by (cbn; lra). unfold nthd. cbn. ring. }
    assert (HV : (q_values (g_phase caseP) (tr_series caseTr) q = Some [1;2]%R /\ o_series o = 0) \/ (q_values (g_phase caseP) (tr_series caseTr) q = Some [3;5]%R /\ o_series o = 1)).
    { unfold q_values. rewrite Eo, Q3, <- Q1, Q2, Ht. destruct Hs as [Hs|Hs]; rewrite Hs; [left|right]; split; reflexivity. }
    assert (HT5 : o_thr o = 5%R).
    { destruct HV as [[V2 Hs']|[V2 Hs']]; rewrite V2 in V1.
      - assert (v = [1;2]%R) by congruence. subst v. rewrite Hte, Hs', Q3, <- Q1, Q2 in PA, PB.
        assert (ED : distances RN (g_phase caseP) false (tr_series caseTr (1 - 0)) [1;2]%R 2 1 = [5%R]).
        { transitivity [(0 + Rabs (3 - 1) + Rabs (5 - 2))%R]; [reflexivity|]. f_equal. unfold Rabs. repeat destruct Rcase_abs; lra. }
        rewrite ED in PA, PB. apply PC in PA, PB. subst. lra.
      - assert (v = [3;5]%R) by congruence. subst v. rewrite Hte, Hs', Q3, <- Q1, Q2 in PA, PB.
        assert (ED : distances RN (g_phase caseP) false (tr_series caseTr (1 - 1)) [3;5]%R 2 1 = [5%R]).
        { transitivity [(0 + Rabs (1 - 3) + Rabs (2 - 5))%R]; [reflexivity|]. f_equal. unfold Rabs. repeat destruct Rcase_abs; lra. }
        rewrite ED in PA, PB. apply PC in PA, PB. subst. lra. }
    assert (HK : kept (g_phase caseP) (tr_series caseTr) q = true).
    { unfold kept. destruct HV as [[-> _]|[-> _]]; cbn [forallb]; apply negb_true_iff, andb_false_iff; left; apply Reqb_false; lra. }
    destruct HR as (R1 & R2 & R3 & R4 & R5). cbn [filter] in *. rewrite HK in *. cbn [map] in *. rewrite R1, R2, R3, R4, R5, <- Q1, Q2, Q3. unfold thr_of. rewrite Eo, HT5.
    split; [reflexivity|]. split; [reflexivity|]. split; [reflexivity|]. split; [reflexivity|]. unfold val_of. destruct HV as [[-> _]|[-> _]]; [left|right]; reflexivity.
  - exfalso. apply (ac_none _ _ _ _ _ _ _ _ _ _ _ _ HA 0 q eq_refl Eo 0 0). exists q. split; [reflexivity|]. split; [cbn; lia|]. split.
    + rewrite <- Q1, Q2. unfold nwin. cbn. lia.
    + intros j q' o Hj. lia.
Qed.

(** The draws of the parameters for one request of length 2 on 2 points, in binary64. *)
Definition casePf : gparams float := mkG 1 [2] 7 0%float 0%float 100%float 0.5%float false false.

Lemma U_init_case log2 log pow2 : log2 1%float = 0%float -> pow2 0%float = 1%float ->
  exists s, U_init (FN log2 log pow2) frng 1 [2] 2 0%float false 7 = Ok ([[0; 0]]%float, mkDrawn [2] [1] [false], [0]%float, s).
Proof.
  intros H1 H2. exists 10. unfold U_init.
  assert (E1 : choice_n frng [2] 1 7 = Ok ([2], 8)) by (vm_compute; reflexivity).
  unfold bindG at 1. rewrite E1. cbn [bind fst snd].
  assert (E2 : draw_dilations (FN log2 log pow2) frng 1 2 [2] false 8 = Ok ([1], 9)).
  { unfold draw_dilations, upper_bound. cbn [map mapG]. unfold bindG, uniform, bindG, draw_unif, retG. cbn [bind fst snd r_unif frng nlog2 nofZ nsub nadd nmul n0 npow2 nfloor FN].
    replace (float_ofZ ((2 - 1) / (2 - 1))) with 1%float by (vm_compute; reflexivity). rewrite H1.
    replace (0 + (0 - 0) * 0.25)%float with 0%float by (vm_compute; reflexivity). rewrite H2. vm_compute. reflexivity. }
  unfold bindG at 1. rewrite E2. vm_compute. reflexivity.
Qed.

(** The groups of the parallel loop executed from last to first. *)
Definition back_sched (dilations : list Z) : list (Z * Z) :=
  concat (map (fun i_d => map (fun i => (i_d, i)) (group_ids dilations i_d)) (rev (zrange 0 (zlen (unique dilations))))).
Lemma back_sched_scheduler : scheduler back_sched.
Proof.
  intros dil g. rewrite <- (seq_sched_ok dil g). unfold back_sched, seq_sched. generalize (zrange_NoDup 0 (zlen (unique dil))).
  induction (zrange 0 (zlen (unique dil))) as [|i l IH]; intros HN; [reflexivity|]. inversion_clear HN as [|? ? Hi Hl].
  cbn [rev map concat]. rewrite map_app, concat_app, !filter_app, (IH Hl). cbn [map concat]. rewrite app_nil_r.
  rewrite filter_map_pair. destruct (Z.eqb_spec i g) as [->|Hne]; [|rewrite app_nil_r; reflexivity].
  replace (filter (fun e => fst e =? g) (concat (map (fun i_d => map (fun i => (i_d, i)) (group_ids dil i_d)) l))) with (@nil (Z * Z)); [rewrite app_nil_r; reflexivity|].
  symmetry. clear IH Hl. induction l as [|j l IH]; [reflexivity|]. cbn [map concat]. rewrite filter_app, filter_map_pair, IH by (intros K; apply Hi; right; exact K).
  destruct (Z.eqb_spec j g) as [->|]; [exfalso; apply Hi; left; reflexivity|reflexivity].
Qed.

(** integer draws counting up, coordinates 0 and 1 in turn *)
Definition z2rng : Rng Z Z := mkRng Z Z (fun s => s) (fun n s => (s mod n, s + 1)) (fun s => (s mod 2, s + 1)).
