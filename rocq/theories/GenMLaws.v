(** Consequences of the account of a multivariate fit, on the shapelets it returns. *)
From Coq Require Import ZArith Znumtheory List Bool Reals Lra Lia Permutation.
From Verif Require Import Prelude Num Kernel Spec KernelProofs RealBase Apply ApplyUni ApplyMulti TransformProofs TransformLaws RealProofs SampleLaws Gen GenSched GenBase GenUni
  GenULoop GenTrace GenURun GenDraw GenSpec GenUFinal GenUTop GenULaws GenMulti GenMLoop GenMRun GenMSpec GenMFinal GenMTop.
Import ListNotations.
Open Scope Z_scope.

(** ** Reading the packed arrays *)

(** Shapelet [k] of the flat arrays of [T], read directly: its channels are the block after the channels of the shapelets
    before it, its values the block after theirs, cut in rows of [l] values. *)
Definition packed_at {F} (T : mshp F) (k : Z) (chs : list Z) (vs : list (list F)) (l d : Z) (thr : F) (nm : bool) : Prop :=
  exists nc, nthZ (ms_nch T) k = Some nc /\ nthZ (ms_len T) k = Some l /\ nthZ (ms_dil T) k = Some d /\
    nthZ (ms_thr T) k = Some thr /\ nthZ (ms_norm T) k = Some nm /\
    (let c0 := zsum (slice (ms_nch T) 0 k) in chs = slice (ms_chan T) c0 (c0 + nc)) /\
    (let v0 := zsum (zmul_list (slice (ms_nch T) 0 k) (slice (ms_len T) 0 k)) in
     vs = map (fun j => slice (ms_values T) (v0 + j * l) (v0 + (j + 1) * l)) (zrange 0 nc)).

Lemma slice_inner {A} (a b c : list A) i j : 0 <= i <= j -> j <= zlen b -> slice (a ++ b ++ c) (zlen a + i) (zlen a + j) = slice b i j.
Proof.
  intros Hi Hj. pose proof (zlen_nonneg a). pose proof (zlen_nonneg c). rewrite !slice_ok by (rewrite ?zlen_app; lia).
  replace (zlen a + j - (zlen a + i)) with (j - i) by lia.
  replace (Z.to_nat (zlen a + i)) with (length a + Z.to_nat i)%nat by (unfold zlen in *; lia).
  rewrite skipn_app. rewrite skipn_all2 by lia. replace (length a + Z.to_nat i - length a)%nat with (Z.to_nat i) by lia. cbn [app].
  rewrite skipn_app, firstn_app. replace (Z.to_nat (j - i) - length (skipn (Z.to_nat i) b))%nat with 0%nat by (rewrite skipn_length; unfold zlen in *; lia).
  rewrite firstn_O, app_nil_r. reflexivity.
Qed.

Lemma zmul_app a a' b b' : length a = length b -> zmul_list (a ++ a') (b ++ b') = zmul_list a b ++ zmul_list a' b'.
Proof. unfold zmul_list. revert b. induction a as [|x a IH]; intros [|z b] H; try discriminate; [reflexivity|]. cbn [app combine map fst snd]. rewrite IH by (cbn in H; lia). reflexivity. Qed.

Lemma mshp_packed {F} (T : mshp F) L k chs vs l d thr nm : packed T L -> mshp_at T L k chs vs l d thr nm -> packed_at T k chs vs l d thr nm.
Proof.
  intros HP (HL & Hl & Hd & Ht & Hn). pose proof HP as (P1 & P2 & P3 & P4 & P5 & P6 & P7 & P8 & P9).
  destruct (P8 k _ l HL Hl) as (E1 & E2 & E4 & E5). cbn [fst snd] in *.
  pose proof (packed_a1 T L HP) as PA. exists (zlen chs). split; [rewrite P3, nthZ_map, HL; reflexivity|].
  split; [exact Hl|]. split; [exact Hd|]. split; [exact Ht|]. split; [exact Hn|].
  apply nthZ_split in HL as (pre & post & -> & Hk). apply nthZ_split in Hl as (lp & lq & El & Hlp).
  assert (EN : slice (ms_nch T) 0 k = map (@zlen Z) (map fst pre)).
  { rewrite P3, map_app. replace k with (zlen (map (fun p : list Z * list (list F) => zlen (fst p)) pre)) by (rewrite zlen_map; exact Hk). rewrite slice_app_l, map_map. reflexivity. }
  assert (ES : slice (ms_len T) 0 k = lp) by (rewrite El, <- Hlp; apply slice_app_l).
  cbn zeta. split.
  - rewrite EN, zsum_zlen, P1, map_app, concat_app. cbn [map concat fst]. symmetry. apply slice_app_mid.
  - rewrite EN, ES.
    assert (EV : zmul_list (map (@zlen Z) (map fst pre)) lp = map (@zlen F) (map (fun p => concat (snd p)) pre)).
    { rewrite P3, El, map_app, map_app in PA. rewrite map_app in PA. rewrite zmul_app in PA.
      - apply app_eq_app in PA. rewrite map_map. assert (LE : length (zmul_list (map (fun p : list Z * list (list F) => zlen (fst p)) pre) lp) = length (map (@zlen F) (map (fun p => concat (snd p)) pre))).
        { unfold zmul_list. rewrite !map_length, combine_length, map_length. unfold zlen in *. lia. }
        destruct PA as (w & [[A B]|[A B]]); rewrite A in LE; rewrite app_length in LE; destruct w; cbn in LE; try lia; rewrite app_nil_r in A; congruence.
      - rewrite map_length. unfold zlen in *. lia. }
    rewrite EV, zsum_zlen, P2, map_app, concat_app. cbn [map concat snd].
    pose proof (reshape_concat vs l E4) as HR. unfold reshape in HR. rewrite (concat_regular_len _ _ E4), Z.eqb_refl in HR. cbn in HR.
    assert (HR' : vs = map (fun c => slice (concat vs) (c * l) ((c + 1) * l)) (zrange 0 (zlen vs))) by congruence. rewrite HR' at 1. rewrite E1.
    apply map_ext_in. intros j Hj. apply in_zrange in Hj. symmetry. apply slice_inner; [nia|]. rewrite (concat_regular_len _ _ E4). nia.
Qed.

Lemma packed_mshp {F} (T : mshp F) L k chs vs l d thr nm : packed T L -> packed_at T k chs vs l d thr nm -> mshp_at T L k chs vs l d thr nm.
Proof.
  intros HP HA. pose proof HP as (P1 & P2 & P3 & P4 & P5 & P6 & P7 & P8 & P9). destruct HA as (nc & H1 & H2 & H3 & H4 & H5 & H6 & H7).
  pose proof (nthZ_range _ _ _ H2). destruct (nthZ_some L k) as ((chs', vs') & E); [lia|].
  assert (HM : mshp_at T L k chs' vs' l d thr nm) by (repeat split; auto).
  destruct (mshp_packed T L k _ _ _ _ _ _ HP HM) as (nc' & G1 & _ & _ & _ & _ & G6 & G7). assert (nc' = nc) by congruence. subst nc'.
  assert (chs' = chs) by (rewrite H6, G6; reflexivity). assert (vs' = vs) by (rewrite H7, G7; reflexivity). subst. exact HM.
Qed.

(** ** Multivariate training sets, same length or variable length *)

Inductive mtrain (F : Type) : Type :=
| TrMSL (X : dataset F) (y : list Z)
| TrMVL (X : dataset F) (X_len y : list Z) (min_len : Z).
Arguments TrMSL {F}. Arguments TrMVL {F}.

Definition mt_data {F} (c : mtrain F) : dataset F := match c with TrMSL X _ => X | TrMVL X _ _ _ => X end.
(** number of points every series is known to have *)
Definition mt_points {F} (c : mtrain F) : Z := match c with TrMSL X _ => n_timestamps X | TrMVL _ _ _ min_len => min_len end.
Definition mt_samples {F} (c : mtrain F) : Z := zlen (mt_data c).
Definition mt_nf {F} (c : mtrain F) : Z := n_features (mt_data c).
Definition mt_labels {F} (c : mtrain F) : list Z := match c with TrMSL _ y => y | TrMVL _ _ y _ => y end.
(** the channels of series [s], and its number of points *)
Definition mt_series {F} (c : mtrain F) (s : Z) : list (list F) := match c with TrMSL X _ => nthd [] X s | TrMVL X X_len _ _ => mser_vl X X_len s end.
Definition mt_len {F} (c : mtrain F) (s : Z) : Z := match c with TrMSL X _ => n_timestamps X | TrMVL _ X_len _ _ => nthd 0 X_len s end.
Definition mt_ok {F} (c : mtrain F) : Prop :=
  match c with TrMSL X y => train_m (n_features X) (n_timestamps X) X y | TrMVL X X_len y min_len => train_mv (n_features X) min_len X X_len y end.
Definition mt_call {F} (c : mtrain F) (T : mshp F) (L : list (lshp F)) : call F :=
  match c with TrMSL X _ => CallMS (n_features X) (n_timestamps X) X T L | TrMVL X X_len _ _ => CallMV (n_features X) (n_timestamps X) X X_len T L end.
(** transforming the training data *)
Definition mt_run {F} (N : NumOps F) (c : mtrain F) (T : mshp F) (ph : bool) : res (list (list F)) :=
  match c with TrMSL X _ => M_SL_apply N X T ph | TrMVL X X_len _ _ => M_VL_apply N X X_len T ph end.

(** [T] is a possible result of fit with [mc] channels at most: on the seeded thread, or scheduled in any way with any
    random states in the other threads. *)
Inductive mfitted {F S} (N : NumOps F) (rng : Rng F S) (P : gparams F) (mc : Z) : mtrain F -> mshp F -> Prop :=
| mfitted_SL_seq X y T : M_SL_generate N rng X y mc P = Ok T -> mfitted N rng P mc (TrMSL X y) T
| mfitted_SL_par rs sched X y T : scheduler sched -> M_SL_generate_par N rng rs sched X y mc P = Ok T -> mfitted N rng P mc (TrMSL X y) T
| mfitted_VL_seq X X_len y ml T : M_VL_generate N rng X X_len y mc ml P = Ok T -> mfitted N rng P mc (TrMVL X X_len y ml) T
| mfitted_VL_par rs sched X X_len y ml T : scheduler sched -> M_VL_generate_par N rng rs sched X X_len y mc ml P = Ok T -> mfitted N rng P mc (TrMVL X X_len y ml) T.

(** a kept element of a list, with the kept elements before it *)
Lemma filter_before {U} (f : U -> bool) hs k q : nthZ (filter f hs) k = Some q ->
  exists i, nthZ hs i = Some q /\ forall k0 q0, k0 < k -> nthZ (filter f hs) k0 = Some q0 -> exists i0, 0 <= i0 < i /\ nthZ hs i0 = Some q0.
Proof.
  revert k. induction hs as [|a r IH]; intros k Hq; [apply nthZ_range in Hq; cbn in Hq; lia|]. cbn [filter] in *. destruct (f a) eqn:Ea.
  - rewrite nthZ_cons in Hq. destruct (Z.eqb_spec k 0) as [->|Nk].
    + assert (a = q) by congruence. subst a. exists 0. split; [reflexivity|]. intros k0 q0 Hk0 H0. apply nthZ_range in H0. lia.
    + destruct (IH _ Hq) as (i & A & B). pose proof (nthZ_range _ _ _ A). exists (i + 1). split.
      * rewrite nthZ_cons. destruct (Z.eqb_spec (i + 1) 0); [lia|]. replace (i + 1 - 1) with i by lia. exact A.
      * intros k0 q0 Hk0 H0. pose proof (nthZ_range _ _ _ H0). rewrite nthZ_cons in H0. destruct (Z.eqb_spec k0 0) as [->|N0].
        -- exists 0. split; [lia|]. rewrite nthZ_cons. exact H0.
        -- destruct (B (k0 - 1) q0 ltac:(lia) H0) as (i1 & I1 & I2). exists (i1 + 1). split; [lia|]. rewrite nthZ_cons. destruct (Z.eqb_spec (i1 + 1) 0); [lia|]. replace (i1 + 1 - 1) with i1 by lia. exact I2.
  - destruct (IH _ Hq) as (i & A & B). pose proof (nthZ_range _ _ _ A). exists (i + 1). split.
    + rewrite nthZ_cons. destruct (Z.eqb_spec (i + 1) 0); [lia|]. replace (i + 1 - 1) with i by lia. exact A.
    + intros k0 q0 Hk0 H0. destruct (B k0 q0 Hk0 H0) as (i1 & I1 & I2). exists (i1 + 1). split; [lia|]. rewrite nthZ_cons. destruct (Z.eqb_spec (i1 + 1) 0); [lia|]. replace (i1 + 1 - 1) with i1 by lia. exact I2.
Qed.

(** ** Laws *)

Section Laws.
Context {S : Type} (rng : Rng R S) (L : RngLaws RN rng) (P : gparams R) (mc : Z).

Notation acc c := (maccount (g_phase P) (g_alpha P) (g_pmin P) (g_pmax P) (g_prime P) (g_sizes P) (mt_points c) (g_n P) mc (mt_nf c) (mt_samples c) (mt_series c) (mt_len c) (mt_labels c)).
Notation init c := (M_init RN rng (g_n P) (g_sizes P) (mt_points c) (g_pnorm P) mc (g_prime P) (r_seed rng (g_seed P))).

Lemma mfitted_sound c T : mt_ok c -> lengths_ok P (mt_points c) -> mfitted RN rng P mc c T ->
  exists values dr thr nch chan s1 hs, init c = Ok (values, dr, thr, nch, chan, s1) /\ acc c hs /\
    map mq_len hs = dr_len dr /\ map mq_dil hs = dr_dil dr /\ map mq_norm hs = dr_norm dr /\ map (fun q => zlen (mq_chs q)) hs = nch /\
    mreturned (mt_series c) P hs T.
Proof.
  intros HO HL HF. destruct HF as [X y T H|rs sched X y T HS H|X X_len y ml T H|rs sched X X_len y ml T HS H]; cbn [mt_points mt_ok] in *.
  - apply M_SL_seq_par in H as (rs & H). exact (MSL_sound rng L X y (n_features X) (n_timestamps X) mc P HO HL rs seq_sched T seq_sched_scheduler H).
  - exact (MSL_sound rng L X y (n_features X) (n_timestamps X) mc P HO HL rs sched T HS H).
  - apply M_VL_seq_par in H as (rs & H). exact (MVL_sound rng L X X_len y (n_features X) ml mc P HO HL rs seq_sched T seq_sched_scheduler H).
  - exact (MVL_sound rng L X X_len y (n_features X) ml mc P HO HL rs sched T HS H).
Qed.

(** the logical content of the result *)
Definition mcontent (c : mtrain R) (hs : list mrequest) : list (lshp R) :=
  map (fun q => (mq_chs q, mval_of (g_phase P) (mt_series c) q)) (filter mkept hs).

Lemma mkept_values c q : mkept q = true -> exists o, mq_origin q = Some o /\
  mval_of (g_phase P) (mt_series c) q = map (fun ch => seen RN (mq_norm q) (window RN (g_phase P) (nthd [] (mt_series c (o_series o)) ch) (mq_len q) (mq_dil q) (o_start o))) (mq_chs q).
Proof. unfold mkept, mval_of, mq_values. destruct (mq_origin q) as [o|]; [|discriminate]. eauto. Qed.

Lemma maccount_len c hs q : lengths_ok P (mt_points c) -> acc c hs -> In q hs -> 2 <= mq_len q <= mt_points c.
Proof. intros HL HA HI. apply In_nthZ in HI as (i & Hi). destruct (mac_params _ _ _ _ _ _ _ _ _ _ _ _ _ _ _ HA i q Hi) as [A _]. apply HL. exact A. Qed.

Lemma mcontent_packed c hs T : lengths_ok P (mt_points c) -> acc c hs -> mreturned (mt_series c) P hs T -> packed T (mcontent c hs) /\ chan_ok (mcontent c hs) (mt_nf c).
Proof.
  intros HL HA (H1 & H2 & H3 & H4 & H5 & H6 & H7). split.
  - unfold packed, mcontent. rewrite H1, H2, H3, H4, H5, H6, H7, !map_map, !zlen_map. cbn [fst snd]. repeat (split; [reflexivity|]). split.
    + intros k p l. rewrite !nthZ_map. destruct (nthZ (filter mkept hs) k) as [q|] eqn:Eq; cbn [option_map]; [|discriminate]. intros Hp Hl.
      assert (E1 : p = (mq_chs q, mval_of (g_phase P) (mt_series c) q)) by congruence. assert (E2 : l = mq_len q) by congruence. rewrite E1, E2. cbn [fst snd]. clear E1 E2 Hp Hl.
      apply filter_one in Eq as (i & Hi & Hk). destruct (mac_params _ _ _ _ _ _ _ _ _ _ _ _ _ _ _ HA i q Hi) as (A & B & D & _). pose proof (HL _ A) as HL2.
      destruct (mkept_values c q Hk) as (o & _ & ->). split; [apply zlen_map|]. split; [lia|]. split; [|lia]. intros r Hr. apply in_map_iff in Hr as (ch & <- & _).
      rewrite zlen_seen. apply zlen_window. lia.
    + intros k d. rewrite nthZ_map. destruct (nthZ (filter mkept hs) k) as [q|] eqn:Eq; cbn [option_map]; [|discriminate]. intros Hd.
      apply filter_one in Eq as (i & Hi & _). destruct (mac_params _ _ _ _ _ _ _ _ _ _ _ _ _ _ _ HA i q Hi) as (_ & (B & _) & _). replace d with (mq_dil q) by congruence. exact B.
  - intros p ch Hp Hch. unfold mcontent in Hp. apply in_map_iff in Hp as (q & <- & Hq). cbn [fst] in Hch. apply filter_In in Hq as [Hq _]. apply In_nthZ in Hq as (i & Hi).
    destruct (mac_params _ _ _ _ _ _ _ _ _ _ _ _ _ _ _ HA i q Hi) as (_ & _ & _ & _ & E). apply E. exact Hch.
Qed.

(** the request behind a returned shapelet *)
Lemma mreturned_at c hs T k chs vs l d thr nm : lengths_ok P (mt_points c) -> acc c hs -> mreturned (mt_series c) P hs T -> packed_at T k chs vs l d thr nm ->
  exists q o, nthZ (filter mkept hs) k = Some q /\ mq_origin q = Some o /\ mq_len q = l /\ mq_dil q = d /\ mq_norm q = nm /\ mq_chs q = chs /\ o_thr o = thr /\ mq_values (g_phase P) (mt_series c) q = Some vs.
Proof.
  intros HL HA HR HK. destruct (mcontent_packed c hs T HL HA HR) as [HP _]. destruct HR as (H1 & H2 & H3 & H4 & _).
  apply (packed_mshp T _ _ _ _ _ _ _ _ HP) in HK. destruct HK as (K1 & K2 & K3 & K4 & K5). unfold mcontent in K1. rewrite nthZ_map in K1.
  destruct (nthZ (filter mkept hs) k) as [q|] eqn:Eq; [|discriminate]. cbn [option_map] in K1.
  rewrite H1, nthZ_map, Eq in K2. rewrite H2, nthZ_map, Eq in K3. rewrite H4, nthZ_map, Eq in K4. rewrite H3, nthZ_map, Eq in K5. cbn [option_map] in *.
  assert (HI : In q (filter mkept hs)) by (eapply nthZ_In; exact Eq). apply filter_In in HI as [_ HK]. unfold mkept in HK. destruct (mq_origin q) as [o|] eqn:Eo; [|discriminate].
  exists q, o. unfold mthr_of in K4. rewrite Eo in K4. unfold mval_of in K1.
  assert (EV : mq_values (g_phase P) (mt_series c) q = Some vs) by (unfold mq_values in *; rewrite Eo in *; congruence).
  repeat (split; [first [reflexivity|congruence]|]). exact EV.
Qed.

Definition mcomes_from (c : mtrain R) (chs : list Z) (vs : list (list R)) (l d : Z) (nm : bool) (s t : Z) : Prop :=
  0 <= s < mt_samples c /\ 0 <= t < nwin (g_phase P) (mt_len c s) l d /\
  vs = map (fun ch => seen RN nm (window RN (g_phase P) (nthd [] (mt_series c s) ch) l d t)) chs.

Lemma mfitted_origin c T k chs vs l d thr nm : mt_ok c -> lengths_ok P (mt_points c) -> mfitted RN rng P mc c T -> packed_at T k chs vs l d thr nm ->
  In l (g_sizes P) /\ dil_ok (g_prime P) (mt_points c) l d /\ 1 <= zlen chs <= mc /\ NoDup chs /\ (forall ch, In ch chs -> 0 <= ch < mt_nf c) /\
  exists s t s', mcomes_from c chs vs l d nm s t /\ same_class (mt_samples c) (mt_labels c) s s' /\
    threshold_between (g_pmin P) (g_pmax P) (mdistances RN (g_phase P) nm (mt_len c s') (mt_series c s') chs vs l d) thr.
Proof.
  intros HO HL HF HK. destruct (mfitted_sound c T HO HL HF) as (values & dr & th & nch & chan & s1 & hs & Hi & HA & _ & _ & _ & _ & HR).
  destruct (mreturned_at c hs T k chs vs l d thr nm HL HA HR HK) as (q & o & Hq & Eo & El & Ed & En & Ec & Et & Ev). apply filter_one in Hq as (i & Hq & _).
  destruct (mac_params _ _ _ _ _ _ _ _ _ _ _ _ _ _ _ HA i q Hq) as (Q1 & Q2 & Q3 & Q4 & Q5). rewrite El, Ed, Ec in *.
  split; [exact Q1|]. split; [exact Q2|]. split; [exact Q3|]. split; [exact Q4|]. split; [exact Q5|].
  destruct (mac_some _ _ _ _ _ _ _ _ _ _ _ _ _ _ _ HA i q o Hq Eo) as (B1 & B2 & (w & B3 & B4)).
  exists (o_series o), (o_start o), (o_test o). split.
  - destruct B1 as (q' & free & Hq' & C1 & C2 & _). assert (q' = q) by congruence. subst q'. rewrite El, Ed in *. split; [exact C1|]. split; [exact C2|].
    unfold mq_values in Ev. rewrite Eo, El, Ed, En, Ec in Ev. congruence.
  - split; [exact B2|]. assert (w = vs) by congruence. subst w. rewrite El, Ed, En, Ec, Et in B4. exact B4.
Qed.

Lemma mreturned_zlen srs hs T : mreturned srs P hs T -> zlen (ms_len T) = zlen (filter mkept hs).
Proof. intros (H1 & _). rewrite H1, zlen_map. reflexivity. Qed.

Lemma mfitted_packed c T : mt_ok c -> lengths_ok P (mt_points c) -> mfitted RN rng P mc c T ->
  (exists Lg, packed T Lg /\ chan_ok Lg (mt_nf c)) /\ zlen (ms_len T) <= g_n P.
Proof.
  intros HO HL HF. destruct (mfitted_sound c T HO HL HF) as (values & dr & th & nch & chan & s1 & hs & Hi & HA & _ & _ & _ & _ & HR). split.
  - exists (mcontent c hs). apply mcontent_packed; assumption.
  - rewrite (mreturned_zlen _ _ _ HR). rewrite <- (mac_n _ _ _ _ _ _ _ _ _ _ _ _ _ _ _ HA). apply filter_zlen.
Qed.

(** every index below the number of shapelets is a shapelet *)
Lemma packed_exists {F} (T : mshp F) Lg k : packed T Lg -> 0 <= k < zlen (ms_len T) -> exists chs vs l d thr nm, packed_at T k chs vs l d thr nm.
Proof.
  intros HP Hk. pose proof HP as (P1 & P2 & P3 & P4 & P5 & P6 & P7 & P8 & P9).
  destruct (nthZ_some Lg k) as ((chs, vs) & E0); [lia|]. destruct (nthZ_some (ms_len T) k) as (l & E1); [lia|].
  destruct (nthZ_some (ms_dil T) k) as (d & E2); [lia|]. destruct (nthZ_some (ms_thr T) k) as (t & E3); [lia|].
  destruct (nthZ_some (ms_norm T) k) as (b & E4); [lia|]. exists chs, vs, l, d, t, b. eapply mshp_packed; [exact HP|]. repeat split; auto.
Qed.

(** ** Transforming the training data with the fitted shapelets *)

Lemma mt_wf_call (c : mtrain R) T Lg : mt_ok c -> packed T Lg -> chan_ok Lg (mt_nf c) -> wf_call (mt_call c T Lg).
Proof.
  intros HO HP HC. destruct c as [X y|X X_len y ml]; cbn [mt_call wf_call mt_ok mt_nf mt_data] in *.
  - destruct HO as (_ & A & _). auto.
  - destruct HO as (_ & A & B & D & _ & E). split; [exact A|]. split; [|auto]. split; [exact D|]. intros i l Hl. apply nthZ_In in Hl. specialize (E l Hl). lia.
Qed.

Lemma mt_len_ok (c : mtrain R) s : mt_ok c -> 0 <= s < mt_samples c -> mt_points c <= mt_len c s.
Proof.
  intros HO Hs. destruct c as [X y|X X_len y ml]; cbn [mt_points mt_len mt_ok] in *; [lia|]. unfold mt_samples in Hs. cbn [mt_data] in Hs.
  destruct (MVL_nlen _ ml X X_len y HO s Hs) as [_ H]. lia.
Qed.

Lemma mt_run_call (c : mtrain R) T Lg ph : run RN (mt_call c T Lg) ph = mt_run RN c T ph.
Proof. destruct c; reflexivity. Qed.

Lemma mt_sample_at (c : mtrain R) T Lg s : mt_ok c -> 0 <= s < mt_samples c -> sample_at (mt_call c T Lg) s (mt_series c s).
Proof.
  intros HO Hs. destruct c as [X y|X X_len y ml]; unfold mt_samples in Hs; cbn [mt_call mt_ok mt_data mt_series] in *.
  - constructor. apply nthZ_nthd. exact Hs.
  - destruct HO as (_ & A & B & D & _). eapply sample_MV with (ni := nthd 0 X_len s). exists (nthd [] X s). split; [apply nthZ_nthd; exact Hs|]. split; [apply nthZ_nthd; lia|reflexivity].
Qed.

Lemma mt_series_shape (c : mtrain R) s : mt_ok c -> 0 <= s < mt_samples c -> zlen (mt_series c s) = mt_nf c /\ forall r, In r (mt_series c s) -> zlen r = mt_len c s.
Proof.
  intros HO Hs. destruct c as [X y|X X_len y ml]; unfold mt_samples, mt_nf in *; cbn [mt_ok mt_data mt_series mt_len] in *.
  - destruct HO as (_ & (_ & _ & A) & _). assert (HI : In (nthd [] X s) X) by (apply (nthZ_In _ s); apply nthZ_nthd; exact Hs). destruct (A _ HI) as [E G]. auto.
  - pose proof HO as (_ & (_ & _ & A) & B & D & _ & E). assert (HI : In (nthd [] X s) X) by (apply (nthZ_In _ s); apply nthZ_nthd; exact Hs). destruct (A _ HI) as [G1 G2].
    unfold mser_vl. split; [rewrite zlen_map; exact G1|]. intros r Hr. apply in_map_iff in Hr as (r0 & <- & Hr0). destruct (MVL_nlen _ ml X X_len y HO s Hs) as [I1 I2]. specialize (E _ I1). apply zlen_slice0. rewrite (G2 r0 Hr0). lia.
Qed.

Lemma mt_shapelet_at (c : mtrain R) T Lg k chs vs l d thr nm : packed T Lg -> packed_at T k chs vs l d thr nm -> shapelet_at (mt_call c T Lg) k chs vs l d thr nm.
Proof. intros HP HK. apply (packed_mshp _ _ _ _ _ _ _ _ _ HP) in HK. destruct c; constructor; exact HK. Qed.

Lemma mfitted_transform c T : mt_ok c -> lengths_ok P (mt_points c) -> mfitted RN rng P mc c T -> exists D, mt_run RN c T (g_phase P) = Ok D.
Proof.
  intros HO HL HF. destruct (mfitted_packed c T HO HL HF) as [(Lg & HP & HC) _].
  assert (FA : forall s, 0 <= s < mt_samples c -> mfits_all (g_phase P) T (mt_len c s)).
  { intros s Hs k l d Hl Hd. destruct (packed_exists T Lg k HP (nthZ_range _ _ _ Hl)) as (chs & vs & l' & d' & thr & nm & HK).
    destruct (mfitted_origin _ _ _ _ _ _ _ _ _ HO HL HF HK) as (A & B & _). destruct HK as (nc & _ & K2 & K3 & _). replace l with l' by congruence. replace d with d' by congruence.
    eapply dil_fits; [apply HL; exact A|exact B|]. apply mt_len_ok; assumption. }
  destruct c as [X y|X X_len y ml]; unfold mt_samples in FA; cbn [mt_run mt_ok mt_data mt_len mt_nf] in *.
  - destruct (train_m_shape _ _ _ _ HO) as (_ & _ & HZ). eexists. apply (M_SL_ok RN X (n_features X) (n_timestamps X) T Lg); [apply HO|exact HP|exact HC|apply (FA 0); lia].
  - pose proof (mt_wf_call (TrMVL X X_len y ml) T Lg HO HP HC) as (A & B & _). eexists. apply (M_VL_ok RN X X_len _ _ T Lg _ A B HP HC). exact FA.
Qed.

Lemma mtrain_features c T k chs vs l d thr nm D s : mt_ok c -> lengths_ok P (mt_points c) -> mfitted RN rng P mc c T -> mt_run RN c T (g_phase P) = Ok D ->
  packed_at T k chs vs l d thr nm -> 0 <= s < mt_samples c ->
  exists f, cell3 D s k f /\ is_features RN (mdistances RN (g_phase P) nm (mt_len c s) (mt_series c s) chs vs l d) thr f.
Proof.
  intros HO HL HF HD HK Hs. destruct (mfitted_packed c T HO HL HF) as [(Lg & HP & HC) _]. rewrite <- (mt_run_call c T Lg) in HD.
  apply (cell_exists (mt_call c T Lg) (g_phase P) D s k _ _ _ l d thr nm (mt_len c s) (mt_wf_call c T Lg HO HP HC) HD (mt_sample_at c T Lg s HO Hs) (mt_shapelet_at c T Lg k chs vs l d thr nm HP HK)).
  apply mt_series_shape; assumption.
Qed.

(** ** Missing requests *)

Lemma maccount_missing c hs i q : acc c hs -> nthZ hs i = Some q ->
  mkept q = false <-> forall s t, ~ mfree_start (g_phase P) (g_alpha P) (mt_samples c) (mt_len c) hs i s t.
Proof.
  intros HA Hq. unfold mkept. destruct (mq_origin q) as [o|] eqn:Eo.
  - split; [discriminate|]. intros H. exfalso. destruct (mac_some _ _ _ _ _ _ _ _ _ _ _ _ _ _ _ HA i q o Hq Eo) as (HFr & _). eapply H; exact HFr.
  - split; [|reflexivity]. intros _. apply (mac_none _ _ _ _ _ _ _ _ _ _ _ _ _ _ _ HA i q Hq Eo).
Qed.

(** ** Parameters drawn *)

(** (length, dilation, normalise, number of channels) of the shapelets, in order *)
Definition mparameters {F} (T : mshp F) : list (Z * Z * bool * Z) := combine (combine (combine (ms_len T) (ms_dil T)) (ms_norm T)) (ms_nch T).

Lemma mfitted_parameters n : exists ps, forall c T, mt_ok c -> mt_points c = n -> lengths_ok P n -> mfitted RN rng P mc c T -> zlen ps = g_n P /\ subseq (mparameters T) ps.
Proof.
  destruct (M_init RN rng (g_n P) (g_sizes P) n (g_pnorm P) mc (g_prime P) (r_seed rng (g_seed P))) as [[[[[[values dr] thr] nch] chan] s1]|e] eqn:Ei.
  - exists (combine (combine (combine (dr_len dr) (dr_dil dr)) (dr_norm dr)) nch). intros c T HO <- HL HF.
    destruct (mfitted_sound c T HO HL HF) as (values' & dr' & thr' & nch' & chan' & s1' & hs & Hi & HA & E1 & E2 & E3 & E4 & HR).
    assert (ED : dr' = dr /\ nch' = nch) by (split; congruence). destruct ED as [ED EN]. rewrite ED, EN in *. clear ED EN. rewrite <- E1, <- E2, <- E3, <- E4, !combine_map. split.
    + rewrite zlen_map. apply (mac_n _ _ _ _ _ _ _ _ _ _ _ _ _ _ _ HA).
    + unfold mparameters. destruct HR as (H1 & H2 & H3 & _ & H5 & _). rewrite H1, H2, H3, H5, !combine_map. apply subseq_filter.
  - exists []. intros c T HO <- HL HF. destruct (mfitted_sound c T HO HL HF) as (values' & dr' & thr' & nch' & chan' & s1' & hs & Hi & _). congruence.
Qed.

(** ** Totality, independence of the schedule *)

Definition mfit_seq (c : mtrain R) : res (mshp R) :=
  match c with TrMSL X y => M_SL_generate RN rng X y mc P | TrMVL X X_len y ml => M_VL_generate RN rng X X_len y mc ml P end.
Definition mfit_par (rs : Z -> S) (sched : list Z -> list (Z * Z)) (c : mtrain R) : res (mshp R) :=
  match c with TrMSL X y => M_SL_generate_par RN rng rs sched X y mc P | TrMVL X X_len y ml => M_VL_generate_par RN rng rs sched X X_len y mc ml P end.

Lemma mfit_seq_fitted c T : mfit_seq c = Ok T -> mfitted RN rng P mc c T.
Proof. destruct c; intros H; [apply mfitted_SL_seq|apply mfitted_VL_seq]; exact H. Qed.
Lemma mfit_par_fitted rs sched c T : scheduler sched -> mfit_par rs sched c = Ok T -> mfitted RN rng P mc c T.
Proof. intros HS. destruct c; intros H; [eapply mfitted_SL_par|eapply mfitted_VL_par]; eauto. Qed.

Lemma mfit_total c : mt_ok c -> lengths_ok P (mt_points c) -> percentiles_ok P -> 1 <= mc <= mt_nf c -> g_sizes P <> [] -> 1 <= g_n P ->
  (exists T, mfit_seq c = Ok T) /\ forall rs, exists T, forall sched, scheduler sched -> mfit_par rs sched c = Ok T.
Proof.
  intros HO HL [HP1 HP2] [Hc1 Hc2] Hs Hn. destruct c as [X y|X X_len y ml]; unfold mt_nf in *; cbn [mt_ok mt_points mfit_seq mfit_par mt_data] in *; split.
  - eapply MSL_total_seq; eauto.
  - intros rs. destruct (MSL_total rng L X y _ _ mc P HO HL HP1 HP2 Hc2 rs seq_sched seq_sched_scheduler Hs Hn Hc1) as (T & HT). exists T. intros sched HS.
    destruct (MSL_total rng L X y _ _ mc P HO HL HP1 HP2 Hc2 rs sched HS Hs Hn Hc1) as (T' & HT'). rewrite HT'. f_equal.
    eapply (MSL_indep rng L X y _ _ mc P HO HL); [exact HS|exact seq_sched_scheduler|exact HT'|exact HT].
  - eapply MVL_total_seq; eauto.
  - intros rs. destruct (MVL_total rng L X X_len y _ _ mc P HO HL HP1 HP2 Hc2 rs seq_sched seq_sched_scheduler Hs Hn Hc1) as (T & HT). exists T. intros sched HS.
    destruct (MVL_total rng L X X_len y _ _ mc P HO HL HP1 HP2 Hc2 rs sched HS Hs Hn Hc1) as (T' & HT'). rewrite HT'. f_equal.
    eapply (MVL_indep rng L X X_len y _ _ mc P HO HL); [exact HS|exact seq_sched_scheduler|exact HT'|exact HT].
Qed.

(** ** The normalisation flags *)

Lemma M_init_flags n sizes n_ts p prime_scheme s values dr thr nch chan s' b : M_init RN rng n sizes n_ts p mc prime_scheme s = Ok (values, dr, thr, nch, chan, s') -> In b (dr_norm dr) ->
  exists u, (0 <= u < 1)%R /\ (b = true <-> (u < p)%R).
Proof.
  intros H. unfold M_init in H. apply bindG_inv in H as (lens & s1 & H1 & H). apply bindG_inv in H as (dils & s2 & H2 & H).
  apply bind_liftG in H as (th & H3 & H). apply bindG_inv in H as (ch & s3 & H4 & H). apply bind_liftG in H as (ci & H5 & H). apply bind_liftG in H as (vs & H6 & H).
  apply bindG_inv in H as (nm & s4 & H7 & H). unfold retG in H. assert (E : dr = mkDrawn lens dils nm) by congruence. rewrite E. cbn [dr_norm]. eapply draw_norm_flags; eauto.
Qed.

Lemma mfitted_flags c T nm : mt_ok c -> lengths_ok P (mt_points c) -> mfitted RN rng P mc c T -> In nm (ms_norm T) ->
  exists u, (0 <= u < 1)%R /\ (nm = true <-> (u < g_pnorm P)%R).
Proof.
  intros HO HL HF HK. destruct (mfitted_sound c T HO HL HF) as (values & dr & th & nch & chan & s1 & hs & Hi & HA & _ & _ & E3 & _ & HR).
  eapply M_init_flags; [exact Hi|]. rewrite <- E3. destruct HR as (_ & _ & H3 & _). rewrite H3 in HK.
  apply in_map_iff in HK as (q & <- & Hq). apply filter_In in Hq as [Hq _]. apply in_map. exact Hq.
Qed.

(** ** Raw points *)

Lemma mfitted_raw c T k chs vs l d thr nm : mt_ok c -> lengths_ok P (mt_points c) -> mfitted RN rng P mc c T -> packed_at T k chs vs l d thr nm ->
  exists i x n t ws, nthZ (mt_data c) i = Some x /\ (match c with TrMSL X _ => n = n_timestamps X | TrMVL _ X_len _ _ => nthZ X_len i = Some n end) /\
    vs = map (seen RN nm) ws /\ Forall2 (fun ch w => exists r, nthZ x ch = Some r /\ points_of r n (g_phase P) l d t w) chs ws.
Proof.
  intros HO HL HF HK. destruct (mfitted_origin c T k chs vs l d thr nm HO HL HF HK) as (Hl & (D1 & D2 & _) & _ & _ & HR & s & t & s' & (C1 & C2 & C3) & _).
  pose proof (HL l Hl) as Hl2. exists s, (nthd [] (mt_data c) s), (mt_len c s), t, (map (fun ch => window RN (g_phase P) (nthd [] (mt_series c s) ch) l d t) chs).
  split; [apply nthZ_nthd; exact C1|]. split; [|split].
  - destruct c as [X y|X X_len y ml]; cbn [mt_len]; [reflexivity|]. unfold mt_samples in C1. cbn [mt_data mt_ok] in *. apply nthZ_nthd. destruct HO as (_ & _ & _ & E & _). lia.
  - rewrite map_map. exact C3.
  - assert (PT : forall ch, In ch chs -> exists r, nthZ (nthd [] (mt_data c) s) ch = Some r /\ points_of r (mt_len c s) (g_phase P) l d t (window RN (g_phase P) (nthd [] (mt_series c s) ch) l d t)).
    { intros ch Hch. specialize (HR ch Hch). destruct c as [X y|X X_len y ml]; unfold mt_nf, mt_samples in *; cbn [mt_data mt_series mt_len mt_ok mt_points] in *.
      - destruct HO as (_ & (_ & _ & A) & _). assert (HI : In (nthd [] X s) X) by (apply (nthZ_In _ s); apply nthZ_nthd; exact C1). destruct (A _ HI) as [E G].
        exists (nthd [] (nthd [] X s) ch). split; [apply nthZ_nthd; lia|]. assert (HZ : zlen (nthd [] (nthd [] X s) ch) = n_timestamps X) by (apply G; apply (nthZ_In _ ch); apply nthZ_nthd; lia).
        rewrite <- (slice_full (nthd [] (nthd [] X s) ch)) at 2. rewrite HZ. apply window_points; lia.
      - pose proof HO as (_ & (_ & _ & A) & B & D & _ & E). assert (HI : In (nthd [] X s) X) by (apply (nthZ_In _ s); apply nthZ_nthd; exact C1). destruct (A _ HI) as [G1 G2].
        exists (nthd [] (nthd [] X s) ch). split; [apply nthZ_nthd; lia|]. assert (HZ : zlen (nthd [] (nthd [] X s) ch) = n_timestamps X) by (apply G2; apply (nthZ_In _ ch); apply nthZ_nthd; lia).
        destruct (MVL_nlen _ ml X X_len y HO s C1) as [I1 I2]. specialize (E _ I1).
        assert (EQ : nthd [] (mser_vl X X_len s) ch = slice (nthd [] (nthd [] X s) ch) 0 (nthd 0 X_len s)).
        { unfold mser_vl. apply nthd_some. rewrite nthZ_map, (nthZ_nthd [] (nthd [] X s) ch) by lia. reflexivity. }
        rewrite EQ. apply window_points; lia. }
    clear C3 HK HR. induction chs as [|ch chs IH]; cbn [map]; constructor; [apply PT; left; reflexivity|]. apply IH. intros ch' Hc. apply PT. right. exact Hc.
Qed.

(** ** Pruning *)

(** where the returned shapelets were taken *)
Definition msources (c : mtrain R) (T : mshp R) (src : list (Z * Z)) : Prop :=
  zlen src = zlen (ms_len T) /\
  forall k chs vs l d thr nm s t, packed_at T k chs vs l d thr nm -> nthZ src k = Some (s, t) -> mcomes_from c chs vs l d nm s t.

Definition mq_source (q : mrequest) : Z * Z := match mq_origin q with Some o => (o_series o, o_start o) | None => (0, 0) end.

(** channel [ch] is covered, around start [t'] of series [s], by a shapelet before [k'] with the same dilation and normalisation *)
Definition covered (n : Z) (T : mshp R) (src : list (Z * Z)) (ml : Z -> Z) (k' s t' d : Z) (nm : bool) (ch : Z) : Prop :=
  exists k chs vs l thr t j, k < k' /\ packed_at T k chs vs l d thr nm /\ nthZ src k = Some (s, t) /\ In ch chs /\
    0 <= j < l - Z.max 1 (Rfloor ((1 - g_alpha P) * IZR (ml d))) /\ (t' = (t - j * d) mod n \/ t' = (t + j * d) mod n).

Lemma mfitted_pruned c T : mt_ok c -> lengths_ok P (mt_points c) -> mfitted RN rng P mc c T ->
  exists src ml, msources c T src /\
    (forall k chs vs l d thr nm, packed_at T k chs vs l d thr nm -> In (ml d) (g_sizes P) /\ ml d <= l) /\
    forall k chs vs l d thr nm s t, packed_at T k chs vs l d thr nm -> nthZ src k = Some (s, t) ->
      forall cs, NoDup cs -> (forall ch, In ch cs -> In ch chs /\ covered (mt_len c s) T src ml k s t d nm ch) ->
      (IZR (zlen cs) <= (1 - g_alpha P) * IZR (zlen chs))%R.
Proof.
  intros HO HL HF. destruct (mfitted_sound c T HO HL HF) as (values & dr & th & nch & chan & s1 & hs & Hi & HA & _ & _ & _ & _ & HR).
  set (ks := filter mkept hs) in *.
  set (ml := fun d => match min_list (map mq_len (filter (fun q => mq_dil q =? d) hs)) with Ok m => m | Err _ => 0 end).
  assert (HM : forall q, In q hs -> mmin_len_at hs (mq_dil q) (ml (mq_dil q))).
  { intros q Hq. unfold ml. assert (HI : In (mq_len q) (map mq_len (filter (fun q0 => mq_dil q0 =? mq_dil q) hs))).
    { apply in_map. apply filter_In. split; [exact Hq|apply Z.eqb_refl]. }
    destruct (min_list_ok (map mq_len (filter (fun q0 => mq_dil q0 =? mq_dil q) hs))) as (m & Em).
    { intros E. rewrite E in HI. destruct HI. }
    destruct (min_list_spec _ _ Em) as [Hm Hle]. rewrite Em. split.
    - apply in_map_iff in Hm as (q' & E' & Hq'). apply filter_In in Hq' as [A B]. exists q'. split; [exact A|]. split; [apply Z.eqb_eq; exact B|exact E'].
    - intros q' A B. apply Hle. apply in_map. apply filter_In. split; [exact A|apply Z.eqb_eq; exact B]. }
  exists (map mq_source ks), ml. split; [split|split].
  - rewrite zlen_map. rewrite (mreturned_zlen _ _ _ HR). reflexivity.
  - intros k chs vs l d thr nm s t HK Hs. destruct (mreturned_at c hs T k chs vs l d thr nm HL HA HR HK) as (q & o & Hq & Eo & El & Ed & En & Ec & Et & Ev). fold ks in Hq.
    rewrite nthZ_map, Hq in Hs. cbn [option_map] in Hs. apply filter_one in Hq as (i & Hq & _). unfold mq_source in Hs. rewrite Eo in Hs.
    assert (Es : o_series o = s /\ o_start o = t) by (split; congruence). destruct Es as [<- <-].
    destruct (mac_some _ _ _ _ _ _ _ _ _ _ _ _ _ _ _ HA i q o Hq Eo) as ((q' & free & Hq' & C1 & C2 & _) & _). assert (q' = q) by congruence. subst q'.
    rewrite El, Ed in *. split; [exact C1|]. split; [exact C2|]. unfold mq_values in Ev. rewrite Eo, El, Ed, En, Ec in Ev. congruence.
  - intros k chs vs l d thr nm HK. destruct (mreturned_at c hs T k chs vs l d thr nm HL HA HR HK) as (q & o & Hq & Eo & El & Ed & En & Ec & Et & Ev). fold ks in Hq. apply filter_one in Hq as (i & Hq & _).
    assert (HI : In q hs) by (eapply nthZ_In; exact Hq). destruct (HM q HI) as ((q' & A1 & A2 & A3) & B). rewrite Ed in *. split.
    + rewrite <- A3. apply In_nthZ in A1 as (i' & A1). destruct (mac_params _ _ _ _ _ _ _ _ _ _ _ _ _ _ _ HA i' q' A1) as [Q _]. exact Q.
    + rewrite <- El. apply B; [exact HI|exact Ed].
  - intros k chs vs l d thr nm s t HK Hs cs ND HC.
    destruct (mreturned_at c hs T k chs vs l d thr nm HL HA HR HK) as (q & o & Hq & Eo & El & Ed & En & Ec & Et & Ev). fold ks in Hq.
    rewrite nthZ_map, Hq in Hs. cbn [option_map] in Hs. unfold mq_source in Hs. rewrite Eo in Hs. assert (Es : o_series o = s /\ o_start o = t) by (split; congruence). destruct Es as [Es Eu].
    assert (FR : exists free, NoDup free /\ (forall ch, In ch free -> In ch chs /\ ~ In ch cs) /\ (g_alpha P * IZR (zlen chs) <= IZR (zlen free))%R).
    { destruct (filter_one _ _ _ _ Hq) as (i0 & Gi0 & _).
      (* all earlier returned shapelets are earlier requests than some index of q *)
      assert (POS : exists i, nthZ hs i = Some q /\ forall k0 q0, k0 < k -> nthZ ks k0 = Some q0 -> exists i0, 0 <= i0 < i /\ nthZ hs i0 = Some q0).
      { apply (filter_before mkept). exact Hq. }
      destruct POS as (i & Gi & POS). destruct (mac_some _ _ _ _ _ _ _ _ _ _ _ _ _ _ _ HA i q o Gi Eo) as ((q' & free & Hq' & C1 & C2 & C3 & C4 & C5) & _).
      assert (q' = q) by congruence. subst q'. rewrite Ec in *. exists free. split; [exact C3|]. split; [|exact C5]. intros ch Hch. destruct (C4 ch Hch) as [U1 U2]. split; [exact U1|].
      intros Hcs. apply U2. destruct (HC ch Hcs) as (_ & (k0 & chs0 & vs0 & l0 & thr0 & t0 & j & Hk0 & HK0 & Hs0 & Hin & Hj & Ht)).
      destruct (mreturned_at c hs T k0 chs0 vs0 l0 d thr0 nm HL HA HR HK0) as (q0 & o0 & Hq0 & Eo0 & El0 & Ed0 & En0 & Ec0 & Et0 & Ev0). fold ks in Hq0.
      rewrite nthZ_map, Hq0 in Hs0. cbn [option_map] in Hs0. unfold mq_source in Hs0. rewrite Eo0 in Hs0. assert (Es0 : o_series o0 = s /\ o_start o0 = t0) by (split; congruence). destruct Es0 as [Es0 Eu0].
      destruct (POS k0 q0 Hk0 Hq0) as (i1 & I1 & I2). exists i1, q0, o0. split; [exact I1|]. split; [exact I2|]. split; [exact Eo0|]. split; [congruence|]. split; [congruence|]. split; [congruence|].
      split; [rewrite Ec0; exact Hin|]. exists (ml d), j. rewrite Ed0, El0, Eu0, Es0, Eu. split; [|split; [exact Hj|exact Ht]].
      assert (HI0 : In q0 hs) by (eapply nthZ_In; exact I2). pose proof (HM q0 HI0) as Hml. rewrite Ed0 in Hml. exact Hml. }
    destruct FR as (free & F1 & F2 & F3).
    assert (LE : zlen cs + zlen free <= zlen chs).
    { assert (NDa : NoDup (cs ++ free)).
      { clear - ND F1 F2. induction cs as [|a r IH]; cbn [app]; [exact F1|]. inversion ND as [|? ? N1 N2]; subst. constructor.
        - intros H. apply in_app_iff in H as [H|H]; [exact (N1 H)|]. destruct (F2 a H) as [_ F]. apply F. left. reflexivity.
        - apply IH; [exact N2|]. intros ch Hch. destruct (F2 ch Hch) as [A B]. split; [exact A|]. intros H. apply B. right. exact H. }
      assert (INC : incl (cs ++ free) chs) by (intros ch Hch; apply in_app_iff in Hch as [H|H]; [apply HC; exact H|apply F2; exact H]).
      pose proof (NoDup_incl_length NDa INC) as H. rewrite app_length in H. unfold zlen. lia. }
    apply IZR_le in LE. rewrite plus_IZR in LE. lra.
Qed.
End Laws.

(** ** Packing *)

(** One request as fit stores it: parameters, channels, one row of values per channel, threshold, and whether it was sampled. *)
Record stored (F : Type) := mkStored { sd_len : Z; sd_dil : Z; sd_norm : bool; sd_chs : list Z; sd_vals : list (list F); sd_thr : F; sd_kept : bool }.
Arguments mkStored {F}. Arguments sd_len {F}. Arguments sd_dil {F}. Arguments sd_norm {F}. Arguments sd_chs {F}. Arguments sd_vals {F}. Arguments sd_thr {F}. Arguments sd_kept {F}.

Definition stored_ok {F} (r : stored F) : Prop :=
  1 <= sd_len r /\ 1 <= sd_dil r /\ 1 <= zlen (sd_chs r) /\ zlen (sd_vals r) = zlen (sd_chs r) /\ (forall w, In w (sd_vals r) -> zlen w = sd_len r).

(** the arrays of fit before the requests that could not be sampled are removed *)
Definition flat_drawn {F} (rs : list (stored F)) : drawn := mkDrawn (map sd_len rs) (map sd_dil rs) (map sd_norm rs).
Definition flat_state {F} (masks : list (list (list (list (list bool))))) (rs : list (stored F)) : mst F :=
  mkMst masks (map sd_thr rs) (concat (map (fun r => concat (sd_vals r)) rs)) (concat (map sd_chs rs)) (map sd_kept rs).

Lemma mask_select_map {A B} (p : A -> bool) (f : A -> B) l : mask_select (map p l) (map f l) = map f (filter p l).
Proof. unfold mask_select. induction l as [|x l IH]; [reflexivity|]. cbn [map combine filter fst]. destruct (p x); cbn [map snd]; rewrite IH; reflexivity. Qed.

Lemma finish_flat {F} (N : NumOps F) masks (rs : list (stored F)) : (forall r, In r rs -> stored_ok r) ->
  exists T, M_finish N (flat_drawn rs) (map (fun r => zlen (sd_chs r)) rs) (flat_state masks rs) = Ok T /\
    packed T (map (fun r => (sd_chs r, sd_vals r)) (filter sd_kept rs)) /\ ms_len T = map sd_len (filter sd_kept rs) /\ ms_dil T = map sd_dil (filter sd_kept rs) /\
    ms_thr T = map sd_thr (filter sd_kept rs) /\ ms_norm T = map sd_norm (filter sd_kept rs).
Proof.
  intros HR. rewrite (M_finish_ok N _ _ _ (map (fun r => concat (sd_vals r)) rs) (map sd_chs rs)); cbn [flat_state flat_drawn m_ret m_val m_chan m_thr dr_len dr_dil dr_norm].
  - eexists. split; [reflexivity|]. rewrite !mask_select_map. cbn [ms_len ms_dil ms_thr ms_norm ms_nch ms_chan ms_values]. split; [|auto].
    unfold packed. cbn [ms_len ms_dil ms_thr ms_norm ms_nch ms_chan ms_values]. rewrite !map_map, !zlen_map. cbn [fst snd]. repeat (split; [reflexivity|]). split.
    + intros k p l. rewrite !nthZ_map. destruct (nthZ (filter sd_kept rs) k) as [r|] eqn:Er; cbn [option_map]; [|discriminate]. intros Hp Hl.
      assert (E1 : p = (sd_chs r, sd_vals r)) by congruence. assert (E2 : l = sd_len r) by congruence. rewrite E1, E2. cbn [fst snd].
      apply nthZ_In, filter_In in Er as [Er _]. destruct (HR r Er) as (A & B & D & E & G). auto.
    + intros k d. rewrite nthZ_map. destruct (nthZ (filter sd_kept rs) k) as [r|] eqn:Er; cbn [option_map]; [|discriminate]. intros Hd.
      apply nthZ_In, filter_In in Er as [Er _]. destruct (HR r Er) as (A & B & _). replace d with (sd_dil r) by congruence. exact B.
  - unfold wf_m, wf_drawn, flat_drawn. cbn [dr_len dr_dil dr_norm]. rewrite !zlen_map. auto.
  - rewrite !zlen_map. reflexivity.
  - reflexivity.
  - reflexivity.
  - rewrite map_map. unfold zmul_list. rewrite combine_map, map_map. apply map_ext_in. intros r Hr. cbn [fst snd]. destruct (HR r Hr) as (A & B & D & E & G).
    rewrite (concat_regular_len (sd_vals r) (sd_len r)) by exact G. rewrite E. lia.
  - rewrite map_map. reflexivity.
Qed.

Lemma mdistances_ne ph nm n (X : list (list R)) chs vs l d : 0 < nwin ph n l d -> mdistances RN ph nm n X chs vs l d <> [].
Proof.
  intros H E. unfold mdistances in E. apply map_eq_nil in E. assert (H0 : In 0 (zrange 0 (nwin ph n l d))) by (apply in_zrange; lia). rewrite E in H0. destruct H0.
Qed.
