(** Property C84: a change of units.  When the values of each channel are multiplied by a common factor and shifted by an
    offset, fit chooses the same shapelets in the new units, and the features only change by the factor. *)
From Coq Require Import String ZArith List Bool Reals Lra Lia.
From Verif Require Import Prelude Num Kernel Spec KernelProofs RealBase Parallel Apply ApplyProofs ApplyUni ApplyMulti TransformProofs TransformLaws
  RealProofs SampleLaws Gen GenSched GenBase GenUni GenDraw GenSpec GenUCase GenMRun Checks ChecksProofs Estimator EstimatorNum EstimatorLaws
  EstimatorCases PropsEstimator Preproc PreprocProofs PropsPreproc Classifiers ClassifierProofs EnsembleProofs PropsClassifiers InputTrans PropsInput EndToEnd
  PropsEndToEnd Defaults PropsPipeline PropsBatch PropsNames UnitsFit.
Import ListNotations.
Open Scope Z_scope.

(** [X] and [X'] hold the same [n] series of [nf] channels, series [i] having [cols i] points; the value [x] of channel [ch]
    in [X] is [c * x + b ch] in [X'].  When both are arrays they have the same dtype. *)
Record other_units (c : R) (b : Z -> R) (X X' : pyv R) (n nf : Z) (cols : Z -> Z) (v v' : Z -> Z -> Z -> R) (vl : bool) : Prop := {
  ou_old : passes X n nf cols v vl;
  ou_new : passes X' n nf cols v' vl;
  ou_form : same_form X X';
  ou_value : forall i ch t, 0 <= i < n -> 0 <= ch < nf -> 0 <= t < cols i -> v' i ch t = (c * v i ch t + b ch)%R
}.

(** the values of a shapelet in the new units: unchanged when it is normalised *)
Definition converted (c : R) (b : Z -> R) (nm : bool) (chs : list Z) (vs : list (list R)) : list (list R) :=
  map (fun p => if nm then snd p else map (fun x : R => (c * x + b (fst p))%R) (snd p)) (combine chs vs).

(** data and settings on which R_DST.fit can work, all series being used *)
Record trainable (s : @est R) (y : list Z) (n nf : Z) (cols : Z -> Z) (vl : bool) : Prop := {
  tb_series : 1 <= n;
  tb_channels : 1 <= nf;
  tb_labels : zlen y = n;
  tb_samples : e_n_samples s = VNone;
  tb_type : forall k, e_type s = TKind k -> kind_vl k = vl;
  tb_points : forall i, 0 <= i < n -> 4 <= cols i;
  tb_min_len : vl = true -> forall m, e_min_len s = Some m -> 4 <= m /\ forall i, 0 <= i < n -> m <= cols i
}.

(** The factor is 1, or no shapelet is normalised: a normalised shapelet is divided by a deviation plus 1e-8, so it depends
    on the factor, see C18.  Univariate shapelets whose values are all zero are thrown away by fit; so for one channel the
    offset must be 0, or all shapelets normalised, or 0 not a value of the training data in either unit. *)
Definition allowed (c : R) (b : Z -> R) (s : @est R) (n nf : Z) (cols : Z -> Z) (v v' : Z -> Z -> Z -> R) : Prop :=
  c <> 0%R /\ exists p, as_F RN (e_proba_norm s) = Ok p /\ (c = 1%R \/ (p <= 0)%R) /\
  (multivariate s nf \/ (1 <= p)%R \/ b 0 = 0%R \/ forall i t, 0 <= i < n -> 0 <= t < cols i -> v i 0 t <> 0%R /\ v' i 0 t <> 0%R).

(** ** R_DST.fit *)

(** The outcome is the same, and the drawn random numbers; the shapelets are the same in the new units (same number,
    channels, lengths, dilations, normalisations), their thresholds multiplied by |c|; all else in the object is the same. *)
Theorem C84_fit : forall S (rng : Rng R S) RS (V : pyenv RS) ex c b X X' n nf cols v v' vl y s h r s1 h1 r' s1' h1',
  RngLaws RN rng -> real_executor ex -> other_units c b X X' n nf cols v v' vl -> trainable s y n nf cols vl -> allowed c b s n nf cols v v' ->
  fit RN rng V ex X y s h = (r, s1, h1) -> fit RN rng V ex X' y s h = (r', s1', h1') ->
  r' = r /\ h1' = h1 /\ (r <> Ok tt -> s1' = s1) /\
  (r = Ok tt -> exists f f', e_shapelets s1 = Some f /\ s1' = set_shapelets f' s1 /\ count_of f' = count_of f /\
     forall j chs vs l d thr nm, shapelet_of f j chs vs l d thr nm ->
       shapelet_of f' j chs (converted c b nm chs vs) l d (Rabs c * thr)%R nm).
Proof.
  intros S rng RS V ex c b X X' n nf cols v v' vl y s h r s1 h1 r' s1' h1' L HE [U1 U2 U3 U4] [T1 T2 T3 T4 T5 T6 T7] (Hc0 & p & Hp & Hnorm & HZ) E E'.
  destruct (fit_units rng L V ex HE c b X X' n nf cols v v' vl y s h p Hc0 U1 U2 U3 U4 T1 T2 T3 T4 T5 T6 T7 Hp Hnorm HZ r s1 h1 r' s1' h1' E E') as (A & B & C).
  split; [exact A|]. split; [exact B|]. destruct r as [[]|e]; [|split; [auto|discriminate]]. split; [congruence|]. intros _. destruct C as (s0 & f & f' & -> & -> & HU).
  exists f, f'. split; [reflexivity|]. split; [reflexivity|]. split; [apply (units_count c b); exact HU|]. intros j chs vs l d thr nm HK. apply (units_shapelet c b f f' j chs vs l d thr nm HU HK).
Qed.
Print Assumptions C84_fit.

(** what is used below of two fits and two transforms *)
Lemma transforms_units {S} (rng : Rng R S) {RS} (V : pyenv RS) ex c b X X' n nf cols v v' vl y s h s1 h1 s1' h1' X1 X1' n1 cols1 v1 v1' :
  RngLaws RN rng -> real_executor ex -> other_units c b X X' n nf cols v v' vl -> trainable s y n nf cols vl -> allowed c b s n nf cols v v' ->
  fit RN rng V ex X y s h = (Ok tt, s1, h1) -> fit RN rng V ex X' y s h = (Ok tt, s1', h1') ->
  other_units c b X1 X1' n1 nf cols1 v1 v1' vl -> (exists i, 0 <= i < n1 /\ 3 <= cols1 i) ->
  (transform RN s1 X1 = Err ValueError /\ transform RN s1' X1' = Err ValueError) \/
  exists T T' f m, transform RN s1 X1 = Ok T /\ transform RN s1' X1' = Ok T' /\ zlen T = n1 /\ zlen T' = n1 /\ e_shapelets s1 = Some f /\ (forall i, 0 <= i < n -> m <= cols i) /\
    (forall row, In row T \/ In row T' -> zlen row = 3 * count_of f) /\
    forall i j, 0 <= i < n1 -> 0 <= j < count_of f -> exists m' a cnt m'' l d, cell3 T i j (m', a, cnt) /\ cell3 T' i j (m'', a, cnt) /\
      m'' = (if nwin (e_phase s) (cols1 i) l d <=? 0 then m' else (Rabs c * m')%R) /\ (nwin (e_phase s) (cols1 i) l d <= 0 -> m' = (-1)%R) /\ 2 <= l <= m /\ (l - 1) * d <= m - 1 /\ 1 <= d.
Proof.
  intros L HE HU HT HA E E' [W1 W2 W3 W4] H3. pose proof HU as [U1 U2 U3 U4]. pose proof HT as [T1 T2 T3 T4 T5 T6 T7]. pose proof HA as (Hc0 & p & Hp & Hnorm & HZ).
  destruct (fit_units rng L V ex HE c b X X' n nf cols v v' vl y s h p Hc0 U1 U2 U3 U4 T1 T2 T3 T4 T5 T6 T7 Hp Hnorm HZ _ _ _ _ _ _ E E') as (_ & _ & s0 & f & f' & Es & Es' & HUF).
  destruct (fit_sound rng V ex X y s h s1 h1 n nf cols v vl L HE U1 T1 T2 T3 T4 T5 T6 T7 E) as (k & g & m & [F1 F2 F3 F4 F5 F6 F7 F8 F9 F10 F11 F12 (pmin & pmax & _ & F13)]).
  destruct (fit_sound rng V ex X' y s h s1' h1' n nf cols v' vl L HE U2 T1 T2 T3 T4 T5 T6 T7 E') as (k' & g' & m' & [G1 G2 G3 G4 G5 G6 G7 G8 G9 G10 G11 G12 _]).
  assert (g = f) by (rewrite Es in F6; cbn in F6; congruence). assert (g' = f') by (rewrite Es' in G6; cbn in G6; congruence). subst g g'.
  assert (k' = k) by (rewrite Es in F1; rewrite Es' in G1; cbn in F1, G1; congruence). subst k'.
  assert (Hn1 : 1 <= n1) by (destruct H3 as (i & Hi & _); lia).
  assert (Hc1 : forall i, 0 <= i < n1 -> 0 <= cols1 i). { destruct (passes_data _ _ _ _ _ _ W1 Hn1 T2) as (_ & w & _ & Q & _). intros i Hi. apply Q. exact Hi. }
  rewrite <- F3 in W1, W2.
  assert (HS : forall j chs vs l d thr nm, shapelet_of f j chs vs l d thr nm -> (nm = true -> c = 1%R) /\ (forall u, In u vs -> zlen u = l) /\ (forall ch, In ch chs -> 0 <= ch < nf)).
  { intros j chs vs l d thr nm HK. destruct (F13 _ _ _ _ _ _ _ HK) as [(A1 & A2 & A3 & A4 & A5 & (i & t & i' & B1 & B2 & B3 & _)) _]. split; [|split; [|exact A5]].
    - intros ->. destruct Hnorm as [Q|Q]; [exact Q|].
      pose proof (fit_flags rng V ex X y s h s1 h1 n nf cols v vl p L HE U1 T1 T2 T3 T4 T5 T6 T7 Hp Q E f F6 _ _ _ _ _ _ _ HK). discriminate.
    - intros u Hu. rewrite B3 in Hu. apply in_map_iff in Hu as (ch & <- & _). unfold seen. destruct nm; [unfold zscore; rewrite zlen_map|]; apply zlen_window; lia. }
  assert (AF : all_fit (e_phase s) n1 cols1 f' <-> all_fit (e_phase s) n1 cols1 f).
  { assert (Hnth : forall j, 0 <= j < count_of f -> exists chs vs l d thr nm, shapelet_of f j chs vs l d thr nm) by (intros j Hj; apply (shapelet_exists nf); assumption).
    assert (Hr : forall (q : @Estimator.fitted R) j chs vs l d thr nm, shapelet_of q j chs vs l d thr nm -> 0 <= j < count_of q).
    { intros q j chs vs l d thr nm HK. destruct q as [Q|Q]; [apply shapelet_FU in HK as (u & _ & _ & _ & HK & _)|apply shapelet_FM in HK as (nc & _ & HK & _)]; apply nthZ_range in HK; exact HK. }
    assert (Hl : forall (q : @Estimator.fitted R) j chs vs l d thr nm chs' vs' l' d' thr' nm', shapelet_of q j chs vs l d thr nm -> shapelet_of q j chs' vs' l' d' thr' nm' -> l' = l /\ d' = d).
    { intros q j chs vs l d thr nm chs' vs' l' d' thr' nm' H1 H2. destruct q as [Q|Q].
      - apply shapelet_FU in H1 as (u & _ & _ & _ & K1 & K2 & _). apply shapelet_FU in H2 as (u' & _ & _ & _ & K1' & K2' & _). split; congruence.
      - apply shapelet_FM in H1 as (nc & _ & K1 & K2 & _). apply shapelet_FM in H2 as (nc' & _ & K1' & K2' & _). split; congruence. }
    split; intros H j chs vs l d thr nm i HK Hi.
    - destruct (units_shapelet c b f f' _ _ _ _ _ _ _ HUF HK) as [HK' _]. eapply H; eauto.
    - pose proof (Hr _ _ _ _ _ _ _ _ HK) as Hj. rewrite (units_count c b f f' HUF) in Hj. destruct (Hnth j Hj) as (chs0 & vs0 & l0 & d0 & thr0 & nm0 & HK0).
      destruct (units_shapelet c b f f' _ _ _ _ _ _ _ HUF HK0) as [HK1 _]. destruct (Hl _ _ _ _ _ _ _ _ _ _ _ _ _ _ HK1 HK) as [-> ->]. eapply H; eauto. }
  destruct (transform_sound s1 k f X1 n1 nf cols1 v1 F1 F2 F6 F10 F11 W1 Hn1 T2 H3) as [[A (T & B & C)]|[A B]];
    destruct (transform_sound s1' k f' X1' n1 nf cols1 v1' G1 G2 G6 G10 G11 W2 Hn1 T2 H3) as [[A' (T' & B' & C')]|[A' B']]; rewrite ?F5, ?G5 in *; try tauto.
  right. exists T, T', f, m. split; [exact B|]. split; [exact B'|]. split; [apply C|]. split; [apply C'|]. split; [exact F6|]. split; [exact F9|]. split.
  { destruct C as (_ & C & _). destruct C' as (_ & C' & _). rewrite (units_count c b f f' HUF) in C'. intros row [Hr|Hr]; auto. }
  intros i j Hi Hj. destruct (table_units c b (e_phase s) n1 nf cols1 v1 v1' f f' T T' Hc0 HUF C C' A Hc1 W4 HS i j Hi Hj) as (m1 & a & cnt & m2 & l & d & chs & vs & thr & nm & HK & Q1 & Q2 & Q3 & Q4).
  destruct (F13 _ _ _ _ _ _ _ HK) as [(A1 & (A2 & A3 & _) & _) _]. exists m1, a, cnt, m2, l, d. repeat (split; [assumption|]). assumption.
Qed.

(** ** R_DST.transform *)

(** The transforms of data in the old units, fitted in the old units, and of the same data in the new units, fitted in the new
    units: both raise ValueError, or the minimal distances are multiplied by |c| (-1, for a series without window, stays -1)
    and the positions and counts are the same. *)
Theorem C84_transform : forall S (rng : Rng R S) RS (V : pyenv RS) ex c b X X' n nf cols v v' vl y s h s1 h1 s1' h1' X1 X1' n1 cols1 v1 v1',
  RngLaws RN rng -> real_executor ex -> other_units c b X X' n nf cols v v' vl -> trainable s y n nf cols vl -> allowed c b s n nf cols v v' ->
  fit RN rng V ex X y s h = (Ok tt, s1, h1) -> fit RN rng V ex X' y s h = (Ok tt, s1', h1') ->
  other_units c b X1 X1' n1 nf cols1 v1 v1' vl -> (exists i, 0 <= i < n1 /\ 3 <= cols1 i) ->
  (transform RN s1 X1 = Err ValueError /\ transform RN s1' X1' = Err ValueError) \/
  exists T T' w, transform RN s1 X1 = Ok T /\ transform RN s1' X1' = Ok T' /\ zlen T = n1 /\ zlen T' = n1 /\ (forall row, In row T \/ In row T' -> zlen row = 3 * w) /\
    forall i j, 0 <= i < n1 -> 0 <= j < w -> exists m a count, cell3 T i j (m, a, count) /\
      (cell3 T' i j ((Rabs c * m)%R, a, count) \/ (m = (-1)%R /\ cell3 T' i j ((-1)%R, a, count))).
Proof.
  intros S rng RS V ex c b X X' n nf cols v v' vl y s h s1 h1 s1' h1' X1 X1' n1 cols1 v1 v1' L HE HU HT HA E E' HW H3.
  destruct (transforms_units rng V ex c b X X' n nf cols v v' vl y s h s1 h1 s1' h1' X1 X1' n1 cols1 v1 v1' L HE HU HT HA E E' HW H3) as [Q|(T & T' & f & m & A & B & C & D & F & _ & G & H)]; [left; exact Q|].
  right. exists T, T', (count_of f). repeat (split; [assumption|]). intros i j Hi Hj. destruct (H i j Hi Hj) as (m1 & a & cnt & m2 & l & d & Q1 & Q2 & Q3 & Q4 & _). exists m1, a, cnt. split; [exact Q1|].
  destruct (nwin (e_phase s) (cols1 i) l d <=? 0) eqn:EW; subst m2; [|left; exact Q2]. right. assert (m1 = (-1)%R) by (apply Q4; lia). subst m1. auto.
Qed.
Print Assumptions C84_transform.

Lemma table_ext (T T' : list (list R)) n w : zlen T = n -> zlen T' = n -> (forall row, In row T \/ In row T' -> zlen row = 3 * w) ->
  (forall i j, 0 <= i < n -> 0 <= j < w -> exists a, cell3 T i j a /\ cell3 T' i j a) -> T' = T.
Proof.
  intros Z1 Z2 HR H. apply nthZ_ext; [lia|]. intros i Hi. destruct (nthZ_some T i) as (r & Er); [lia|]. destruct (nthZ_some T' i) as (r' & Er'); [lia|]. rewrite Er, Er'. f_equal.
  pose proof (HR r (or_introl (nthZ_In _ _ _ Er))) as L1. pose proof (HR r' (or_intror (nthZ_In _ _ _ Er'))) as L2. apply nthZ_ext; [lia|]. intros q Hq.
  pose proof (Z.div_mod q 3 ltac:(lia)) as DM. pose proof (Z.mod_pos_bound q 3 ltac:(lia)) as MB. set (j := q / 3) in *. set (rr := q mod 3) in *. clearbody j rr.
  destruct (H i j ltac:(lia) ltac:(lia)) as ([[x0 x1] x2] & (r0 & E0 & K0 & K1 & K2) & (r0' & E0' & K0' & K1' & K2')).
  assert (r0 = r) by congruence. assert (r0' = r') by congruence. subst r0 r0'. assert (C : q = 3 * j \/ q = 3 * j + 1 \/ q = 3 * j + 2) by lia. destruct C as [->|[->| ->]]; congruence.
Qed.

(** An offset per channel changes nothing at all in the features. *)
Theorem C84_offset : forall S (rng : Rng R S) RS (V : pyenv RS) ex b X X' n nf cols v v' vl y s h s1 h1 s1' h1' X1 X1' n1 cols1 v1 v1',
  RngLaws RN rng -> real_executor ex -> other_units 1 b X X' n nf cols v v' vl -> trainable s y n nf cols vl -> allowed 1 b s n nf cols v v' ->
  fit RN rng V ex X y s h = (Ok tt, s1, h1) -> fit RN rng V ex X' y s h = (Ok tt, s1', h1') ->
  other_units 1 b X1 X1' n1 nf cols1 v1 v1' vl -> (exists i, 0 <= i < n1 /\ 3 <= cols1 i) ->
  transform RN s1' X1' = transform RN s1 X1.
Proof.
  intros S rng RS V ex b X X' n nf cols v v' vl y s h s1 h1 s1' h1' X1 X1' n1 cols1 v1 v1' L HE HU HT HA E E' HW H3.
  destruct (C84_transform S rng RS V ex 1 b X X' n nf cols v v' vl y s h s1 h1 s1' h1' X1 X1' n1 cols1 v1 v1' L HE HU HT HA E E' HW H3) as [[-> ->]|(T & T' & w & -> & -> & C & D & G & H)]; [reflexivity|].
  f_equal. apply (table_ext T T' n1 w C D G). intros i j Hi Hj. destruct (H i j Hi Hj) as (m & a & cnt & Q1 & Q2). exists (m, a, cnt). split; [exact Q1|].
  rewrite Rabs_R1, Rmult_1_l in Q2. destruct Q2 as [Q2|[-> Q2]]; exact Q2.
Qed.
Print Assumptions C84_offset.

(** ** R_DST_Ridge *)

(** the entries of a row multiplied by the factors of their columns *)
Definition scaled (fs row : list R) : list R := map (fun p => (fst p * snd p)%R) (combine fs row).

(** What is assumed of sklearn's StandardScaler when the factor is not 1: it undoes positive factors on columns that are
    not constant.  (A theorem for the scaler that computes in the real numbers, see [std_scale_free].) *)
Definition scale_free {SC P M} (K : sklearn R SC P M) : Prop := forall fs A, (forall x, In x fs -> (0 < x)%R) -> A <> [] -> (forall row, In row A -> zlen row = zlen fs) ->
  (forall q, 0 <= q < zlen fs -> exists r r', In r A /\ In r' A /\ nthZ r q <> nthZ r' q) ->
  match k_scale_fit K A, k_scale_fit K (map (scaled fs) A) with
  | Ok sc, Ok sc' => forall B, (forall row, In row B -> zlen row = zlen fs) -> k_scale K sc' (map (scaled fs) B) = k_scale K sc B
  | Err e, Err e' => e' = e
  | _, _ => False
  end.

Lemma zlen_scaled fs r : zlen fs = zlen r -> zlen (scaled fs r) = zlen r.
Proof. intros E. unfold scaled. rewrite zlen_map, zlen_combine by exact E. exact E. Qed.
Lemma nthZ_scaled fs r q : zlen fs = zlen r -> 0 <= q < zlen r -> nthZ (scaled fs r) q = Some (nthd 0%R fs q * nthd 0%R r q)%R.
Proof.
  intros E Hq. unfold scaled. rewrite nthZ_map. rewrite (nthZ_combine fs r q (nthd 0%R fs q) (nthd 0%R r q)) by (apply nthZ_nthd; lia). reflexivity.
Qed.
Lemma nthd_scaled fs r q : zlen fs = zlen r -> 0 <= q < zlen r -> nthd 0%R (scaled fs r) q = (nthd 0%R fs q * nthd 0%R r q)%R.
Proof. intros E Hq. apply nthd_some. apply nthZ_scaled; assumption. Qed.

Lemma incr_same (l l' : list Z) : incr l -> incr l' -> (forall x, In x l <-> In x l') -> l = l'.
Proof.
  revert l'. induction l as [|x t IH]; intros [|x' t'] H H' HI; [reflexivity|exfalso; apply (HI x'); left; reflexivity|exfalso; apply (HI x); left; reflexivity|].
  destruct H as [H1 H2], H' as [H1' H2']. assert (x = x').
  { assert (A : In x (x' :: t')) by (apply HI; left; reflexivity). assert (B : In x' (x :: t)) by (apply HI; left; reflexivity).
    destruct A as [A|A]; [congruence|]. destruct B as [B|B]; [congruence|]. specialize (H1 _ B). specialize (H1' _ A). lia. }
  subst x'. f_equal. apply IH; auto. intros y. split; intros Hy.
  - assert (A : In y (x :: t')) by (apply HI; right; exact Hy). destruct A as [<-|A]; [specialize (H1 _ Hy); lia|exact A].
  - assert (A : In y (x :: t)) by (apply HI; right; exact Hy). destruct A as [<-|A]; [specialize (H1' _ Hy); lia|exact A].
Qed.

Lemma kept_scaled p fs (A : list (list R)) : (forall x, In x fs -> (0 < x)%R) -> zlen fs = p -> (forall row, In row A -> zlen row = p) -> exists atts,
  usefull_atts RN p A = Ok atts /\ usefull_atts RN p (map (scaled fs) A) = Ok atts /\
  forall j, In j atts -> 0 <= j < p /\ exists r s, In r A /\ In s A /\ nthZ r j <> nthZ s j.
Proof.
  intros Hp Hz HA. pose proof (zlen_nonneg fs).
  destruct (C47_kept_columns p A) as (atts & E & I1 & H1); [split; [lia|exact HA]|].
  destruct (C47_kept_columns p (map (scaled fs) A)) as (atts' & E' & I2 & H2).
  { split; [lia|]. intros r Hr. apply in_map_iff in Hr as (r0 & <- & Hr0). rewrite zlen_scaled; [auto|]. rewrite (HA r0 Hr0). exact Hz. }
  assert (atts' = atts); [|subst atts'; exists atts; split; [exact E|split; [exact E'|intros j Hj; apply H1; exact Hj]]]. apply incr_same; auto. intros j. rewrite H1, H2.
  assert (Hpos : forall q, 0 <= q < p -> (0 < nthd 0%R fs q)%R) by (intros q Hq; apply Hp; eapply nthZ_In; apply nthZ_nthd; lia).
  split; intros [Hj (r & s & Hr & Hs & Hne)]; (split; [exact Hj|]).
  - apply in_map_iff in Hr as (r0 & <- & Hr0). apply in_map_iff in Hs as (s0 & <- & Hs0). exists r0, s0. split; [exact Hr0|]. split; [exact Hs0|]. intros Q. apply Hne.
    pose proof (HA _ Hr0). pose proof (HA _ Hs0). rewrite !nthZ_scaled by lia. f_equal. f_equal. unfold nthd. rewrite Q. reflexivity.
  - exists (scaled fs r), (scaled fs s). split; [apply in_map; exact Hr|]. split; [apply in_map; exact Hs|]. pose proof (HA _ Hr). pose proof (HA _ Hs). rewrite !nthZ_scaled by lia. intros Q. apply Hne.
    rewrite (nthZ_nthd 0%R r), (nthZ_nthd 0%R s) by lia. injection Q as Q. f_equal. apply Rmult_eq_reg_l in Q; [exact Q|]. specialize (Hpos j Hj). lra.
Qed.

(** the selected columns of a scaled table *)
Lemma take_scaled p fs (A : list (list R)) atts : zlen fs = p -> (forall row, In row A -> zlen row = p) -> (forall j, In j atts -> 0 <= j < p) ->
  exists B, take_cols A atts = Ok B /\ take_cols (map (scaled fs) A) atts = Ok (map (scaled (map (nthd 0%R fs) atts)) B) /\ (forall row, In row B -> zlen row = zlen atts) /\ (A <> [] -> B <> []) /\
    B = map (fun r => map (nthd 0%R r) atts) A.
Proof.
  intros Hz HA Hat. exists (map (fun r => map (nthd 0%R r) atts) A). split; [apply take_cols_ok; intros r j Hr Hj; rewrite (HA r Hr); auto|]. split.
  - rewrite (take_cols_ok 0%R).
    2: { intros r j Hr Hj. apply in_map_iff in Hr as (r0 & <- & Hr0). rewrite zlen_scaled by (rewrite (HA _ Hr0); exact Hz). rewrite (HA _ Hr0). auto. }
    f_equal. rewrite !map_map. apply map_ext_in. intros r Hr. pose proof (HA r Hr) as Hr'. apply nthZ_ext; [rewrite zlen_scaled; rewrite ?zlen_map; reflexivity|].
    intros q Hq. rewrite zlen_map in Hq. rewrite nthZ_scaled by (rewrite ?zlen_map; lia). rewrite nthZ_map. destruct (nthZ_some atts q Hq) as (j & Ej). rewrite Ej. cbn [option_map].
    pose proof (Hat j (nthZ_In _ _ _ Ej)). rewrite nthd_scaled by lia. f_equal. rewrite (nthd_some 0%R (map (nthd 0%R fs) atts) q (nthd 0%R fs j)) by (rewrite nthZ_map, Ej; reflexivity).
    rewrite (nthd_some 0%R (map (nthd 0%R r) atts) q (nthd 0%R r j)) by (rewrite nthZ_map, Ej; reflexivity). reflexivity.
  - split; [intros row Hr; apply in_map_iff in Hr as (r & <- & _); apply zlen_map|]. split; [intros H E; apply map_eq_nil in E; contradiction|reflexivity].
Qed.

(** fitting and using the pipeline after scaling *)
Lemma pipe_scaled {SC P M} (K : sklearn R SC P M) (hp : P) y p fs (A : list (list R)) : scale_free K -> A <> [] -> (forall x, In x fs -> (0 < x)%R) -> zlen fs = p -> (forall row, In row A -> zlen row = p) ->
  match pipe_fit RN K hp A y, pipe_fit RN K hp (map (scaled fs) A) y with
  | Ok m, Ok m' => forall B, (forall row, In row B -> zlen row = p) -> pipe_predict K m' (map (scaled fs) B) = pipe_predict K m B
  | Err e, Err e' => e' = e
  | _, _ => False
  end.
Proof.
  intros HK HA Hp Hz HR. destruct (kept_scaled p fs A Hp Hz HR) as (atts & E & E' & Hat).
  assert (NC : ncols A = p) by (destruct A as [|r0 A0]; [congruence|apply HR; left; reflexivity]).
  assert (NC' : ncols (map (scaled fs) A) = p). { destruct A as [|r0 A0]; [congruence|]. cbn [map ncols]. rewrite zlen_scaled; [exact NC|]. rewrite (HR r0 (or_introl eq_refl)). exact Hz. }
  unfold pipe_fit, c_fit, c_transform. rewrite NC, NC', E, E'. cbn [bind].
  assert (Hat' : forall j, In j atts -> 0 <= j < p) by (intros j Hj; apply Hat; exact Hj).
  destruct (take_scaled p fs A atts Hz HR Hat') as (B & EB & EB' & HB & NB & DB). rewrite EB, EB'. cbn [bind].
  set (fs' := map (nthd 0%R fs) atts) in *. assert (Zf : zlen fs' = zlen atts) by apply zlen_map.
  assert (Hp' : forall x, In x fs' -> (0 < x)%R). { intros x Hx. apply in_map_iff in Hx as (j & <- & Hj). apply Hp. eapply nthZ_In. apply nthZ_nthd. specialize (Hat' j Hj). lia. }
  pose proof (HK fs' B Hp' (NB HA)) as Q. rewrite Zf in Q. specialize (Q HB).
  assert (HV : forall q, 0 <= q < zlen atts -> exists r r', In r B /\ In r' B /\ nthZ r q <> nthZ r' q).
  { intros q Hq. destruct (nthZ_some atts q Hq) as (j & Ej). destruct (Hat j (nthZ_In _ _ _ Ej)) as (Hj & r & s & Hr & Hs & Hne).
    exists (map (nthd 0%R r) atts), (map (nthd 0%R s) atts). rewrite DB. split; [apply in_map_iff; eauto|]. split; [apply in_map_iff; eauto|]. rewrite !nthZ_map, Ej. cbn [option_map].
    intros W. apply Hne. pose proof (HR _ Hr). pose proof (HR _ Hs). rewrite (nthZ_nthd 0%R r), (nthZ_nthd 0%R s) by lia. congruence. }
  specialize (Q HV).
  destruct (k_scale_fit K B) as [sc|e], (k_scale_fit K (map (scaled fs') B)) as [sc'|e']; cbn [bind sc_atts sc_inner] in *; try contradiction; [|exact Q].
  rewrite EB, EB'. cbn [bind]. rewrite (Q B HB). destruct (k_scale K sc B) as [W|e]; cbn [bind]; [|reflexivity]. destruct (k_ridge_fit K hp W y) as [md|e]; cbn [bind]; [|reflexivity].
  intros C HC. unfold pipe_predict, c_transform. cbn [fst snd sc_atts sc_inner]. destruct (take_scaled p fs C atts Hz HC Hat') as (D & ED & ED' & HD & _). rewrite ED, ED'. cbn [bind]. fold fs'. rewrite (Q D HD). reflexivity.
Qed.

(** R_DST_Ridge fitted and used in either unit gives the same labels: for an offset per channel, or for a factor when the
    scaler is [scale_free] and the series to classify are not shorter than the shortest training series. *)
Theorem C84_ridge : forall S (rng : Rng R S) RS (V : pyenv RS) SC P M (K : sklearn R SC P M) ex c b r X X' n nf cols v v' vl y h s hs u1 r1 h1 u2 r2 h2,
  RngLaws RN rng -> real_executor ex -> other_units c b X X' n nf cols v v' vl ->
  init RN V (ridge_rdst_args (rd_args r)) h = (Ok s, hs) -> trainable s y n nf cols vl -> allowed c b s n nf cols v v' -> (c = 1%R \/ scale_free K) ->
  ridge_fit RN rng V K ex X y r h = (u1, r1, h1) -> ridge_fit RN rng V K ex X' y r h = (u2, r2, h2) ->
  u2 = u1 /\ h2 = h1 /\
  (u1 = Ok tt -> forall X1 X1' n1 cols1 v1 v1', other_units c b X1 X1' n1 nf cols1 v1 v1' vl -> (exists i, 0 <= i < n1 /\ 3 <= cols1 i) ->
     (c = 1%R \/ forall i, 0 <= i < n1 -> exists i0, 0 <= i0 < n /\ cols i0 <= cols1 i) ->
     ridge_predict RN K r2 X1' = ridge_predict RN K r1 X1).
Proof.
  intros S rng RS V SC P M K ex c b r X X' n nf cols v v' vl y h s hs u1 r1 h1 u2 r2 h2 L HE HU HI HT HA HK H1 H2. unfold ridge_fit in H1, H2. rewrite HI in H1, H2.
  destruct (fit RN rng V ex X y s hs) as [[q t1] g1] eqn:E1. destruct (fit RN rng V ex X' y s hs) as [[q' t2] g2] eqn:E2.
  destruct (C84_fit S rng RS V ex c b X X' n nf cols v v' vl y s hs q t1 g1 q' t2 g2 L HE HU HT HA E1 E2) as (-> & -> & _ & _).
  destruct q as [[]|e]; cbn [bind] in H1, H2; [|injection H1 as <- <- <-; injection H2 as <- <- <-; split; [reflexivity|]; split; [reflexivity|discriminate]].
  (* tables of the same data in both units *)
  assert (HTT : forall X1 X1' n1 cols1 v1 v1', other_units c b X1 X1' n1 nf cols1 v1 v1' vl -> (exists i, 0 <= i < n1 /\ 3 <= cols1 i) ->
     (c = 1%R \/ forall i, 0 <= i < n1 -> exists i0, 0 <= i0 < n /\ cols i0 <= cols1 i) ->
     (transform RN t1 X1 = Err ValueError /\ transform RN t2 X1' = Err ValueError) \/
     exists T f, e_shapelets t1 = Some f /\ transform RN t1 X1 = Ok T /\ T <> [] /\ (forall row, In row T -> zlen row = 3 * count_of f) /\
       transform RN t2 X1' = Ok (map (scaled (map (fun q => if q mod 3 =? 0 then Rabs c else 1%R) (zrange 0 (3 * count_of f)))) T)).
  { intros X1 X1' n1 cols1 v1 v1' HU1 H3 Hlong. pose proof (ou_old _ _ _ _ _ _ _ _ _ _ HU1) as HP1.
    destruct (transforms_units rng V ex c b X X' n nf cols v v' vl y s hs t1 g1 t2 g1 X1 X1' n1 cols1 v1 v1' L HE HU HT HA E1 E2 HU1 H3) as [Q|(T & T' & f & m & A & B & C & D & F & Hm & G & H)]; [left; exact Q|].
    right. exists T, f. split; [exact F|]. split; [exact A|]. assert (Hn1 : 1 <= n1) by (destruct H3 as (i & Hi & _); lia). split; [intros ->; change (zlen (@nil (list R))) with 0 in C; lia|].
    split; [intros row Hr; apply G; left; exact Hr|]. rewrite B. f_equal. set (fs := map (fun q : Z => if q mod 3 =? 0 then Rabs c else 1%R) (zrange 0 (3 * count_of f))).
    assert (Zf : zlen fs = Z.max 0 (3 * count_of f)) by (unfold fs; rewrite zlen_map, zlen_zrange; f_equal; lia).
    apply nthZ_ext; [rewrite zlen_map; lia|]. intros i Hi. rewrite nthZ_map. destruct (nthZ_some T i) as (row & Er); [lia|]. destruct (nthZ_some T' i) as (row' & Er'); [lia|]. rewrite Er, Er'. cbn [option_map]. f_equal.
    pose proof (G row (or_introl (nthZ_In _ _ _ Er))) as L1. pose proof (G row' (or_intror (nthZ_In _ _ _ Er'))) as L2. pose proof (zlen_nonneg row).
    apply nthZ_ext; [rewrite zlen_scaled; lia|]. intros z Hz. rewrite nthZ_scaled by lia.
    pose proof (Z.div_mod z 3 ltac:(lia)) as DM. pose proof (Z.mod_pos_bound z 3 ltac:(lia)) as MB.
    assert (Ef : nthd 0%R fs z = if z mod 3 =? 0 then Rabs c else 1%R) by (apply nthd_some; unfold fs; rewrite nthZ_map, nthZ_zrange by lia; cbn [option_map]; rewrite Z.add_0_l; reflexivity).
    rewrite Ef. set (j := z / 3) in *. set (rr := z mod 3) in *. clearbody j rr.
    destruct (H i j ltac:(lia) ltac:(lia)) as (m1 & a & cnt & m2 & l & d & (r0 & Q0 & K0 & K1 & K2) & (r0' & Q0' & K0' & K1' & K2') & Em & Em1 & Hl & Hd & Hd1).
    assert (r0 = row) by congruence. assert (r0' = row') by congruence. subst r0 r0'.
    assert (Em2 : m2 = (Rabs c * m1)%R).
    { destruct Hlong as [-> |Hlong]; [rewrite Rabs_R1, Rmult_1_l; destruct (nwin _ _ _ _ <=? 0); [exact Em|rewrite Em, Rabs_R1, Rmult_1_l; reflexivity]|].
      destruct (Hlong i ltac:(lia)) as (i0 & Hi0 & Hc0). specialize (Hm i0 Hi0). replace (nwin (e_phase s) (cols1 i) l d <=? 0) with false in Em by (unfold nwin; destruct (e_phase s); lia). exact Em. }
    assert (C3 : z = 3 * j /\ rr = 0 \/ z = 3 * j + 1 /\ rr = 1 \/ z = 3 * j + 2 /\ rr = 2) by lia. destruct C3 as [[-> ->]|[[-> ->]|[-> ->]]]; cbn [Z.eqb].
    - rewrite K0', (nthd_some 0%R row _ _ K0), Em2. reflexivity.
    - rewrite K1', (nthd_some 0%R row _ _ K1), Rmult_1_l. reflexivity.
    - rewrite K2', (nthd_some 0%R row _ _ K2), Rmult_1_l. reflexivity. }
  assert (Hc0 : c <> 0%R) by apply HA. pose proof HT as [T1 T2 T3 T4 T5 T6 T7].
  destruct (HTT X X' n cols v v' HU) as [[A B]|(T & f & Ef & A & NE & HR & B)].
  { exists 0. split; [lia|]. specialize (T6 0 ltac:(lia)). lia. }
  { right. intros i Hi. exists i. split; [exact Hi|lia]. }
  { rewrite A in H1. rewrite B in H2. cbn [bind] in H1, H2. injection H1 as <- <- <-. injection H2 as <- <- <-. split; [reflexivity|]. split; [reflexivity|discriminate]. }
  rewrite A in H1. rewrite B in H2. cbn [bind] in H1, H2. set (fs := map (fun q : Z => if q mod 3 =? 0 then Rabs c else 1%R) (zrange 0 (3 * count_of f))) in *.
  assert (Hpos : forall x, In x fs -> (0 < x)%R). { intros x Hx. unfold fs in Hx. apply in_map_iff in Hx as (q & <- & _). destruct (q mod 3 =? 0); [apply Rabs_pos_lt; exact Hc0|lra]. }
  assert (Zf : zlen fs = 3 * count_of f). { unfold fs. rewrite zlen_map, zlen_zrange. destruct f as [Q|Q]; cbn [count_of]; [pose proof (zlen_nonneg (us_len Q))|pose proof (zlen_nonneg (ms_len Q))]; lia. }
  assert (PS : match pipe_fit RN K (rd_hyper r) T y, pipe_fit RN K (rd_hyper r) (map (scaled fs) T) y with
    | Ok m, Ok m' => forall B, (forall row, In row B -> zlen row = 3 * count_of f) -> pipe_predict K m' (map (scaled fs) B) = pipe_predict K m B
    | Err e, Err e' => e' = e
    | _, _ => False end).
  { destruct HK as [Ec|HK]; [|apply (pipe_scaled K (rd_hyper r) y (3 * count_of f) fs T HK NE Hpos Zf HR)].
    assert (EQ : forall B, (forall row, In row B -> zlen row = 3 * count_of f) -> map (scaled fs) B = B).
    { intros C HC. rewrite <- (map_id C) at 2. apply map_ext_in. intros row Hr. pose proof (HC row Hr). apply nthZ_ext; [apply zlen_scaled; lia|]. intros z Hz. rewrite zlen_scaled in Hz by lia. rewrite nthZ_scaled by lia.
      rewrite (nthZ_nthd 0%R row z Hz). f_equal. replace (nthd 0%R fs z) with 1%R; [ring|]. symmetry. apply nthd_some. unfold fs. rewrite nthZ_map, nthZ_zrange by lia. cbn [option_map]. rewrite Ec, Rabs_R1. destruct (_ =? 0); reflexivity. }
    rewrite (EQ T HR). destruct (pipe_fit RN K (rd_hyper r) T y) as [md|e]; [|reflexivity]. intros C HC. rewrite (EQ C HC). reflexivity. }
  destruct (pipe_fit RN K (rd_hyper r) T y) as [md|e], (pipe_fit RN K (rd_hyper r) (map (scaled fs) T) y) as [md'|e']; try contradiction; injection H1 as <- <- <-; injection H2 as <- <- <-;
    [|subst e'; split; [reflexivity|]; split; [reflexivity|discriminate]].
  split; [reflexivity|]. split; [reflexivity|]. intros _ X1 X1' n1 cols1 v1 v1' HU1 H3 Hlong. unfold ridge_predict. cbn [rd_classifier rd_transformer].
  destruct (HTT X1 X1' n1 cols1 v1 v1' HU1 H3 Hlong) as [[-> ->]|(T0 & f0 & Ef0 & -> & _ & HR0 & ->)]; [reflexivity|]. cbn [bind]. assert (f0 = f) by congruence. subst f0. fold fs. apply PS. exact HR0.
Qed.
Print Assumptions C84_ridge.

(** ** The hypotheses are needed *)

(** An offset can remove a shapelet: with one channel, a shapelet drawn on a part of a series that is constantly 0 is thrown
    away, the same one after adding 1 is kept, and the features differ. *)
Theorem C84_zero_shapelet_refuted : exists s h s1 h1 s2 h2 T1 T2, init ZN zenv (zargs (VInt 3)) [0] = (Ok s, h) /\
  (let X o := VArr [2; 1; 6] DInt64 (intcells (map (Z.add o) [0; 0; 0; 0; 7; 1;  2; 1; 0; 0; 0; 5])) in
   fit ZN zrng zenv in_order (X 0) [5; 7] s h = (Ok tt, s1, h1) /\ fit ZN zrng zenv in_order (X 1) [5; 7] s h = (Ok tt, s2, h2) /\
   transform ZN s1 (X 0) = Ok T1 /\ transform ZN s2 (X 1) = Ok T2) /\ T1 = [[]; []] /\ T2 = [[0; 0; 3]; [0; 2; 2]].
Proof.
  do 8 eexists. split; [reflexivity|]. cbv zeta. split; [split; [vm_compute; reflexivity|]; split; [vm_compute; reflexivity|]; split; vm_compute; reflexivity|]. split; reflexivity.
Qed.
Print Assumptions C84_zero_shapelet_refuted.

(** ** Cases *)

(** StandardScaler in the real numbers: the mean and the deviation of each column; the ridge classifier keeps the labels and
    decides by the sign of the first feature *)
Definition std_fit (A : list (list R)) : res (list (R * R)) :=
  Ok (map (fun q => let col := map (fun r => pt RN r q) A in (avg RN col, sdev RN col)) (zrange 0 (ncols A))).
Definition std_scale (sc : list (R * R)) (A : list (list R)) : res (list (list R)) :=
  Ok (map (fun r => map (fun q => let md := nthd (0%R, 0%R) sc q in ((pt RN r q - fst md) / snd md)%R) (zrange 0 (zlen sc))) A).
Definition std_sk : sklearn R (list (R * R)) unit (list Z) :=
  mkSk _ _ _ _ std_fit std_scale (fun _ _ y => Ok y) (fun m X => Ok (map (fun row => if Rleb 0 (pt RN row 0) then nthd 0 m 0 else nthd 0 m 1) X))
    (fun m X => Ok (D1 (map (fun row => pt RN row 0) X))) (fun m => map (fun l => [IZR l]) m) exp (fun x a => x * a)%R.

Example std_scale_free : scale_free std_sk.
Proof.
  intros fs A Hp HA HR HV. cbn [std_sk k_scale_fit k_scale]. unfold std_fit, std_scale. pose proof (zlen_nonneg fs) as Zn.
  assert (NC : ncols A = zlen fs) by (destruct A as [|r0 A0]; [congruence|apply HR; left; reflexivity]).
  assert (NC' : ncols (map (scaled fs) A) = zlen fs). { destruct A as [|r0 A0]; [congruence|]. cbn [map ncols]. rewrite zlen_scaled; [exact NC|]. rewrite (HR r0 (or_introl eq_refl)). reflexivity. }
  rewrite NC, NC'. intros B HB. f_equal. rewrite map_map. apply map_ext_in. intros r Hr. rewrite !zlen_map. apply map_ext_in. intros q Hq. apply in_zrange in Hq.
  rewrite zlen_zrange in Hq. assert (Hq' : 0 <= q < zlen fs) by lia.
  assert (Nq : forall f0 : Z -> R * R, nthd (0%R, 0%R) (map f0 (zrange 0 (zlen fs))) q = f0 q) by (intros f0; apply nthd_some; rewrite nthZ_map, nthZ_zrange by lia; reflexivity).
  cbv zeta. rewrite !Nq. cbn [fst snd]. rewrite map_map.
  assert (Hf : (0 < nthd 0%R fs q)%R) by (apply Hp; eapply nthZ_In; apply nthZ_nthd; lia). set (g := nthd 0%R fs q) in *.
  set (col := map (fun r0 : list R => pt RN r0 q) A). assert (Nc : col <> []) by (intros W; apply map_eq_nil in W; contradiction).
  assert (EC : map (fun x : list R => pt RN (scaled fs x) q) A = map (fun x : R => (g * x + 0)%R) col).
  { unfold col. rewrite map_map. apply map_ext_in. intros x Hx. unfold pt. rewrite nthd_scaled by (rewrite (HR x Hx); lia || reflexivity). fold g. cbn [n0 RN]. ring. }
  rewrite EC, avg_affine, sdev_affine by (assumption || lra).
  replace (pt RN (scaled fs r) q) with (g * pt RN r q)%R by (unfold pt; rewrite nthd_scaled by (rewrite (HB r Hr); lia || reflexivity); reflexivity).
  assert (Hs : sdev RN col <> 0%R).
  { destruct (C47_kept_columns (zlen fs) A (conj Zn HR)) as (atts & E & _ & H1). destruct (C47_kept_columns_any R RN (zlen fs) A (conj Zn HR)) as (atts' & E' & _ & H2). assert (atts' = atts) by congruence. subst atts'.
    assert (I0 : In q atts) by (apply H1; split; [exact Hq'|]; apply HV; exact Hq'). apply H2 in I0 as [_ I0]. apply Reqb_false in I0. exact I0. }
  field. split; [exact Hs|lra].
Qed.

Definition uv (l : list Z) (i ch j : Z) : R := IZR (nthd 0 l ((i * 1 + ch) * 6 + j)).
Lemma uX_numeric l : zlen l = 12 -> numeric_array (VArr [2; 1; 6] DInt64 (intcells l)) 2 1 6 (uv l).
Proof.
  intros E. exists DInt64, (intcells l). split; [reflexivity|]. split; [left; reflexivity|]. split; [unfold intcells; rewrite zlen_map, E; reflexivity|]. intros i ch j Hi Hch Hj.
  exists (VInt (nthd 0 l ((i * 1 + ch) * 6 + j))). split; [|reflexivity]. unfold intcells. rewrite nthZ_map, (nthZ_nthd 0 l) by lia. reflexivity.
Qed.
Definition ucells : list Z := [1; 2; 4; 8; 3; 3;  5; 3; 3; 9; 7; 1].
Lemma u_units (c b : Z) : other_units (IZR c) (fun _ => IZR b) (VArr [2; 1; 6] DInt64 (intcells ucells)) (VArr [2; 1; 6] DInt64 (intcells (map (fun x => c * x + b) ucells))) 2 1 (fun _ => 6)
  (uv ucells) (uv (map (fun x => c * x + b) ucells)) false.
Proof.
  constructor.
  - apply numeric_passes; [apply uX_numeric; reflexivity|lia].
  - apply numeric_passes; [apply uX_numeric; reflexivity|lia].
  - reflexivity.
  - intros i ch t Hi Hch Ht. unfold uv. rewrite <- mult_IZR, <- plus_IZR. f_equal. apply nthd_some. rewrite nthZ_map, (nthZ_nthd 0 ucells) by (change (zlen ucells) with 12; lia). reflexivity.
Qed.
Lemma u_trainable pn : trainable (default_est pn 0 (VBool false)) [0; 1] 2 1 (fun _ => 6) false.
Proof. constructor; try lia; try reflexivity; try discriminate. Qed.

(** R_DST(proba_norm=0) with the values multiplied by -2 and shifted by 0, and R_DST_Ridge(), with proba_norm=0.8, with an
    offset of 2; both fits succeed. *)
Example C84_case : exists s1 h1 s2 h2 T1 T2,
  fit RN crng caseV in_order (VArr [2; 1; 6] DInt64 (intcells ucells)) [0; 1] (default_est (VInt 0) 0 (VBool false)) [0] = (Ok tt, s1, h1) /\
  fit RN crng caseV in_order (VArr [2; 1; 6] DInt64 (intcells (map (fun x => -2 * x + 0) ucells))) [0; 1] (default_est (VInt 0) 0 (VBool false)) [0] = (Ok tt, s2, h2) /\
  transform RN s1 (VArr [2; 1; 6] DInt64 (intcells ucells)) = Ok T1 /\ transform RN s2 (VArr [2; 1; 6] DInt64 (intcells (map (fun x => -2 * x + 0) ucells))) = Ok T2 /\
  allowed (-2) (fun _ => 0%R) (default_est (VInt 0) 0 (VBool false)) 2 1 (fun _ => 6) (uv ucells) (uv (map (fun x => -2 * x + 0) ucells)) /\
  zlen T1 = 2 /\ forall i q x x', nthZ T1 i = Some x -> nthZ T2 i = Some x' -> 0 <= q < zlen x / 3 -> nthd 0%R x' (3 * q) = (2 * nthd 0%R x (3 * q))%R \/ nthd 0%R x (3 * q) = (-1)%R.
Proof.
  pose proof (u_units (-2) 0) as HU. pose proof (u_trainable (VInt 0)) as HT.
  assert (HA : allowed (-2) (fun _ => 0%R) (default_est (VInt 0) 0 (VBool false)) 2 1 (fun _ => 6) (uv ucells) (uv (map (fun x => -2 * x + 0) ucells))).
  { split; [lra|]. exists 0%R. split; [reflexivity|]. split; [right; lra|]. right. right. left. reflexivity. }
  assert (HF : forall l, zlen l = 12 -> exists s' h' T, fit RN crng caseV in_order (VArr [2; 1; 6] DInt64 (intcells l)) [0; 1] (default_est (VInt 0) 0 (VBool false)) [0] = (Ok tt, s', h') /\ transform RN s' (VArr [2; 1; 6] DInt64 (intcells l)) = Ok T).
  { intros l Hl. pose proof (numeric_passes _ 2 1 6 _ (uX_numeric l Hl) ltac:(lia)) as HP.
    destruct (default_fit crng caseV in_order (VArr [2; 1; 6] DInt64 (intcells l)) [0; 1] (VInt 0) 0 (VBool false) [0] 2 1 (fun _ => 6) _ false crng_laws (or_introl eq_refl) HP ltac:(lia) ltac:(lia) eq_refl)
      as (s' & h' & f & m & EF & _ & _ & Hm & HT'); [intros; lia|intros sh dt cells E; injection E as _ <- _; auto|left; eexists; reflexivity|cbn; lia|].
    pose proof Hm as [(i0 & _ & Em) _]. cbn beta in Em. subst m. destruct (HT' _ 2 (fun _ => 6) _ HP ltac:(lia) ltac:(intros; apply Z.le_refl)) as (T & ET & _). eauto. }
  destruct (HF ucells eq_refl) as (s1 & h1 & T1 & E1 & F1). destruct (HF (map (fun x => -2 * x + 0) ucells) eq_refl) as (s2 & h2 & T2 & E2 & F2).
  exists s1, h1, s2, h2, T1, T2. split; [exact E1|]. split; [exact E2|]. split; [exact F1|]. split; [exact F2|]. split; [exact HA|].
  destruct (C84_transform Z crng Z caseV in_order (-2) (fun _ => 0%R) _ _ 2 1 (fun _ => 6) _ _ false [0; 1] (default_est (VInt 0) 0 (VBool false)) [0] s1 h1 s2 h2 _ _ 2 (fun _ => 6) _ _ crng_laws (or_introl eq_refl) HU HT HA E1 E2 HU)
    as [[Q _]|(A & B & w & EA & EB & Z1 & Z2 & HR & H)]; [exists 0; lia|congruence|]. assert (A = T1) by congruence. assert (B = T2) by congruence. subst A B. split; [exact Z1|].
  intros i q x x' Hx Hx' Hq. pose proof (nthZ_range _ _ _ Hx) as Ri. rewrite Z1 in Ri. pose proof (HR x (or_introl (nthZ_In _ _ _ Hx))) as Lx. assert (Hq' : 0 <= q < w) by (clear - Hq Lx; lia).
  destruct (H i q Ri Hq') as (m & a & cnt & (r0 & K0 & K1 & _) & Q). assert (r0 = x) by congruence. subst r0.
  destruct Q as [(r1 & J0 & J1 & _)|[-> _]]; [left|right; apply nthd_some; exact K1]. assert (r1 = x') by congruence. subst r1. rewrite (nthd_some _ _ _ _ K1), (nthd_some _ _ _ _ J1). f_equal. rewrite Rabs_left by lra. lra.
Qed.

Example C84_ridge_case : exists r u1 r1 h1 u2 r2 h2, ridge_init (SC := list (R * R)) (M := list Z) caseV default_args tt = Ok r /\
  init RN caseV (ridge_rdst_args (rd_args r)) [0] = (Ok (default_est (VFloat (8/10)%R) 0 (VBool false)), [0]) /\
  allowed 1 (fun _ => 2%R) (default_est (VFloat (8/10)%R) 0 (VBool false)) 2 1 (fun _ => 6) (uv ucells) (uv (map (fun x => 1 * x + 2) ucells)) /\
  ridge_fit RN crng caseV std_sk in_order (VArr [2; 1; 6] DInt64 (intcells ucells)) [0; 1] r [0] = (u1, r1, h1) /\
  ridge_fit RN crng caseV std_sk in_order (VArr [2; 1; 6] DInt64 (intcells (map (fun x => 1 * x + 2) ucells))) [0; 1] r [0] = (u2, r2, h2) /\
  u1 = Ok tt /\ u2 = Ok tt /\ ridge_predict RN std_sk r2 (VArr [2; 1; 6] DInt64 (intcells (map (fun x => 1 * x + 2) ucells))) = ridge_predict RN std_sk r1 (VArr [2; 1; 6] DInt64 (intcells ucells)).
Proof.
  pose proof (u_units 1 2) as HU. pose proof (u_trainable (VFloat (8/10)%R)) as HT.
  assert (H12 : forall i t, 0 <= i < 2 -> 0 <= t < 6 -> nthd 0 ucells ((i * 1 + 0) * 6 + t) <> 0 /\ nthd 0 (map (fun x => 1 * x + 2) ucells) ((i * 1 + 0) * 6 + t) <> 0).
  { intros i t Hi Ht. assert (HQ : 0 <= (i * 1 + 0) * 6 + t < 12) by lia. set (q := (i * 1 + 0) * 6 + t) in *. clearbody q.
    assert (In q (zrange 0 12)) as HI by (apply in_zrange; exact HQ). change (zrange 0 12) with [0; 1; 2; 3; 4; 5; 6; 7; 8; 9; 10; 11] in HI.
    repeat (destruct HI as [<-|HI]; [split; discriminate|]). destruct HI. }
  assert (HA : allowed 1 (fun _ => 2%R) (default_est (VFloat (8/10)%R) 0 (VBool false)) 2 1 (fun _ => 6) (uv ucells) (uv (map (fun x => 1 * x + 2) ucells))).
  { split; [lra|]. exists (8/10)%R. split; [reflexivity|]. split; [left; reflexivity|]. right. right. right. intros i t Hi Ht. destruct (H12 i t Hi Ht) as [Q1 Q2]. unfold uv.
    split; apply (IZR_neq _ 0); assumption. }
  pose proof (numeric_passes _ 2 1 6 _ (uX_numeric ucells eq_refl) ltac:(lia)) as HP.
  destruct (C73_ridge Z crng Z caseV (list (R * R)) unit (list Z) std_sk in_order (VArr [2; 1; 6] DInt64 (intcells ucells)) [0; 1] tt [0] 2 1 (fun _ => 6) _ false crng_laws (or_introl eq_refl) HP ltac:(lia) ltac:(lia) eq_refl)
    as (r & r1 & u1 & h1 & f & T & atts & Q & E1 & E2 & _ & _ & _ & HU1); try discriminate; try (cbn; lia); [intros sh dt cells E; injection E as _ <- _; auto|].
  cbn [std_sk k_scale_fit k_scale k_ridge_fit std_fit std_scale bind] in HU1. destruct HU1 as [-> _].
  destruct (ridge_fit RN crng caseV std_sk in_order (VArr [2; 1; 6] DInt64 (intcells (map (fun x => 1 * x + 2) ucells))) [0; 1] r [0]) as [[u2 r2] h2] eqn:E3.
  assert (EI : init RN caseV (ridge_rdst_args (rd_args r)) [0] = (Ok (default_est (VFloat (8/10)%R) 0 (VBool false)), [0])).
  { unfold ridge_init in E1. apply bind_inv in E1 as (nj & _ & E1). injection E1 as <-. cbn [rd_args]. unfold ridge_rdst_args, default_args.
    cbn [p_transform_type p_phase_invariance p_alpha p_normalize_output p_n_samples p_n_shapelets p_shapelet_lengths p_bounds p_reduction p_prime_dilations p_proba_norm p_percentiles p_random_state p_max_channels p_min_len p_n_jobs].
    apply init_default; auto. right. eexists. reflexivity. }
  destruct (C84_ridge Z crng Z caseV (list (R * R)) unit (list Z) std_sk in_order 1 (fun _ => 2%R) r _ _ 2 1 (fun _ => 6) _ _ false [0; 1] [0] _ [0] (Ok tt) r1 h1 u2 r2 h2 crng_laws (or_introl eq_refl) HU EI HT HA (or_introl eq_refl) E2 E3) as (-> & _ & HPr).
  exists r, (Ok tt), r1, h1, (Ok tt), r2, h2. split; [exact E1|]. split; [exact EI|]. split; [exact HA|]. split; [exact E2|]. split; [exact E3|]. split; [reflexivity|]. split; [reflexivity|].
  apply (HPr eq_refl _ _ 2 (fun _ => 6) _ _ HU); [exists 0; lia|left; reflexivity].
Qed.
