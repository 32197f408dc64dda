(** Property C80: how far the binary64 distances and features are from the real ones. *)
From Coq Require Import ZArith List Bool Reals Lra Lia Floats.
From Verif Require Import Prelude Num Kernel Spec KernelProofs RealBase Parallel Apply ApplyProofs ApplyUni ApplyMulti TransformProofs TransformLaws SampleLaws
  Gen GenSched GenBase GenUni GenDraw GenSpec GenUTop GenULaws GenUCase GenMTop GenMLaws Checks ChecksProofs Estimator EstimatorNum EstimatorLaws EstimatorCases
  GenAny FloatLaws FloatReal FitFloat FitAny FitAnyTop Libm FloatError PropsFloat PropsFit64.
Import ListNotations.
Open Scope Z_scope.

(** [fr x] is the real value of the finite number [x].  Data of at most 2^960 in absolute value: *)
Definition moderate (x : float) : Prop := finite x /\ (Rabs (fr x) <= 2 ^ 960)%R.
(** one rounding: a factor between these two *)
Definition lo (e : nat) : R := ((1 - / 2 ^ 53) ^ e)%R.
Definition up (e : nat) : R := ((1 + / 2 ^ 53) ^ e)%R.

(** The three features [f] against the real distances [D] and the real threshold [t], after [e] roundings. *)
Definition approximate (e : nat) (D : list R) (t : R) (f : float * float * float) : Prop :=
  let '(m, a, c) := f in exists r k rk count,
    (* the real minimum r, reached by the first feature up to e roundings *)
    (In r D /\ forall x, In x D -> (r <= x)%R) /\ finite m /\ (lo e * r <= fr m <= up e * r)%R /\
    (* the second feature is a position where the real distance is close to the real minimum *)
    a = float_ofZ k /\ nthZ D k = Some rk /\ (lo e * rk <= up e * r)%R /\
    (* the third counts every distance clearly below the threshold, and none clearly above *)
    c = float_ofZ count /\ zlen (filter (fun x => Rleb (up e * x) t) D) <= count <= zlen (filter (fun x => Rleb (lo e * x) t) D).

Lemma u64_value : u64 = (/ 2 ^ 53)%R.
Proof. unfold u64. change (-53) with (- (53)). rewrite Raux.bpow_opp. f_equal. change (Raux.bpow Zaux.radix2 53) with (IZR (2 ^ 53)). rewrite (pow_IZR 2 53). reflexivity. Qed.

Lemma pow960 : (2 ^ 960)%R = Raux.bpow Zaux.radix2 960.
Proof. rewrite (pow_IZR 2 960), <- (Raux.IZR_Zpower Zaux.radix2 960) by lia. reflexivity. Qed.
Lemma moderate_bounded x : moderate x -> bounded x.
Proof.
  intros [A B]. split; [apply is_finite_prim; exact A|]. rewrite <- pow960. exact B.
Qed.

Lemma lo_u e : lo e = ((1 - u64) ^ e)%R. Proof. unfold lo. rewrite u64_value. reflexivity. Qed.
Lemma up_u e : up e = ((1 + u64) ^ e)%R. Proof. unfold up. rewrite u64_value. reflexivity. Qed.

(** ** Distances *)

(** Finite data of at most 2^960, length times channels at most 2^53: each distance is finite and within 1 + l + channels
    roundings of the real distance. *)
Theorem C80_distances : forall log2 log pow2 ph n X chs vs l d i x, let N := FN log2 log pow2 in
  (forall r a, In r X -> In a r -> moderate a) -> (forall r a, In r vs -> In a r -> moderate a) -> 0 <= l -> l * zlen chs <= 2 ^ 53 ->
  nthZ (mdistances N ph false n X chs vs l d) i = Some x ->
  exists r, nthZ (mdistances RN ph false n (map (map fr) X) chs (map (map fr) vs) l d) i = Some r /\ finite x /\
    let e := Z.to_nat (1 + l + zlen chs) in (lo e * r <= fr x <= up e * r)%R.
Proof.
  intros log2 log pow2 ph n X chs vs l d i x N HX Hv Hl HM H.
  destruct (mdistances_near log2 log pow2 ph n X chs vs l d i x (fun r a Hr Ha => moderate_bounded a (HX r a Hr Ha)) (fun r a Hr Ha => moderate_bounded a (Hv r a Hr Ha)) Hl HM H) as (r & E & (F & _ & B) & _).
  exists r. split; [exact E|]. split; [apply is_finite_prim; exact F|]. cbv zeta. rewrite lo_u, up_u. exact B.
Qed.
Print Assumptions C80_distances.

(** ** Features *)

Lemma least_exists (D : list R) : D <> [] -> exists r, In r D /\ forall x, In x D -> (r <= x)%R.
Proof.
  induction D as [|a D IH]; [congruence|]. intros _. destruct D as [|b D].
  - exists a. split; [left; reflexivity|]. intros x [<-|[]]. lra.
  - destruct IH as (r & Hr & HD); [discriminate|]. destruct (Rle_dec a r) as [L|L].
    + exists a. split; [left; reflexivity|]. intros x [<-|Hx]; [lra|]. specialize (HD x Hx). lra.
    + exists r. split; [right; exact Hr|]. intros x [<-|Hx]; [lra|]. auto.
Qed.

Lemma filter_below {A B} (P : A -> B -> Prop) f g l : forall l', zlen l = zlen l' -> (forall i x, nthZ l i = Some x -> exists y, nthZ l' i = Some y /\ P x y) ->
  (forall x y, P x y -> f x = true -> g y = true) -> zlen (filter f l) <= zlen (filter g l').
Proof.
  induction l as [|a l IH]; intros [|b l'] HL HP Hfg; rewrite ?zlen_cons in HL; try (change (zlen (@nil A)) with 0 in *; change (zlen (@nil B)) with 0 in *; cbn [filter]; try (pose proof (zlen_nonneg l)); try (pose proof (zlen_nonneg l')); unfold zlen in *; cbn in *; lia).
  assert (P0 : P a b). { destruct (HP 0 a eq_refl) as (y & Ey & Q). cbn in Ey. injection Ey as <-. exact Q. }
  assert (IH' : zlen (filter f l) <= zlen (filter g l')).
  { apply IH; [lia| |exact Hfg]. intros i x Hx. pose proof (nthZ_range _ _ _ Hx). destruct (HP (i + 1) x) as (y & Ey & Q).
    - rewrite nthZ_cons. destruct (Z.eqb_spec (i + 1) 0); [lia|]. replace (i + 1 - 1) with i by lia. exact Hx.
    - rewrite nthZ_cons in Ey. destruct (Z.eqb_spec (i + 1) 0); [lia|]. replace (i + 1 - 1) with i in Ey by lia. eauto. }
  cbn [filter]. destruct (f a) eqn:Ea; [rewrite (Hfg a b P0 Ea), !zlen_cons; lia|]. destruct (g b); rewrite ?zlen_cons; lia.
Qed.

Lemma features_near log2 log pow2 e ds D thr f : zlen ds = zlen D -> ds <> [] ->
  (forall i x, nthZ ds i = Some x -> exists r, nthZ D i = Some r /\ near e x r) -> fin thr ->
  is_features (FN log2 log pow2) ds thr f -> approximate e D (fr thr) f.
Proof.
  intros HL HN HD Ft HF. destruct f as [[m a] c]. destruct HF as [(E & _)|(k & Hk & Ha & Hmin & _ & Hc)]; [congruence|].
  assert (ND : D <> []) by (intros ->; change (zlen (@nil R)) with 0 in HL; destruct ds; [congruence|rewrite zlen_cons in HL; pose proof (zlen_nonneg ds); lia]).
  destruct (least_exists D ND) as (r & Ir & Hr). destruct (HD k m Hk) as (rk & Ek & Fm & R0 & B1 & B2).
  apply In_nthZ in Ir as Ir'. destruct Ir' as (i0 & Ei0). pose proof (nthZ_range _ _ _ Ei0) as R. rewrite <- HL in R.
  destruct (nthZ_some ds i0 R) as (x0 & Ex0). destruct (HD i0 x0 Ex0) as (r' & Er' & Fx0 & _ & _ & B3). assert (r' = r) by congruence. subst r'.
  specialize (Hmin i0 x0 Ex0). cbn [nleb FN] in Hmin. apply fr_leb in Hmin; [|exact Fm|exact Fx0].
  assert (r <= rk)%R by (apply Hr; apply (nthZ_In _ _ _ Ek)). pose proof (pow_low_pos e) as PL.
  exists r, k, rk, (zlen (filter (fun x => nleb (FN log2 log pow2) x thr) ds)). rewrite lo_u, up_u.
  split; [auto|]. split; [apply is_finite_prim; exact Fm|]. split; [split; [|lra]; apply Rle_trans with (2 := B1); apply Rmult_le_compat_l; lra|].
  split; [exact Ha|]. split; [exact Ek|]. split; [lra|]. split; [exact Hc|]. cbn [nleb FN]. split.
  - apply (filter_below (fun r x => near e x r)); [auto| |].
    + intros i x Hx. pose proof (nthZ_range _ _ _ Hx) as R'. rewrite <- HL in R'. destruct (nthZ_some ds i R') as (y & Ey). destruct (HD i y Ey) as (q & Eq & Hq). assert (q = x) by congruence. subst q. eauto.
    + intros x y (Fy & _ & _ & By) Hx. apply Rleb_true in Hx. apply fr_leb; [exact Fy|exact Ft|lra].
  - apply (filter_below (near e)); [exact HL|exact HD|]. intros x y (Fx & _ & By & _) Hx. apply Rleb_true. apply fr_leb in Hx; [lra|exact Fx|exact Ft].
Qed.

(** What transform returns for a series [x] and a shapelet that is not normalised, against the real distances. *)
Theorem C80_features : forall log2 log pow2 (c : call float) ph T i k x n chs vs l d thr, let N := FN log2 log pow2 in
  wf_call c -> run N c ph = Ok T -> sample_at c i x -> (forall r, In r x -> zlen r = n) -> shapelet_at c k chs vs l d thr false ->
  (forall r a, In r x -> In a r -> moderate a) -> (forall r a, In r vs -> In a r -> moderate a) -> finite thr ->
  0 <= l -> l * zlen chs <= 2 ^ 53 -> 1 <= nwin ph n l d ->
  exists f, cell3 T i k f /\
    approximate (Z.to_nat (1 + l + zlen chs)) (mdistances RN ph false n (map (map fr) x) chs (map (map fr) vs) l d) (fr thr) f.
Proof.
  intros log2 log pow2 c ph T i k x n chs vs l d thr N HW HT HS Hn HK HX Hv Ht Hl HM Hw.
  destruct (C58_features log2 log pow2 c ph T i k x n chs vs l d thr HW HT HS Hn HK (fun r Hr a Ha => proj1 (HX r a Hr Ha)) (fun r Hr a Ha => proj1 (Hv r a Hr Ha))) as (f & Hf & HF).
  exists f. split; [exact Hf|]. apply (features_near log2 log pow2 _ _ _ _ _) with (5 := HF).
  - unfold mdistances. rewrite !zlen_map. reflexivity.
  - intros E. apply (f_equal zlen) in E. unfold mdistances in E. rewrite zlen_map, zlen_zrange in E. change (zlen (@nil float)) with 0 in E. lia.
  - intros j y Hy. destruct (mdistances_near log2 log pow2 ph n x chs vs l d j y (fun r a Hr Ha => moderate_bounded a (HX r a Hr Ha)) (fun r a Hr Ha => moderate_bounded a (Hv r a Hr Ha)) Hl HM Hy) as (r & E & Q & _). eauto.
  - apply is_finite_prim. exact Ht.
Qed.
Print Assumptions C80_features.

(** ** Integer data *)

(** The value is an integer of absolute value at most [b]. *)
Definition whole (b : Z) (x : float) : Prop := finite x /\ exists z, fr x = IZR z /\ Z.abs z <= b.

(** Integer values up to [b] with 2 b l channels at most 2^53: the features are exactly the real ones. *)
Theorem C80_integers : forall log2 log pow2 (c : call float) ph T i k x n chs vs l d thr b, let N := FN log2 log pow2 in
  wf_call c -> run N c ph = Ok T -> sample_at c i x -> (forall r, In r x -> zlen r = n) -> shapelet_at c k chs vs l d thr false ->
  (forall r a, In r x -> In a r -> whole b a) -> (forall r a, In r vs -> In a r -> whole b a) -> finite thr ->
  0 <= b -> 1 <= l -> 2 * b * l * zlen chs <= 2 ^ 53 -> n <= 2 ^ 53 -> 0 <= d ->
  exists m a t, cell3 T i k (m, a, t) /\
    is_features RN (mdistances RN ph false n (map (map fr) x) chs (map (map fr) vs) l d) (fr thr) (fr m, fr a, fr t).
Proof.
  intros log2 log pow2 c ph T i k x n chs vs l d thr b N HW HT HS Hn HK HX Hv Ht Hb Hl HM Hnn Hd. subst N.
  destruct (C58_features log2 log pow2 c ph T i k x n chs vs l d thr HW HT HS Hn HK (fun r Hr a Ha => proj1 (HX r a Hr Ha)) (fun r Hr a Ha => proj1 (Hv r a Hr Ha))) as ([[m a] t] & Hf & HF).
  exists m, a, t. split; [exact Hf|]. apply is_finite_prim in Ht.
  assert (HI : forall q, whole b q -> integer b q) by (intros q (F & z & E & B); exists z; split; [apply is_finite_prim; exact F|auto]).
  destruct (mdistances_exact log2 log pow2 b ph n x chs vs l d Hb (fun r a Hr Ha => HI a (HX r a Hr Ha)) (fun r a Hr Ha => HI a (Hv r a Hr Ha)) Hl HM) as [E FD].
  set (ds := mdistances (FN log2 log pow2) ph false n x chs vs l d) in *. rewrite <- E.
  assert (ZD : zlen ds <= 2 ^ 53). { unfold ds, mdistances. rewrite zlen_map, zlen_zrange. unfold nwin. destruct ph; nia. }
  destruct HF as [(E0 & Em & Ea & Ec)|(k0 & Hk & Ha & Hmin & Hfst & Hc)].
  - left. rewrite E0. split; [reflexivity|]. subst m a t. split; [|split; apply fr_0]. cbn [nm1 FN RN]. change (-1)%float with (float_ofZ (-1)). apply (proj2 (fr_ofZ (-1) ltac:(lia))).
  - right. pose proof (nthZ_range _ _ _ Hk) as Rk. exists k0. rewrite nthZ_map, Hk. split; [reflexivity|]. cbn [nofZ RN].
    split; [rewrite Ha; apply fr_ofZ; lia|]. assert (Fm : fin m) by (apply FD, (nthZ_In _ _ _ Hk)).
    assert (AT : forall j y, nthZ (map fr ds) j = Some y -> exists q, nthZ ds j = Some q /\ y = fr q /\ fin q).
    { intros j y Hy. rewrite nthZ_map in Hy. destruct (nthZ ds j) as [q|] eqn:Eq; [|discriminate]. exists q. split; [reflexivity|]. split; [cbn in Hy; congruence|]. apply FD, (nthZ_In _ _ _ Eq). }
    split; [intros j y Hy; destruct (AT j y Hy) as (q & Eq & -> & Fq); cbn [nleb RN]; apply Rleb_true; apply fr_leb; [exact Fm|exact Fq|apply (Hmin j q Eq)]|].
    split; [intros j y Hy Hj; destruct (AT j y Hy) as (q & Eq & -> & Fq); cbn [nltb RN]; apply Rltb_true; apply fr_ltb; [exact Fm|exact Fq|apply (Hfst j q Eq Hj)]|].
    assert (EF : filter (fun y => nleb RN y (fr thr)) (map fr ds) = map fr (filter (fun y => nleb (FN log2 log pow2) y thr) ds)).
    { clear - FD Ht. induction ds as [|q ds IH]; [reflexivity|]. cbn [map filter]. rewrite IH by (intros; apply FD; right; assumption). cbn [nleb RN FN].
      assert (Fq : fin q) by (apply FD; left; reflexivity). pose proof (fr_leb q thr Fq Ht) as Q.
      destruct (PrimFloat.leb q thr); [assert (X : Rleb (fr q) (fr thr) = true) by (apply Rleb_true, Q; reflexivity); rewrite X; reflexivity|].
      assert (X : Rleb (fr q) (fr thr) = false) by (apply Rleb_false; apply Rnot_le_lt; intros Z; apply Q in Z; discriminate). rewrite X. reflexivity. }
    rewrite EF, zlen_map, Hc. apply fr_ofZ. pose proof (filter_zlen (fun y => nleb (FN log2 log pow2) y thr) ds). pose proof (zlen_nonneg (filter (fun y => nleb (FN log2 log pow2) y thr) ds)). lia.
Qed.
Print Assumptions C80_integers.

(** ** fit then transform *)

Lemma fit_values log2 log pow2 S (rng : Rng float S) RS (V : pyenv RS) ex X y s h s' h' n nf cols v vl f m :
  let N := FN log2 log pow2 in
  libm_accurate log2 log pow2 -> RngLaws N rng -> real_executor ex -> passes (N := N) X n nf cols v vl -> 1 <= n -> 1 <= nf -> zlen y = n ->
  e_n_samples s = VNone -> (forall k, e_type s = TKind k -> kind_vl k = vl) -> (forall i, 0 <= i < n -> 4 <= cols i <= 2 ^ 40) ->
  (vl = true -> forall m, e_min_len s = Some m -> 4 <= m /\ forall i, 0 <= i < n -> m <= cols i) ->
  fit N rng V ex X y s h = (Ok tt, s', h') -> e_shapelets s' = Some f -> e_min_len s' = Some m ->
  (forall i, 0 <= i < n -> cols i * nf <= 2 ^ 53) ->
  (forall i ch j, 0 <= i < n -> 0 <= ch < nf -> 0 <= j < cols i -> moderate (v i ch j)) ->
  forall j chs vs l d thr, shapelet_of f j chs vs l d thr false ->
    2 <= l <= m /\ 1 <= d /\ (l - 1) * d <= m - 1 /\ 1 <= zlen chs <= nf /\ l * zlen chs <= 2 ^ 53 /\ (forall ch, In ch chs -> 0 <= ch < nf) /\ finite thr /\
    forall r x, In r vs -> In x r -> exists i ch p, 0 <= i < n /\ 0 <= ch < nf /\ 0 <= p < cols i /\ x = v i ch p.
Proof.
  intros N LA L HE HX Hn Hf Hy Hns Hty H4 Hml H Hsh Hmm H53 HM j chs vs l d thr Hj.
  destruct (C79_fit log2 log pow2 S rng RS V ex X y s h s' h' n nf cols v vl LA L HE HX Hn Hf Hy Hns Hty H4 Hml H) as (f0 & m0 & pmin & pmax & E1 & E2 & _ & _ & Hm & _ & _ & HS).
  assert (f0 = f) by congruence. assert (m0 = m) by congruence. subst f0 m0.
  destruct (HS _ _ _ _ _ _ _ Hj) as (A1 & A2 & A3 & _ & A4 & A5 & A6 & _ & (i & t & i' & Hi & Ht & Zv & Hcopy & (Hi' & _) & (mu & a & b & u & Hp & U0 & U1 & Hthr))). subst N.
  assert (Zc : zlen chs <= nf).
  { assert (Q : (length chs <= length (zrange 0 nf))%nat) by (apply NoDup_incl_length; [exact A5|]; intros ch Hch; apply in_zrange; specialize (A6 ch Hch); lia).
    pose proof (zlen_zrange 0 nf) as Q2. unfold zlen in *. lia. }
  assert (Hlc : l * zlen chs <= 2 ^ 53).
  { apply Z.le_trans with (cols i * nf); [|apply H53; exact Hi]. specialize (Hm i Hi). nia. }
  assert (HV : forall r x, In r vs -> In x r -> exists i ch p, 0 <= i < n /\ 0 <= ch < nf /\ 0 <= p < cols i /\ x = v i ch p).
  { intros r x Hr Hx. apply In_nthZ in Hr as (q & Hq). pose proof (nthZ_range _ _ _ Hq) as Rq. rewrite Zv in Rq. destruct (nthZ_some chs q Rq) as (ch & Hch).
    destruct (Hcopy q ch Hch) as (copy & Zcp & Hcp & Hrow). assert (r = copy) by congruence. subst r. apply In_nthZ in Hx as (p & Hpx). pose proof (nthZ_range _ _ _ Hpx) as Rp.
    specialize (Hcp p ltac:(lia)). exists i, ch, (pos (e_phase s) (cols i) (t + p * d)). split; [exact Hi|]. split; [apply A6; apply (nthZ_In _ _ _ Hch)|].
    split; [|congruence]. destruct (nth_window (FN log2 log pow2) (e_phase s) v i ch (cols i) l d t p ltac:(lia) Ht ltac:(lia)) as [Q _]. exact Q. }
  assert (MV : forall r x, In r vs -> In x r -> moderate x) by (intros r x Hr Hx; destruct (HV r x Hr Hx) as (i0 & ch & p & B1 & B2 & B3 & ->); apply HM; assumption).
  assert (MP : forall ch, 0 <= ch < nf -> forall x, In x (points v i' ch (cols i')) -> moderate x).
  { intros ch Hch x Hx. apply in_map_iff in Hx as (p & <- & Hp'). apply in_zrange in Hp'. apply HM; lia. }
  assert (MC : forall r x, In r (channels v nf (cols i') i') -> In x r -> moderate x).
  { intros r x Hr. apply in_map_iff in Hr as (ch & <- & Hch). apply in_zrange in Hch. apply MP. lia. }
  split; [exact A1|]. split; [exact A2|]. split; [exact A3|]. split; [lia|]. split; [exact Hlc|]. split; [exact A6|]. split; [|exact HV].
  apply is_finite_prim. rewrite Hthr. pose proof (H4 i' Hi') as H4'. pose proof (Hm i' Hi') as Hm'.
  assert (NW : 0 < nwin (e_phase s) (cols i') l d <= 2 ^ 40) by (unfold nwin; destruct (e_phase s); nia).
  assert (LB : forall n X chs vs x, (forall r a, In r X -> In a r -> moderate a) -> (forall r a, In r vs -> In a r -> moderate a) -> l * zlen chs <= 2 ^ 53 ->
    In x (mdistances (FN log2 log pow2) (e_phase s) false n X chs vs l d) -> fin x /\ (Rabs (fr x) <= level 1014)%R).
  { intros n1 X1 chs1 vs1 x M1 M2 M3 Hx. apply In_nthZ in Hx as (q & Hq).
    destruct (mdistances_near log2 log pow2 (e_phase s) n1 X1 chs1 vs1 l d q x (fun r a Hr Ha => moderate_bounded a (M1 r a Hr Ha)) (fun r a Hr Ha => moderate_bounded a (M2 r a Hr Ha)) ltac:(lia) M3 Hq) as (r & _ & Q & B).
    split; [apply Q|]. rewrite Rabs_pos_eq by (apply near_nonneg in Q; exact Q). exact B. }
  apply (threshold_finite log2 log pow2 _ pmin pmax a b u 1014) with (4 := Hp); [|lia| |exact U0|exact U1].
  - unfold distances_to. destruct mu; [unfold mdistances|unfold distances]; rewrite zlen_map, zlen_zrange; [lia|]. rewrite zlen_points by lia. lia.
  - intros x Hx. unfold distances_to in Hx. destruct mu.
    + exact (LB _ _ _ _ x MC MV Hlc Hx).
    + assert (Fv : forall q, In q (nthd [] vs 0) -> moderate q) by (intros q Hq; unfold nthd in Hq; destruct (nthZ vs 0) as [r|] eqn:Er; [apply (MV r); [apply (nthZ_In _ _ _ Er)|exact Hq]|destruct Hq]).
      rewrite float_distances_mdistances in Hx.
      * apply (LB _ _ _ _ x) in Hx; [exact Hx| | |].
        -- intros r q [<-|[]]. apply MP. lia.
        -- intros r q [<-|[]]. apply Fv.
        -- change (zlen [0]) with 1. nia.
      * intros q Hq. apply is_finite_prim. apply (MP 0 ltac:(lia) q Hq).
      * intros q Hq. apply is_finite_prim. apply (Fv q Hq).
Qed.

(** Training and new series of moderate values: thresholds are finite and the features of shapelets that are not normalised
    approximate those of the real distances. *)
Theorem C80_transform : forall log2 log pow2 S (rng : Rng float S) RS (V : pyenv RS) ex X y s h s' h' n nf cols v vl X' n' cols' v' f m,
  let N := FN log2 log pow2 in
  libm_accurate log2 log pow2 -> RngLaws N rng -> real_executor ex -> passes (N := N) X n nf cols v vl -> 1 <= n -> 1 <= nf -> zlen y = n ->
  e_n_samples s = VNone -> (forall k, e_type s = TKind k -> kind_vl k = vl) -> (forall i, 0 <= i < n -> 4 <= cols i <= 2 ^ 40) ->
  (vl = true -> forall m, e_min_len s = Some m -> 4 <= m /\ forall i, 0 <= i < n -> m <= cols i) ->
  fit N rng V ex X y s h = (Ok tt, s', h') -> e_shapelets s' = Some f -> e_min_len s' = Some m ->
  passes (N := N) X' n' nf cols' v' vl -> 1 <= n' -> (forall i, 0 <= i < n' -> m <= cols' i) ->
  (forall i, 0 <= i < n -> cols i * nf <= 2 ^ 53) ->
  (forall i ch j, 0 <= i < n -> 0 <= ch < nf -> 0 <= j < cols i -> moderate (v i ch j)) ->
  (forall i ch j, 0 <= i < n' -> 0 <= ch < nf -> 0 <= j < cols' i -> moderate (v' i ch j)) ->
  exists T, transform N s' X' = Ok T /\
    forall i j chs vs l d thr, 0 <= i < n' -> shapelet_of f j chs vs l d thr false ->
      finite thr /\ exists a, cell3 T i j a /\
        approximate (Z.to_nat (1 + l + zlen chs))
          (mdistances RN (e_phase s) false (cols' i) (map (map fr) (channels v' nf (cols' i) i)) chs (map (map fr) vs) l d) (fr thr) a.
Proof.
  intros log2 log pow2 S rng RS V ex X y s h s' h' n nf cols v vl X' n' cols' v' f m N LA L HE HX Hn Hf Hy Hns Hty H4 Hml H Hsh Hmm HX' Hn' Hlong H53 HM HM'.
  destruct (C79_transform log2 log pow2 S rng RS V ex X y s h s' h' n nf cols v vl X' n' cols' v' f m LA L HE HX Hn Hf Hy Hns Hty H4 Hml H Hsh Hmm HX' Hn' Hlong) as (T & ET & _ & _ & HT).
  exists T. split; [exact ET|]. intros i j chs vs l d thr Hi Hj.
  destruct (fit_values log2 log pow2 S rng RS V ex X y s h s' h' n nf cols v vl f m LA L HE HX Hn Hf Hy Hns Hty H4 Hml H Hsh Hmm H53 HM j chs vs l d thr Hj) as (A1 & A2 & A3 & A4 & A5 & A6 & A7 & A8).
  split; [exact A7|]. destruct (HT (fun i ch j Hi Hc Hj => proj1 (HM i ch j Hi Hc Hj)) (fun i ch j Hi Hc Hj => proj1 (HM' i ch j Hi Hc Hj)) i j chs vs l d thr Hi Hj) as (a & Ha & HF).
  exists a. split; [exact Ha|]. specialize (Hlong i Hi). apply (features_near log2 log pow2 _ _ _ _ _) with (5 := HF).
  - unfold mdistances. rewrite !zlen_map. reflexivity.
  - intros E. apply (f_equal zlen) in E. unfold mdistances in E. rewrite zlen_map, zlen_zrange in E. change (zlen (@nil float)) with 0 in E. unfold nwin in E. destruct (e_phase s); nia.
  - intros q x Hq. destruct (mdistances_near log2 log pow2 (e_phase s) (cols' i) (channels v' nf (cols' i) i) chs vs l d q x) as (r & E & Q & _); [| |lia|exact A5|exact Hq|eauto].
    + intros r z Hr Hz. apply moderate_bounded. apply in_map_iff in Hr as (ch & <- & Hch). apply in_zrange in Hch. apply in_map_iff in Hz as (p & <- & Hp). apply in_zrange in Hp. apply HM'; lia.
    + intros r z Hr Hz. apply moderate_bounded. destruct (A8 r z Hr Hz) as (i0 & ch & p & B1 & B2 & B3 & ->). apply HM; assumption.
  - apply is_finite_prim. exact A7.
Qed.
Print Assumptions C80_transform.

(** ** Concrete cases *)

Lemma moderate_value x : finite x -> PrimFloat.leb (PrimFloat.abs x) 0x1p960 = true -> moderate x.
Proof.
  intros F H. split; [exact F|]. apply is_finite_prim in F. destruct (fr_abs x F) as [Fa Ea]. apply fr_leb in H; [|exact Fa|exact I]. rewrite Ea in H. apply Rle_trans with (1 := H). apply Req_le.
  rewrite fr_SF. change (Prim2SF 0x1p960) with (SpecFloat.S754_finite false 4503599627370496 908). unfold BinarySingleNaN.SF2R, Defs.F2R. cbn [SpecFloat.cond_Zopp Defs.Fnum Defs.Fexp].
  change (IZR 4503599627370496) with (Raux.bpow Zaux.radix2 52). rewrite <- Raux.bpow_plus. symmetry. exact pow960.
Qed.

(** 2^53 + 1 + 1 is rounded to 2^53: the distance is not the real one, but within 5 roundings of it *)
Example C80_case : let N := FN fid fid fid in let X := [[0x1p53; 1; 1; 0.5]]%float in let vs := [[0; 0; 0]]%float in
  mdistances N false false 4 X [0] vs 3 1 = [0x1p53; 2.5]%float /\
  mdistances RN false false 4 (map (map fr) X) [0] (map (map fr) vs) 3 1 = [9007199254740994; 5 / 2]%R /\
  (forall r a, In r X -> In a r -> moderate a) /\ (forall r a, In r vs -> In a r -> moderate a) /\ 3 * zlen [0] <= 2 ^ 53 /\ 1 <= nwin false 4 3 1 /\
  U_SL_apply N [X] (mkUshp vs [3] [1] [3]%float [false]) false = Ok [[2.5; 1; 1]]%float.
Proof.
  assert (A1 : fr 0x1p53 = 9007199254740992%R) by (rewrite fr_SF; cbn; unfold Defs.F2R; cbn; lra). assert (A2 : fr 0.5 = (1 / 2)%R) by (rewrite fr_SF; cbn; unfold Defs.F2R; cbn; lra).
  cbv zeta. split; [vm_compute; reflexivity|]. split.
  { cbn [map]. rewrite A1, A2, fr_0, fr_1. cbv -[IZR Rplus Rminus Rabs Rdiv Rinv Rmult]. repeat (rewrite Rabs_pos_eq by lra). apply f_equal2; [lra|]. apply f_equal2; [lra|reflexivity]. }
  split; [intros r a [<-|[]]; cbn; intuition subst; apply moderate_value; reflexivity|]. split; [intros r a [<-|[]]; cbn; intuition subst; apply moderate_value; reflexivity|].
  split; [apply Z.leb_le; reflexivity|]. split; [apply Z.leb_le; reflexivity|]. vm_compute. reflexivity.
Qed.

(** the data of [C79_case] without the infinity and the NaN meet the hypotheses of C80_transform *)
Definition m64X : pyv float := VArr [2; 1; 4] DFloat64 (map VFloat [1; 0x1p53; 0.5; 2; 3; 1; 0.25; 7]%float).
Definition m64v (i ch j : Z) : float := nthd 0%float [1; 0x1p53; 0.5; 2; 3; 1; 0.25; 7]%float (i * 4 + j).
Example C80_transform_case : (forall log2 log pow2, passes (N := FN log2 log pow2) m64X 2 1 (fun _ => 4) m64v false) /\
  (forall i ch j, 0 <= i < 2 -> 0 <= ch < 1 -> 0 <= j < 4 -> moderate (m64v i ch j)) /\ 4 * 1 <= 2 ^ 53.
Proof.
  assert (H8 : forall i j, 0 <= i < 2 -> 0 <= j < 4 -> i * 4 + j = 0 \/ i * 4 + j = 1 \/ i * 4 + j = 2 \/ i * 4 + j = 3 \/ i * 4 + j = 4 \/ i * 4 + j = 5 \/ i * 4 + j = 6 \/ i * 4 + j = 7) by (intros; lia).
  split; [|split].
  - intros log2 log pow2. eapply passes_array; [reflexivity|discriminate|lia|reflexivity|reflexivity|]. intros i ch j Hi Hch Hj. assert (ch = 0) by lia. subst ch. replace ((i * 1 + 0) * 4 + j) with (i * 4 + j) by lia.
    unfold m64v. destruct (H8 i j Hi Hj) as [-> |[-> |[-> |[-> |[-> |[-> |[-> | ->]]]]]]]; eexists; split; reflexivity.
  - intros i ch j Hi Hch Hj. unfold m64v. destruct (H8 i j Hi Hj) as [-> |[-> |[-> |[-> |[-> |[-> |[-> | ->]]]]]]]; apply moderate_value; reflexivity.
  - lia.
Qed.

(** integers: exact *)
Example C80_integers_case : let N := FN fid fid fid in let X := [[1; 3; 2; 0]]%float in let vs := [[2; 1]]%float in
  (forall r a, In r X \/ In r vs -> In a r -> whole 3 a) /\ 2 * 3 * 2 * zlen [0] <= 2 ^ 53 /\
  U_SL_apply N [X] (mkUshp vs [2] [1] [2]%float [false]) false = Ok [[1; 2; 2]]%float.
Proof.
  assert (W : forall z, 0 <= z <= 3 -> whole 3 (float_ofZ z)).
  { intros z Hz. destruct (fr_ofZ z ltac:(lia)) as [F E]. split; [apply is_finite_prim; exact F|]. exists z. split; [exact E|lia]. }
  split; [|split; [apply Z.leb_le; reflexivity|vm_compute; reflexivity]].
  pose proof (W 0 ltac:(lia)) as W0. pose proof (W 1 ltac:(lia)) as W1. pose proof (W 2 ltac:(lia)) as W2. pose proof (W 3 ltac:(lia)) as W3.
  intros r a [[<-|[]]|[<-|[]]] Ha; cbn [In] in Ha; repeat (destruct Ha as [<-|Ha]; [first [exact W0|exact W1|exact W2|exact W3]|]); destruct Ha.
Qed.
