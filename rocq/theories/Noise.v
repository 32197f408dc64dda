(** Effect of a perturbation of the data on the distances and on the features, over the real numbers (used by PropsNoise.v). *)
From Coq Require Import ZArith List Bool Reals Lra Lia.
From Verif Require Import Prelude Num Kernel Spec KernelProofs RealBase RealProofs TransformProofs TransformLaws SampleLaws FloatNorm.
Import ListNotations.
Open Scope R_scope.

(** same number of values, each at most [e] away *)
Definition close (e : R) (r r' : list R) : Prop := Forall2 (fun a b => Rabs (b - a) <= e) r r'.

Lemma close_zlen e r r' : close e r r' -> zlen r' = zlen r.
Proof. intros H. apply Forall2_length in H. unfold zlen. lia. Qed.
Lemma close_pt e r r' i : 0 <= e -> close e r r' -> Rabs (pt RN r' i - pt RN r i) <= e.
Proof.
  intros He H. unfold pt, nthd. destruct (nthZ r i) as [a|] eqn:Ea.
  - pose proof (Forall2_nthd _ r r' 0 0 i H (nthZ_range _ _ _ Ea)) as Q. unfold nthd in Q. rewrite Ea in Q. exact Q.
  - destruct (nthZ r' i) as [b|] eqn:Eb; [|rewrite Rminus_diag_eq, Rabs_R0 by reflexivity; exact He].
    pose proof (nthZ_range _ _ _ Eb) as Rb. rewrite (close_zlen _ _ _ H) in Rb. destruct (nthZ_some r i Rb) as (a & Ea'). congruence.
Qed.
Lemma close_map {A} (f g : A -> R) e l : (forall x, In x l -> Rabs (g x - f x) <= e) -> close e (map f l) (map g l).
Proof. induction l as [|a l IH]; intros H; [constructor|]. constructor; [apply H; left; reflexivity|apply IH; intros x Hx; apply H; right; exact Hx]. Qed.
Lemma close_window e ph r r' l d i : 0 <= e -> close e r r' -> close e (window RN ph r l d i) (window RN ph r' l d i).
Proof. intros He H. unfold window. rewrite (close_zlen _ _ _ H). apply close_map. intros j _. apply close_pt; assumption. Qed.

(** ** Distances *)

Lemma rsum_close {A} (f g : A -> R) h l : (forall x, In x l -> Rabs (g x - f x) <= h x) -> Rabs (rsum (map g l) - rsum (map f l)) <= rsum (map h l).
Proof.
  induction l as [|a l IH]; intros H; cbn [map rsum]; [rewrite Rminus_0_r, Rabs_R0; lra|]. pose proof (H a (or_introl eq_refl)). specialize (IH (fun x Hx => H x (or_intror Hx))).
  replace (g a + rsum (map g l) - (f a + rsum (map f l))) with ((g a - f a) + (rsum (map g l) - rsum (map f l))) by ring. eapply Rle_trans; [apply Rabs_triang|lra].
Qed.
Lemma abs_sub a b v : Rabs (Rabs (b - v) - Rabs (a - v)) <= Rabs (b - a).
Proof. replace (b - a) with ((b - v) - (a - v)) by ring. apply Rabs_triang_inv2. Qed.

Lemma l1_close w w' v : zlen w' = zlen w -> Rabs (l1 RN w' v - l1 RN w v) <= rsum (map (fun j => Rabs (pt RN w' j - pt RN w j)) (zrange 0 (zlen w))).
Proof. intros E. rewrite !l1_rsum, E. apply rsum_close. intros j _. apply abs_sub. Qed.
Lemma l1_close_e e w w' v : 0 <= e -> close e w w' -> Rabs (l1 RN w' v - l1 RN w v) <= e * IZR (zlen w).
Proof.
  intros He H. eapply Rle_trans; [apply l1_close; apply (close_zlen _ _ _ H)|]. replace (zlen w) with (zlen (zrange 0 (zlen w))) at 2 by (rewrite zlen_zrange; pose proof (zlen_nonneg w); lia).
  rewrite <- rsum_map_const. apply rsum_map_le. intros j _. apply close_pt; assumption.
Qed.

(** sum over the channels *)
Lemma channels_close {A} (f g : A -> R) t l : (forall x, In x l -> Rabs (g x - f x) <= t) -> Rabs (sumF RN (map g l) - sumF RN (map f l)) <= t * IZR (zlen l).
Proof. intros H. rewrite !sumF_rsum, <- rsum_map_const. apply rsum_close. exact H. Qed.

(** the z-scores move by at most 4 e times the length over the deviation, in total *)
Lemma avg_close e w w' : w <> [] -> close e w w' -> Rabs (avg RN w' - avg RN w) <= e.
Proof.
  intros Hw H. rewrite !avg_R, (close_zlen _ _ _ H). pose proof (zlen_pos_R w Hw) as P. unfold Rdiv. rewrite <- Rmult_minus_distr_r, Rabs_mult, (Rabs_pos_eq (/ _)) by (left; apply Rinv_0_lt_compat; exact P).
  apply (Rmult_le_reg_r (IZR (zlen w))); [exact P|]. rewrite Rmult_assoc, Rinv_l, Rmult_1_r by lra. clear P Hw.
  induction H as [|a b l l' Hab _ IH]; cbn [rsum]; [rewrite Rminus_0_r, Rabs_R0; change (zlen (@nil R)) with 0%Z; lra|]. rewrite zlen_cons, plus_IZR.
  replace (b + rsum l' - (a + rsum l)) with ((b - a) + (rsum l' - rsum l)) by ring. eapply Rle_trans; [apply Rabs_triang|lra].
Qed.

Lemma close_centred e w w' : w <> [] -> close e w w' -> close (2 * e) (map (fun x => x - avg RN w) w) (map (fun x => x - avg RN w') w').
Proof.
  intros Hw H. pose proof (avg_close e w w' Hw H) as A. generalize dependent (avg RN w). generalize (avg RN w'). intros a' a A. clear Hw.
  induction H as [|x y l l' Hxy _ IH]; cbn [map]; constructor; [|exact IH]. apply Raux.Rabs_le_inv in Hxy, A. apply Rabs_le. lra.
Qed.
Lemma close_sym e w w' : close e w w' -> close e w' w.
Proof. induction 1 as [|a b l l' H _ IH]; constructor; [|exact IH]. rewrite Rabs_minus_sym. exact H. Qed.
Lemma sdev_close e w w' : w <> [] -> 0 <= e -> close e w w' -> Rabs (sdev RN w' - sdev RN w) <= 2 * e.
Proof.
  intros Hw He H. assert (Hw' : w' <> []) by (intros ->; inversion H; subst; congruence). rewrite !sdev_rms.
  assert (N1 : map (fun x => x - avg RN w) w <> []) by (destruct w; [congruence|discriminate]). assert (N2 : map (fun x => x - avg RN w') w' <> []) by (destruct w'; [congruence|discriminate]).
  pose proof (rms_close (2 * e) _ _ N1 ltac:(lra) (close_centred e w w' Hw H)). pose proof (rms_close (2 * e) _ _ N2 ltac:(lra) (close_centred e w' w Hw' (close_sym _ _ _ H))). apply Rabs_le. lra.
Qed.

Lemma zscore_close e w w' : 0 <= e -> close e w w' ->
  rsum (map (fun j => Rabs (pt RN (zscore RN w') j - pt RN (zscore RN w) j)) (zrange 0 (zlen w))) <= 4 * e * IZR (zlen w) / (sdev RN w + neps RN).
Proof.
  intros He H. pose proof eps_pos as HP. pose proof (sdev_nonneg w) as HS. pose proof (sdev_nonneg w') as HS'. assert (Hw : w = [] \/ w <> []) by (destruct w; [left; reflexivity|right; discriminate]).
  destruct Hw as [->|Hw]; [change (zlen (@nil R)) with 0%Z; change (zrange 0 0) with (@nil Z); cbn [map rsum]; unfold Rdiv; rewrite Rmult_0_r, Rmult_0_l; lra|].
  pose proof (close_zlen _ _ _ H) as EZ. pose proof (sdev_close e w w' Hw He H) as HD. pose proof (avg_close e w w' Hw H) as HA. set (s := sdev RN w + neps RN) in *. assert (Ps : 0 < s) by (unfold s; lra).
  apply Rle_trans with (rsum (map (fun j => 2 * e / s + 2 * e / s * Rabs (pt RN (zscore RN w') j)) (zrange 0 (zlen w)))).
  - apply rsum_map_le. intros j Hj. apply in_zrange in Hj. unfold pt, nthd.
    destruct (nthZ_some w j ltac:(lia)) as (x & Ex). destruct (nthZ_some w' j ltac:(lia)) as (x' & Ex'). unfold zscore. rewrite !nthZ_map, Ex, Ex'. cbn [option_map ndiv nsub nadd RN]. fold s. set (s' := sdev RN w' + neps RN) in *.
    assert (Ps' : 0 < s') by (unfold s'; lra). assert (HX : Rabs (x' - x) <= e). { pose proof (close_pt e w w' j He H) as Q. unfold pt, nthd in Q. rewrite Ex, Ex' in Q. exact Q. }
    assert (HD' : Rabs (s - s') <= 2 * e) by (unfold s, s'; rewrite Rabs_minus_sym; replace (sdev RN w' + neps RN - (sdev RN w + neps RN)) with (sdev RN w' - sdev RN w) by ring; exact HD).
    replace ((x' - avg RN w') / s' - (x - avg RN w) / s) with (((x' - x) - (avg RN w' - avg RN w)) / s + (s - s') / s * ((x' - avg RN w') / s')) by (field; lra).
    eapply Rle_trans; [apply Rabs_triang|]. rewrite Rabs_mult. unfold Rdiv at 1 2. rewrite !Rabs_mult, (Rabs_pos_eq (/ s)) by (left; apply Rinv_0_lt_compat; exact Ps).
    pose proof (Rinv_0_lt_compat _ Ps) as Is. pose proof (Rabs_pos ((x' - avg RN w') / s')) as Q. apply Rplus_le_compat.
    + apply Rmult_le_compat_r; [lra|]. apply Rabs_le. apply Raux.Rabs_le_inv in HX, HA. lra.
    + apply Rmult_le_compat_r; [exact Q|]. apply Rmult_le_compat_r; lra.
  - rewrite rsum_map_plus, rsum_map_const, rsum_map_scal. pose proof (sabs_zscore w') as HZ.
    assert (E : rsum (map (fun j => Rabs (pt RN (zscore RN w') j)) (zrange 0 (zlen w))) = sabs (zscore RN w')).
    { unfold sabs. rewrite <- EZ, <- (zlen_zscore w'). rewrite <- (map_map (fun j => pt RN (zscore RN w') j) Rabs). unfold pt. rewrite map_nthd_zrange. reflexivity. }
    rewrite E, zlen_zrange. replace (Z.max 0 (zlen w - 0)) with (zlen w) by (pose proof (zlen_nonneg w); lia). rewrite EZ in HZ.
    pose proof (Rinv_0_lt_compat _ Ps). assert (0 <= 2 * e / s) by (unfold Rdiv; nra). replace (4 * e * IZR (zlen w) / s) with (2 * e / s * IZR (zlen w) + 2 * e / s * IZR (zlen w)) by (unfold Rdiv; ring).
    apply Rplus_le_compat_l. apply Rmult_le_compat_l; assumption.
Qed.

(** the distances of a shapelet, not normalised or normalised *)
Lemma distances_close e ph n x x' chs vs l d i y : 0 <= e -> (0 <= l)%Z -> zlen chs = zlen vs -> (forall ch, In ch chs -> close e (nthd [] x ch) (nthd [] x' ch)) ->
  nthZ (mdistances RN ph false n x chs vs l d) i = Some y -> exists y', nthZ (mdistances RN ph false n x' chs vs l d) i = Some y' /\ Rabs (y' - y) <= e * IZR l * IZR (zlen chs).
Proof.
  intros He Hl HZ HX H. unfold mdistances in *. pose proof (nthZ_range _ _ _ H) as R. rewrite zlen_map, zlen_zrange in R. rewrite nthZ_map, nthZ_zrange in H by lia. rewrite nthZ_map, nthZ_zrange by lia.
  rewrite Z.add_0_l in *. cbn [option_map] in *. eexists. split; [reflexivity|]. injection H as <-.
  replace (zlen chs) with (zlen (combine chs vs)) by (unfold zlen in *; rewrite combine_length; lia). apply channels_close.
  intros (ch & v) Hc. cbn [fst snd seen]. apply in_combine_l in Hc. pose proof (l1_close_e e _ _ v He (close_window e ph _ _ l d i He (HX ch Hc))) as Q. unfold window in Q at 3. rewrite zlen_map, zlen_zrange in Q. replace (Z.max 0 (l - 0)) with l in Q by lia. exact Q.
Qed.
Lemma ndistances_close e sd ph n x x' chs vs l d i y : 0 <= e -> 0 <= sd -> (0 <= l)%Z -> zlen chs = zlen vs -> (forall ch, In ch chs -> close e (nthd [] x ch) (nthd [] x' ch)) ->
  (forall ch, In ch chs -> sd <= sdev RN (window RN ph (nthd [] x ch) l d i)) ->
  nthZ (mdistances RN ph true n x chs vs l d) i = Some y -> exists y', nthZ (mdistances RN ph true n x' chs vs l d) i = Some y' /\ Rabs (y' - y) <= 4 * e * IZR l / (sd + neps RN) * IZR (zlen chs).
Proof.
  intros He Hs Hl HZ HX HS H. unfold mdistances in *. pose proof (nthZ_range _ _ _ H) as R. rewrite zlen_map, zlen_zrange in R. rewrite nthZ_map, nthZ_zrange in H by lia. rewrite nthZ_map, nthZ_zrange by lia.
  rewrite Z.add_0_l in *. cbn [option_map] in *. eexists. split; [reflexivity|]. injection H as <-.
  replace (zlen chs) with (zlen (combine chs vs)) by (unfold zlen in *; rewrite combine_length; lia). apply channels_close.
  intros (ch & v) Hc. cbn [fst snd seen]. apply in_combine_l in Hc. pose proof (close_window e ph _ _ l d i He (HX ch Hc)) as CW. specialize (HS ch Hc).
  set (w := window RN ph (nthd [] x ch) l d i) in *. set (w' := window RN ph (nthd [] x' ch) l d i) in *. assert (Zw : zlen w = l) by (unfold w, window; rewrite zlen_map, zlen_zrange; lia).
  eapply Rle_trans; [apply l1_close; rewrite !zlen_zscore; apply (close_zlen _ _ _ CW)|]. rewrite zlen_zscore. eapply Rle_trans; [apply zscore_close; [exact He|exact CW]|]. rewrite Zw.
  pose proof eps_pos. assert (0 <= IZR l) by (apply IZR_le; lia). unfold Rdiv. apply Rmult_le_compat_l; [nra|]. apply Rinv_le_contravar; lra.
Qed.

(** ** Features *)

Lemma features_close t D D' thr m a c m' a' c' : zlen D' = zlen D -> (forall i y, nthZ D i = Some y -> exists y', nthZ D' i = Some y' /\ Rabs (y' - y) <= t) -> D <> [] ->
  is_features RN D thr (m, a, c) -> is_features RN D' thr (m', a', c') ->
  Rabs (m' - m) <= t /\
  IZR (zlen (filter (fun y => Rleb (y + t) thr) D)) <= c' <= IZR (zlen (filter (fun y => Rleb (y - t) thr) D)) /\
  ((forall y, In y D -> t < Rabs (y - thr)) -> c' = c) /\
  ((forall i y, nthZ D i = Some y -> IZR i <> a -> m + 2 * t < y) -> a' = a).
Proof.
  intros HZ HC HN HF HF'. destruct HF as [(E & _)|(k & Hk & Ha & Hmin & Hfst & Hc)]; [congruence|].
  destruct HF' as [(E & _)|(k' & Hk' & Ha' & Hmin' & Hfst' & Hc')]; [subst D'; destruct D; [congruence|rewrite zlen_cons in HZ; change (zlen (@nil R)) with 0%Z in HZ; pose proof (zlen_nonneg D); lia]|].
  cbn [nofZ nleb nltb RN] in *.
  assert (HC' : forall i y', nthZ D' i = Some y' -> exists y, nthZ D i = Some y /\ Rabs (y' - y) <= t).
  { intros i y' Hy'. pose proof (nthZ_range _ _ _ Hy') as R. rewrite HZ in R. destruct (nthZ_some D i R) as (y & Ey). destruct (HC i y Ey) as (z & Ez & Q). assert (z = y') by congruence. subst z. eauto. }
  destruct (HC k m Hk) as (mk & Emk & Q1). destruct (HC' k' m' Hk') as (mk' & Emk' & Q2).
  pose proof (Hmin' k mk Emk) as M1. apply Rleb_true in M1. pose proof (Hmin k' mk' Emk') as M2. apply Rleb_true in M2. apply Raux.Rabs_le_inv in Q1, Q2.
  split; [apply Rabs_le; lra|].
  assert (FB : forall f g : R -> bool, (forall y y', Rabs (y' - y) <= t -> f y = true -> g y' = true) -> (zlen (filter f D) <= zlen (filter g D'))%Z).
  { clear - HZ HC. revert D' HZ HC. induction D as [|y D IH]; intros [|y' D'] HZ HC f g HFG; rewrite ?zlen_cons in HZ; try (change (zlen (@nil R)) with 0%Z in HZ; first [pose proof (zlen_nonneg D)|pose proof (zlen_nonneg D')|idtac]; lia); [cbn; lia|].
    destruct (HC 0%Z y eq_refl) as (z & Ez & Q). cbn in Ez. injection Ez as <-. assert (I : (zlen (filter f D) <= zlen (filter g D'))%Z).
    { apply IH; [lia| |exact HFG]. intros i q Hq. pose proof (nthZ_range _ _ _ Hq). destruct (HC (i + 1)%Z q) as (q' & Eq & Qq).
      - rewrite nthZ_cons. destruct (Z.eqb_spec (i + 1) 0); [lia|]. replace (i + 1 - 1)%Z with i by lia. exact Hq.
      - rewrite nthZ_cons in Eq. destruct (Z.eqb_spec (i + 1) 0); [lia|]. replace (i + 1 - 1)%Z with i in Eq by lia. eauto. }
    cbn [filter]. destruct (f y) eqn:Ef; [rewrite (HFG y y' Q Ef), !zlen_cons; lia|]. destruct (g y'); rewrite ?zlen_cons; lia. }
  assert (FB' : forall f g : R -> bool, (forall y y', Rabs (y' - y) <= t -> f y' = true -> g y = true) -> (zlen (filter f D') <= zlen (filter g D))%Z).
  { clear - HZ HC. revert D' HZ HC. induction D as [|y D IH]; intros [|y' D'] HZ HC f g HFG; rewrite ?zlen_cons in HZ; try (change (zlen (@nil R)) with 0%Z in HZ; first [pose proof (zlen_nonneg D)|pose proof (zlen_nonneg D')|idtac]; lia); [cbn; lia|].
    destruct (HC 0%Z y eq_refl) as (z & Ez & Q). cbn in Ez. injection Ez as <-. assert (I : (zlen (filter f D') <= zlen (filter g D))%Z).
    { apply IH; [lia| |exact HFG]. intros i q Hq. pose proof (nthZ_range _ _ _ Hq). destruct (HC (i + 1)%Z q) as (q' & Eq & Qq).
      - rewrite nthZ_cons. destruct (Z.eqb_spec (i + 1) 0); [lia|]. replace (i + 1 - 1)%Z with i by lia. exact Hq.
      - rewrite nthZ_cons in Eq. destruct (Z.eqb_spec (i + 1) 0); [lia|]. replace (i + 1 - 1)%Z with i in Eq by lia. eauto. }
    cbn [filter]. destruct (f y') eqn:Ef; [rewrite (HFG y y' Q Ef), !zlen_cons; lia|]. destruct (g y); rewrite ?zlen_cons; lia. }
  assert (SW : IZR (zlen (filter (fun y => Rleb (y + t) thr) D)) <= c' <= IZR (zlen (filter (fun y => Rleb (y - t) thr) D))).
  { rewrite Hc'. split; apply IZR_le; [apply FB|apply FB']; intros y y' Q Hy; apply Rleb_true in Hy; apply Rleb_true; apply Raux.Rabs_le_inv in Q; lra. }
  split; [exact SW|]. split.
  - intros HS. assert (E1 : filter (fun y => Rleb (y + t) thr) D = filter (fun x => Rleb x thr) D).
    { clear - HS HC Q1. assert (T0 : 0 <= t) by lra. clear HC Q1. induction D as [|y D IH]; [reflexivity|]. cbn [filter]. rewrite IH by (intros; apply HS; right; assumption). pose proof (HS y (or_introl eq_refl)) as Q.
      assert (E : Rleb (y + t) thr = Rleb y thr); [|rewrite E; reflexivity]. destruct (Rleb y thr) eqn:Ey; [apply Rleb_true in Ey; apply Rleb_true; unfold Rabs in Q; destruct (Rcase_abs (y - thr)); lra|].
      apply Rleb_false in Ey. apply Rleb_false. lra. }
    assert (E2 : filter (fun y => Rleb (y - t) thr) D = filter (fun x => Rleb x thr) D).
    { clear - HS HC Q1. assert (T0 : 0 <= t) by lra. clear HC Q1. induction D as [|y D IH]; [reflexivity|]. cbn [filter]. rewrite IH by (intros; apply HS; right; assumption). pose proof (HS y (or_introl eq_refl)) as Q.
      assert (E : Rleb (y - t) thr = Rleb y thr); [|rewrite E; reflexivity]. destruct (Rleb y thr) eqn:Ey; [apply Rleb_true in Ey; apply Rleb_true; lra|].
      apply Rleb_false in Ey. apply Rleb_false. unfold Rabs in Q; destruct (Rcase_abs (y - thr)); lra. }
    rewrite E1, E2 in SW. lra.
  - intros HS. destruct (Z.eq_dec k' k) as [E|E]; [congruence|]. exfalso. assert (IZR k' <> a) by (rewrite Ha; intros Q; apply eq_IZR in Q; congruence). pose proof (HS k' mk' Emk' H). lra.
Qed.
