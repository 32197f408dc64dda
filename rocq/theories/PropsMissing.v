(** Property C100: missing values (NaN) in the data to transform.  Strict binary64 arithmetic, that is the code with
    __USE_NUMBA_FASTMATH__ = False (convst/__init__.py:8): fast-math leaves NaN unspecified. *)
From Coq Require Import ZArith List Bool Reals Lra Lia Floats.
From Verif Require Import Prelude Num Kernel Spec KernelProofs Parallel Apply ApplyProofs ApplyUni ApplyMulti TransformProofs TransformLaws SampleLaws
  Gen GenSched GenBase GenUni GenDraw GenSpec GenUTop GenULaws GenUCase GenMTop GenMLaws Checks ChecksProofs Estimator EstimatorNum EstimatorLaws EstimatorCases
  GenAny FloatLaws FloatReal FitFloat FitAny FitAnyTop Libm PropsFloat PropsFit64 Missing.
Import ListNotations.
Open Scope Z_scope.

(** Window [t] of series [i] has a missing value at a point that a shapelet of these channels, length and dilation reads. *)
Definition missing (ph : bool) (c : Z) (v : Z -> Z -> Z -> float) (i : Z) (chs : list Z) (l d t : Z) : Prop :=
  exists ch q, In ch chs /\ 0 <= q < l /\ PrimFloat.is_nan (v i ch (pos ph c (t + q * d))) = true.

Lemma missing_dec ph c v i chs l d t : {missing ph c v i chs l d t} + {~ missing ph c v i chs l d t}.
Proof.
  destruct (existsb (fun ch => existsb (fun q => PrimFloat.is_nan (v i ch (pos ph c (t + q * d)))) (zrange 0 l)) chs) eqn:E.
  - left. apply existsb_exists in E as (ch & Hch & E). apply existsb_exists in E as (q & Hq & E). exists ch, q. apply in_zrange in Hq. repeat split; auto; lia.
  - right. intros (ch & q & Hch & Hq & H). assert (E' : existsb (fun ch => existsb (fun q => PrimFloat.is_nan (v i ch (pos ph c (t + q * d)))) (zrange 0 l)) chs = true).
    { apply existsb_exists. exists ch. split; [exact Hch|]. apply existsb_exists. exists q. split; [apply in_zrange; lia|exact H]. } congruence.
Qed.

Lemma nth_combine {A B} (l : list A) (l' : list B) k x y : nthZ l k = Some x -> nthZ l' k = Some y -> In (x, y) (combine l l').
Proof.
  revert l' k. induction l as [|b r IH]; intros [|w ws] k Hx Hy.
  - apply nthZ_range in Hx. change (zlen (@nil A)) with 0 in Hx. lia.
  - apply nthZ_range in Hx. change (zlen (@nil A)) with 0 in Hx. lia.
  - apply nthZ_range in Hy. change (zlen (@nil B)) with 0 in Hy. lia.
  - rewrite nthZ_cons in Hx. rewrite nthZ_cons in Hy. destruct (k =? 0).
    + injection Hx as ->. injection Hy as ->. left. reflexivity.
    + right. exact (IH ws (k - 1) Hx Hy).
Qed.

Section Cells.
Context (log2 log pow2 : float -> float).
Notation N := (FN log2 log pow2).

Lemma window_nan ph v i ch c l d t : 0 <= t < nwin ph c l d -> 0 <= d -> missing ph c v i [ch] l d t -> exists x, In x (window N ph (points v i ch c) l d t) /\ fnan x.
Proof.
  intros Ht Hd (ch' & q & [<-|[]] & Hq & H). destruct (nth_window N ph v i ch c l d t q Hq Ht Hd) as [_ E]. eexists. split; [eapply nthZ_In; exact E|].
  apply fnan_prim. exact H.
Qed.

(** one distance *)
Lemma mdistances_at ph nm nf c v i chs vs l d t x : 0 <= d -> zlen vs = zlen chs -> (forall ch, In ch chs -> 0 <= ch < nf) ->
  nthZ (mdistances N ph nm c (channels v nf c i) chs vs l d) t = Some x ->
  (missing ph c v i chs l d t -> fnan x) /\
  (nm = false -> (forall r, In r vs -> all_finite r) -> ~ missing ph c v i chs l d t -> fpos x).
Proof.
  intros Hd Hvs Hch H. unfold mdistances in H. rewrite nthZ_map in H. destruct (nthZ (zrange 0 (nwin ph c l d)) t) as [t'|] eqn:Et; [|discriminate].
  pose proof (nthZ_range _ _ _ Et) as R. rewrite zlen_zrange in R. rewrite nthZ_zrange in Et by lia. injection Et as <-.
  replace (0 + t) with t in H by lia. assert (Ht : 0 <= t < nwin ph c l d) by lia. cbn [option_map] in H. injection H as <-. split.
  - intros (ch & q & Hc & Hq & Hn). apply sumF_nan. apply In_nthZ in Hc as (a & Ha). pose proof (nthZ_range _ _ _ Ha) as Ra.
    assert (Hu : nthZ vs a = Some (nthd [] vs a)) by (apply nthZ_nthd; lia).
    assert (HI : In (ch, nthd [] vs a) (combine chs vs)).
    { apply (nth_combine _ _ a); assumption. }
    eexists. split; [apply in_map_iff; exists (ch, nthd [] vs a); split; [reflexivity|exact HI]|]. cbn [fst snd]. apply seen_nan.
    rewrite nthd_channels by (apply Hch; eapply nthZ_In; eauto). apply window_nan; [exact Ht|exact Hd|]. exists ch, q. split; [left; reflexivity|auto].
  - intros -> Hf Hm. apply sumF_pos. intros z Hz. apply in_map_iff in Hz as ((ch & u) & <- & HI). cbn [fst snd seen].
    pose proof (in_combine_l _ _ _ _ HI) as Hc. pose proof (in_combine_r _ _ _ _ HI) as Hu. rewrite nthd_channels by auto.
    apply l1_number; intros j Hj; [|apply pt_finite, all_finite_iff, Hf, Hu].
    unfold window in Hj. rewrite zlen_map, zlen_zrange in Hj. destruct (nth_window N ph v i ch c l d t j ltac:(lia) Ht Hd) as [_ E]. unfold pt. rewrite (nthd_some _ _ _ _ E).
    destruct (fnan_or (v i ch (pos ph c (t + j * d)))) as [F|F]; [|exact F]. exfalso. apply Hm. exists ch, j. split; [exact Hc|]. split; [lia|]. apply fnan_prim. exact F.
Qed.

(** a single channel: 0 + x is x for a distance, NaN included *)
Lemma distances_single ph v i c u l d : 0 <= c -> 0 <= d -> all_finite u ->
  distances N ph false (points v i 0 c) u l d = mdistances N ph false c (channels v 1 c i) [0] [u] l d.
Proof.
  intros Hc Hd Hu. unfold distances, mdistances. rewrite zlen_points by exact Hc. apply map_ext_in. intros t Ht. apply in_zrange in Ht. cbn [combine map fst snd].
  rewrite nthd_channels by lia. unfold sumF. cbn [fold_left nadd n0 FN]. destruct (missing_dec ph c v i [0] l d t) as [M|M].
  - assert (F : fnan (l1 N (seen N false (window N ph (points v i 0 c) l d t)) u)) by (apply seen_nan, window_nan; auto; lia).
    apply fnan_eq; [exact F|]. apply fadd_nan. right. exact F.
  - symmetry. apply fadd_0_l. cbn [seen]. apply l1_number; intros j Hj; [|apply pt_finite, all_finite_iff, Hu].
    unfold window in Hj. rewrite zlen_map, zlen_zrange in Hj. destruct (nth_window N ph v i 0 c l d t j ltac:(lia) ltac:(lia) Hd) as [_ E]. unfold pt. rewrite (nthd_some _ _ _ _ E).
    destruct (fnan_or (v i 0 (pos ph c (t + j * d)))) as [F|F]; [|exact F]. exfalso. apply M. exists 0, j. split; [left; reflexivity|]. split; [lia|]. apply fnan_prim. exact F.
Qed.
End Cells.

(** ** transform *)

(** After a fit, new series with missing values (and infinities) are transformed without an exception.  A window of which a
    point is missing has distance NaN, and such windows neither match nor are the best one.  But when the first window has
    a missing value, the minimum is NaN at position 0, whatever the other windows are. *)
Theorem C100_transform : forall log2 log pow2 S (rng : Rng float S) RS (V : pyenv RS) ex X y s h s' h' n nf cols v vl X' n' cols' v' f m,
  let N := FN log2 log pow2 in
  libm_accurate log2 log pow2 -> RngLaws N rng -> real_executor ex -> passes (N := N) X n nf cols v vl -> 1 <= n -> 1 <= nf -> zlen y = n ->
  e_n_samples s = VNone -> (forall k, e_type s = TKind k -> kind_vl k = vl) -> (forall i, 0 <= i < n -> 4 <= cols i <= 2 ^ 40) ->
  (vl = true -> forall m, e_min_len s = Some m -> 4 <= m /\ forall i, 0 <= i < n -> m <= cols i) ->
  fit N rng V ex X y s h = (Ok tt, s', h') -> e_shapelets s' = Some f -> e_min_len s' = Some m ->
  passes (N := N) X' n' nf cols' v' vl -> 1 <= n' -> (forall i, 0 <= i < n' -> m <= cols' i) ->
  exists T, transform N s' X' = Ok T /\ zlen T = n' /\
    forall i j chs vs l d thr nm, 0 <= i < n' -> shapelet_of f j chs vs l d thr nm ->
      let miss := missing (e_phase s) (cols' i) v' i chs l d in
      exists mn am cnt, cell3 T i j (mn, am, cnt) /\
        (miss 0 -> PrimFloat.is_nan mn = true /\ am = 0%float) /\
        (nm = false -> (forall i ch j, 0 <= i < n -> 0 <= ch < nf -> 0 <= j < cols i -> finite (v i ch j)) ->
         let ds := mdistances N (e_phase s) false (cols' i) (channels v' nf (cols' i) i) chs vs l d in
         (forall t x, nthZ ds t = Some x -> PrimFloat.is_nan x = true <-> miss t) /\
         cnt = nofZ N (zlen (filter (fun x => (x <=? thr)%float) ds)) /\
         (~ miss 0 -> exists k, nthZ ds k = Some mn /\ am = nofZ N k /\ ~ miss k /\
            forall t x, nthZ ds t = Some x -> ~ miss t -> (mn <=? x)%float = true /\ (t < k -> (mn <? x)%float = true))).
Proof.
  intros log2 log pow2 S rng RS V ex X y s h s' h' n nf cols v vl X' n' cols' v' f m N LA L HE HX Hn Hf Hy Hns Hty H4 Hml H Hsh Hmm HX' Hn' Hlong.
  destruct (any_fit_sound (binary64_laws log2 log pow2 rng LA L) V ex X y s h s' h' n nf cols v vl HE HX Hn Hf Hy Hns Hty H4 Hml H) as (k & f0 & m0 & HF).
  assert (f0 = f) by (pose proof (fa_shapelets _ _ _ _ _ _ _ _ _ _ _ _ _ HF); congruence).
  assert (m0 = m) by (pose proof (fa_min_len _ _ _ _ _ _ _ _ _ _ _ _ _ HF); congruence). subst f0 m0.
  assert (Hm : 4 <= m).
  { pose proof (fa_points _ _ _ _ _ _ _ _ _ _ _ _ _ HF) as Q. unfold common_points in Q. destruct (e_min_len s) as [g|] eqn:Eg.
    - destruct vl; [destruct (Hml eq_refl g eq_refl); lia|]. rewrite (Q 0 ltac:(lia)). apply H4. lia.
    - destruct Q as [(i & Hi & ->) _]. apply H4. exact Hi. }
  destruct (any_fit_long rng vl n nf cols v y s s' k f m X' n' cols' v' HF Hf Hm HX' Hn' Hlong) as (T & ET & T1 & T2 & T3).
  exists T. split; [exact ET|]. split; [exact T1|]. intros i j chs vs l d thr nm Hi Hj miss.
  pose proof (T3 i j chs vs l d thr nm Hi Hj) as HC. specialize (Hlong i Hi).
  destruct HF as [_ _ _ _ _ _ _ _ Hform _ _ (pmin & pmax & _ & F14)].
  destruct (F14 _ _ _ _ _ _ _ Hj) as [(A & (B1 & B2 & B3) & C & D & E & (i0 & t0 & i' & Hi0 & Ht0 & Hvs & _)) _].
  assert (Hlen : zlen vs = zlen chs) by (rewrite Hvs, zlen_map; reflexivity).
  assert (HW : 0 < nwin (e_phase s) (cols' i) l d) by (unfold nwin; destruct (e_phase s); lia).
  set (D0 := distances_to N (multi k) (e_phase s) nm nf cols' v' i chs vs l d) in *.
  (* the distances of the model against those of the statement *)
  assert (Z0 : exists x0, nthZ D0 0 = Some x0 /\ (miss 0 -> fnan x0)).
  { unfold D0, distances_to. destruct (multi k) eqn:Ek.
    - exists (nthd (n0 N) (mdistances N (e_phase s) nm (cols' i) (channels v' nf (cols' i) i) chs vs l d) 0).
      assert (Q : nthZ (mdistances N (e_phase s) nm (cols' i) (channels v' nf (cols' i) i) chs vs l d) 0 = Some (nthd (n0 N) (mdistances N (e_phase s) nm (cols' i) (channels v' nf (cols' i) i) chs vs l d) 0)).
      { apply nthZ_nthd. unfold mdistances. rewrite zlen_map, zlen_zrange. lia. }
      split; [exact Q|]. intros M. refine (proj1 (mdistances_at log2 log pow2 (e_phase s) nm nf (cols' i) v' i chs vs l d 0 _ ltac:(lia) Hlen E Q) M).
    - clear Hvs. inversion Hj; subst; [|discriminate]. change (nthd [] [v0] 0) with v0. unfold distances. rewrite nthZ_map, zlen_points, nthZ_zrange by lia. eexists. split; [reflexivity|].
      intros M. apply seen_nan. replace (0 + 0) with 0 by lia. apply window_nan; [lia|lia|exact M]. }
  destruct Z0 as (x0 & Hx0 & Mx0).
  destruct (feats N D0 thr) as [[mn am] cnt] eqn:EFt. exists mn, am, cnt. split; [change (cell3 T i j (feats N D0 thr)) in HC; rewrite EFt in HC; exact HC|]. split.
  { intros M. pose proof (feats_first_nan log2 log pow2 D0 thr x0 Hx0 (Mx0 M)) as Q. fold N in Q. rewrite EFt in Q. injection Q as -> -> ->.
    split; [apply fnan_prim; apply Mx0; exact M|reflexivity]. }
  intros -> FX ds.
  assert (Fvs : forall r, In r vs -> all_finite r).
  { intros r Hr x Hx. rewrite Hvs in Hr. apply in_map_iff in Hr as (ch & <- & Hch). cbn [seen] in Hx. apply In_nthZ in Hx as (q & Hq).
    assert (Hql : 0 <= q < l). { apply nthZ_range in Hq. unfold window in Hq. rewrite zlen_map, zlen_zrange in Hq. lia. }
    destruct (nth_window N (e_phase s) v i0 ch (cols i0) l d t0 q Hql Ht0 ltac:(lia)) as [R Q].
    assert (EQ : Some x = Some (v i0 ch (pos (e_phase s) (cols i0) (t0 + q * d)))) by (rewrite <- Hq; exact Q). injection EQ as ->. apply FX; auto. }
  assert (ED : D0 = ds).
  { clear Hvs. unfold D0, ds, distances_to. destruct (multi k) eqn:Ek; [reflexivity|]. inversion Hj; subst; [|discriminate]. change (nthd [] [v0] 0) with v0.
    unfold N. rewrite distances_single; [|lia|lia|apply Fvs; left; reflexivity].
    unfold mdistances. apply map_ext_in. intros w _. cbn [combine map fst snd]. rewrite !nthd_channels by lia. reflexivity. }
  assert (HP : forall t x, nthZ ds t = Some x -> (miss t -> fnan x) /\ (~ miss t -> fpos x)).
  { intros t x Ht. destruct (mdistances_at log2 log pow2 (e_phase s) false nf (cols' i) v' i chs vs l d t x ltac:(lia) Hlen E Ht) as [Q1 Q2]. split; [exact Q1|apply Q2; auto]. }
  assert (PN : forall x, fpos x -> fnan x -> False) by (intros x P1 P2; apply fpos_nonneg, fnonneg_number in P1; contradiction).
  assert (HM : forall t, {miss t} + {~ miss t}) by (intros t; apply missing_dec).
  clear HC. rewrite ED in Hx0, EFt. clearbody ds. clear D0 ED.
  assert (HA : forall x, In x ds -> fnan x \/ fpos x).
  { intros x Hx. apply In_nthZ in Hx as (t & Ht). destruct (HP t x Ht). destruct (HM t); auto. }
  split.
  { intros t x Ht. destruct (HP t x Ht) as [Q1 Q2]. split; [|intros M; apply fnan_prim; auto]. intros M. apply fnan_prim in M. destruct (HM t) as [G|G]; [exact G|exfalso; eauto]. }
  destruct (HM 0) as [M|M].
  - pose proof (feats_first_nan log2 log pow2 ds thr x0 Hx0 (Mx0 M)) as Q. fold N in Q. rewrite EFt in Q. injection Q as -> -> ->. split; [reflexivity|]. intros M'. contradiction.
  - destruct (HP 0 x0 Hx0) as [_ P0]. destruct (feats_first_number log2 log pow2 ds thr x0 HA Hx0 (P0 M)) as (m' & k' & Q & K1 & K2 & K3 & K4).
    fold N in Q. rewrite EFt in Q. injection Q as -> -> ->. split; [reflexivity|]. intros _. exists k'. split; [exact K1|]. split; [reflexivity|]. split.
    { intros G. apply (PN m' K2). exact (proj1 (HP _ _ K1) G). }
    intros t x Ht G. pose proof (proj2 (HP _ _ Ht) G) as P. split; [exact (K3 t x Ht P)|intros Hl; exact (K4 t x Ht P Hl)].
Qed.
Print Assumptions C100_transform.

(** ** Any data *)

Lemma distances_any log2 log pow2 ph nm v i c u l d : 0 <= c ->
  distances (FN log2 log pow2) ph nm (points v i 0 c) u l d = mdistances (FN log2 log pow2) ph nm c (channels v 1 c i) [0] [u] l d.
Proof.
  intros Hc. unfold distances, mdistances. rewrite zlen_points by exact Hc. apply map_ext_in. intros t _. cbn [combine map fst snd].
  rewrite nthd_channels by lia. unfold sumF. cbn [fold_left nadd n0 FN].
  destruct (l1_any log2 log pow2 (seen (FN log2 log pow2) nm (window (FN log2 log pow2) ph (points v i 0 c) l d t)) u) as [F|F].
  - apply fnan_eq; [exact F|]. apply fadd_nan. right. exact F.
  - symmetry. apply fadd_0_l. exact F.
Qed.

(** Whatever the training and the new data (missing values, infinities, overflows), and for normalised shapelets too: a cell is
    the distance of the first window when this is NaN, otherwise the smallest of the distances that are not NaN, at its
    first position; the count is the number of distances at most the threshold. *)
Theorem C100_features : forall log2 log pow2 S (rng : Rng float S) RS (V : pyenv RS) ex X y s h s' h' n nf cols v vl X' n' cols' v' f m,
  let N := FN log2 log pow2 in
  libm_accurate log2 log pow2 -> RngLaws N rng -> real_executor ex -> passes (N := N) X n nf cols v vl -> 1 <= n -> 1 <= nf -> zlen y = n ->
  e_n_samples s = VNone -> (forall k, e_type s = TKind k -> kind_vl k = vl) -> (forall i, 0 <= i < n -> 4 <= cols i <= 2 ^ 40) ->
  (vl = true -> forall m, e_min_len s = Some m -> 4 <= m /\ forall i, 0 <= i < n -> m <= cols i) ->
  fit N rng V ex X y s h = (Ok tt, s', h') -> e_shapelets s' = Some f -> e_min_len s' = Some m ->
  passes (N := N) X' n' nf cols' v' vl -> 1 <= n' -> (forall i, 0 <= i < n' -> m <= cols' i) ->
  exists T, transform N s' X' = Ok T /\
    forall i j chs vs l d thr nm, 0 <= i < n' -> shapelet_of f j chs vs l d thr nm ->
      let ds := mdistances N (e_phase s) nm (cols' i) (channels v' nf (cols' i) i) chs vs l d in
      exists first mn k, nthZ ds 0 = Some first /\ nthZ ds k = Some mn /\
        cell3 T i j (mn, nofZ N k, nofZ N (zlen (filter (fun x => (x <=? thr)%float) ds))) /\
        (PrimFloat.is_nan first = true -> k = 0) /\
        (PrimFloat.is_nan first = false -> PrimFloat.is_nan mn = false /\
           forall t x, nthZ ds t = Some x -> PrimFloat.is_nan x = false -> (mn <=? x)%float = true /\ (t < k -> (mn <? x)%float = true)).
Proof.
  intros log2 log pow2 S rng RS V ex X y s h s' h' n nf cols v vl X' n' cols' v' f m N LA L HE HX Hn Hf Hy Hns Hty H4 Hml H Hsh Hmm HX' Hn' Hlong.
  destruct (any_fit_sound (binary64_laws log2 log pow2 rng LA L) V ex X y s h s' h' n nf cols v vl HE HX Hn Hf Hy Hns Hty H4 Hml H) as (k & f0 & m0 & HF).
  assert (f0 = f) by (pose proof (fa_shapelets _ _ _ _ _ _ _ _ _ _ _ _ _ HF); congruence).
  assert (m0 = m) by (pose proof (fa_min_len _ _ _ _ _ _ _ _ _ _ _ _ _ HF); congruence). subst f0 m0.
  assert (Hm : 4 <= m).
  { pose proof (fa_points _ _ _ _ _ _ _ _ _ _ _ _ _ HF) as Q. unfold common_points in Q. destruct (e_min_len s) as [g|] eqn:Eg.
    - destruct vl; [destruct (Hml eq_refl g eq_refl); lia|]. rewrite (Q 0 ltac:(lia)). apply H4. lia.
    - destruct Q as [(i & Hi & ->) _]. apply H4. exact Hi. }
  destruct (any_fit_long rng vl n nf cols v y s s' k f m X' n' cols' v' HF Hf Hm HX' Hn' Hlong) as (T & ET & T1 & T2 & T3).
  exists T. split; [exact ET|]. intros i j chs vs l d thr nm Hi Hj ds.
  pose proof (T3 i j chs vs l d thr nm Hi Hj) as HC. specialize (Hlong i Hi).
  destruct HF as [_ _ _ _ _ _ _ _ Hform _ _ (pmin & pmax & _ & F14)].
  destruct (F14 _ _ _ _ _ _ _ Hj) as [(A & (B1 & B2 & B3) & _) _].
  assert (HW : 0 < nwin (e_phase s) (cols' i) l d) by (unfold nwin; destruct (e_phase s); lia).
  assert (ED : distances_to N (multi k) (e_phase s) nm nf cols' v' i chs vs l d = ds).
  { unfold ds, distances_to. destruct (multi k) eqn:Ek; [reflexivity|]. inversion Hj; subst; [|discriminate]. change (nthd [] [v0] 0) with v0.
    unfold N. rewrite distances_any by lia. unfold mdistances. apply map_ext_in. intros w _. cbn [combine map fst snd]. rewrite !nthd_channels by lia. reflexivity. }
  unfold N in ED. rewrite ED in HC.
  assert (HA : forall x, In x ds -> fnan x \/ fpos x).
  { intros x Hx. apply in_map_iff in Hx as (t & <- & _). apply sumF_any. intros z Hz. apply in_map_iff in Hz as (cv & <- & _). apply l1_any. }
  assert (H0 : nthZ ds 0 = Some (nthd 0%float ds 0)) by (apply nthZ_nthd; unfold ds, mdistances; rewrite zlen_map, zlen_zrange; lia).
  clearbody ds. exists (nthd 0%float ds 0). destruct (fnan_or (nthd 0%float ds 0)) as [F|F].
  - exists (nthd 0%float ds 0), 0. split; [exact H0|]. split; [exact H0|]. rewrite (feats_first_nan log2 log pow2 ds thr _ H0 F) in HC. split; [exact HC|]. split; [reflexivity|].
    intros Q. apply fnan_prim in F. congruence.
  - assert (P : fpos (nthd 0%float ds 0)) by (destruct (HA _ (nthZ_In _ _ _ H0)) as [Q|Q]; [contradiction|exact Q]).
    destruct (feats_first_number log2 log pow2 ds thr _ HA H0 P) as (mn & a & Q & K1 & K2 & K3 & K4). rewrite Q in HC. exists mn, a. split; [exact H0|]. split; [exact K1|]. split; [exact HC|].
    split; [intros G; apply fnan_prim in G; contradiction|]. intros _. split; [apply is_number_nan, fnonneg_number, fpos_nonneg, K2|].
    intros t x Ht Hx. apply is_number_nan in Hx. assert (Px : fpos x) by (destruct (HA _ (nthZ_In _ _ _ Ht)) as [G|G]; [contradiction|exact G]).
    split; [exact (K3 t x Ht Px)|intros Hl; exact (K4 t x Ht Px Hl)].
Qed.
Print Assumptions C100_features.

(** The hypotheses about fit hold for f64X, which has an infinity and a NaN (C79_case).  A normalised shapelet and a series with an
    infinity: the two windows that read it have distance NaN, the best one is the last. *)
Example C100_features_case : forall log2 log pow2, exists mn,
  transform (FN log2 log pow2) (mkEst (TKind KU) false (VFloat 0.5%float) false VNone 1 (ints [2]) None (VFloat 0.5%float) false (VFloat 1%float)
    (VArr [2] DInt64 [VInt 5; VInt 10]) 0 (VBool false) None (Some 5) (Some KU) (Some (FU (mkUshp [[1; -1]]%float [2] [1] [0.5]%float [true]))))
    (VArr [1; 1; 5] DFloat64 (map VFloat [1; 2; infinity; 5; 3]%float)) = Ok [[mn; 3; 1]]%float /\ (mn <? 0.001)%float = true.
Proof. intros. eexists. split; vm_compute; reflexivity. Qed.

(** ** Missing values in the training data *)

(** A fit does not refuse them (C79_fit_total).  A shapelet that has got a missing value returns NaN, 0 and 0 for every new series. *)
Theorem C100_training : forall log2 log pow2 S (rng : Rng float S) RS (V : pyenv RS) ex X y s h s' h' n nf cols v vl X' n' cols' v' f m,
  let N := FN log2 log pow2 in
  libm_accurate log2 log pow2 -> RngLaws N rng -> real_executor ex -> passes (N := N) X n nf cols v vl -> 1 <= n -> 1 <= nf -> zlen y = n ->
  e_n_samples s = VNone -> (forall k, e_type s = TKind k -> kind_vl k = vl) -> (forall i, 0 <= i < n -> 4 <= cols i <= 2 ^ 40) ->
  (vl = true -> forall m, e_min_len s = Some m -> 4 <= m /\ forall i, 0 <= i < n -> m <= cols i) ->
  fit N rng V ex X y s h = (Ok tt, s', h') -> e_shapelets s' = Some f -> e_min_len s' = Some m ->
  passes (N := N) X' n' nf cols' v' vl -> 1 <= n' -> (forall i, 0 <= i < n' -> m <= cols' i) ->
  exists T, transform N s' X' = Ok T /\
    forall i j chs vs l d thr nm r x, 0 <= i < n' -> shapelet_of f j chs vs l d thr nm -> In r vs -> In x r -> PrimFloat.is_nan x = true ->
      cell3 T i j (nan, 0, 0)%float.
Proof.
  intros log2 log pow2 S rng RS V ex X y s h s' h' n nf cols v vl X' n' cols' v' f m N LA L HE HX Hn Hf Hy Hns Hty H4 Hml H Hsh Hmm HX' Hn' Hlong.
  destruct (any_fit_sound (binary64_laws log2 log pow2 rng LA L) V ex X y s h s' h' n nf cols v vl HE HX Hn Hf Hy Hns Hty H4 Hml H) as (k & f0 & m0 & HF).
  assert (f0 = f) by (pose proof (fa_shapelets _ _ _ _ _ _ _ _ _ _ _ _ _ HF); congruence).
  assert (m0 = m) by (pose proof (fa_min_len _ _ _ _ _ _ _ _ _ _ _ _ _ HF); congruence). subst f0 m0.
  assert (Hm : 4 <= m).
  { pose proof (fa_points _ _ _ _ _ _ _ _ _ _ _ _ _ HF) as Q. unfold common_points in Q. destruct (e_min_len s) as [g|] eqn:Eg.
    - destruct vl; [destruct (Hml eq_refl g eq_refl); lia|]. rewrite (Q 0 ltac:(lia)). apply H4. lia.
    - destruct Q as [(i & Hi & ->) _]. apply H4. exact Hi. }
  destruct (any_fit_long rng vl n nf cols v y s s' k f m X' n' cols' v' HF Hf Hm HX' Hn' Hlong) as (T & ET & T1 & T2 & T3).
  exists T. split; [exact ET|]. intros i j chs vs l d thr nm r x Hi Hj Hr Hx Hnan. apply fnan_prim in Hnan.
  pose proof (T3 i j chs vs l d thr nm Hi Hj) as HC. specialize (Hlong i Hi).
  destruct HF as [_ _ _ _ _ _ _ _ Hform _ _ (pmin & pmax & _ & F14)].
  destruct (F14 _ _ _ _ _ _ _ Hj) as [(A & (B1 & B2 & B3) & C & D & E & (i0 & t0 & i' & Hi0 & Ht0 & Hvs & _)) _].
  assert (Hlen : zlen vs = zlen chs) by (rewrite Hvs, zlen_map; reflexivity).
  assert (HW : 0 < nwin (e_phase s) (cols' i) l d) by (unfold nwin; destruct (e_phase s); lia).
  assert (SL : forall nm (w : list float), zlen (seen N nm w) = zlen w) by (intros [|] w; cbn [seen]; [unfold zscore; apply zlen_map|reflexivity]).
  assert (WL : forall ph (w : list float) t, zlen (window N ph w l d t) = l) by (intros; unfold window; rewrite zlen_map, zlen_zrange; lia).
  assert (Rl : zlen r = l). { rewrite Hvs in Hr. apply in_map_iff in Hr as (ch & <- & _). unfold N in SL, WL. rewrite SL, WL. reflexivity. }
  assert (HD : forall w, zlen w = l -> fnan (l1 N w r)).
  { intros w Hw. apply l1_nan_r. apply In_nthZ in Hx as (q & Hq). pose proof (nthZ_range _ _ _ Hq). exists q. split; [lia|]. unfold pt, nthd. rewrite Hq. exact Hnan. }
  unfold N in HD, SL, WL. rewrite (feats_all_nan log2 log pow2) in HC; [exact HC| |]; clear HC Hvs.
  - intros Q. apply (f_equal zlen) in Q. change (zlen (@nil float)) with 0 in Q. revert Q. unfold distances_to, mdistances, distances.
    destruct (multi k); rewrite zlen_map, zlen_zrange, ?zlen_points by lia; lia.
  - intros z Hz. unfold distances_to in Hz. destruct (multi k) eqn:Ek.
    + apply in_map_iff in Hz as (t & <- & _). apply sumF_nan. apply In_nthZ in Hr as (a & Ha). pose proof (nthZ_range _ _ _ Ha).
      eexists. split; [apply in_map_iff; exists (nthd 0 chs a, r); split; [reflexivity|]|].
      * apply (nth_combine _ _ a); [apply nthZ_nthd; lia|exact Ha].
      * cbn [fst snd]. apply HD. rewrite SL, WL. reflexivity.
    + inversion Hj; subst; [|discriminate]. destruct Hr as [<-|[]]. change (nthd [] [v0] 0) with v0 in Hz.
      apply in_map_iff in Hz as (t & <- & _). apply HD. rewrite SL, WL. reflexivity.
Qed.
Print Assumptions C100_training.

(** The hypotheses about fit hold for f64X, which has a NaN (C79_case).  Two shapelets, one with a missing value: *)
Example C100_training_case : forall log2 log pow2,
  transform (FN log2 log pow2) (mkEst (TKind KU) false (VFloat 0.5%float) false VNone 2 (ints [2]) None (VFloat 0.5%float) false (VFloat 0%float)
    (VArr [2] DInt64 [VInt 5; VInt 10]) 0 (VBool false) None (Some 5) (Some KU) (Some (FU (mkUshp [[nan; 0]; [3; 1]]%float [2; 2] [1; 2] [0.5; 0.5]%float [false; false]))))
    (VArr [1; 1; 5] DFloat64 (map VFloat [4; 0; 3; 0; 1]%float)) = Ok [[nan; 0; 0; 0; 2; 1]]%float.
Proof. intros. vm_compute. reflexivity. Qed.

(** ** Concrete case: a fit on two series without missing values, then a series whose first point is missing and one whose sixth is *)

Definition m64X : pyv float := VList [VArr [1; 4] DFloat64 (map VFloat [1; 2.5; -1; 2]%float); VArr [1; 5] DFloat64 (map VFloat [4; 0; 3; 1; 0.5]%float)].
Definition m64v (i ch j : Z) : float := nthd 0%float (nthd [] [[1; 2.5; -1; 2]; [4; 0; 3; 1; 0.5]]%float i) j.
Definition m64X' : pyv float := VList [VArr [1; 6] DFloat64 (map VFloat [nan; 1; 2.5; -1; 2; 0]%float); VArr [1; 6] DFloat64 (map VFloat [4; 0; 3; 1; 0.5; nan]%float)].
Definition m64v' (i ch j : Z) : float := nthd 0%float (nthd [] [[nan; 1; 2.5; -1; 2; 0]; [4; 0; 3; 1; 0.5; nan]]%float i) j.

Lemma m64_passes log2 log pow2 : passes (N := FN log2 log pow2) m64X 2 1 (fun i => nthd 0 [4; 5] i) m64v true /\ passes (N := FN log2 log pow2) m64X' 2 1 (fun i => nthd 0 [6; 6] i) m64v' true.
Proof.
  assert (H4 : forall j, 0 <= j < 4 -> j = 0 \/ j = 1 \/ j = 2 \/ j = 3) by (intros; lia). assert (H5 : forall j, 0 <= j < 5 -> j = 0 \/ j = 1 \/ j = 2 \/ j = 3 \/ j = 4) by (intros; lia).
  assert (H6 : forall j, 0 <= j < 6 -> j = 0 \/ j = 1 \/ j = 2 \/ j = 3 \/ j = 4 \/ j = 5) by (intros; lia).
  split; (eapply passes_collection; [left; reflexivity|reflexivity|]; intros i x Hx; pose proof (nthZ_range _ _ _ Hx) as R;
    assert (E : i = 0 \/ i = 1) by (change (0 <= i < 2) in R; lia); destruct E as [-> | ->]; injection Hx as <-).
  - split; [lia|]. split; [change (nthd 0 [4; 5] 0) with 4; lia|]. eexists. eexists. split; [reflexivity|]. split; [reflexivity|]. intros a j Ha Hj. assert (a = 0) by lia. subst a.
    destruct (H4 j Hj) as [-> |[-> |[-> | ->]]]; eexists; split; reflexivity.
  - split; [lia|]. split; [change (nthd 0 [4; 5] 1) with 5; lia|]. eexists. eexists. split; [reflexivity|]. split; [reflexivity|]. intros a j Ha Hj. assert (a = 0) by lia. subst a.
    destruct (H5 j Hj) as [-> |[-> |[-> |[-> | ->]]]]; eexists; split; reflexivity.
  - split; [lia|]. split; [change (nthd 0 [6; 6] 0) with 6; lia|]. eexists. eexists. split; [reflexivity|]. split; [reflexivity|]. intros a j Ha Hj. assert (a = 0) by lia. subst a.
    destruct (H6 j Hj) as [-> |[-> |[-> |[-> |[-> | ->]]]]]; eexists; split; reflexivity.
  - split; [lia|]. split; [change (nthd 0 [6; 6] 1) with 6; lia|]. eexists. eexists. split; [reflexivity|]. split; [reflexivity|]. intros a j Ha Hj. assert (a = 0) by lia. subst a.
    destruct (H6 j Hj) as [-> |[-> |[-> |[-> |[-> | ->]]]]]; eexists; split; reflexivity.
Qed.

(** A missing value does not only take away the windows that read it.  One shapelet (2, 3): the first series ends with an
    exact match, which is counted, but as its first point is missing the minimum is NaN at position 0; in the second
    series the missing value is not in the first window, and the match is found. *)
Definition m64s : @est float := mkEst (TKind KU) false (VFloat 0.5%float) false VNone 1 (ints [2]) None (VFloat 0.5%float) false (VFloat 0%float)
  (VArr [2] DInt64 [VInt 5; VInt 10]) 0 (VBool false) None (Some 5) (Some KU) (Some (FU (mkUshp [[2; 3]]%float [2] [1] [0.5%float] [false]))).
Theorem C100_first_refuted : forall log2 log pow2,
  transform (FN log2 log pow2) m64s (VArr [2; 1; 5] DFloat64 (map VFloat [nan; 1; 0; 2; 3; 0; 1; nan; 2; 3]%float)) = Ok [[nan; 0; 1]; [0; 3; 1]]%float.
Proof. intros. vm_compute. reflexivity. Qed.
Print Assumptions C100_first_refuted.

(** Every hypothesis of C100_transform holds in the case above: the first series has a complete window, and its minimum is NaN;
    that of the second is a number. *)
Example C100_case : exists log2 log pow2 s' h' f m T, let N := FN log2 log pow2 in
  libm_accurate log2 log pow2 /\ RngLaws N frng /\ fit N frng f64V (fun ST => exec_seq) m64X [0; 1] f64s [7] = (Ok tt, s', h') /\
  e_shapelets s' = Some f /\ e_min_len s' = Some m /\ (forall i, 0 <= i < 2 -> m <= nthd 0 [6; 6] i) /\ transform N s' m64X' = Ok T /\
  forall j chs vs l d thr nm, shapelet_of f j chs vs l d thr nm ->
    (1 < nwin false 6 l d /\ ~ missing false 6 m64v' 0 chs l d 1 /\ exists mn am cnt, cell3 T 0 j (mn, am, cnt) /\ PrimFloat.is_nan mn = true) /\
    (nm = false -> exists mn am cnt, cell3 T 1 j (mn, am, cnt) /\ PrimFloat.is_nan mn = false).
Proof.
  exists (fun x => to_float (ln (fr x) / ln 2)), (fun x => to_float (ln (fr x))), (fun x => to_float (Rpower 2 (fr x))).
  pose proof rounded_accurate as LA. revert LA. generalize (fun x => to_float (ln (fr x) / ln 2)), (fun x => to_float (ln (fr x))), (fun x => to_float (Rpower 2 (fr x))). intros log2 log pow2 LA.
  pose proof (frng_laws log2 log pow2) as L. destruct (m64_passes log2 log pow2) as [HX HX'].
  assert (H2 : forall i, 0 <= i < 2 -> i = 0 \/ i = 1) by (intros; lia).
  assert (HC : forall i, 0 <= i < 2 -> 4 <= nthd 0 [4; 5] i <= 2 ^ 40) by (intros i Hi; destruct (H2 i Hi) as [-> | ->]; split; apply Z.leb_le; reflexivity).
  assert (EF : exists s' h', fit (FN log2 log pow2) frng f64V (fun ST => exec_seq) m64X [0; 1] f64s [7] = (Ok tt, s', h')).
  { apply (C79_fit_total log2 log pow2 Z frng Z f64V (fun ST => exec_seq) m64X [0; 1] f64s [7] 2 1 (fun i => nthd 0 [4; 5] i) m64v true 4 [2; 11] 5%float 10%float LA L).
    - left. reflexivity.
    - exact HX.
    - lia.
    - lia.
    - reflexivity.
    - left. reflexivity.
    - discriminate.
    - lia.
    - exact HC.
    - split; [exists 0; split; [lia|reflexivity]|]. intros i Hi. destruct (HC i Hi); lia.
    - reflexivity.
    - apply Z.leb_le. reflexivity.
    - reflexivity.
    - reflexivity.
    - discriminate.
    - intros l [<-|[<-|[]]]; lia.
    - reflexivity.
    - split; [reflexivity|]. right. reflexivity.
    - split; [reflexivity|]. right. reflexivity.
    - eexists. reflexivity.
    - eexists. reflexivity.
    - split; [apply Z.leb_le|apply Z.ltb_lt]; reflexivity.
    - discriminate. }
  destruct EF as (s' & h' & EF).
  destruct (C79_fit log2 log pow2 Z frng Z f64V (fun ST => exec_seq) m64X [0; 1] f64s [7] s' h' 2 1 (fun i => nthd 0 [4; 5] i) m64v true LA L (or_introl eq_refl) HX ltac:(lia) ltac:(lia) eq_refl eq_refl
      ltac:(discriminate) HC ltac:(discriminate) EF) as (f & m & pmin & pmax & E1 & E2 & _ & _ & Hm & _ & _ & HS).
  assert (Hm4 : m <= 4) by (specialize (Hm 0 ltac:(lia)); exact Hm).
  assert (Hm6 : forall i, 0 <= i < 2 -> m <= nthd 0 [6; 6] i) by (intros i Hi; destruct (H2 i Hi) as [-> | ->]; [change (nthd 0 [6; 6] 0) with 6|change (nthd 0 [6; 6] 1) with 6]; lia).
  destruct (C100_transform log2 log pow2 Z frng Z f64V (fun ST => exec_seq) m64X [0; 1] f64s [7] s' h' 2 1 (fun i => nthd 0 [4; 5] i) m64v true m64X' 2 (fun i => nthd 0 [6; 6] i) m64v' f m LA L (or_introl eq_refl) HX ltac:(lia) ltac:(lia) eq_refl eq_refl
      ltac:(discriminate) HC ltac:(discriminate) EF E1 E2 HX' ltac:(lia) Hm6) as (T & ET & _ & HT).
  exists s', h', f, m, T. split; [exact LA|]. split; [exact L|]. split; [exact EF|]. split; [exact E1|]. split; [exact E2|]. split; [exact Hm6|]. split; [exact ET|].
  intros j chs vs l d thr nm Hj. destruct (HS _ _ _ _ _ _ _ Hj) as (A & B1 & B2 & _ & C & _ & D & _).
  assert (Hq : forall q, 0 <= q < l -> 0 <= q * d <= 3) by (intros q Hq; nia).
  assert (FX : forall i ch j, 0 <= i < 2 -> 0 <= ch < 1 -> 0 <= j < nthd 0 [4; 5] i -> finite (m64v i ch j)).
  { intros i ch q Hi _ R. destruct (H2 i Hi) as [-> | ->]; [change (0 <= q < 4) in R|change (0 <= q < 5) in R].
    - assert (Q : q = 0 \/ q = 1 \/ q = 2 \/ q = 3) by lia. destruct Q as [-> |[-> |[-> | ->]]]; reflexivity.
    - assert (Q : q = 0 \/ q = 1 \/ q = 2 \/ q = 3 \/ q = 4) by lia. destruct Q as [-> |[-> |[-> |[-> | ->]]]]; reflexivity. }
  split.
  - split; [unfold nwin; lia|]. split.
    + intros (ch & q & _ & Hql & Hn). specialize (Hq q Hql). cbn [pos] in Hn.
      assert (Q : q * d = 0 \/ q * d = 1 \/ q * d = 2 \/ q * d = 3) by lia. destruct Q as [Q|[Q|[Q|Q]]]; rewrite Q in Hn; discriminate Hn.
    + destruct (HT 0 j chs vs l d thr nm ltac:(lia) Hj) as (mn & am & cnt & Hc & H0 & _). exists mn, am, cnt. split; [exact Hc|]. apply H0.
      destruct chs as [|ch chs]; [change (zlen (@nil Z)) with 0 in C; lia|]. exists ch, 0. split; [left; reflexivity|]. split; [lia|]. reflexivity.
  - intros ->. destruct (HT 1 j chs vs l d thr false ltac:(lia) Hj) as (mn & am & cnt & Hc & _ & H1). exists mn, am, cnt. split; [exact Hc|].
    destruct (H1 eq_refl FX) as (G1 & _ & G2). destruct G2 as (k & Hk & _ & Hnk & _).
    { intros (ch & q & _ & Hql & Hn). specialize (Hq q Hql). cbn [pos e_phase f64s] in Hn.
      assert (Q : q * d = 0 \/ q * d = 1 \/ q * d = 2 \/ q * d = 3) by lia. destruct Q as [Q|[Q|[Q|Q]]]; rewrite Q in Hn; discriminate Hn. }
    destruct (PrimFloat.is_nan mn) eqn:En; [|reflexivity]. exfalso. apply Hnk. apply (G1 k mn Hk). exact En.
Qed.
