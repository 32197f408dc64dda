(** Property C98: the percentiles only move the thresholds of the shapelets, in their own direction. *)
From Coq Require Import String ZArith List Bool Reals Lra Lia.
From Verif Require Import Prelude Num Kernel Spec KernelProofs RealBase Parallel Apply ApplyProofs ApplyUni ApplyMulti TransformProofs TransformLaws
  RealProofs SampleLaws Gen GenSched GenBase GenUni GenDraw GenSpec GenUCase GenMRun Checks ChecksProofs Estimator EstimatorNum EstimatorLaws
  EstimatorCases PropsEstimator FitAny Preproc PreprocProofs PropsPreproc Classifiers ClassifierProofs EnsembleProofs PropsClassifiers InputTrans PropsInput EndToEnd PropsEndToEnd Defaults PropsPipeline PropsBatch PropsNames
  Units UnitsU UnitsM UnitsFit PropsUnits Levels LevelsAny.
Import ListNotations.
Open Scope Z_scope.

(** [pc] is an array of numbers that starts with [a] and [b] *)
Definition number (x : pyv R) (a : R) : Prop := x = VFloat a \/ exists z, x = VInt z /\ a = IZR z.
Definition levels (pc : pyv R) (a b : R) : Prop := exists sh dt x y rest, pc = VArr sh dt (x :: y :: rest) /\ number x a /\ number y b.

Section P.
Context {RS : Type} (V : pyenv RS) (pc pc0 : pyv R).
Notation sp := (with_percentiles pc).

(** the two runs do the same, except for the attribute percentiles *)
Definition rE {A B} (P : A -> B -> Prop) (m : @ES R RS A) (m' : @ES R RS B) : Prop := forall s h, e_percentiles s = pc0 ->
  match m s h, m' (sp s) h with (r, s1, h1), (r', s1', h1') => rres P r r' /\ s1' = sp s1 /\ h1' = h1 /\ e_percentiles s1 = pc0 end.

Lemma rE_bind {A B A' B'} (P : A -> A' -> Prop) (Q : B -> B' -> Prop) m m' f f' :
  rE P m m' -> (forall a a', P a a' -> rE Q (f a) (f' a')) -> rE Q (bindE m f) (bindE m' f').
Proof.
  intros H HF s h E. unfold bindE. specialize (H s h E). destruct (m s h) as [[r s1] h1], (m' (sp s) h) as [[r' s1'] h1']. destruct H as (H & -> & -> & E1).
  destruct r, r'; cbn [rres] in H; try contradiction; [apply HF; assumption|]. auto.
Qed.
Lemma rE_lift {A B} (P : A -> B -> Prop) m m' : rres P m m' -> rE P (liftE m) (liftE m').
Proof. intros H s h E. cbn. auto. Qed.
Lemma rE_same {A} (m : res A) : rE eq (liftE m) (liftE m).
Proof. apply rE_lift. apply rres_refl. Qed.
Lemma rE_ret {A B} (P : A -> B -> Prop) a b : P a b -> rE P (retE a) (retE b).
Proof. intros H s h E. cbn. auto. Qed.
Lemma rE_self : rE (fun s s' => s' = sp s /\ e_percentiles s = pc0) self self.
Proof. intros s h E. cbn. auto. Qed.
Lemma rE_put f : (forall s, f (sp s) = sp (f s) /\ e_percentiles (f s) = e_percentiles s) -> rE eq (put f) (put f).
Proof. intros H s h E. cbn. destruct (H s) as [H1 H2]. split; [reflexivity|]. split; [exact H1|]. split; [reflexivity|congruence]. Qed.

Definition only_levels (a b : R) (q q' : @request R) : Prop :=
  q' = mkReq (q_kind q) (q_X q) (q_y q) (mkG (g_n (q_P q)) (g_sizes (q_P q)) (g_seed (q_P q)) (g_pnorm (q_P q)) a b (g_alpha (q_P q)) (g_phase (q_P q)) (g_prime (q_P q)))
    (q_max_channels q) (q_min_len q) (q_X_len q).

Ltac put1 := eapply rE_bind; [apply rE_put; intros; split; reflexivity|]; intros ? ? _.

Lemma set_fit_transform_levels X : rE eq (set_fit_transform RN X) (set_fit_transform RN X).
Proof.
  unfold set_fit_transform. eapply rE_bind; [apply rE_self|]. intros s s' [-> _]. change (e_type (sp s)) with (e_type s).
  eapply rE_bind with (P := eq).
  - destruct (e_type s); [|apply rE_ret; reflexivity|apply rE_ret; reflexivity]. eapply rE_bind; [apply rE_same|]. intros t t' <-. put1. apply rE_ret. reflexivity.
  - intros t t' <-. destruct t; [apply rE_same| |apply rE_same]. apply rE_put; intros; split; reflexivity.
Qed.

Lemma read_X_levels k X : rE eq (read_X RN k X) (read_X RN k X).
Proof.
  unfold read_X. destruct (kind_vl k).
  - eapply rE_bind; [apply rE_same|]. intros [[D sh] lens] ? <-. eapply rE_bind; [apply rE_same|]. intros ? ? _. eapply rE_bind; [apply rE_self|]. intros s s' [-> _]. change (e_min_len (sp s)) with (e_min_len s).
    eapply rE_bind with (P := fun _ _ => True); [|intros ? ? _; apply rE_ret; reflexivity].
    destruct (e_min_len s); [apply rE_ret; exact I|]. eapply rE_bind; [apply rE_same|]. intros m m' <-. intros s2 h2 E2. cbn. auto.
  - eapply rE_bind; [apply rE_same|]. intros A ? <-. eapply rE_bind; [apply rE_same|]. intros D ? <-. put1. apply rE_ret. reflexivity.
Qed.

Lemma subsample_levels X y n : rE eq (subsample RN V X y n) (subsample RN V X y n).
Proof.
  unfold subsample. eapply rE_bind; [apply rE_self|]. intros s s' [-> _]. change (e_n_samples (sp s)) with (e_n_samples s).
  assert (SEL : forall v replace, rE eq
     (bindE (liftE (sample_count RN n v)) (fun k => bindE (call_resample V n replace k y) (fun ids => bindE (liftE (mapM (get X) ids)) (fun X' => bindE (liftE (mapM (get y) ids)) (fun y' => retE (X', y'))))))
     (bindE (liftE (sample_count RN n v)) (fun k => bindE (call_resample V n replace k y) (fun ids => bindE (liftE (mapM (get X) ids)) (fun X' => bindE (liftE (mapM (get y) ids)) (fun y' => retE (X', y'))))))).
  { intros v replace. eapply rE_bind; [apply rE_same|]. intros k ? <-. eapply rE_bind with (P := eq).
    - intros s1 h E. unfold call_resample. destruct h as [|g t]; [cbn; auto|]. destruct (v_resample V g n replace k y) as [r g']. split; [apply rres_refl|auto].
    - intros ids ? <-. eapply rE_bind; [apply rE_same|]. intros X' ? <-. eapply rE_bind; [apply rE_same|]. intros y' ? <-. apply rE_ret. reflexivity. }
  destruct (e_n_samples s); try (apply rE_ret; reflexivity); (eapply rE_bind; [apply rE_same|]; intros r ? <-; cbv zeta; destruct (nltb RN r _); [apply SEL|]; destruct (nltb RN _ r); [apply SEL|apply rE_ret; reflexivity]).
Qed.

Lemma draw_seed_levels : rE eq (draw_seed (F := R) V) (draw_seed V).
Proof.
  intros s h E. unfold draw_seed. change (e_rs (sp s)) with (e_rs s). destruct (get h (e_rs s)) as [g|]; [|cbn; auto]. destruct (v_randint V g) as [z g']. destruct (set h (e_rs s) g'); cbn; auto.
Qed.

Lemma prepare_levels X y a b a' b' : levels pc0 a b -> levels pc a' b' -> rE (fun q q' => only_levels a' b' q q' /\ g_pmin (q_P q) = a /\ g_pmax (q_P q) = b) (prepare RN V X y) (prepare RN V X y).
Proof.
  intros H0 H1. unfold prepare. eapply rE_bind; [apply set_fit_transform_levels|]. intros ? ? _. eapply rE_bind; [apply rE_self|]. intros s s' [-> _]. change (e_type (sp s)) with (e_type s).
  eapply rE_bind with (P := eq); [destruct (e_type s); [apply rE_same|apply rE_ret; reflexivity|apply rE_same]|]. intros k ? <-.
  eapply rE_bind; [apply read_X_levels|]. intros [[D sh] lens] ? <-. eapply rE_bind; [apply subsample_levels|]. intros [D' y'] ? <-.
  eapply rE_bind; [apply rE_self|]. intros s1 ? [-> _]. change (e_max_channels (sp s1)) with (e_max_channels s1).
  eapply rE_bind with (P := eq); [destruct (e_max_channels s1); [apply rE_ret; reflexivity|apply rE_put; intros; split; reflexivity]|]. intros ? ? _.
  eapply rE_bind; [apply rE_self|]. intros s2 ? [-> _]. change (e_min_len (sp s2)) with (e_min_len s2). cbv zeta.
  change (set_lengths RN (sp s2)) with (set_lengths RN s2). eapply rE_bind; [apply rE_same|]. intros ls ? <-. put1. eapply rE_bind; [apply rE_same|]. intros sizes ? <-.
  eapply rE_bind; [apply draw_seed_levels|]. intros seed ? <-. eapply rE_bind; [apply rE_self|]. intros s3 ? [-> E3]. rewrite E3. change (e_percentiles (sp s3)) with pc.
  destruct H0 as (sh0 & dt0 & x0 & z0 & r0 & -> & X0 & Z0). destruct H1 as (sh1 & dt1 & x1 & z1 & r1 & -> & X1 & Z1).
  assert (NF : forall x c, number x c -> as_F RN x = Ok c) by (intros x c [->|(z & -> & ->)]; reflexivity).
  assert (G : forall (x z : pyv R) r, get (x :: z :: r) 0 = Ok x /\ get (x :: z :: r) 1 = Ok z).
  { intros x z r. pose proof (zlen_nonneg r). split; (apply get_nthZ; [lia|reflexivity]). }
  rewrite (proj1 (G x0 z0 r0)), (proj2 (G x0 z0 r0)), (proj1 (G x1 z1 r1)), (proj2 (G x1 z1 r1)). cbn [bind]. rewrite (NF _ _ X0), (NF _ _ Z0), (NF _ _ X1), (NF _ _ Z1). cbn [bind].
  eapply rE_bind with (P := fun p p' => p = (a, b) /\ p' = (a', b')); [apply rE_lift; cbn; auto|]. intros p p' [-> ->].
  change (e_alpha (sp s3)) with (e_alpha s3). change (e_proba_norm (sp s3)) with (e_proba_norm s3). eapply rE_bind; [apply rE_same|]. intros al ? <-. eapply rE_bind; [apply rE_same|]. intros pn ? <-.
  apply rE_ret. split; [reflexivity|]. split; reflexivity.
Qed.
End P.

(** the drawn threshold grows with the percentiles *)
Lemma draw_threshold_mono {S} (rng : Rng R S) a q1 q2 q1' q2' : RngLaws RN rng -> (0 <= q1 <= q1')%R -> (q1' <= 100)%R -> (0 <= q2 <= q2')%R -> (q2' <= 100)%R ->
  rG Rle (draw_threshold RN rng a q1 q2) (draw_threshold RN rng a q1' q2').
Proof.
  intros L A1 A2 B1 B2. unfold draw_threshold. eapply rG_bind with (P := fun p p' => (fst p <= fst p')%R /\ (snd p <= snd p')%R).
  - apply rG_lift. destruct (percentiles_R a q1 q2 ltac:(lra) ltac:(lra)) as (p & E & H). destruct (percentiles_R a q1' q2' ltac:(lra) ltac:(lra)) as (p' & E' & H'). rewrite E, E'. cbn [rres].
    destruct a as [|x t].
    + unfold percentiles in E, E'. apply bind_inv in E as (? & _ & E). apply bind_inv in E' as (? & _ & E'). cbn in E, E'. injection E as <-. injection E' as <-. split; apply Rle_refl.
    + destruct (H ltac:(discriminate)) as [P1 P2]. destruct (H' ltac:(discriminate)) as [P1' P2']. split; [apply (percentile_mono (x :: t) q1 q1')|apply (percentile_mono (x :: t) q2 q2')]; try assumption; discriminate.
  - intros p p' [H1 H2] s. unfold uniform, bindG, draw_unif, retG. pose proof (RngLaws_R rng L s) as HU. destruct (r_unif rng s) as [u s']. cbn [fst] in HU. cbn. split; [|reflexivity].
    replace (fst p + (snd p - fst p) * u)%R with ((1 - u) * fst p + u * snd p)%R by ring. replace (fst p' + (snd p' - fst p') * u)%R with ((1 - u) * fst p' + u * snd p')%R by ring.
    apply Rplus_le_compat; apply Rmult_le_compat_l; lra.
Qed.

(** the shapelets of the two sets are the same but for the thresholds, and these are not smaller in the second *)
Lemma thr_count {F} (Q : F -> F -> Prop) (f f' : @Estimator.fitted F) : fitted_thr Q f f' -> count_of f' = count_of f.
Proof. destruct f as [T|T], f' as [T'|T']; cbn; try tauto; intros (E1 & E2 & _); congruence. Qed.

Lemma F2_nth {A B} (P : A -> B -> Prop) l l' : Forall2 P l l' -> forall k a, nthZ l k = Some a -> exists b, nthZ l' k = Some b /\ P a b.
Proof.
  intros H. induction H as [|x x' l l' Hx H IH]; intros k a E; [apply nthZ_range in E; change (zlen (@nil A)) with 0 in E; lia|].
  destruct (Z.eq_dec k 0) as [->|Hk]; [exists x'; split; [reflexivity|]; injection E as <-; exact Hx|]. pose proof (nthZ_range _ _ _ E) as R.
  rewrite nthZ_cons in E. destruct (Z.eqb_spec k 0); [lia|]. destruct (IH _ _ E) as (b & Eb & Hb). exists b. rewrite nthZ_cons. destruct (Z.eqb_spec k 0); [lia|]. auto.
Qed.

Lemma thr_shapelet {F} (P : F -> F -> Prop) (f f' : @Estimator.fitted F) j chs vs l d thr nm : fitted_thr P f f' -> shapelet_of f j chs vs l d thr nm ->
  exists thr', shapelet_of f' j chs vs l d thr' nm /\ P thr thr'.
Proof.
  intros H HK. destruct HK as [T j u l d thr nm HK|T j chs vs l d thr nm HK]; destruct f' as [T'|T']; cbn in H; try contradiction.
  - destruct H as (E1 & E2 & E3 & E4 & E5). destruct HK as ((v0 & K0 & K1) & K2 & K3 & K4 & K5). destruct (F2_nth _ _ _ E5 _ _ K4) as (thr' & Q & Hle).
    exists thr'. split; [|exact Hle]. constructor. unfold ushp_at. rewrite E1, E2, E3, E4. split; [exists v0; auto|auto].
  - destruct H as (E1 & E2 & E3 & E4 & E5 & E6 & E7). destruct HK as (nc & K1 & K2 & K3 & K4 & K5 & K6 & K7). destruct (F2_nth _ _ _ E7 _ _ K4) as (thr' & Q & Hle).
    exists thr'. split; [|exact Hle]. constructor. exists nc. rewrite E1, E2, E3, E4, E5, E6. auto 10.
Qed.

Lemma real_wplain {S} (ex : @executor S) : real_executor ex -> wplain ex.
Proof. intros [->|(rs & sched & _ & ->)]; [apply wplain_seq|apply wplain_par]. Qed.

(** The percentiles of the second estimator are numbers between 0 and 100 and not below those of the first. *)
Record higher_levels (s : @est R) (pc : pyv R) : Prop := {
  hl_values : exists a b a' b', levels (e_percentiles s) a b /\ levels pc a' b' /\ (0 <= a <= a')%R /\ (a' <= 100)%R /\ (0 <= b <= b')%R /\ (b' <= 100)%R
}.

Lemma fit_levels {S} (rng : Rng R S) {RS} (V : pyenv RS) ex X y s h pc : RngLaws RN rng -> real_executor ex -> higher_levels s pc ->
  match fit RN rng V ex X y s h, fit RN rng V ex X y (with_percentiles pc s) h with
  | (r, s1, h1), (r', s1', h1') => r' = r /\ h1' = h1 /\ match r with
      | Ok _ => exists s0 f f', s1 = set_shapelets f s0 /\ s1' = set_shapelets f' (with_percentiles pc s0) /\ fitted_thr Rle f f'
      | Err _ => s1' = with_percentiles pc s1
      end
  end.
Proof.
  intros L HE [(a & b & a' & b' & H0 & H1 & A1 & A2 & B1 & B2)]. unfold fit, bindE. pose proof (prepare_levels V pc (e_percentiles s) X y a b a' b' H0 H1 s h eq_refl) as HP.
  destruct (prepare RN V X y s h) as [[r s0] h0], (prepare RN V X y (with_percentiles pc s) h) as [[r' s0'] h0']. destruct HP as (HR & -> & -> & _).
  destruct r as [q|e], r' as [q'|e']; cbn [rres] in HR; try contradiction; [|subst e'; auto]. destruct HR as (HQ & E1 & E2).
  assert (HT : rres (fitted_thr Rle) (run_fitter RN rng ex q) (run_fitter RN rng ex q')).
  { apply (run_fitter_thr RN rng Rle (q_P q) (q_P q')) with (1 := ex_intro _ a' (ex_intro _ b' (f_equal q_P HQ))).
    - intros w. rewrite HQ. cbn [q_P g_pmin g_pmax]. rewrite E1, E2. apply draw_threshold_mono; assumption.
    - apply Rle_refl.
    - apply real_plain. exact HE.
    - reflexivity.
    - rewrite HQ. reflexivity. }
  unfold liftE. destruct (run_fitter RN rng ex q) as [f|e], (run_fitter RN rng ex q') as [f'|e']; cbn [rres] in HT; try contradiction; [|subst e'; auto].
  cbn. split; [reflexivity|]. split; [reflexivity|]. exists s0, f, f'. auto.
Qed.

(** ** R_DST.fit *)

(** Whatever the data: the outcome and the random numbers drawn are the same, an exception included; the shapelets have the
    same number, channels, values, lengths, dilations and normalisations, and their thresholds are not smaller; all else in
    the object is the same, but for the attribute percentiles itself. *)
Theorem C98_fit : forall S (rng : Rng R S) RS (V : pyenv RS) ex X y s h pc r s1 h1 r' s1' h1', RngLaws RN rng -> real_executor ex -> higher_levels s pc ->
  fit RN rng V ex X y s h = (r, s1, h1) -> fit RN rng V ex X y (with_percentiles pc s) h = (r', s1', h1') ->
  r' = r /\ h1' = h1 /\ (r <> Ok tt -> s1' = with_percentiles pc s1) /\
  (r = Ok tt -> exists f f', e_shapelets s1 = Some f /\ s1' = set_shapelets f' (with_percentiles pc s1) /\ count_of f' = count_of f /\
     forall j chs vs l d thr nm, shapelet_of f j chs vs l d thr nm -> exists thr', shapelet_of f' j chs vs l d thr' nm /\ (thr <= thr')%R).
Proof.
  intros S rng RS V ex X y s h pc r s1 h1 r' s1' h1' L HE HL E E'. pose proof (fit_levels rng V ex X y s h pc L HE HL) as H. rewrite E, E' in H. destruct H as (-> & -> & H).
  split; [reflexivity|]. split; [reflexivity|]. destruct r as [[]|e]; [|split; [auto|discriminate]]. split; [congruence|]. intros _. destruct H as (s0 & f & f' & -> & -> & HF).
  exists f, f'. split; [reflexivity|]. split; [reflexivity|]. split; [eapply thr_count; exact HF|]. intros j chs vs l d thr nm HK. apply (thr_shapelet Rle f f'); assumption.
Qed.
Print Assumptions C98_fit.

(** ** R_DST.transform *)

(** Both transforms raise ValueError, or both give tables of the same shape, with the same minima and the same positions of
    the minima, and the occurrence counts of the second are not smaller. *)
Theorem C98_transform : forall S (rng : Rng R S) RS (V : pyenv RS) ex X n nf cols v vl y s h pc s1 h1 s1' h1' X1 n1 cols1 v1,
  RngLaws RN rng -> real_executor ex -> higher_levels s pc -> FitAny.passes (N := RN) X n nf cols v vl -> trainable s y n nf cols vl ->
  fit RN rng V ex X y s h = (Ok tt, s1, h1) -> fit RN rng V ex X y (with_percentiles pc s) h = (Ok tt, s1', h1') ->
  FitAny.passes (N := RN) X1 n1 nf cols1 v1 vl -> (exists i, 0 <= i < n1 /\ 3 <= cols1 i) ->
  (transform RN s1 X1 = Err ValueError /\ transform RN s1' X1 = Err ValueError) \/
  exists T T' w, transform RN s1 X1 = Ok T /\ transform RN s1' X1 = Ok T' /\ zlen T = n1 /\ zlen T' = n1 /\ (forall row, In row T \/ In row T' -> zlen row = 3 * w) /\
    forall i j, 0 <= i < n1 -> 0 <= j < w -> exists m a count count', cell3 T i j (m, a, count) /\ cell3 T' i j (m, a, count') /\ (count <= count')%R.
Proof.
  intros S rng RS V ex X n nf cols v vl y s h pc s1 h1 s1' h1' X1 n1 cols1 v1 L HE HL HX HT E E' HX1 H3. pose proof HT as [T1 T2 T3 T4 T5 T6 T7].
  pose proof (fit_levels rng V ex X y s h pc L HE HL) as HF. rewrite E, E' in HF. destruct HF as (_ & _ & s0 & f & f' & Es & Es' & HF).
  destruct (fit_sound rng V ex X y s h s1 h1 n nf cols v vl L HE HX T1 T2 T3 T4 T5 T6 T7 E) as (k & g & m & [F1 F2 F3 F4 F5 F6 F7 F8 F9 F10 F11 F12 _]).
  destruct (fit_sound rng V ex X y (with_percentiles pc s) h s1' h1' n nf cols v vl L HE HX T1 T2 T3 T4 T5 T6 T7 E') as (k' & g' & m' & [G1 G2 G3 G4 G5 G6 G7 G8 G9 G10 G11 G12 _]).
  assert (g = f) by (rewrite Es in F6; cbn in F6; congruence). assert (g' = f') by (rewrite Es' in G6; cbn in G6; congruence). subst g g'.
  assert (k' = k) by (rewrite Es in F1; rewrite Es' in G1; cbn in F1, G1; congruence). subst k'.
  change (e_phase (with_percentiles pc s)) with (e_phase s) in G5.
  assert (Hn1 : 1 <= n1) by (destruct H3 as (i & Hi & _); lia). rewrite <- F3 in HX1.
  assert (AF : all_fit (e_phase s) n1 cols1 f' <-> all_fit (e_phase s) n1 cols1 f).
  { split; intros H j chs vs l d thr nm i HK Hi.
    - destruct (thr_shapelet Rle f f' _ _ _ _ _ _ _ HF HK) as (thr' & HK' & _). eapply H; eauto.
    - assert (Hj : 0 <= j < count_of f). { rewrite <- (thr_count Rle f f' HF). eapply shapelet_range; eauto. }
      destruct (shapelet_exists nf f j F11 Hj) as (chs0 & vs0 & l0 & d0 & thr0 & nm0 & HK0). destruct (thr_shapelet Rle f f' _ _ _ _ _ _ _ HF HK0) as (thr' & HK' & _).
      assert (l = l0 /\ d = d0) as [-> ->]; [|eapply H; eauto]. destruct f' as [Q|Q].
      + apply shapelet_FU in HK as (u & _ & _ & _ & K1 & K2 & _). apply shapelet_FU in HK' as (u' & _ & _ & _ & K1' & K2' & _). split; congruence.
      + apply shapelet_FM in HK as (nc & _ & K1 & K2 & _). apply shapelet_FM in HK' as (nc' & _ & K1' & K2' & _). split; congruence. }
  destruct (transform_sound s1 k f X1 n1 nf cols1 v1 F1 F2 F6 F10 F11 HX1 Hn1 T2 H3) as [[A (T & B & C)]|[A B]];
    destruct (transform_sound s1' k f' X1 n1 nf cols1 v1 G1 G2 G6 G10 G11 HX1 Hn1 T2 H3) as [[A' (T' & B' & C')]|[A' B']]; rewrite ?F5, ?G5 in *; try tauto.
  right. destruct C as (C1 & C2 & C3 & C4). destruct C' as (D1 & D2 & D3 & _). exists T, T', (count_of f). split; [exact B|]. split; [exact B'|]. split; [exact C1|]. split; [exact D1|]. split.
  { rewrite (thr_count Rle f f' HF) in D2. intros row [Hr|Hr]; auto. }
  intros i j Hi Hj. destruct (C4 j Hj) as (chs & vs & l & d & thr & nm & HK). destruct (thr_shapelet Rle f f' _ _ _ _ _ _ _ HF HK) as (thr' & HK' & Hle).
  destruct (C3 i j _ _ _ _ _ _ Hi HK) as ([[m1 a1] c1] & Q1 & Q2). destruct (D3 i j _ _ _ _ _ _ Hi HK') as ([[m2 a2] c2] & Q1' & Q2').
  destruct (features_threshold _ _ _ _ _ _ _ _ _ Q2 Q2') as (<- & <- & Hc). exists m1, a1, c1, c2. auto.
Qed.
Print Assumptions C98_transform.

(** ** Any arithmetic, also binary64, and any random numbers *)

(** Whatever the data and the percentiles, also equal, unordered or out of range: when both fits come to their end, the two
    have drawn the same random numbers, and the shapelets and the rest of the objects differ in the thresholds only. *)
Theorem C98_any_fit : forall F (N : NumOps F) S (rng : Rng F S) RS (V : pyenv RS) ex X y s h pc s1 h1 s1' h1', real_executor ex ->
  fit N rng V ex X y s h = (Ok tt, s1, h1) -> fit N rng V ex X y (with_percentiles pc s) h = (Ok tt, s1', h1') ->
  h1' = h1 /\ exists f f', e_shapelets s1 = Some f /\ s1' = set_shapelets f' (with_percentiles pc s1) /\ count_of f' = count_of f /\
    forall j chs vs l d thr nm, shapelet_of f j chs vs l d thr nm -> exists thr', shapelet_of f' j chs vs l d thr' nm.
Proof.
  intros F N S rng RS V ex X y s h pc s1 h1 s1' h1' HE E E'. destruct (fit_any N V pc rng ex X y s h s1 h1 s1' h1' (real_wplain ex HE) E E') as (-> & s0 & f & f' & -> & -> & HF).
  split; [reflexivity|]. exists f, f'. split; [reflexivity|]. split; [reflexivity|]. split; [eapply thr_count; exact HF|].
  intros j chs vs l d thr nm HK. destruct (thr_shapelet _ f f' j chs vs l d thr nm HF HK) as (thr' & HK' & _). eauto.
Qed.
Print Assumptions C98_any_fit.

(** Then, on any data, both transforms raise the same exception, or both give tables of the same shape, with the same minima
    (columns 3j) and the same positions of the minima (columns 3j + 1). *)
Theorem C98_any_transform : forall F (N : NumOps F) S (rng : Rng F S) RS (V : pyenv RS) ex X y s h pc s1 h1 s1' h1' X1, real_executor ex ->
  fit N rng V ex X y s h = (Ok tt, s1, h1) -> fit N rng V ex X y (with_percentiles pc s) h = (Ok tt, s1', h1') ->
  (exists e, transform N s1 X1 = Err e /\ transform N s1' X1 = Err e) \/
  exists T T', transform N s1 X1 = Ok T /\ transform N s1' X1 = Ok T' /\ zlen T' = zlen T /\
    forall i row row', nthZ T i = Some row -> nthZ T' i = Some row' -> exists w, zlen row = 3 * w /\ zlen row' = 3 * w /\
      forall j, 0 <= j < w -> nthZ row' (3 * j) = nthZ row (3 * j) /\ nthZ row' (3 * j + 1) = nthZ row (3 * j + 1).
Proof.
  intros F N S rng RS V ex X y s h pc s1 h1 s1' h1' X1 HE E E'. destruct (fit_any N V pc rng ex X y s h s1 h1 s1' h1' (real_wplain ex HE) E E') as (-> & s0 & f & f' & -> & -> & HF).
  pose proof (transform_min N (set_shapelets f s0) (set_shapelets f' (with_percentiles pc s0)) X1 f f' HF eq_refl eq_refl eq_refl eq_refl eq_refl) as H.
  destruct (transform N (set_shapelets f s0) X1) as [T|e], (transform N (set_shapelets f' (with_percentiles pc s0)) X1) as [T'|e']; cbn [rres] in H; try contradiction; [|left; exists e; subst; auto].
  right. exists T, T'. split; [reflexivity|]. split; [reflexivity|]. split; [induction H; [reflexivity|rewrite !zlen_cons; lia]|].
  intros i row row' Hr Hr'. destruct (F2_nth _ _ _ H _ _ Hr) as (r2 & Q & (L & (w & Hw) & HQ)). assert (r2 = row') by congruence. subst r2.
  exists w. split; [exact Hw|]. split; [lia|]. intros j Hj. split; apply HQ; lia.
Qed.
Print Assumptions C98_any_transform.

(** a case in integers, computed: percentiles 0 and 100, then 100 and 100; the same minima, and other counts *)
Definition z_args : @rargs Z :=
  mkArgs (VStr "auto") (VBool false) (VInt 0) (VBool false) VNone (VInt 1) (VList [VInt 2]) VNone (VInt 0) (VBool false) (VInt 0)
    (VList [VInt 0; VInt 100]) (VInt 3) None None (VInt 6).
Example C98_any_case : exists s h s1 h1 s2 h2 T1 T2, let X := VArr [2; 2; 4] DInt64 (intcells [1; 2; 3; 9;  2; 1; 0; 5;   4; 4; 1; 2;  0; 0; 3; 3]) in
  init ZN zenv z_args [0] = (Ok s, h) /\ fit ZN zrng zenv in_order X [0; 1] s h = (Ok tt, s1, h1) /\
  fit ZN zrng zenv in_order X [0; 1] (with_percentiles (VArr [2] DInt64 [VInt 100; VInt 100]) s) h = (Ok tt, s2, h2) /\
  transform ZN s1 X = Ok T1 /\ transform ZN s2 X = Ok T2 /\ T1 <> T2.
Proof.
  do 8 eexists. cbv zeta. split; [vm_compute; reflexivity|]. split; [vm_compute; reflexivity|]. split; [vm_compute; reflexivity|].
  split; [vm_compute; reflexivity|]. split; [vm_compute; reflexivity|]. discriminate.
Qed.

(** ** A case: the default estimator (percentiles 5 and 10) and one with percentiles 20 and 90, on integer data *)
Example C98_case : exists s1 h1 s2 h2 T1 T2,
  let s := default_est (VInt 0) 0 (VBool false) in let X := VArr [2; 1; 6] DInt64 (intcells ucells) in let pc := VArr [2] DInt64 [VInt 20; VInt 90] in
  fit RN crng caseV in_order X [0; 1] s [0] = (Ok tt, s1, h1) /\ fit RN crng caseV in_order X [0; 1] (with_percentiles pc s) [0] = (Ok tt, s2, h2) /\
  higher_levels s pc /\ trainable s [0; 1] 2 1 (fun _ => 6) false /\ transform RN s1 X = Ok T1 /\ transform RN s2 X = Ok T2 /\ zlen T1 = 2 /\ zlen T2 = 2 /\ e_shapelets s2 <> None.
Proof.
  pose proof (u_trainable (VInt 0)) as HT. pose proof (numeric_passes _ 2 1 6 _ (uX_numeric ucells eq_refl) ltac:(lia)) as HP.
  assert (HL : higher_levels (default_est (VInt 0) 0 (VBool false)) (VArr [2] DInt64 [VInt 20; VInt 90])).
  { constructor. exists 5%R, 10%R, 20%R, 90%R. split; [eexists _, _, _, _, _; split; [reflexivity|]; split; right; eexists; split; reflexivity|].
    split; [eexists _, _, _, _, _; split; [reflexivity|]; split; right; eexists; split; reflexivity|]. repeat split; lra. }
  destruct (default_fit crng caseV in_order (VArr [2; 1; 6] DInt64 (intcells ucells)) [0; 1] (VInt 0) 0 (VBool false) [0] 2 1 (fun _ => 6) _ false crng_laws (or_introl eq_refl) HP ltac:(lia) ltac:(lia) eq_refl)
      as (s1 & h1 & f & m & E1 & _ & _ & Hm & HT'); [intros; lia|intros sh dt cells E; injection E as _ <- _; auto|left; eexists; reflexivity|cbn; lia|].
  pose proof Hm as [(i0 & _ & Em) _]. cbn beta in Em. subst m. destruct (HT' _ 2 (fun _ => 6) _ HP ltac:(lia) ltac:(intros; apply Z.le_refl)) as (T1 & ET & _).
  destruct (fit RN crng caseV in_order (VArr [2; 1; 6] DInt64 (intcells ucells)) [0; 1] (with_percentiles (VArr [2] DInt64 [VInt 20; VInt 90]) (default_est (VInt 0) 0 (VBool false))) [0]) as [[r s2] h2] eqn:E2.
  destruct (C98_fit Z crng Z caseV in_order _ [0; 1] _ [0] _ _ _ _ _ _ _ crng_laws (or_introl eq_refl) HL E1 E2) as (-> & -> & _ & HS).
  destruct (C98_transform Z crng Z caseV in_order _ 2 1 (fun _ => 6) _ false [0; 1] _ [0] _ s1 h1 s2 h1 _ 2 (fun _ => 6) _ crng_laws (or_introl eq_refl) HL HP HT E1 E2 HP ltac:(exists 0; lia)) as [[Q _]|(A & T2 & w & EA & EB & Z1 & Z2 & _)]; [congruence|].
  assert (A = T1) by congruence. subst A. exists s1, h1, s2, h1, T1, T2. cbv zeta. repeat (split; [assumption|]). destruct (HS eq_refl) as (g & g' & _ & -> & _). discriminate.
Qed.
