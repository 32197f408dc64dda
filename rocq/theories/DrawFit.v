(** The parameters of the fitted shapelets as functions of the random numbers consumed; the permutations drawn. *)
From Coq Require Import ZArith Znumtheory String List Bool Reals Lra Lia Permutation.
From Verif Require Import Prelude Num Kernel Spec KernelProofs RealBase PrimeProofs ChoiceProofs Apply ApplyProofs ApplyUni ApplyMulti TransformProofs TransformLaws
  Gen GenSched GenBase GenUni GenDraw GenSpec GenUTop GenULaws GenMTop GenMLaws Checks ChecksProofs Estimator EstimatorNum EstimatorLaws EstimatorCases EndToEnd DrawLaws.
Import ListNotations.
Open Scope Z_scope.

(** what is drawn for each shapelet: [j] the place of its length in the list of lengths, [u] the draw for the dilation, [w] the draw for the normalisation *)
Definition drawn_from (sizes : list Z) (n_ts : Z) (p : R) (j : Z) (u w : R) (l d : Z) (nm : bool) : Prop :=
  nthZ sizes j = Some l /\ d = dil_of n_ts l u /\ nm = nltb RN w p.

Lemma Forall2_nth {A B} (Q : A -> B -> Prop) l l' i x y : Forall2 Q l l' -> nthZ l i = Some x -> nthZ l' i = Some y -> Q x y.
Proof.
  intros H. revert i. induction H as [|a b t t' H0 H IH]; intros i Hx Hy; [apply nthZ_range in Hx; cbn in Hx; lia|].
  rewrite nthZ_cons in Hx. rewrite nthZ_cons in Hy. destruct (Z.eqb_spec i 0); [congruence|]. eapply IH; eauto.
Qed.

Lemma nthZ_combine {A B} (l : list A) (l' : list B) i x y : nthZ l i = Some x -> nthZ l' i = Some y -> nthZ (combine l l') i = Some (x, y).
Proof.
  revert l' i. induction l as [|a t IH]; intros l' i Hx Hy; [apply nthZ_range in Hx; cbn in Hx; lia|].
  destruct l' as [|b t']; [apply nthZ_range in Hy; cbn in Hy; lia|]. cbn [combine]. rewrite nthZ_cons in Hx. rewrite nthZ_cons in Hy. rewrite nthZ_cons. destruct (Z.eqb_spec i 0); [congruence|]. apply IH; assumption.
Qed.

Section D.
Context {S : Type} (rng : Rng R S) (L : RngLaws RN rng).

Lemma params_draws n sizes n_ts p s lens s1 dils s2 nm s4 s5 : choice_n rng sizes n s = Ok (lens, s1) -> draw_dilations RN rng n n_ts lens false s1 = Ok (dils, s2) ->
  draw_norm RN rng n p s4 = Ok (nm, s5) ->
  s1 = snd (ints rng (zlen sizes) (Z.to_nat n) s) /\ s2 = snd (draws rng (Z.to_nat n) s1) /\ s5 = snd (draws rng (Z.to_nat n) s4) /\
  zlen lens = n /\ zlen dils = n /\ zlen nm = n /\ 0 <= n /\ 0 < zlen sizes /\
  forall i j u w l d b, nthZ (fst (ints rng (zlen sizes) (Z.to_nat n) s)) i = Some j -> nthZ (fst (draws rng (Z.to_nat n) s1)) i = Some u ->
    nthZ (fst (draws rng (Z.to_nat n) s4)) i = Some w -> nthZ lens i = Some l -> nthZ dils i = Some d -> nthZ nm i = Some b ->
    drawn_from sizes n_ts p j u w l d b /\ 0 <= j < zlen sizes /\ (0 <= u < 1)%R /\ (0 <= w < 1)%R.
Proof.
  intros H1 H2 H3. apply (choice_n_ints rng RN L) in H1 as (Hn & Hl & E1 & F1). assert (Zl : length lens = Z.to_nat n). { apply Forall2_length in F1. rewrite ints_length in F1. auto. }
  apply draw_dilations_draws in H2 as [E2 F2]. rewrite Zl in E2, F2. apply draw_norm_draws in H3 as [E3 F3].
  assert (RG : forall m s i u, nthZ (fst (draws rng m s)) i = Some u -> (0 <= u < 1)%R).
  { clear - L. induction m as [|m IH]; intros s i u Hu; cbn [draws] in Hu; [apply nthZ_range in Hu; cbn in Hu; lia|]. pose proof (RngLaws_R rng L s) as Q. destruct (r_unif rng s) as [u0 s1].
    specialize (IH s1). destruct (draws rng m s1) as [us s2]. cbn [fst] in *. rewrite nthZ_cons in Hu. destruct (Z.eqb_spec i 0); [congruence|]. eapply IH; eauto. }
  split; [exact E1|]. split; [exact E2|]. split; [exact E3|]. split; [unfold zlen; lia|].
  split. { apply Forall2_length in F2. rewrite combine_length, draws_length in F2. unfold zlen. lia. }
  split. { apply Forall2_length in F3. rewrite draws_length in F3. unfold zlen. lia. }
  split; [exact Hn|]. split; [exact Hl|]. intros i j u w l d b Hj Hu Hw Hi Hd Hb. split.
  - split; [exact (Forall2_nth _ _ _ _ _ _ F1 Hj Hi)|]. split.
    + apply (Forall2_nth _ _ _ _ _ _ F2 (nthZ_combine _ _ _ _ _ Hi Hu) Hd).
    + exact (Forall2_nth _ _ _ _ _ _ F3 Hw Hb).
  - split; [|split; eapply RG; eauto]. pose proof (ints_range rng RN L (zlen sizes) (Z.to_nat n) s Hl) as Q. rewrite Forall_forall in Q. apply Q. eapply nthZ_In; eauto.
Qed.

Lemma U_init_parts n sizes n_ts p prime s values dr thr s' : U_init RN rng n sizes n_ts p prime s = Ok (values, dr, thr, s') ->
  exists s1 s2, choice_n rng sizes n s = Ok (dr_len dr, s1) /\ draw_dilations RN rng n n_ts (dr_len dr) prime s1 = Ok (dr_dil dr, s2) /\
    draw_norm RN rng n p s2 = Ok (dr_norm dr, s').
Proof.
  intros H. unfold U_init in H. apply bindG_inv in H as (lens & s1 & H1 & H). apply bindG_inv in H as (dils & s2 & H2 & H).
  apply bind_liftG in H as (th & H3 & H). apply bind_liftG in H as (w & H4 & H). apply bind_liftG in H as (row & H5 & H). apply bind_liftG in H as (vs & H6 & H).
  apply bindG_inv in H as (nm & s3 & H7 & H). unfold retG in H. assert (E : dr = mkDrawn lens dils nm /\ s' = s3) by (split; congruence). destruct E as [-> ->]. eauto.
Qed.

Lemma M_init_parts n sizes n_ts p mc prime s values dr thr nch chan s' : M_init RN rng n sizes n_ts p mc prime s = Ok (values, dr, thr, nch, chan, s') ->
  exists s1 s2 s3 ch, choice_n rng sizes n s = Ok (dr_len dr, s1) /\ draw_dilations RN rng n n_ts (dr_len dr) prime s1 = Ok (dr_dil dr, s2) /\
    choice_n rng (zrange 0 mc) n s2 = Ok (ch, s3) /\ nch = map (fun c => c + 1) ch /\ draw_norm RN rng n p s3 = Ok (dr_norm dr, s').
Proof.
  intros H. unfold M_init in H. apply bindG_inv in H as (lens & s1 & H1 & H). apply bindG_inv in H as (dils & s2 & H2 & H).
  apply bind_liftG in H as (th & H3 & H). apply bindG_inv in H as (ch & s3 & H4 & H). cbv zeta in H. apply bind_liftG in H as (cs & H5 & H). apply bind_liftG in H as (vs & H6 & H).
  apply bindG_inv in H as (nm & s4 & H7 & H). unfold retG in H. assert (E : dr = mkDrawn lens dils nm /\ s' = s4 /\ nch = map (fun c => c + 1) ch) by (split; [|split]; congruence). destruct E as (-> & -> & ->).
  exists s1, s2, s3, ch. auto.
Qed.

(** every dilation is 1 or below the largest one *)
Lemma dils_below n n_ts lens s dils s' i l d : (forall l, In l lens -> 2 <= l <= n_ts) -> draw_dilations RN rng n n_ts lens false s = Ok (dils, s') ->
  nthZ lens i = Some l -> nthZ dils i = Some d -> d = 1 \/ d < dmax n_ts l.
Proof.
  intros HL H Hl Hd. apply draw_dilations_draws in H as [_ F].
  destruct (nthZ_some (fst (draws rng (length lens) s)) i) as (u & Hu). { pose proof (nthZ_range _ _ _ Hl) as Q. unfold zlen in *. rewrite draws_length. exact Q. }
  pose proof (Forall2_nth _ _ _ _ _ _ F (nthZ_combine _ _ _ _ _ Hl Hu) Hd) as E. cbn [fst snd] in E. subst d. apply dil_below; [apply HL; eapply nthZ_In; eauto|].
  clear - L Hu. revert s i Hu. induction (length lens) as [|m IH]; intros s i Hu; cbn [draws] in Hu; [apply nthZ_range in Hu; cbn in Hu; lia|]. pose proof (RngLaws_R rng L s) as Q. destruct (r_unif rng s) as [u0 s1].
  specialize (IH s1). destruct (draws rng m s1) as [us s2]. cbn [fst] in *. rewrite nthZ_cons in Hu. destruct (Z.eqb_spec i 0); [congruence|]. eapply IH; eauto.
Qed.

Lemma U_below P (c : utrain R) T k v l d thr nm : g_prime P = false -> tr_ok c -> lengths_ok P (tr_points c) -> GenULaws.fitted RN rng P c T -> ushp_at T k v l d thr nm ->
  d = 1 \/ d < dmax (tr_points c) l.
Proof.
  intros Hpr HO HL HF HK. destruct (fitted_sound rng L P c T HO HL HF) as (values & dr & th & s1 & hs & W & Hi & HA & M1 & M2 & _ & (HW1 & HW2) & HR).
  assert (HN : forall q, In q hs -> 0 <= q_len q) by (intros q Hq; pose proof (account_len P c hs q HL HA Hq); lia).
  destruct (returned_at P _ _ _ _ _ _ _ _ _ _ HN HR HK) as (q & Hq & El & Ed & _). apply filter_one in Hq as (i & Hq & _).
  rewrite Hpr in Hi. apply U_init_parts in Hi as (s2 & s3 & C1 & C2 & _). apply choice_n_inv in C1 as (_ & _ & CF). rewrite Forall_forall in CF.
  eapply dils_below; [|exact C2| |]; [intros x Hx; apply HL; apply CF; exact Hx|rewrite <- M1, nthZ_map, Hq; cbn; congruence|rewrite <- M2, nthZ_map, Hq; cbn; congruence].
Qed.

Lemma M_below P mc (c : mtrain R) T k chs vs l d thr nm : g_prime P = false -> mt_ok c -> lengths_ok P (mt_points c) -> mfitted RN rng P mc c T -> packed_at T k chs vs l d thr nm ->
  d = 1 \/ d < dmax (mt_points c) l.
Proof.
  intros Hpr HO HL HF HK. destruct (mfitted_sound rng L P mc c T HO HL HF) as (values & dr & th & nch & chan & s1 & hs & Hi & HA & M1 & M2 & _ & _ & HR).
  destruct (mreturned_at P mc c hs T k chs vs l d thr nm HL HA HR HK) as (q & o & Hq & _ & El & Ed & _). apply filter_one in Hq as (i & Hq & _).
  rewrite Hpr in Hi. apply M_init_parts in Hi as (s2 & s3 & s4 & ch & C1 & C2 & _). apply choice_n_inv in C1 as (_ & _ & CF). rewrite Forall_forall in CF.
  eapply dils_below; [|exact C2| |]; [intros x Hx; apply HL; apply CF; exact Hx|rewrite <- M1, nthZ_map, Hq; cbn; congruence|rewrite <- M2, nthZ_map, Hq; cbn; congruence].
Qed.

Lemma fit_below {RS} (V : pyenv RS) ex X y s h s' h' n nf cols v vl : real_executor ex -> passes X n nf cols v vl ->
  1 <= n -> 1 <= nf -> zlen y = n -> e_n_samples s = VNone -> (forall k, e_type s = TKind k -> kind_vl k = vl) ->
  (forall i, 0 <= i < n -> 4 <= cols i) -> (vl = true -> forall m, e_min_len s = Some m -> 4 <= m /\ forall i, 0 <= i < n -> m <= cols i) ->
  e_prime s = false -> fit RN rng V ex X y s h = (Ok tt, s', h') ->
  exists f m, e_shapelets s' = Some f /\ e_min_len s' = Some m /\ forall j chs vs l d thr nm, shapelet_of f j chs vs l d thr nm -> d = 1 \/ d < dmax m l.
Proof.
  intros HE HX Hn Hf Hy Hns Hty H4 Hml Hpr H. destruct (fit_ok _ _ _ _ _ _ _ _ _ _ _ H) as (q & s1 & f & E1 & E2 & ->).
  destruct (prepare_facts _ _ _ _ _ _ _ _ _ _ _ _ HX Hn Hf Hy Hns Hty H4 Hml E1) as (k & D & w & m & [Hk Hauto HP Hc Hcp Hmc Hm4 Hsl (sizes & seed & pn & pc & al & Hpc & Hsz & Hq) (S1 & S2 & S3 & S4)]).
  exists f, m. pose proof (run_fitted ex q f HE E2) as HF. rewrite Hq in HF. cbn [q_kind q_X q_y q_P q_min_len q_X_len q_max_channels] in HF.
  set (P := mkG (e_n_shapelets s) sizes seed pn (fst pc) (snd pc) al (e_phase s) (e_prime s)) in *.
  pose proof (train_ok D n nf w cols v y m k HP Hn Hf Hy Hc Hmc Hm4 ltac:(rewrite Hk; exact Hsl)) as HO. cbv zeta in HO.
  assert (HL : forall m', m' = m -> lengths_ok P m') by (intros m' -> l Hl; apply Hsz; exact Hl).
  split; [reflexivity|]. split; [assumption|]. intros j chs vs l d thr nm HJ.
  destruct k; cbn [multi kind_vl] in *; subst vl; destruct HF as (T & Ef & HF); subst f; destruct HO as (O1 & O2 & _).
  - apply shapelet_FU in HJ as (u & -> & -> & HJ). rewrite <- O2. refine (U_below P (TrSL D y) T j u l d thr nm Hpr O1 (HL _ O2) HF HJ).
  - apply shapelet_FM in HJ. rewrite <- O2. exact (M_below P _ (TrMSL D y) T j chs vs l d thr nm Hpr O1 (HL _ O2) HF HJ).
  - apply shapelet_FU in HJ as (u & -> & -> & HJ). rewrite <- O2. exact (U_below P (TrVL D (map cols (zrange 0 n)) y m) T j u l d thr nm Hpr O1 (HL _ O2) HF HJ).
  - apply shapelet_FM in HJ. rewrite <- O2. exact (M_below P _ (TrMVL D (map cols (zrange 0 n)) y m) T j chs vs l d thr nm Hpr O1 (HL _ O2) HF HJ).
Qed.
End D.
