(** From the arguments of R_DST.fit and R_DST.transform to shapelets and features: the estimator, the generation and
    the transform put together. *)
From Coq Require Import ZArith String List Bool Reals Lra Lia.
From Verif Require Import Prelude Num Kernel Spec KernelProofs RealBase Apply ApplyProofs ApplyUni ApplyMulti TransformProofs TransformLaws
  RealProofs SampleLaws Gen GenSched GenBase GenUni GenDraw GenSpec GenUTop GenULaws GenMTop GenMLaws Checks ChecksProofs Estimator
  EstimatorNum EstimatorLaws EstimatorCases.
From Verif Require Export FitAny.
Import ListNotations.
Open Scope Z_scope.

Notation passes := (FitAny.passes (N := RN)).

Section Fit.
Context {S : Type} (rng : Rng R S) {RS : Type} (V : pyenv RS).

(** where a shapelet comes from: a window of a training series, a threshold from a series of the same class *)
Definition from_training (ph prime : bool) (n nf : Z) (cols : Z -> Z) (v : Z -> Z -> Z -> R) (y : list Z) (pmin pmax : R) (m : Z)
  (chs : list Z) (vs : list (list R)) (l d : Z) (thr : R) (nm : bool) : Prop :=
  2 <= l <= m /\ dil_ok prime m l d /\ 1 <= zlen chs /\ NoDup chs /\ (forall ch, In ch chs -> 0 <= ch < nf) /\
  exists i t i', 0 <= i < n /\ 0 <= t < nwin ph (cols i) l d /\
    vs = map (fun ch => seen RN nm (window RN ph (points v i ch (cols i)) l d t)) chs /\
    same_class n y i i' /\
    threshold_between pmin pmax (mdistances RN ph nm (cols i') (channels v nf (cols i') i') chs vs l d) thr.

Lemma mdistances_chan ph nm n (X X' : list (list R)) chs vs l d : (forall ch, In ch chs -> nthd [] X ch = nthd [] X' ch) ->
  mdistances RN ph nm n X chs vs l d = mdistances RN ph nm n X' chs vs l d.
Proof.
  intros H. unfold mdistances. apply map_ext. intros i. f_equal. apply map_ext_in. intros [ch u] Hc. apply in_combine_l in Hc. cbn [fst snd]. rewrite H by exact Hc. reflexivity.
Qed.

Lemma U_from_training (L : RngLaws RN rng) P (c : utrain R) T n nf cols v y k u l d thr nm : 1 <= nf -> 
  tr_ok c -> lengths_ok P (tr_points c) -> GenULaws.fitted RN rng P c T -> ushp_at T k u l d thr nm ->
  tr_samples c = n -> tr_labels c = y -> (forall i, 0 <= i < n -> 0 <= cols i) -> (forall i, 0 <= i < n -> tr_series c i = points v i 0 (cols i)) ->
  from_training (g_phase P) (g_prime P) n nf cols v y (g_pmin P) (g_pmax P) (tr_points c) [0] [u] l d thr nm.
Proof.
  intros Hf HO HL HF HK En Ey Hc0 Es. destruct (fitted_origin rng L P c T k u l d thr nm HO HL HF HK) as (A & B & (i & t & i' & (C1 & C2 & C3) & C4 & C5)).
  split; [apply HL; exact A|]. split; [exact B|]. split; [cbn; lia|]. split; [constructor; [intros []|constructor]|].
  split; [intros ch [<-|[]]; lia|]. rewrite En, Ey in *. exists i, t, i'. pose proof C4 as (C6 & _).
  rewrite Es in C2, C3 by exact C1. rewrite Es in C5 by exact C6. rewrite zlen_points in C2 by auto. split; [exact C1|]. split; [exact C2|].
  split; [cbn [map]; f_equal; exact C3|]. split; [exact C4|]. rewrite distances_mdistances in C5. rewrite zlen_points in C5 by auto.
  erewrite mdistances_chan; [exact C5|]. intros ch [<-|[]]. apply nthd_channels. lia.
Qed.

Lemma M_from_training (L : RngLaws RN rng) P mc (c : mtrain R) T n nf cols v y k chs vs l d thr nm :
  mt_ok c -> lengths_ok P (mt_points c) -> mfitted RN rng P mc c T -> packed_at T k chs vs l d thr nm -> mt_nf c = nf ->
  mt_samples c = n -> mt_labels c = y -> (forall i, 0 <= i < n -> mt_len c i = cols i) -> (forall i, 0 <= i < n -> mt_series c i = channels v nf (cols i) i) ->
  from_training (g_phase P) (g_prime P) n nf cols v y (g_pmin P) (g_pmax P) (mt_points c) chs vs l d thr nm /\ zlen chs <= mc.
Proof.
  intros HO HL HF HK Hnf En Ey Ec Es. destruct (mfitted_origin rng L P mc c T k chs vs l d thr nm HO HL HF HK) as (A & B & C & D & E & (i & t & i' & (C1 & C2 & C3) & C4 & C5)).
  rewrite En, Ey, Hnf in *. pose proof C4 as (C6 & _). rewrite Ec in C2 by exact C1. rewrite Es in C3 by exact C1. rewrite Ec, Es in C5 by exact C6.
  split; [|lia]. split; [apply HL; exact A|]. split; [exact B|]. split; [lia|]. split; [exact D|]. split; [exact E|].
  exists i, t, i'. split; [exact C1|]. split; [exact C2|]. split; [|split; [exact C4|exact C5]].
  rewrite C3. apply map_ext_in. intros ch Hch. rewrite nthd_channels by auto. reflexivity.
Qed.

(** everything a successful fit establishes *)
Record fit_facts (vl : bool) (n nf : Z) (cols : Z -> Z) (v : Z -> Z -> Z -> R) (y : list Z) (s s' : @est R) (k : kind) (f : @Estimator.fitted R) (m : Z) : Prop := {
  ff_type : e_type s' = TKind k;
  ff_kind : e_kind s' = Some k;
  ff_vl : kind_vl k = vl;
  ff_auto : e_type s = TAuto -> multi k = false -> nf = 1;
  ff_phase : e_phase s' = e_phase s;
  ff_shapelets : e_shapelets s' = Some f;
  ff_min_len : e_min_len s' = Some m;
  ff_points : common_points vl (e_min_len s) n cols m;
  ff_enough : forall i, 0 <= i < n -> m <= cols i;
  ff_form : match f with FU _ => multi k = false | FM _ => multi k = true end;
  ff_consistent : consistent nf f;
  ff_count : count_of f <= e_n_shapelets s;
  ff_origin : exists pmin pmax, percentile_values RN (e_percentiles s) = Ok (pmin, pmax) /\
    forall j chs vs l d thr nm, shapelet_of f j chs vs l d thr nm ->
      from_training (e_phase s) (e_prime s) n nf cols v y pmin pmax m chs vs l d thr nm /\
      zlen chs <= (if multi k then match e_max_channels s with Some c => c | None => nf end else 1)
}.

Lemma fit_sound ex X y s h s' h' n nf cols v vl : RngLaws RN rng -> real_executor ex -> passes X n nf cols v vl ->
  1 <= n -> 1 <= nf -> zlen y = n -> e_n_samples s = VNone -> (forall k, e_type s = TKind k -> kind_vl k = vl) ->
  (forall i, 0 <= i < n -> 4 <= cols i) -> (vl = true -> forall m, e_min_len s = Some m -> 4 <= m /\ forall i, 0 <= i < n -> m <= cols i) ->
  fit RN rng V ex X y s h = (Ok tt, s', h') -> exists k f m, fit_facts vl n nf cols v y s s' k f m.
Proof.
  intros L HE HX Hn Hf Hy Hns Hty H4 Hml H. destruct (fit_ok _ _ _ _ _ _ _ _ _ _ _ H) as (q & s1 & f & E1 & E2 & ->).
  destruct (prepare_facts _ _ _ _ _ _ _ _ _ _ _ _ HX Hn Hf Hy Hns Hty H4 Hml E1) as (k & D & w & m & [Hk Hauto HP Hc Hcp Hmc Hm4 Hsl (sizes & seed & pn & pc & al & Hpc & Hsz & Hq) (S1 & S2 & S3 & S4)]).
  exists k, f, m. pose proof (run_fitted ex q f HE E2) as HF. rewrite Hq in HF. cbn [q_kind q_X q_y q_P q_min_len q_X_len q_max_channels] in HF.
  set (P := mkG (e_n_shapelets s) sizes seed pn (fst pc) (snd pc) al (e_phase s) (e_prime s)) in *.
  set (mc := match e_max_channels s with Some c => c | None => nf end) in *.
  pose proof (train_ok D n nf w cols v y m k HP Hn Hf Hy Hc Hmc Hm4 ltac:(rewrite Hk; exact Hsl)) as HO. cbv zeta in HO.
  assert (HL : forall m', m' = m -> lengths_ok P m') by (intros m' -> l Hl; apply Hsz; exact Hl).
  assert (Hc0 : forall i, 0 <= i < n -> 0 <= cols i) by (intros i Hi; specialize (Hc i Hi); lia).
  assert (FIN : forall (GF : match f with FU _ => multi k = false | FM _ => multi k = true end) (GC : consistent nf f /\ count_of f <= e_n_shapelets s)
      (GO : forall j chs vs l d thr nm, shapelet_of f j chs vs l d thr nm ->
         from_training (e_phase s) (e_prime s) n nf cols v y (fst pc) (snd pc) m chs vs l d thr nm /\ zlen chs <= (if multi k then mc else 1)),
      fit_facts vl n nf cols v y s (set_shapelets f s1) k f m).
  { intros. destruct GC. constructor; try assumption; try reflexivity. exists (fst pc), (snd pc). split; [rewrite Hpc; destruct pc; reflexivity|exact GO]. }
  destruct k; cbn [multi kind_vl] in *; subst vl; destruct HF as (T & Ef & HF); subst f; apply FIN; cbn [consistent count_of]; try reflexivity.
  - destruct HO as (O1 & O2 & _). apply (fitted_wf rng L P (TrSL D y)); [exact O1|apply HL; exact O2|exact HF].
  - destruct HO as (O1 & O2 & O3 & O4 & O5). intros j chs vs l d thr nm HJ. apply shapelet_FU in HJ as (u & -> & -> & HJ). split; [|cbn; lia]. rewrite <- O2.
    apply (U_from_training L P (TrSL D y) T n nf cols v y j u); auto.
  - destruct HO as (O1 & O2 & O3 & O4 & O5 & O6). destruct (mfitted_packed rng L P mc (TrMSL D y) T O1) as [(Lg & A & B) C]; [apply HL; exact O2|exact HF|].
    split; [|exact C]. exists Lg. split; [exact A|]. rewrite <- O5. exact B.
  - destruct HO as (O1 & O2 & O3 & O4 & O5 & O6). intros j chs vs l d thr nm HJ. apply shapelet_FM in HJ. rewrite <- O2.
    apply (M_from_training L P mc (TrMSL D y) T n nf cols v y j); auto; intros i Hi; apply O6; exact Hi.
  - destruct HO as (O1 & O2 & _). apply (fitted_wf rng L P (TrVL D (map cols (zrange 0 n)) y m)); [exact O1|apply HL; exact O2|exact HF].
  - destruct HO as (O1 & O2 & O3 & O4 & O5). intros j chs vs l d thr nm HJ. apply shapelet_FU in HJ as (u & -> & -> & HJ). split; [|cbn; lia]. rewrite <- O2.
    apply (U_from_training L P (TrVL D (map cols (zrange 0 n)) y m) T n nf cols v y j u); auto.
  - destruct HO as (O1 & O2 & O3 & O4 & O5 & O6). destruct (mfitted_packed rng L P mc (TrMVL D (map cols (zrange 0 n)) y m) T O1) as [(Lg & A & B) C]; [apply HL; exact O2|exact HF|].
    split; [|exact C]. exists Lg. split; [exact A|]. rewrite <- O5. exact B.
  - destruct HO as (O1 & O2 & O3 & O4 & O5 & O6). intros j chs vs l d thr nm HJ. apply shapelet_FM in HJ. rewrite <- O2.
    apply (M_from_training L P mc (TrMVL D (map cols (zrange 0 n)) y m) T n nf cols v y j); auto; intros i Hi; apply O6; exact Hi.
Qed.

(** ** Fitting does not fail *)

(** the parameters of an estimator are usable on series of [nf] channels with [m] points at least *)
Record usable (nf m : Z) (s : @est R) (h : list RS) : Prop := {
  us_all : e_n_samples s = VNone;
  us_n : 1 <= e_n_shapelets s;
  us_sizes : exists a ls, set_lengths RN s m = Ok a /\ check_lengths RN a m = Ok ls /\ ls <> [];
  us_perc : exists a b, percentile_values RN (e_percentiles s) = Ok (a, b) /\ (0 <= a <= 100)%R /\ (0 <= b <= 100)%R;
  us_alpha : exists a, as_F RN (e_alpha s) = Ok a;
  us_proba : exists a, as_F RN (e_proba_norm s) = Ok a;
  us_gen : 0 <= e_rs s < zlen h;
  us_chan : forall c, e_max_channels s = Some c -> 1 <= c <= nf
}.

Lemma run_fitter_total ex q n nf w cols v D y m k P mc : RngLaws RN rng -> real_executor ex -> padded RN D n nf w cols v -> 1 <= n -> 1 <= nf -> zlen y = n ->
  (forall i, 0 <= i < n -> 0 <= cols i <= w) -> (forall i, 0 <= i < n -> m <= cols i) -> 4 <= m -> (kind_vl k = false -> m = w /\ forall i, 0 <= i < n -> cols i = w) ->
  q = mkReq k D y P mc m (if kind_vl k then Some (map cols (zrange 0 n)) else None) -> lengths_ok P m -> percentiles_ok P -> g_sizes P <> [] -> 1 <= g_n P ->
  1 <= mc <= nf -> exists f, run_fitter RN rng ex q = Ok f.
Proof.
  intros L HE HP Hn Hf Hy Hc Hmc Hm4 Hsl Hq HL HPc Hsz Hg Hch.
  pose proof (train_ok D n nf w cols v y m k HP Hn Hf Hy Hc Hmc Hm4 Hsl) as HO. cbv zeta in HO.
  rewrite Hq. unfold run_fitter. cbn [q_kind q_X q_y q_P q_min_len q_X_len q_max_channels].
  destruct k; cbn [kind_vl].
  - destruct HO as (O1 & O2 & _). destruct (fit_total rng L P (TrSL D y) O1 ltac:(rewrite O2; exact HL) HPc Hsz Hg) as [(T & A) B].
    destruct HE as [-> |(rs & sched & HS & ->)].
    + exists (FU T). cbn [fit_seq] in A. unfold U_SL_generate in A. rewrite A. reflexivity.
    + destruct (B rs) as (T' & B'). exists (FU T'). specialize (B' sched HS). cbn [fit_par] in B'. unfold U_SL_generate_par in B'. rewrite B'. reflexivity.
  - destruct HO as (O1 & O2 & _ & _ & O5 & _). destruct (mfit_total rng L P mc (TrMSL D y) O1 ltac:(rewrite O2; exact HL) HPc ltac:(rewrite O5; exact Hch) Hsz Hg) as [(T & A) B].
    destruct HE as [-> |(rs & sched & HS & ->)].
    + exists (FM T). cbn [mfit_seq] in A. unfold M_SL_generate in A. rewrite A. reflexivity.
    + destruct (B rs) as (T' & B'). exists (FM T'). specialize (B' sched HS). cbn [mfit_par] in B'. unfold M_SL_generate_par in B'. rewrite B'. reflexivity.
  - destruct HO as (O1 & O2 & _). destruct (fit_total rng L P _ O1 ltac:(rewrite O2; exact HL) HPc Hsz Hg) as [(T & A) B].
    destruct HE as [-> |(rs & sched & HS & ->)].
    + exists (FU T). cbn [fit_seq] in A. unfold U_VL_generate in A. rewrite A. reflexivity.
    + destruct (B rs) as (T' & B'). exists (FU T'). specialize (B' sched HS). cbn [fit_par] in B'. unfold U_VL_generate_par in B'. rewrite B'. reflexivity.
  - destruct HO as (O1 & O2 & _ & _ & O5 & _). destruct (mfit_total rng L P mc _ O1 ltac:(rewrite O2; exact HL) HPc ltac:(rewrite O5; exact Hch) Hsz Hg) as [(T & A) B].
    destruct HE as [-> |(rs & sched & HS & ->)].
    + exists (FM T). cbn [mfit_seq] in A. unfold M_VL_generate in A. rewrite A. reflexivity.
    + destruct (B rs) as (T' & B'). exists (FM T'). specialize (B' sched HS). cbn [mfit_par] in B'. unfold M_VL_generate_par in B'. rewrite B'. reflexivity.
Qed.

Lemma fit_never_fails ex X y s h n nf cols v vl m : RngLaws RN rng -> real_executor ex -> passes X n nf cols v vl ->
  1 <= n -> 1 <= nf -> zlen y = n -> (forall k, e_type s = TKind k -> kind_vl k = vl) -> e_type s <> TNone ->
  (vl = false -> e_type s = TAuto -> match X with VArr _ dt _ => dt = DInt64 \/ dt = DFloat64 | _ => False end) ->
  (forall i, 0 <= i < n -> 4 <= cols i) -> 4 <= m -> (forall i, 0 <= i < n -> m <= cols i) ->
  common_points vl (e_min_len s) n cols m -> usable nf m s h ->
  exists s' h', fit RN rng V ex X y s h = (Ok tt, s', h').
Proof.
  intros L HE HX Hn Hf Hy Hty HNone Hdt H4 Hm4 Hmc Hcp HU.
  destruct (prepare_total (N := RN) (V := V) X y s h n nf cols v vl m HX Hn Hf Hty HNone Hdt) as (q & s1 & h1 & E1); auto.
  { exists 0. split; [lia|]. specialize (H4 0). lia. }
  { destruct HU as [U1 U2 (a & ls & U3 & U4 & U5) (p1 & p2 & U6 & _) U7 U8 U9 U10]. constructor; eauto. }
  pose proof HU as [U1 U2 (a & ls & U3 & U4 & U5) (p1 & p2 & U6 & U6a & U6b) _ _ _ U10].
  assert (Hml : vl = true -> forall g, e_min_len s = Some g -> 4 <= g /\ forall i, 0 <= i < n -> g <= cols i).
  { intros -> g Eg. unfold common_points in Hcp. rewrite Eg in Hcp. subst g. auto. }
  destruct (prepare_facts X y s h q s1 h1 n nf cols v vl HX Hn Hf Hy U1 Hty H4 Hml E1) as (k & D & w & m' & [Hk Hauto HP Hc Hcp' Hmc' Hm4' Hsl (sizes & seed & pn & pc & al & Hpc & Hsz & Hq) _]).
  assert (Em : m' = m).
  { unfold common_points in Hcp, Hcp'. destruct (e_min_len s) as [g|].
    - destruct vl; [congruence|]. rewrite (Hcp 0), (Hcp' 0) by lia. reflexivity.
    - destruct Hcp as [(i & Hi & A) B], Hcp' as [(i' & Hi' & A') B']. specialize (B i' Hi'). specialize (B' i Hi). lia. }
  subst m'.
  (* the sizes are those checked *)
  assert (Es : sizes = ls).
  { destruct (prepare_ok _ _ _ _ _ _ _ _ _ E1) as (k2 & D2 & sh2 & lens2 & m2 & ls2 & D2' & y2 & sizes2 & seed2 & pc2 & al2 & pn2 & _ & _ & _ & _ & G1 & G2 & _ & _ & _ & _ & G3 & _).
    rewrite Hq in G3. pose proof (f_equal (fun r => g_sizes (q_P r)) G3) as G4. pose proof (f_equal q_min_len G3) as G5. cbn in G4, G5. subst m2 sizes2. rewrite U3 in G1. injection G1 as <-. rewrite U4 in G2. congruence. }
  destruct (run_fitter_total ex q n nf w cols v D y m k (mkG (e_n_shapelets s) sizes seed pn (fst pc) (snd pc) al (e_phase s) (e_prime s)) (match e_max_channels s with Some c => c | None => nf end)) as (f & E2); auto.
  - rewrite Hk. exact Hsl.
  - rewrite Hk. exact Hq.
  - rewrite U6 in Hpc. injection Hpc as <-. split; assumption.
  - cbn. rewrite Es. exact U5.
  - destruct (e_max_channels s); [auto|lia].
  - exists (set_shapelets f s1), h1. unfold fit, bindE, liftE, put. rewrite E1, E2. reflexivity.
Qed.
End Fit.

(** ** Transforming *)

(** the transform of a dataset: a block of three features per series and shapelet, or a refusal *)
Definition features_table (ph : bool) (n nf : Z) (cols : Z -> Z) (v : Z -> Z -> Z -> R) (f : @Estimator.fitted R) (T : list (list R)) : Prop :=
  zlen T = n /\ (forall row, In row T -> zlen row = 3 * count_of f) /\
  (forall i j chs vs l d thr nm, 0 <= i < n -> shapelet_of f j chs vs l d thr nm ->
    exists a, cell3 T i j a /\ is_features RN (mdistances RN ph nm (cols i) (channels v nf (cols i) i) chs vs l d) thr a) /\
  forall j, 0 <= j < count_of f -> exists chs vs l d thr nm, shapelet_of f j chs vs l d thr nm.

Lemma call_table (c : call R) ph n nf cols v f T : wf_call c -> run RN c ph = Ok T -> consistent nf f ->
  TransformLaws.n_samples c = n -> n_shapelets c = count_of f -> (forall i, 0 <= i < n -> 0 <= cols i) ->
  (forall i, 0 <= i < n -> exists x, sample_at c i x /\ (forall r, In r x -> zlen r = cols i) /\
     forall j chs vs l d thr nm ch, shapelet_of f j chs vs l d thr nm -> In ch chs -> nthd [] x ch = nthd [] (channels v nf (cols i) i) ch) ->
  (forall j chs vs l d thr nm, shapelet_of f j chs vs l d thr nm -> shapelet_at c j chs vs l d thr nm) ->
  features_table ph n nf cols v f T.
Proof.
  intros HW HT HC En Es Hc HS HK. destruct (call_shape RN c ph T HW HT) as [S1 S2]. split; [congruence|]. split; [intros row Hr; rewrite <- Es; auto|].
  split; [|intros j Hj; apply (shapelet_exists nf); assumption]. intros i j chs vs l d thr nm Hi Hj. destruct (HS i Hi) as (x & X1 & X2 & X3).
  destruct (cell_exists c ph T i j x chs vs l d thr nm (cols i) HW HT X1 (HK _ _ _ _ _ _ _ Hj) X2) as (a & A1 & A2). exists a. split; [exact A1|].
  erewrite mdistances_chan; [exact A2|]. intros ch Hch. symmetry. eapply X3; eauto.
Qed.

Lemma transform_sound (s : @est R) k f X n nf cols v : e_type s = TKind k -> e_kind s = Some k -> e_shapelets s = Some f ->
  match f with FU _ => multi k = false | FM _ => multi k = true end -> consistent nf f -> passes X n nf cols v (kind_vl k) ->
  1 <= n -> 1 <= nf -> (exists i, 0 <= i < n /\ 3 <= cols i) ->
  (all_fit (e_phase s) n cols f /\ exists T, transform RN s X = Ok T /\ features_table (e_phase s) n nf cols v f T) \/
  (~ all_fit (e_phase s) n cols f /\ transform RN s X = Err ValueError).
Proof.
  intros Hty Hki Hsh Hfo HC HX Hn Hf (i3 & Hi3 & Hc3). destruct (passes_data _ _ _ _ _ _ HX Hn Hf) as (D & w & HP & Hc & (i0 & Hi0 & Ew) & HR).
  assert (Hw3 : 3 <= w) by (specialize (Hc i3 Hi3); lia). set (ph := e_phase s).
  unfold transform. rewrite Hsh, Hty. fold ph.
  pose proof (pad_mdata D n nf w cols v HP Hn Hf Hc) as PM. pose proof (pad_has_ft D n nf w cols v HP Hn Hf Hc) as PF.
  pose proof (pad_lens D n nf w cols v HP Hn Hc) as PL. pose proof (pad_vl_ok D n nf w cols v HP Hn Hc) as PV. pose proof (pad_ne D n nf w cols v HP Hn Hc) as NE.
  pose proof (proj1 HP) as HzD. set (lens := map cols (zrange 0 n)) in *.
  assert (Hc0 : forall i, 0 <= i < n -> 0 <= cols i) by (intros i Hi; specialize (Hc i Hi); lia).
  assert (Hat : forall i, 0 <= i < n -> nthZ D i = Some (nthd [] D i)) by (intros i Hi; apply nthZ_nthd; lia).
  assert (Hat0 : forall i, 0 <= i < n -> nthZ (nthd [] D i) 0 = Some (nthd [] (nthd [] D i) 0)).
  { intros i Hi. apply nthZ_nthd. rewrite (pad_sample D n nf w cols v HP i Hi). lia. }
  assert (Hlen : forall i, 0 <= i < n -> nthd 0 lens i = cols i) by (intros i Hi; apply (pad_len n w cols); assumption).
  destruct k; cbn [kind_vl multi] in *; destruct f as [T|T]; try discriminate; cbn [consistent] in HC.
  - (* univariate, same length *)
    destruct HR as (R1 & R2 & R3 & R4). rewrite R4, (check_3D_ok n nf w Hn Hf Hw3). cbn [bind]. rewrite R2. cbn [bind]. rewrite Hki.
    assert (Es : forall i, 0 <= i < n -> ser D i = points v i 0 (cols i)) by (intros i Hi; apply (pad_ser (N := RN) D n nf w); auto).
    assert (FA : all_fit ph n cols (FU T) <-> forall i, 0 <= i < zlen D -> fits_all ph T (zlen (ser D i))).
    { rewrite all_fit_U by exact HC. split; intros H i Hi; specialize (H i ltac:(lia)); rewrite Es, zlen_points in * by (try apply Hc0; lia); exact H. }
    destruct (U_SL_iff RN D T ph PF HC) as [[Hfit E]|[(i & Hi & Hfit) E]]; [left|right].
    + split; [apply FA; exact Hfit|]. eexists. split; [exact E|]. eapply (call_table (CallUS D T)); try reflexivity; auto; try (cbn; auto).
      * intros i Hi. exists [ser D i]. split; [apply (sample_US D T i (nthd [] D i)); [auto|apply Hat0; exact Hi]|].
        rewrite Es by exact Hi. split; [intros r [<-|[]]; apply zlen_points; auto|]. intros j chs vs l d thr nm ch Hj Hch. apply shapelet_FU in Hj as (u & -> & _). destruct Hch as [<-|[]].
        rewrite nthd_channels by lia. reflexivity.
      * intros j chs vs l d thr nm Hj. apply shapelet_FU in Hj as (u & -> & -> & Hj). constructor. exact Hj.
    + split; [|exact E]. rewrite FA. intros Q. apply Hfit. apply Q. exact Hi.
  - (* multivariate, same length *)
    destruct HR as (R1 & R2 & R3 & R4). rewrite R4, (check_3D_ok n nf w Hn Hf Hw3). cbn [bind]. rewrite R2. cbn [bind]. rewrite Hki.
    assert (FA : all_fit ph n cols (FM T) <-> mfits_all ph T w).
    { rewrite (all_fit_M ph n cols T nf HC). split; intros H; [rewrite <- (R1 0) by lia; apply H; lia|]. intros i Hi. rewrite R1 by exact Hi. exact H. }
    destruct HC as (Lg & HL & HCh).
    destruct (M_SL_iff RN D nf w T Lg ph PM HL HCh) as [[Hfit E]|[[_ Hfit] E]]; [left|right].
    + split; [apply FA; destruct Hfit as [Q|Q]; [congruence|exact Q]|]. eexists. split; [exact E|].
      eapply (call_table (CallMS nf w D T Lg)); try reflexivity; auto; try (cbn; eauto).
      * intros i Hi. exists (nthd [] D i). split; [constructor; auto|]. rewrite (pad_mser (N := RN) D n nf w cols v HP Hc i Hi (R1 i Hi)).
        split; [intros r Hr; apply channels_regular in Hr; auto|reflexivity].
      * intros j chs vs l d thr nm Hj. apply shapelet_FM in Hj. constructor. apply packed_mshp; assumption.
    + split; [|exact E]. rewrite FA. exact Hfit.
  - (* univariate, variable length *)
    rewrite HR. cbn [bind]. rewrite (check_3D_ok n nf w Hn Hf Hw3). cbn [bind]. rewrite Hki.
    assert (Es : forall i, 0 <= i < n -> ser_vl D lens i = points v i 0 (cols i)) by (intros i Hi; apply (pad_ser_vl (N := RN) D n nf w); auto).
    assert (FA : all_fit ph n cols (FU T) <-> forall i, 0 <= i < zlen D -> fits_all ph T (zlen (ser_vl D lens i))).
    { rewrite all_fit_U by exact HC. split; intros H i Hi; specialize (H i ltac:(lia)); rewrite Es, zlen_points in * by (try apply Hc0; lia); exact H. }
    destruct (U_VL_iff RN D lens T ph PF PL HC) as [[Hfit E]|[(i & Hi & Hfit) E]]; [left|right].
    + split; [apply FA; exact Hfit|]. eexists. split; [exact E|]. eapply (call_table (CallUV D lens T)); try reflexivity; auto; try (cbn; auto).
      * intros i Hi. exists [ser_vl D lens i]. split.
        { apply sample_UV. exists (nthd [] D i), (nthd [] (nthd [] D i) 0), (nthd 0 lens i). split; [auto|]. split; [auto|]. split; [apply nthZ_nthd; lia|reflexivity]. }
        rewrite Es by exact Hi. split; [intros r [<-|[]]; apply zlen_points; auto|]. intros j chs vs l d thr nm ch Hj Hch. apply shapelet_FU in Hj as (u & -> & _). destruct Hch as [<-|[]].
        rewrite nthd_channels by lia. reflexivity.
      * intros j chs vs l d thr nm Hj. apply shapelet_FU in Hj as (u & -> & -> & Hj). constructor. exact Hj.
    + split; [|exact E]. rewrite FA. intros Q. apply Hfit. apply Q. exact Hi.
  - (* multivariate, variable length *)
    rewrite HR. cbn [bind]. rewrite (check_3D_ok n nf w Hn Hf Hw3). cbn [bind]. rewrite Hki.
    assert (FA : all_fit ph n cols (FM T) <-> forall i, 0 <= i < zlen D -> mfits_all ph T (nthd 0 lens i)).
    { rewrite (all_fit_M ph n cols T nf HC). split; intros H i Hi; specialize (H i ltac:(lia)); rewrite Hlen in * by lia; exact H. }
    destruct HC as (Lg & HL & HCh).
    destruct (M_VL_iff RN D lens nf w T Lg ph PM PV HL HCh) as [[Hfit E]|[(i & Hi & Hfit) E]]; [left|right].
    + split; [apply FA; exact Hfit|]. eexists. split; [exact E|].
      eapply (call_table (CallMV nf w D lens T Lg)); try reflexivity; auto; try (cbn; eauto).
      * intros i Hi. exists (mser_vl D lens i). split.
        { apply (sample_MV nf w D lens T Lg i (nthd 0 lens i)). exists (nthd [] D i). split; [auto|]. split; [apply nthZ_nthd; lia|reflexivity]. }
        unfold lens. rewrite (pad_mser_vl (N := RN) D n nf w cols v HP Hc i Hi). split; [intros r Hr; apply channels_regular in Hr; auto|reflexivity].
      * intros j chs vs l d thr nm Hj. apply shapelet_FM in Hj. constructor. apply packed_mshp; assumption.
    + split; [|exact E]. rewrite FA. intros Q. apply Hfit. apply Q. exact Hi.
Qed.

(** ** Series long enough for every shapelet *)

Lemma fit_long vl n nf cols v y s s' k f m X' n' cols' v' : fit_facts vl n nf cols v y s s' k f m -> 1 <= nf -> 4 <= m ->
  passes X' n' nf cols' v' vl -> 1 <= n' -> (forall i, 0 <= i < n' -> m <= cols' i) ->
  exists T, transform RN s' X' = Ok T /\ features_table (e_phase s) n' nf cols' v' f T /\
    forall i j chs vs l d thr nm, 0 <= i < n' -> shapelet_of f j chs vs l d thr nm ->
      exists mn a c, cell3 T i j (mn, IZR a, IZR c) /\ (0 <= mn)%R /\
        0 <= a < (if e_phase s then cols' i else cols' i - (l - 1) * d) /\ 0 <= c <= (if e_phase s then cols' i else cols' i - (l - 1) * d).
Proof.
  intros [F1 F2 F3 F4 F5 F6 F7 F8 F9 F10 F11 F12 (pmin & pmax & _ & F13)] Hf Hm HX' Hn' Hmc. rewrite <- F5 in *. rewrite <- F3 in HX'.
  assert (W : forall i j chs vs l d thr nm, 0 <= i < n' -> shapelet_of f j chs vs l d thr nm -> 1 <= (if e_phase s' then cols' i else cols' i - (l - 1) * d)).
  { intros i j chs vs l d thr nm Hi Hj. destruct (F13 _ _ _ _ _ _ _ Hj) as [(A & (_ & B & _) & _) _]. specialize (Hmc i Hi). destruct (e_phase s'); lia. }
  destruct (transform_sound s' k f X' n' nf cols' v' F1 F2 F6 F10 F11 HX' Hn' Hf) as [[A (T & B & C1 & C2 & C3 & C9)]|[A B]].
  { exists 0. specialize (Hmc 0). lia. }
  - exists T. split; [exact B|]. split; [split; [exact C1|]; split; [exact C2|split; [exact C3|exact C9]]|].
    intros i j chs vs l d thr nm Hi Hj. specialize (W _ _ _ _ _ _ _ _ Hi Hj).
    destruct (C3 _ _ _ _ _ _ _ _ Hi Hj) as ([[mn a] c] & C4 & C5).
    assert (EL : zlen (mdistances RN (e_phase s') nm (cols' i) (channels v' nf (cols' i) i) chs vs l d) = (if e_phase s' then cols' i else cols' i - (l - 1) * d)).
    { unfold mdistances. rewrite zlen_map, zlen_zrange. unfold nwin. lia. }
    destruct (features_ranges _ thr mn a c (fun y Hy => mdistances_nonneg _ _ _ _ _ _ _ _ _ Hy) C5) as (G1 & (q & -> & G2) & (r & -> & G3) & _).
    { intros E. rewrite E in EL. change (zlen (@nil R)) with 0 in EL. lia. }
    rewrite EL in *. exists mn, q, r. auto.
  - exfalso. apply A. intros j chs vs l d thr nm i Hj Hi. specialize (W _ _ _ _ _ _ _ _ Hi Hj). destruct (F13 _ _ _ _ _ _ _ Hj) as [((A1 & _) & (B1 & _ & _) & _) _].
    unfold fits. destruct (e_phase s'); lia.
Qed.
