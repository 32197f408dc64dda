(** Lemmas about R_DST_Ensemble. *)
From Coq Require Import ZArith List Bool Lia Permutation.
From Verif Require Import Prelude Num Kernel Parallel Apply Gen GenSched Checks Estimator EstimatorProofs EstimatorLaws Preproc Classifiers ClassifierProofs.
Import ListNotations.
Open Scope Z_scope.

Section ENS.
Context {F : Type} (N : NumOps F) {S : Type} (rng : Rng F S) {RS : Type} (V : pyenv RS) {SC P M : Type} (K : sklearn F SC P M).
Notation ens := (@ens F SC P M).
Notation member := (@member F SC M).
Notation mfit := (member_fit N rng V K).
Notation runm := (run_members N rng V K).
Notation efit := (ens_fit N rng V K).

(** ** Two ensembles with the same arguments, referring to different generator objects *)

Definition forget_rng (a : @rargs F) : @rargs F :=
  mkArgs (p_transform_type a) (p_phase_invariance a) (p_alpha a) (p_normalize_output a) (p_n_samples a) (p_n_shapelets a)
    (p_shapelet_lengths a) (p_bounds a) (p_reduction a) (p_prime_dilations a) (p_proba_norm a) (p_percentiles a)
    VNone (p_max_channels a) (p_min_len a) (p_n_jobs a).
Definition alike_ens (e1 e2 : ens) : Prop :=
  forget_rng (en_args e1) = forget_rng (en_args e2) /\ en_hyper e1 = en_hyper e2 /\ en_a_w e1 = en_a_w e2 /\
  en_probas e1 = en_probas e2 /\ en_trans e1 = en_trans e2.

Definition rrel {A B} (Q : A -> B -> Prop) (r1 : res A) (r2 : res B) : Prop :=
  match r1, r2 with Ok a, Ok b => Q a b | Err e, Err e' => e = e' | _, _ => False end.
Definition mrel (i1 i2 : Z) (m1 m2 : member) : Prop :=
  m_in m1 = m_in m2 /\ m_ridge m1 = m_ridge m2 /\ exists t, m_rdst m1 = set_rs i1 t /\ m_rdst m2 = set_rs i2 t.

(** init with a generator object: the heap is not used *)
Lemma init_rng a i1 i2 a1 a2 h1 h2 : a1 = mkArgs (p_transform_type a) (p_phase_invariance a) (p_alpha a) (p_normalize_output a) (p_n_samples a) (p_n_shapelets a)
    (p_shapelet_lengths a) (p_bounds a) (p_reduction a) (p_prime_dilations a) (p_proba_norm a) (p_percentiles a) (VRng i1) (p_max_channels a) (p_min_len a) (p_n_jobs a) ->
  a2 = mkArgs (p_transform_type a) (p_phase_invariance a) (p_alpha a) (p_normalize_output a) (p_n_samples a) (p_n_shapelets a)
    (p_shapelet_lengths a) (p_bounds a) (p_reduction a) (p_prime_dilations a) (p_proba_norm a) (p_percentiles a) (VRng i2) (p_max_channels a) (p_min_len a) (p_n_jobs a) ->
  (exists er, init N V a1 h1 = (Err er, h1) /\ init N V a2 h2 = (Err er, h2)) \/
  exists t, init N V a1 h1 = (Ok (set_rs i1 t), h1) /\ init N V a2 h2 = (Ok (set_rs i2 t), h2) /\ okS (uses_global a) t.
Proof.
  intros -> ->. unfold init. cbn [p_transform_type p_phase_invariance p_alpha p_normalize_output p_n_samples p_n_shapelets p_shapelet_lengths p_bounds p_reduction
    p_prime_dilations p_proba_norm p_percentiles p_random_state p_max_channels p_min_len p_n_jobs].
  match goal with |- context[match ?b with Ok _ => _ | Err _ => _ end] => destruct b as [[[[[[[[[[[[ty ph] al] no] ns] nsh] sl] bo] re] pr] pn] pc]|e0] eqn:EB end;
    [|left; eauto].
  unfold check_random_state. cbn [bind]. destruct (init_n_jobs V (p_n_jobs a)) as [nj|er]; [|left; cbn [bind]; eauto]. right. cbn [bind].
  exists (mkEst ty ph al no ns nsh sl bo re pr pn pc 0 nj (p_max_channels a) (p_min_len a) None None). do 2 (split; [reflexivity|]).
  unfold okS, uses_global. cbn [e_n_samples]. destruct (p_n_samples a) eqn:En; [|left; reflexivity..]. right.
  do 4 (apply bind_inv in EB as (? & _ & EB)). apply bind_inv in EB as (ns' & En' & EB). injection En' as <-.
  do 7 (apply bind_inv in EB as (? & _ & EB)). apply bind_inv in EB as (? & _ & EB). congruence.
Qed.

Lemma forget_global a1 a2 : forget_rng a1 = forget_rng a2 -> uses_global a1 = uses_global a2.
Proof. intros H. unfold uses_global. injection H. intros. now replace (p_n_samples a1) with (p_n_samples a2). Qed.

Lemma member_rel ex e1 e2 X y i h1 h2 r1 k1 r2 k2 : alike_ens e1 e2 -> hrel (en_rs e1) (en_rs e2) (uses_global (en_args e1)) h1 h2 ->
  mfit ex e1 X y i h1 = (r1, k1) -> mfit ex e2 X y i h2 = (r2, k2) ->
  rrel (mrel (en_rs e1) (en_rs e2)) r1 r2 /\ hrel (en_rs e1) (en_rs e2) (uses_global (en_args e1)) k1 k2.
Proof.
  intros (Ea & Eh & _ & Ep & Et) HR H1 H2. unfold member_fit in *. rewrite <- Ep, <- Et, <- Eh in H2.
  destruct (bind (get (en_trans e1) i) _) as [[tr pn]|er]; [|injection H1 as <- <-; injection H2 as <- <-; split; [reflexivity|exact HR]].
  set (b := mkArgs (p_transform_type (en_args e1)) (p_phase_invariance (en_args e1)) (p_alpha (en_args e1)) (VBool false) (p_n_samples (en_args e1))
    (p_n_shapelets (en_args e1)) (p_shapelet_lengths (en_args e1)) (p_bounds (en_args e1)) (p_reduction (en_args e1)) (p_prime_dilations (en_args e1)) pn
    (p_percentiles (en_args e1)) (VNone) (p_max_channels (en_args e1)) (p_min_len (en_args e1)) (VBool false)).
  assert (E1 : member_args e1 pn = mkArgs (p_transform_type b) (p_phase_invariance b) (p_alpha b) (p_normalize_output b) (p_n_samples b) (p_n_shapelets b)
    (p_shapelet_lengths b) (p_bounds b) (p_reduction b) (p_prime_dilations b) (p_proba_norm b) (p_percentiles b) (VRng (en_rs e1)) (p_max_channels b) (p_min_len b) (p_n_jobs b)) by reflexivity.
  assert (E2 : member_args e2 pn = mkArgs (p_transform_type b) (p_phase_invariance b) (p_alpha b) (p_normalize_output b) (p_n_samples b) (p_n_shapelets b)
    (p_shapelet_lengths b) (p_bounds b) (p_reduction b) (p_prime_dilations b) (p_proba_norm b) (p_percentiles b) (VRng (en_rs e2)) (p_max_channels b) (p_min_len b) (p_n_jobs b)).
  { unfold member_args, b. cbn. injection Ea. intros. congruence. }
  destruct (init_rng b _ _ _ _ h1 h2 E1 E2) as [(er & I1 & I2)|(t & I1 & I2 & O)]; rewrite I1 in H1; rewrite I2 in H2.
  - injection H1 as <- <-. injection H2 as <- <-. split; [reflexivity|exact HR].
  - destruct (tr X) as [X1|er]; [|injection H1 as <- <-; injection H2 as <- <-; split; [reflexivity|exact HR]].
    destruct (fit N rng V ex X1 y (set_rs (en_rs e1) t) h1) as [[u t1] k3] eqn:Ef.
    destruct (reloc_fit N rng V _ _ _ ex X1 y _ _ _ _ _ _ HR O Ef) as (t' & k4 & -> & Ef2 & HR2 & _). rewrite Ef2 in H2.
    injection H1 as <- <-. injection H2 as <- <-. split; [|exact HR2]. rewrite !transform_set_rs.
    destruct u as [[]|er]; cbn [bind]; [|reflexivity]. destruct (transform N t' X1) as [D|er]; cbn [bind]; [|reflexivity].
    destruct (iridge_fit K (en_hyper e1) D y) as [c|er]; cbn [bind]; [|reflexivity]. split; [reflexivity|]. split; [reflexivity|]. exists t'. auto.
Qed.

Lemma run_rel ex e1 e2 X y : alike_ens e1 e2 -> forall sched h1 h2 r1 k1 r2 k2, hrel (en_rs e1) (en_rs e2) (uses_global (en_args e1)) h1 h2 ->
  runm ex e1 X y sched h1 = (r1, k1) -> runm ex e2 X y sched h2 = (r2, k2) ->
  rrel (Forall2 (fun p q => fst p = fst q /\ mrel (en_rs e1) (en_rs e2) (snd p) (snd q))) r1 r2 /\
  hrel (en_rs e1) (en_rs e2) (uses_global (en_args e1)) k1 k2.
Proof.
  intros HE. induction sched as [|i t IH]; intros h1 h2 r1 k1 r2 k2 HR H1 H2; cbn [run_members] in *.
  - injection H1 as <- <-. injection H2 as <- <-. split; [constructor|exact HR].
  - destruct (mfit ex e1 X y i h1) as [q1 h3] eqn:E1. destruct (mfit ex e2 X y i h2) as [q2 h4] eqn:E2.
    destruct (member_rel _ _ _ _ _ _ _ _ _ _ _ _ HE HR E1 E2) as (HQ & HR1).
    destruct q1 as [m1|er1], q2 as [m2|er2]; try contradiction; [|injection H1 as <- <-; injection H2 as <- <-; auto].
    destruct (runm ex e1 X y t h3) as [p1 h5] eqn:G1. destruct (runm ex e2 X y t h4) as [p2 h6] eqn:G2.
    destruct (IH _ _ _ _ _ _ HR1 G1 G2) as (HP & HR2). injection H1 as <- <-. injection H2 as <- <-. split; [|exact HR2].
    destruct p1 as [l1|er1], p2 as [l2|er2]; try contradiction; cbn [bind rrel]; [|exact HP]. constructor; auto.
Qed.

Lemma find_member_rel i1 i2 (l1 l2 : list (Z * member)) i : Forall2 (fun p q => fst p = fst q /\ mrel i1 i2 (snd p) (snd q)) l1 l2 ->
  rrel (mrel i1 i2) (find_member l1 i) (find_member l2 i).
Proof.
  unfold find_member. induction 1 as [|p q l1 l2 (E & HM) HF IH]; cbn [filter]; [reflexivity|]. rewrite <- E. destruct (fst p =? i); [exact HM|exact IH].
Qed.
Lemma mapM_rel {A B C} (Q : B -> C -> Prop) (f : A -> res B) (g : A -> res C) l : (forall a, rrel Q (f a) (g a)) -> rrel (Forall2 Q) (mapM f l) (mapM g l).
Proof.
  intros H. induction l as [|a l IH]; cbn [mapM]; [constructor|]. specialize (H a). destruct (f a), (g a); try contradiction; cbn [bind]; [|exact H].
  destruct (mapM f l), (mapM g l); try contradiction; cbn [bind]; [constructor; auto|exact IH].
Qed.
Lemma weights_rel e1 e2 y i1 i2 ms1 ms2 : en_a_w e1 = en_a_w e2 -> Forall2 (mrel i1 i2) ms1 ms2 -> ens_weights N K e1 y ms1 = ens_weights N K e2 y ms2.
Proof.
  intros Ew. unfold ens_weights. rewrite Ew. induction 1 as [|m1 m2 l1 l2 (_ & E & _) HF IH]; cbn [mapM]; [reflexivity|]. rewrite E, IH. reflexivity.
Qed.
Lemma predict_rel (e1 e2 : ens) i1 i2 ms1 ms2 ws X : Forall2 (mrel i1 i2) ms1 ms2 -> en_fitted e1 = Some (ms1, ws) -> en_fitted e2 = Some (ms2, ws) ->
  ens_predict N K e1 X = ens_predict N K e2 X.
Proof.
  intros HF E1 E2. unfold ens_predict. rewrite E1, E2.
  replace (mapM (fun mw => member_proba N K (fst mw) (snd mw) X) (combine ms1 ws)) with (mapM (fun mw => member_proba N K (fst mw) (snd mw) X) (combine ms2 ws)); [reflexivity|].
  clear E1 E2. revert ws. induction HF as [|m1 m2 l1 l2 (Ei & Er & t & T1 & T2) HF IH]; intros [|w ws]; cbn [combine mapM]; try reflexivity.
  rewrite IH. cbn [fst snd]. unfold member_proba. rewrite Ei, Er, T1, T2. reflexivity.
Qed.

Lemma ens_fit_rel ex sched X y e1 e2 h1 h2 u1 f1 k1 u2 f2 k2 : alike_ens e1 e2 -> en_n_jobs e1 = en_n_jobs e2 ->
  hrel (en_rs e1) (en_rs e2) (uses_global (en_args e1)) h1 h2 ->
  efit ex sched X y e1 h1 = (u1, f1, k1) -> efit ex sched X y e2 h2 = (u2, f2, k2) ->
  u2 = u1 /\ (u1 = Ok tt -> forall Z, ens_predict N K f2 Z = ens_predict N K f1 Z).
Proof.
  intros HE HJ HR H1 H2. unfold ens_fit, manage_n_jobs in *. rewrite <- HJ in H2. pose proof HE as (_ & _ & Ew & _ & Et). rewrite <- Et in H2.
  destruct (check_n_jobs (v_cpus V) (en_n_jobs e1)) as [total|er]; [|injection H1 as <- <- <-; injection H2 as <- <- <-; split; [reflexivity|discriminate]].
  destruct (Z.min (zlen (en_trans e1)) total =? 0); [injection H1 as <- <- <-; injection H2 as <- <- <-; split; [reflexivity|discriminate]|].
  destruct (set_num_threads V _) as [[]|er]; [|injection H1 as <- <- <-; injection H2 as <- <- <-; split; [reflexivity|discriminate]].
  set (g1 := mkEns (en_args e1) _ _ _ _ _ _ _ _) in H1. set (g2 := mkEns (en_args e2) _ _ _ _ _ _ _ _) in H2.
  destruct (runm ex g1 X y sched h1) as [r1 q1] eqn:R1. destruct (runm ex g2 X y sched h2) as [r2 q2] eqn:R2.
  assert (HE' : alike_ens g1 g2) by (destruct HE as (A1 & A2 & A3 & A4 & A5); repeat split; assumption).
  destruct (run_rel _ _ _ _ _ HE' _ _ _ _ _ _ _ HR R1 R2) as (HQ & _).
  assert (HM : rrel (Forall2 (mrel (en_rs g1) (en_rs g2))) (let* ms := r1 in mapM (find_member ms) (zrange 0 (zlen (en_trans e1))))
                    (let* ms := r2 in mapM (find_member ms) (zrange 0 (zlen (en_trans e1))))).
  { destruct r1 as [ms1|er1], r2 as [ms2|er2]; try contradiction; cbn [bind]; [|exact HQ]. apply mapM_rel. intros i. apply find_member_rel, HQ. }
  destruct (let* ms := r1 in mapM (find_member ms) (zrange 0 (zlen (en_trans e1)))) as [ms1|er1],
           (let* ms := r2 in mapM (find_member ms) (zrange 0 (zlen (en_trans e1)))) as [ms2|er2]; try contradiction.
  2: { cbn in HM. subst er2. injection H1 as <- <- <-. injection H2 as <- <- <-. split; [reflexivity|discriminate]. }
  cbn [rrel] in HM. rewrite <- (weights_rel g1 g2 y _ _ _ _ Ew HM) in H2.
  destruct (ens_weights N K g1 y ms1) as [ws|er]; injection H1 as <- <- <-; injection H2 as <- <- <-; (split; [reflexivity|]); [|discriminate].
  intros _ Z. symmetry. eapply predict_rel; [exact HM|reflexivity|reflexivity].
Qed.

Lemma ens_init_rel a p aw pn trans h1 h2 r1 k1 r2 k2 : same_generators a h1 h2 ->
  ens_init N V a p aw pn trans h1 = (r1, k1) -> ens_init N V a p aw pn trans h2 = (r2, k2) ->
  rrel (fun (e1 e2 : ens) => alike_ens e1 e2 /\ en_n_jobs e1 = en_n_jobs e2 /\ hrel (en_rs e1) (en_rs e2) (uses_global (en_args e1)) k1 k2) r1 r2.
Proof.
  intros HG H1 H2. unfold ens_init in *.
  match type of H1 with context[match ?b with Ok _ => _ | Err _ => _ end] => destruct b as [[[[ph no] ns] pr]|er] eqn:EB end;
    [|injection H1 as <- <-; injection H2 as <- <-; reflexivity].
  assert (Ens : (match ns with VNone => false | _ => true end) = uses_global a).
  { do 2 (apply bind_inv in EB as (? & _ & EB)). apply bind_inv in EB as (ns' & En & EB). apply bind_inv in EB as (? & _ & EB). injection EB as _ _ <- _.
    unfold uses_global. destruct (p_n_samples a); cbn in En; try discriminate En; injection En as <-; reflexivity. }
  destruct (check_random_state_rel V a h1 h2 HG) as [(er & q1 & q2 & E1 & E2)|(i1 & i2 & q1 & q2 & E1 & E2 & HR)]; rewrite E1 in H1; rewrite E2 in H2.
  - injection H1 as <- <-. injection H2 as <- <-. reflexivity.
  - injection H1 as <- <-. injection H2 as <- <-. cbn [bind].
    repeat match goal with |- rrel _ (bind ?b _) (bind ?b _) => destruct b; cbn [bind]; [|reflexivity] end.
    split; [repeat split|]. split; [reflexivity|]. cbn [en_rs en_args]. unfold uses_global. cbn [p_n_samples]. rewrite Ens. exact HR.
Qed.

(** ** The shared generator: the position of a member in the order of execution decides its seed *)

(** the generator after k members were fitted *)
Definition after (k : Z) (g : RS) : RS := Nat.iter (Z.to_nat k) (fun x => snd (v_randint V x)) g.

Lemma after_succ k g : 0 <= k -> after (k + 1) g = after k (snd (v_randint V g)).
Proof.
  intros H. unfold after. replace (Z.to_nat (k + 1)) with (Datatypes.S (Z.to_nat k)) by lia. cbn [Nat.iter nat_rect].
  generalize (Z.to_nat k). intros n. induction n as [|n IH]; [reflexivity|]. cbn. do 2 f_equal. exact IH.
Qed.

Lemma member_advances ex e X y i h m h' g : p_n_samples (en_args e) = VNone -> 0 <= en_rs e -> nthZ h (en_rs e) = Some g ->
  mfit ex e X y i h = (Ok m, h') -> nthZ h' (en_rs e) = Some (snd (v_randint V g)) /\
  exists q f, run_fitter N rng ex q = Ok f /\ e_shapelets (m_rdst m) = Some f /\ g_seed (q_P q) = fst (v_randint V g).
Proof.
  intros Hn Hp Hg H. unfold member_fit in H.
  destruct (bind (get (en_trans e) i) _) as [[tr pn]|er]; [|discriminate H].
  set (b := member_args e pn).
  destruct (init_rng b (en_rs e) (en_rs e) (member_args e pn) (member_args e pn) h h eq_refl eq_refl) as [(er & I1 & _)|(t & I1 & _ & O)]; rewrite I1 in H; [discriminate H|].
  destruct (tr X) as [X1|er]; [|discriminate H].
  destruct (fit N rng V ex X1 y (set_rs (en_rs e) t) h) as [[u t1] k3] eqn:Ef. injection H as HU <-.
  destruct u as [[]|er]; [|discriminate HU]. cbn [bind] in HU. apply bind_inv in HU as (D0 & _ & HU). apply bind_inv in HU as (c0 & _ & HU).
  assert (Em : m_rdst m = t1) by (injection HU as <-; reflexivity). clear HU.
  destruct (fit_ok _ _ _ _ _ _ _ _ _ _ _ Ef) as (q & s1 & f & HP & HF & ->).
  destruct (prepare_ok _ _ _ _ _ _ _ _ _ HP) as
    (k & D & sh & lens & m0 & ls & D' & y' & sizes & seed & pc & al & pn' & _ & _ & _ & _ & _ & _ & Hs & _ & _ & _ & -> & _).
  assert (Hns : e_n_samples (set_rs (en_rs e) t) = VNone).
  { destruct O as [O|O]; [|exact O]. unfold uses_global, b, member_args in O. cbn [p_n_samples] in O. rewrite Hn in O. discriminate O. }
  destruct (Hs Hns) as (g0 & G1 & G2 & G3). cbn [e_rs set_rs] in *.
  pose proof (proj2 (get_nthZ h _ _ Hp) Hg) as G0. assert (g0 = g) by congruence. subst g0.
  rewrite (set_of_get h (en_rs e) g _ G1) in G3. injection G3 as <-. split; [apply get_nthZ; [exact Hp|]; apply (get_upd_same h (en_rs e) g _ G1)|].
  eexists. exists f. split; [exact HF|]. rewrite Em. split; [reflexivity|exact G2].
Qed.

Lemma run_positions ex e X y : p_n_samples (en_args e) = VNone -> 0 <= en_rs e -> forall sched h g ms h', nthZ h (en_rs e) = Some g ->
  runm ex e X y sched h = (Ok ms, h') ->
  map fst ms = sched /\
  forall k i, nthZ sched k = Some i -> exists m, nthZ ms k = Some (i, m) /\
    forall hk, nthZ hk (en_rs e) = Some (after k g) -> exists hk', mfit ex e X y i hk = (Ok m, hk') /\
      exists q f, run_fitter N rng ex q = Ok f /\ e_shapelets (m_rdst m) = Some f /\ g_seed (q_P q) = fst (v_randint V (after k g)).
Proof.
  intros Hn Hp. induction sched as [|j t IH]; intros h g ms h' Hg H; cbn [run_members] in H.
  - injection H as <- <-. split; [reflexivity|]. intros k i Hk. apply nthZ_range in Hk. cbn in Hk. lia.
  - destruct (mfit ex e X y j h) as [[m|er] h1] eqn:Em; [|discriminate H].
    destruct (runm ex e X y t h1) as [[ms1|er] h2] eqn:Er; [|discriminate H]. injection H as <- <-.
    pose proof (member_advances _ _ _ _ _ _ _ _ _ Hn Hp Hg Em) as (Hg1 & Hsd).
    destruct (IH _ _ _ _ Hg1 Er) as (Hf & HI). split; [cbn [map fst]; now f_equal|].
    intros k i Hk. rewrite nthZ_cons in Hk. rewrite nthZ_cons. destruct (Z.eqb_spec k 0) as [->|Hk0].
    + injection Hk as <-. exists m. split; [reflexivity|]. intros hk Hhk. change (after 0 g) with g in Hhk.
      destruct (mfit ex e X y j hk) as [r2 k2] eqn:E2.
      assert (HE : alike_ens e e) by (repeat split).
      assert (HR : hrel (en_rs e) (en_rs e) (uses_global (en_args e)) h hk).
      { split; [exact Hp|]. split; [exact Hp|]. split; [|congruence]. intros Hu. unfold uses_global in Hu. rewrite Hn in Hu. discriminate Hu. }
      destruct (member_rel _ _ _ _ _ _ _ _ _ _ _ _ HE HR Em E2) as (HQ & _). destruct r2 as [m2|]; [|contradiction].
      destruct HQ as (Q1 & Q2 & t0 & Q3 & Q4). exists k2. split; [|exact Hsd]. f_equal. f_equal. destruct m, m2. cbn in *. congruence.
    + destruct (HI _ _ Hk) as (m' & Hm & HA). exists m'. split; [exact Hm|]. 
      assert (0 <= k - 1) by (apply nthZ_range in Hk; lia). rewrite <- after_succ in HA by assumption. replace (k - 1 + 1) with k in HA by lia. exact HA.
Qed.

Lemma find_member_at (ms : list (Z * member)) k i m : NoDup (map fst ms) -> nthZ ms k = Some (i, m) -> find_member ms i = Ok m.
Proof.
  revert k. unfold find_member. induction ms as [|[j m0] t IH]; intros k Hnd Hk; [apply nthZ_range in Hk; cbn in Hk; lia|].
  inversion Hnd as [|? ? Hni Hnd']; subst. rewrite nthZ_cons in Hk. cbn [filter fst]. destruct (Z.eqb_spec k 0).
  - injection Hk as -> ->. rewrite Z.eqb_refl. reflexivity.
  - destruct (Z.eqb_spec j i) as [->|]; [|eauto]. exfalso. apply Hni. apply nthZ_In in Hk. apply (in_map fst) in Hk. exact Hk.
Qed.

Lemma ens_fit_ok ex sched X y e h e' h' : efit ex sched X y e h = (Ok tt, e', h') ->
  exists e1 total ms models ws, check_n_jobs (v_cpus V) (en_n_jobs e) = Ok total /\ Z.min (zlen (en_trans e)) total <> 0 /\
    e1 = mkEns (en_args e) (en_hyper e) (en_a_w e) (en_probas e) (en_trans e) (en_rs e) (VInt (Z.min (zlen (en_trans e)) total))
               (Some (Z.max 1 (total / Z.min (zlen (en_trans e)) total))) (en_fitted e) /\
    set_num_threads V (Z.max 1 (total / Z.min (zlen (en_trans e)) total)) = Ok tt /\
    runm ex e X y sched h = (Ok ms, h') /\ mapM (find_member ms) (zrange 0 (zlen (en_trans e))) = Ok models /\ ens_weights N K e y models = Ok ws /\
    en_fitted e' = Some (models, ws) /\ en_n_jobs e' = en_n_jobs e1 /\ en_n_jobs_rdst e' = en_n_jobs_rdst e1 /\
    en_args e' = en_args e /\ en_hyper e' = en_hyper e /\ en_a_w e' = en_a_w e /\ en_probas e' = en_probas e /\ en_trans e' = en_trans e /\ en_rs e' = en_rs e.
Proof.
  unfold ens_fit, manage_n_jobs. destruct (check_n_jobs (v_cpus V) (en_n_jobs e)) as [total|er]; [|discriminate].
  destruct (Z.eqb_spec (Z.min (zlen (en_trans e)) total) 0) as [|Hz]; [discriminate|].
  destruct (set_num_threads V _) as [[]|er] eqn:Es; [|discriminate].
  set (e1 := mkEns (en_args e) _ _ _ _ _ _ _ _).
  assert (Erun : forall s k, runm ex e1 X y s k = runm ex e X y s k).
  { induction s as [|i t IH]; intros k; cbn [run_members]; [reflexivity|]. change (mfit ex e1 X y i k) with (mfit ex e X y i k).
    destruct (mfit ex e X y i k) as [[m|er] k1]; [|reflexivity]. rewrite IH. reflexivity. }
  rewrite Erun. destruct (runm ex e X y sched h) as [r h1] eqn:Er. destruct r as [ms|er]; cbn [bind]; [|discriminate].
  destruct (mapM (find_member ms) _) as [models|er] eqn:Ef; [|discriminate].
  change (ens_weights N K e1 y models) with (ens_weights N K e y models).
  destruct (ens_weights N K e y models) as [ws|er] eqn:Ew; intros H; [|discriminate]. injection H as <- <-.
  exists e1, total, ms, models, ws. repeat (split; [reflexivity || assumption|]). reflexivity.
Qed.
End ENS.
