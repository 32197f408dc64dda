(** Property C99: seeds, generators and what fit does to them. *)
From Coq Require Import String ZArith List Bool Lia.
From Verif Require Import Prelude Num Kernel Parallel Apply Gen Checks Estimator EstimatorProofs EstimatorLaws EstimatorCases Preproc NumbaUtilsProofs Classifiers ClassifierProofs
  PropsClassifiers Seeds.
Import ListNotations.
Open Scope Z_scope.

(** all attributes of two objects agree, except for the generator they refer to *)
Record same_but_generator {F} (s t : @est F) : Prop := {
  sg_type : e_type t = e_type s; sg_phase : e_phase t = e_phase s; sg_alpha : e_alpha t = e_alpha s; sg_normout : e_normout t = e_normout s;
  sg_n_samples : e_n_samples t = e_n_samples s; sg_n_shapelets : e_n_shapelets t = e_n_shapelets s; sg_lengths : e_lengths t = e_lengths s;
  sg_bounds : e_bounds t = e_bounds s; sg_reduction : e_reduction t = e_reduction s; sg_prime : e_prime t = e_prime s;
  sg_proba_norm : e_proba_norm t = e_proba_norm s; sg_percentiles : e_percentiles t = e_percentiles s; sg_n_jobs : e_n_jobs t = e_n_jobs s;
  sg_max_channels : e_max_channels t = e_max_channels s; sg_min_len : e_min_len t = e_min_len s; sg_kind : e_kind t = e_kind s;
  sg_shapelets : e_shapelets t = e_shapelets s
}.
Lemma same_set_rs {F} i j (t : @est F) : same_but_generator (set_rs i t) (set_rs j t).
Proof. constructor; reflexivity. Qed.

(** one fit after the other on the same object, the outcomes of all of them *)
Fixpoint fits {F} (N : NumOps F) {S} (rng : Rng F S) {RS} (V : pyenv RS) (calls : list (@executor S * pyv F * list Z)) (s : @est F) (h : @heap RS) : list (res unit) * @est F * @heap RS :=
  match calls with
  | [] => ([], s, h)
  | (ex, X, y) :: t => let '(r, s1, h1) := fit N rng V ex X y s h in let '(rs, s2, h2) := fits N rng V t s1 h1 in (r :: rs, s2, h2)
  end.

Lemma fits_reloc {F} (N : NumOps F) {S} (rng : Rng F S) {RS} (V : pyenv RS) i j calls : forall t h1 h2 rs s1 k1, hrel i j true h1 h2 ->
  fits N rng V calls (set_rs i t) h1 = (rs, s1, k1) -> exists t' k2, s1 = set_rs i t' /\ fits N rng V calls (set_rs j t) h2 = (rs, set_rs j t', k2) /\ hrel i j true k1 k2.
Proof.
  induction calls as [|[[ex X] y] calls IH]; intros t h1 h2 rs s1 k1 HR E; cbn [fits] in E |- *; [injection E as <- <- <-; exists t, h2; auto|].
  destruct (fit N rng V ex X y (set_rs i t) h1) as [[r u] g1] eqn:E1. destruct (reloc_fit N rng V i j true ex X y t h1 h2 r u g1 HR (or_introl eq_refl) E1) as (u' & g2 & -> & E2 & HR' & _).
  rewrite E2. destruct (fits N rng V calls (set_rs i u') g1) as [[rs' v] k] eqn:E3. injection E as <- <- <-.
  destruct (IH u' g1 g2 rs' v k HR' E3) as (t' & k2 & -> & E4 & HR''). rewrite E4. exists t', k2. auto.
Qed.

(** ** A seed is as good as a generator made from it *)

(** R_DST(random_state=seed) and R_DST(random_state=np.random.RandomState(seed)): both constructors raise the same exception, or
    any sequence of fits has the same outcomes on both and leaves equal objects, whose transforms agree. *)
Theorem C99_seed : forall F (N : NumOps F) S (rng : Rng F S) RS (V : pyenv RS) a seed id h, 0 <= seed < 2 ^ 32 -> 0 < id -> nthZ h id = Some (v_new V seed) ->
  (exists e h1 h2, init N V (with_random_state (VInt seed) a) h = (Err e, h1) /\ init N V (with_random_state (VRng id) a) h = (Err e, h2)) \/
  exists s h1 t, init N V (with_random_state (VInt seed) a) h = (Ok s, h1) /\ init N V (with_random_state (VRng id) a) h = (Ok t, h) /\ same_but_generator s t /\
    forall calls rs s' h1', fits N rng V calls s h1 = (rs, s', h1') ->
      exists t' h', fits N rng V calls t h = (rs, t', h') /\ same_but_generator s' t' /\ forall X, transform N t' X = transform N s' X.
Proof.
  intros F N S rng RS V a seed id h Hs Hi Hh. destruct (init_seed N V a seed id h Hs Hi Hh) as [HE|(t & i1 & h1 & E1 & E2 & HR)]; [left; exact HE|right].
  exists (set_rs i1 t), h1, (set_rs id t). split; [exact E1|]. split; [exact E2|]. split; [apply same_set_rs|].
  intros calls rs s' h1' E. destruct (fits_reloc N rng V i1 id calls t h1 h rs s' h1' HR E) as (t' & k2 & -> & E' & _). exists (set_rs id t'), k2.
  split; [exact E'|]. split; [apply same_set_rs|]. reflexivity.
Qed.
Print Assumptions C99_seed.

(** ** Objects with generators of their own do not influence each other *)

(** Without n_samples, fit draws from the generator of the object only: whatever the state of the others, the outcome and the
    object are the same, and the others (also numpy's global one) stay as they are. *)
Theorem C99_own : forall F (N : NumOps F) S (rng : Rng F S) RS (V : pyenv RS) ex X y s h r s' h', e_n_samples s = VNone -> 0 <= e_rs s ->
  fit N rng V ex X y s h = (r, s', h') -> (forall i, i <> e_rs s -> nthZ h' i = nthZ h i) /\
  forall k, nthZ k (e_rs s) = nthZ h (e_rs s) -> exists k', fit N rng V ex X y s k = (r, s', k').
Proof.
  intros F N S rng RS V ex X y s h r s' h' Hn Hp E. split; [apply (quiet_fit N rng V ex X y _ _ _ _ _ Hn Hp E)|].
  intros k Hk. destruct (fit_own N rng V ex X y s h k r s' h' Hn Hp (eq_sym Hk) E) as (k' & E' & _). eauto.
Qed.
Print Assumptions C99_own.

(** So two such objects can be fitted in either order. *)
Theorem C99_order : forall F (N : NumOps F) S (rng : Rng F S) RS (V : pyenv RS) ex1 X1 y1 s1 ex2 X2 y2 s2 h r1 s1' h1 r2 s2' h12 q2 t2 h2 q1 t1 h21,
  e_n_samples s1 = VNone -> e_n_samples s2 = VNone -> 0 <= e_rs s1 -> 0 <= e_rs s2 -> e_rs s1 <> e_rs s2 ->
  fit N rng V ex1 X1 y1 s1 h = (r1, s1', h1) -> fit N rng V ex2 X2 y2 s2 h1 = (r2, s2', h12) ->
  fit N rng V ex2 X2 y2 s2 h = (q2, t2, h2) -> fit N rng V ex1 X1 y1 s1 h2 = (q1, t1, h21) ->
  q1 = r1 /\ t1 = s1' /\ q2 = r2 /\ t2 = s2' /\ h21 = h12.
Proof. intros F N S rng RS V ex1 X1 y1 s1 ex2 X2 y2 s2 h. apply fit_commute. Qed.
Print Assumptions C99_order.

(** two objects made with the seeds 0 and 4, and a generator in the state of the seed 4 *)
Example C99_case : exists s1 s2 h1 h2 r1 s1' k1 r2 s2' k2, init ZN zenv (zargs (VInt 0)) [7; 4] = (Ok s1, h1) /\ init ZN zenv (zargs (VInt 4)) h1 = (Ok s2, h2) /\
  e_rs s1 = 2 /\ e_rs s2 = 3 /\ e_n_samples s1 = VNone /\ e_n_samples s2 = VNone /\ nthZ h1 1 = Some (v_new zenv 4) /\
  fit ZN zrng zenv in_order zX1 [0; 1] s1 h2 = (Ok r1, s1', k1) /\ fit ZN zrng zenv in_order zX2 [0; 1] s2 k1 = (Ok r2, s2', k2) /\ k2 = [7; 4; 1; 5].
Proof.
  do 10 eexists. split; [vm_compute; reflexivity|]. split; [vm_compute; reflexivity|]. do 5 (split; [reflexivity|]). split; [vm_compute; reflexivity|]. split; [vm_compute; reflexivity|]. reflexivity.
Qed.

(** ** What does not hold *)

(** The order matters for two objects that share a generator, as all objects with random_state=None do. *)
Theorem C99_shared_refuted : exists s h s1 h1 s2 h2 t2 k2 t1 k1, init ZN zenv (zargs VNone) [0] = (Ok s, h) /\
  fit ZN zrng zenv in_order zX1 [0; 1] s h = (Ok tt, s1, h1) /\ fit ZN zrng zenv in_order zX2 [0; 1] s h1 = (Ok tt, s2, h2) /\
  fit ZN zrng zenv in_order zX2 [0; 1] s h = (Ok tt, t2, k2) /\ fit ZN zrng zenv in_order zX1 [0; 1] s k2 = (Ok tt, t1, k1) /\
  e_shapelets t1 <> e_shapelets s1 /\ e_shapelets t2 <> e_shapelets s2.
Proof.
  do 10 eexists. do 5 (split; [vm_compute; reflexivity|]). split; vm_compute; discriminate.
Qed.
Print Assumptions C99_shared_refuted.

(** An integer random_state does not make a second fit of the object on the same data repeat the first one. *)
Theorem C99_refit_refuted : exists s h s1 h1 s2 h2, init ZN zenv (zargs (VInt 0)) [0] = (Ok s, h) /\
  fit ZN zrng zenv in_order zX1 [0; 1] s h = (Ok tt, s1, h1) /\ fit ZN zrng zenv in_order zX1 [0; 1] s1 h1 = (Ok tt, s2, h2) /\ e_shapelets s2 <> e_shapelets s1.
Proof. do 6 eexists. do 3 (split; [vm_compute; reflexivity|]). vm_compute. discriminate. Qed.
Print Assumptions C99_refit_refuted.

(** With n_samples an integer random_state does not determine the result either: the samples are drawn from numpy's global
    generator.  Here resample turns the positions by the state of that generator. *)
Definition turned : pyenv Z := mkEnv Z (fun s => s) (fun g => (g, g + 1)) (fun g n r k y => (Ok (map (fun i => (g + i) mod n) (zrange 0 k)), g + 1)) 6 6.
Definition twice (a : @rargs Z) : @rargs Z := mkArgs (p_transform_type a) (p_phase_invariance a) (p_alpha a) (p_normalize_output a) (VInt 2) (p_n_shapelets a)
  (p_shapelet_lengths a) (p_bounds a) (p_reduction a) (p_prime_dilations a) (p_proba_norm a) (p_percentiles a) (p_random_state a) (p_max_channels a) (p_min_len a) (p_n_jobs a).
Theorem C99_n_samples_refuted : exists s h s1 h1 t k t1 k1, init ZN turned (twice (zargs (VInt 0))) [0] = (Ok s, h) /\ fit ZN zrng turned in_order zX1 [0; 1] s h = (Ok tt, s1, h1) /\
  init ZN turned (twice (zargs (VInt 0))) [1] = (Ok t, k) /\ fit ZN zrng turned in_order zX1 [0; 1] t k = (Ok tt, t1, k1) /\ e_shapelets t1 <> e_shapelets s1.
Proof. do 8 eexists. do 4 (split; [vm_compute; reflexivity|]). vm_compute. discriminate. Qed.
Print Assumptions C99_n_samples_refuted.

(** ** R_DST_Ridge *)

(** The first fit of R_DST_Ridge(random_state=seed) and of R_DST_Ridge(random_state=np.random.RandomState(seed)): the same
    outcome, and on success the same predictions. *)
Theorem C99_ridge_seed : forall F (N : NumOps F) S (rng : Rng F S) RS (V : pyenv RS) SC P M (K : sklearn F SC P M) ex X y a p seed id h r1 r2 u r1' h1,
  0 <= seed < 2 ^ 32 -> 0 < id -> nthZ h id = Some (v_new V seed) ->
  ridge_init V (with_random_state (VInt seed) a) p = Ok r1 -> ridge_init V (with_random_state (VRng id) a) p = Ok r2 ->
  ridge_fit N rng V K ex X y r1 h = (u, r1', h1) ->
  exists r2' h2, ridge_fit N rng V K ex X y r2 h = (u, r2', h2) /\ (u = Ok tt -> forall X1, ridge_predict N K r2' X1 = ridge_predict N K r1' X1).
Proof.
  intros F N S rng RS V SC P M K ex X y a p seed id h r1 r2 u r1' h1 Hs Hi Hh I1 I2 E. unfold ridge_init in I1, I2.
  change (p_n_jobs (with_random_state (VInt seed) a)) with (p_n_jobs a) in I1. change (p_n_jobs (with_random_state (VRng id) a)) with (p_n_jobs a) in I2.
  destruct (init_n_jobs V (p_n_jobs a)) as [nj|e]; [|discriminate]. injection I1 as <-. injection I2 as <-. unfold ridge_fit in *. cbn [rd_args rd_hyper rd_n_jobs rd_transformer] in *.
  change (ridge_rdst_args (with_random_state (VInt seed) a)) with (with_random_state (VInt seed) (ridge_rdst_args a)) in E.
  change (ridge_rdst_args (with_random_state (VRng id) a)) with (with_random_state (VRng id) (ridge_rdst_args a)).
  destruct (init_seed N V (ridge_rdst_args a) seed id h Hs Hi Hh) as [(e & k1 & k2 & E1 & E2)|(t & i1 & k1 & E1 & E2 & HR)]; rewrite E1 in E; rewrite E2.
  - injection E as <- <- <-. do 2 eexists. split; [reflexivity|discriminate].
  - destruct (fit N rng V ex X y (set_rs i1 t) k1) as [[v t1] k3] eqn:Ef.
    destruct (reloc_fit N rng V i1 id true ex X y t k1 h v t1 k3 HR (or_introl eq_refl) Ef) as (t' & k4 & -> & Ef2 & _). rewrite Ef2.
    rewrite transform_set_rs in E. rewrite transform_set_rs.
    match type of E with context[match ?b with Ok _ => _ | Err _ => _ end] => destruct b as [c|e] end; injection E as <- <- <-; do 2 eexists; (split; [reflexivity|]); [reflexivity|discriminate].
Qed.
Print Assumptions C99_ridge_seed.

(** From the second fit on they differ: a seed starts again at every fit (C37_ridge_seeded), a generator goes on. *)
Definition rshapelets (r : @ridge Z unit unit (list Z)) : option (@fitted Z) := match rd_transformer r with Some t => e_shapelets t | None => None end.
Theorem C99_ridge_refit_refuted : exists r1 r2 h a1 k1 b1 l1 a2 k2 b2 l2, nthZ h 1 = Some (v_new zenv 0) /\
  ridge_init zenv (zargs (VInt 0)) tt = Ok r1 /\ ridge_init zenv (zargs (VRng 1)) tt = Ok r2 /\
  ridge_fit ZN zrng zenv zsk in_order zX1 [5; 7] r1 h = (Ok tt, a1, k1) /\ ridge_fit ZN zrng zenv zsk in_order zX1 [5; 7] a1 k1 = (Ok tt, b1, l1) /\
  ridge_fit ZN zrng zenv zsk in_order zX1 [5; 7] r2 h = (Ok tt, a2, k2) /\ ridge_fit ZN zrng zenv zsk in_order zX1 [5; 7] a2 k2 = (Ok tt, b2, l2) /\
  rshapelets a2 = rshapelets a1 /\ rshapelets b1 = rshapelets a1 /\ rshapelets b2 <> rshapelets b1.
Proof.
  do 2 eexists. exists [9; 0]. do 8 eexists. do 7 (split; [vm_compute; reflexivity|]). split; [vm_compute; reflexivity|]. split; [vm_compute; reflexivity|]. vm_compute. discriminate.
Qed.
Print Assumptions C99_ridge_refit_refuted.
