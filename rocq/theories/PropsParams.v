(** Property C78: the classifiers hand their parameters over to the transformers they build. *)
From Coq Require Import String ZArith List Bool Reals Lia.
From Verif Require Import Prelude Num Kernel Spec KernelProofs Parallel Apply ApplyProofs Gen GenSched Checks ChecksProofs Estimator EstimatorNum EstimatorLaws EstimatorCases PropsChecks PropsEstimator
  Preproc Classifiers ClassifierProofs EnsembleProofs PropsClassifiers.
Import ListNotations.
Open Scope Z_scope.

(** [t] is a fitted transformer that was given the parameters [a], with [pn] as proba_norm.  fit replaces "auto", lengths
    given as proportions or by bounds, max_channels=None and min_len (always for arrays). *)
Record has_params {F} (N : NumOps F) (a : @rargs F) (pn : pyv F) (t : @est F) : Prop := {
  hp_type : exists ty, type_value (p_transform_type a) ty /\ forall k, ty = TKind k -> e_type t = TKind k;
  hp_phase : p_phase_invariance a = VBool (e_phase t);
  hp_prime : p_prime_dilations a = VBool (e_prime t);
  hp_alpha : e_alpha t = p_alpha a;
  hp_samples : e_n_samples t = p_n_samples a;
  hp_shapelets : p_n_shapelets a = VInt (e_n_shapelets t) \/ exists x, p_n_shapelets a = VFloat x /\ e_n_shapelets t = ntrunc N x;
  hp_lengths : exists A, array1 N (p_shapelet_lengths a) A /\ (p_bounds a = VNone -> (forall sh cells, A <> VArr sh DFloat64 cells) -> e_lengths t = A);
  hp_bounds : (p_bounds a = VNone /\ e_bounds t = None) \/
    exists b0 b1, py_len (p_bounds a) = Ok 2 /\ py_item (p_bounds a) 0 = Ok b0 /\ py_item (p_bounds a) 1 = Ok b1 /\ e_bounds t = Some (b0, b1);
  hp_reduction : e_reduction t = p_reduction a;
  hp_proba : e_proba_norm t = pn;
  hp_percentiles : array1 N (p_percentiles a) (e_percentiles t);
  hp_channels : forall c, p_max_channels a = Some c -> e_max_channels t = Some c;
  hp_min_len : forall m k, p_min_len a = Some m -> e_type t = TKind k -> kind_vl k = true -> e_min_len t = Some m
}.

Lemma fitted_params {F} (N : NumOps F) {S} (rng : Rng F S) {RS} (V : pyenv RS) ex a h s h1 X y h2 t h3 :
  init N V a h = (Ok s, h1) -> fit N rng V ex X y s h2 = (Ok tt, t, h3) -> has_params N a (p_proba_norm a) t /\ e_rs t = e_rs s.
Proof.
  intros HI HF. apply C41_constructor in HI as (I1 & I2 & I3 & I4 & (_ & I5) & (_ & I6) & I7 & I8 & I9 & (_ & _ & I10) & (_ & I11) & (I12 & _) & I13 & I14 & I15 & I16 & I17 & I18).
  destruct (fit_ok _ _ _ _ _ _ _ _ _ _ _ HF) as (q & s1 & f & HP & _ & ->).
  destruct (prepare_ok _ _ _ _ _ _ _ _ _ HP) as (k & D & sh & lens & m & ls & D' & y' & sizes & seed & pc & al & pn & HT & HR & _ & _ & HL & _ & _ & _ & _ & _ & _ & ->).
  split; [|reflexivity]. constructor; cbn [e_type e_phase e_prime e_alpha e_n_samples e_n_shapelets e_lengths e_bounds e_reduction e_proba_norm e_percentiles e_max_channels e_min_len e_rs
    set_shapelets set_lengths_attr set_max_channels set_min_len set_kind set_type]; auto.
  - exists (e_type s). split; [exact I1|]. intros k' Hk. destruct HT as [E|[E _]]; congruence.
  - exists (e_lengths s). split; [exact I8|]. intros Hb HA. destruct I9 as [[_ E]|(b0 & b1 & Q & _)]; [|rewrite Hb in Q; discriminate Q].
    unfold set_lengths in HL. rewrite E in HL. destruct (e_lengths s) as [| | | | | | | sh' dt cells | | |]; try congruence. destruct dt; congruence.
  - intros c Hc. rewrite I15, Hc. reflexivity.
  - intros m' k' Hm Hk Hv. assert (k' = k) by congruence. subst k'. rewrite I16, Hm in HR. unfold read_as in HR. rewrite Hv in HR. destruct HR as (l & _ & _ & _ & [E|[E _]]); congruence.
Qed.

(** ** R_DST_Ridge *)

(** After a successful fit the attribute transformer is an R_DST with the parameters of the classifier (max_channels is not
    one of them), its generator included, fitted on the data; the ridge classifier was built with the ridge parameters and
    fitted on the scaled varying features and the labels. *)
Theorem C78_ridge : forall F (N : NumOps F) S (rng : Rng F S) RS (V : pyenv RS) SC P M (K : sklearn F SC P M) ex a p r X y h r' h',
  ridge_init V a p = Ok r -> p_max_channels a = None -> ridge_fit N rng V K ex X y r h = (Ok tt, r', h') ->
  exists t h1 s T sc m Q Qs, rd_transformer r' = Some t /\ has_params N a (p_proba_norm a) t /\ seed_value V (p_random_state a) h (e_rs t) h1 /\
    fit N rng V ex X y s h1 = (Ok tt, t, h') /\ transform N t X = Ok T /\
    rd_classifier r' = Some (Some (sc, m)) /\ take_cols T (sc_atts sc) = Ok Q /\ k_scale_fit K Q = Ok (sc_inner sc) /\ k_scale K (sc_inner sc) Q = Ok Qs /\ k_ridge_fit K p Qs y = Ok m.
Proof.
  intros F N S rng RS V SC P M K ex a p r X y h r' h' HI Hmc HR. unfold ridge_init in HI. apply bind_inv in HI as (nj & _ & HI).
  assert (Er : mkRidge (SC := SC) (M := M) a p nj None None = r) by congruence. rewrite <- Er in HR. clear HI Er r.
  unfold ridge_fit in HR. cbn [rd_args rd_hyper rd_n_jobs rd_transformer] in HR. destruct (init N V (ridge_rdst_args a) h) as [[s|er] h1] eqn:EI; [|discriminate HR].
  destruct (fit N rng V ex X y s h1) as [[u t] h2] eqn:EF. destruct u as [[]|er]; [|discriminate HR]. cbn [bind] in HR.
  destruct (transform N t X) as [T|er] eqn:ET; [|discriminate HR]. cbn [bind] in HR. destruct (pipe_fit N K p T y) as [[sc m]|er] eqn:EP; [|discriminate HR].
  injection HR as <- <-. pose proof (fitted_params N rng V ex _ _ _ _ _ _ _ _ _ EI EF) as [HP Hrs].
  apply C41_constructor in EI as (_ & _ & _ & _ & _ & _ & _ & _ & _ & _ & _ & _ & I13 & _).
  unfold pipe_fit in EP. apply bind_inv in EP as (sc' & E1 & EP). apply bind_inv in EP as (Qs & E2 & EP). apply bind_inv in EP as (m' & E3 & EP). injection EP as -> ->.
  unfold c_fit in E1. apply bind_inv in E1 as (atts & A1 & E1). apply bind_inv in E1 as (Q & A2 & E1). apply bind_inv in E1 as (si & A3 & E1). injection E1 as <-.
  unfold c_transform in E2. cbn [sc_atts sc_inner] in *. rewrite A2 in E2. cbn [bind] in E2.
  exists t, h1, s, T, (mkScaler atts si), m, Q, Qs. split; [reflexivity|]. split; [|rewrite Hrs; auto 10].
  destruct HP. constructor; auto. intros c Hc. congruence.
Qed.
Print Assumptions C78_ridge.

(** ** R_DST_Ensemble *)

Lemma array1_twice {F} (N : NumOps F) (v A B : pyv F) : array1 N v A -> array1 N A B -> B = A /\ array1 N v B.
Proof.
  intros HA [HB _]. pose proof HA as [_ (n & Sh & _)]. assert (B = A) as ->.
  { destruct HB as [[_ E]|[[E _]|(l & -> & _)]]; [exact E|discriminate E|discriminate Sh]. }
  split; [reflexivity|exact HA].
Qed.

Lemma mapM_rank {A B} (f : A -> res B) l ys i x : mapM f l = Ok ys -> nthZ l i = Some x -> exists y, nthZ ys i = Some y /\ f x = Ok y.
Proof.
  intros H Hx. apply mapM_Forall2 in H. revert i Hx. induction H as [|a b l' ys' Hab _ IH]; intros i Hi; [apply nthZ_In in Hi; destruct Hi|].
  destruct (Z.eq_dec i 0) as [->|Hne].
  - change (Some a = Some x) in Hi. injection Hi as <-. exists b. split; [reflexivity|exact Hab].
  - pose proof (nthZ_range _ _ _ Hi). assert (0 < i) by (clear - H Hne; lia). rewrite nthZ_cons_pos in Hi by assumption. rewrite nthZ_cons_pos by assumption. apply IH. exact Hi.
Qed.

Lemma random_state_seed {F RS} (V : pyenv RS) (v : pyv F) h id h' : check_random_state V v h = (Ok id, h') -> seed_value V v h id h'.
Proof.
  assert (HS : forall z, (if (0 <=? z) && (z <? 2 ^ 32) then (Ok (zlen h), h ++ [v_new V z]) else (Err ValueError, h)) = (Ok id, h') -> 0 <= z < 2 ^ 32 /\ id = zlen h /\ h' = h ++ [v_new V z]).
  { intros z. destruct (Z.leb_spec 0 z), (Z.ltb_spec z (2 ^ 32)); cbn [andb]; intros E; try discriminate E. assert (id = zlen h /\ h' = h ++ [v_new V z]) by (split; congruence). tauto. }
  unfold seed_value, check_random_state. destruct v as [|b|z| | | | | | |id'|]; try discriminate.
  - intros E. left. split; [reflexivity|]. split; congruence.
  - intros E. apply HS in E. right. right. exists (if b then 1 else 0). split; [|exact E]. right. destruct b; split; try reflexivity; lia.
  - intros E. apply HS in E. right. right. exists z. split; [left; reflexivity|exact E].
  - intros E. right. left. split; congruence.
Qed.

Lemma run_members_in {F} (N : NumOps F) {S} (rng : Rng F S) {RS} (V : pyenv RS) {SC P M} (K : sklearn F SC P M) ex (e : @ens F SC P M) X y sched :
  forall h ms h', run_members N rng V K ex e X y sched h = (Ok ms, h') ->
  forall i m, In (i, m) ms -> exists h1 h2, member_fit N rng V K ex e X y i h1 = (Ok m, h2).
Proof.
  induction sched as [|j t IH]; intros h ms h' H i m Hin; cbn [run_members] in H.
  - injection H as <- _. destruct Hin.
  - destruct (member_fit N rng V K ex e X y j h) as [[m0|er] h1] eqn:Em; [|discriminate H].
    destruct (run_members N rng V K ex e X y t h1) as [[ms1|er] h2] eqn:Er; [|discriminate H]. injection H as <- <-.
    destruct Hin as [E|Hin]; [injection E as <- <-; eauto|eauto].
Qed.

(** After a successful fit (whatever the order in which the members ran) there is one model per input transformer.  The
    model of rank [i] holds the transformer of rank [i], an R_DST with the parameters of the ensemble and the [i]-th value
    of proba_norm, drawing from the generator of the ensemble, and a ridge classifier built with the ridge parameters
    and trained on the scaled features that this R_DST gives of what the transformer returned. *)
Theorem C78_ensemble : forall F (N : NumOps F) S (rng : Rng F S) RS (V : pyenv RS) SC P M (K : sklearn F SC P M) ex sched a p aw proba trans h0 e h1 X y h e' h',
  ens_init N V a p aw proba trans h0 = (Ok e, h1) -> ens_fit N rng V K ex sched X y e h = (Ok tt, e', h') ->
  exists models ws sh dt pns, en_fitted e' = Some (models, ws) /\ array1 N proba (VArr sh dt pns) /\ zlen models = zlen trans /\ sh = [zlen trans] /\
    forall i m, nthZ models i = Some m ->
      nthZ trans i = Some (m_in m) /\
      (exists pn, nthZ pns i = Some pn /\ has_params N a pn (m_rdst m)) /\
      seed_value V (p_random_state a) h0 (e_rs (m_rdst m)) h1 /\
      exists X1 T hi hi' s, m_in m X = Ok X1 /\ fit N rng V ex X1 y s hi = (Ok tt, m_rdst m, hi') /\ transform N (m_rdst m) X1 = Ok T /\ ridge_trained K p T y (m_ridge m).
Proof.
  intros F N S rng RS V SC P M K ex sched a p aw proba trans h0 e h1 X y h e' h' HI HF. unfold ens_init in HI.
  match type of HI with context[match ?b with Ok _ => _ | Err _ => _ end] => destruct b as [[[[ph no] ns] pr]|er] eqn:EB; [|discriminate HI] end.
  apply bind_inv in EB as (ph' & B1 & EB). apply bind_inv in EB as (no' & B2 & EB). apply bind_inv in EB as (ns' & B3 & EB). apply bind_inv in EB as (pr' & B4 & EB).
  injection EB as -> -> -> ->.
  destruct (check_random_state V (p_random_state a) h0) as [rid hh] eqn:ERS. injection HI as HI <-.
  apply bind_inv in HI as (id & -> & HI). apply bind_inv in HI as (nsh & A1 & HI). apply bind_inv in HI as (sl & A2 & HI). apply bind_inv in HI as (al & A3 & HI).
  apply bind_inv in HI as (aw' & A4 & HI). apply bind_inv in HI as (pnv & A5 & HI). apply bind_inv in HI as (n & A6 & HI). apply bind_inv in HI as (ps & A7 & HI).
  apply bind_inv in HI as ([] & A8 & HI). apply guard_ok in A8. apply Z.eqb_eq in A8.
  assert (CA : forall v A : pyv F, check_array_1D N v = Ok A -> array1 N v A) by (intros v A HA; apply (C42_check_array_1D N v); exact HA).
  apply CA in A2. apply CA in A5. destruct pnv as [| | | | | | | sh dt cells | | |]; try discriminate A7. injection A7 as ->.
  assert (Ee : mkEns (SC := SC) (M := M) (mkArgs (p_transform_type a) (VBool ph) al (VBool no) ns nsh sl (p_bounds a) (p_reduction a) (VBool pr)
                    VNone (p_percentiles a) (VRng id) (p_max_channels a) (p_min_len a) VNone) p aw' ps trans id (p_n_jobs a) None None = e) by congruence.
  clear HI. destruct (ens_fit_ok _ _ _ _ _ _ _ _ _ _ _ _ HF) as (e1 & total & ms & models & ws & _ & _ & _ & _ & Hr & Hf & _ & He & _).
  rewrite <- Ee in Hr, Hf. clear HF Ee. cbn [en_trans] in Hf. exists models, ws, sh, dt, ps. split; [exact He|]. split; [exact A5|].
  assert (Hsh : sh = [zlen trans]).
  { destruct A5 as [_ (n' & Sh & _)]. cbn [Checks.shape] in Sh. subst sh. cbn in A6. f_equal. congruence. }
  pose proof (zlen_nonneg trans) as Hz.
  split; [unfold zlen at 1; rewrite (mapM_length _ _ _ Hf); fold (zlen (zrange 0 (zlen trans))); rewrite zlen_zrange; lia|]. split; [exact Hsh|].
  intros i m Hi. assert (Hb : 0 <= i < zlen trans).
  { apply nthZ_range in Hi. unfold zlen in Hi at 1. rewrite (mapM_length _ _ _ Hf) in Hi. fold (zlen (zrange 0 (zlen trans))) in Hi. rewrite zlen_zrange in Hi. lia. }
  assert (Hm : find_member ms i = Ok m).
  { assert (Hr' : nthZ (zrange 0 (zlen trans)) i = Some i) by (rewrite nthZ_zrange by lia; f_equal; lia).
    destruct (mapM_rank _ _ _ _ _ Hf Hr') as (m' & Hm' & E). congruence. }
  assert (Hin : In (i, m) ms).
  { unfold find_member in Hm. destruct (filter (fun q => fst q =? i) ms) as [|[j m0] t] eqn:Ef; [discriminate Hm|]. injection Hm as ->.
    assert (Hj : In (j, m) (filter (fun q => fst q =? i) ms)) by (rewrite Ef; left; reflexivity). apply filter_In in Hj as [Hj E]. apply Z.eqb_eq in E. cbn in E. subst j. exact Hj. }
  destruct (run_members_in _ _ _ _ _ _ _ _ _ _ _ _ Hr _ _ Hin) as (hi & hi' & HM). unfold member_fit in HM. cbn [en_trans en_probas en_hyper] in HM.
  destruct (get trans i) as [tr|er] eqn:Et; [|discriminate HM]. destruct (get ps i) as [pn|er] eqn:Ep; [|discriminate HM]. cbn [bind] in HM.
  match type of HM with context[init N V ?b hi] => destruct (init N V b hi) as [[s|er] hj] eqn:EI; [|discriminate HM] end.
  destruct (tr X) as [X1|er] eqn:EX; [|discriminate HM]. destruct (fit N rng V ex X1 y s hj) as [[u1 t] hk] eqn:EF. injection HM as HM <-.
  apply bind_inv in HM as (u2 & -> & HM). apply bind_inv in HM as (T & ET & HM). apply bind_inv in HM as (c & EC & HM).
  assert (Em : mkMember tr t c = m) by congruence. rewrite <- Em. clear HM Em Hin Hm Hi. cbn [m_in m_rdst m_ridge]. destruct u2.
  pose proof (fitted_params N rng V ex _ _ _ _ _ _ _ _ _ EI EF) as [HP Hrs].
  apply C41_constructor in EI as (_ & _ & _ & _ & _ & _ & _ & I8 & _ & _ & _ & _ & I13 & _).
  destruct I13 as [(Q & _)|[(Q & _)|(z & [Q|[Q _]] & _)]]; try discriminate Q. assert (Eid : e_rs s = id) by (cbn in Q; congruence).
  apply (get_nthZ trans i) in Et; [|lia]. apply (get_nthZ ps i) in Ep; [|lia].
  split; [exact Et|]. split.
  - exists pn. split; [exact Ep|]. destruct HP as [P1 P2 P3 P4 P5 P6 P7 P8 P9 P10 P11 P12 P13].
    cbn [member_args en_args p_transform_type p_phase_invariance p_alpha p_n_samples p_n_shapelets p_shapelet_lengths p_bounds p_reduction p_prime_dilations p_proba_norm p_percentiles p_max_channels p_min_len] in *.
    assert (CN : forall v w : pyv F, check_is_numeric v = Ok w -> w = v) by (intros v w; destruct v; cbn; congruence).
    assert (CB : forall (v : pyv F) b, check_is_boolean v = Ok b -> v = VBool b) by (intros v b; destruct v; cbn; congruence).
    apply CB in B1, B4. apply CN in A1, A3. subst nsh al. constructor; auto; try congruence.
    + rewrite P5. destruct (p_n_samples a) eqn:En; try (rewrite <- En in *; apply CN in B3; congruence). congruence.
    + destruct P7 as (A & HA & HL). destruct (array1_twice _ _ _ _ A2 HA) as [-> HA']. exists sl. split; [exact HA'|exact HL].
  - split; [rewrite Hrs, Eid; apply random_state_seed; exact ERS|]. apply iridge_ok in EC. exists X1, T, hj, hk, s. auto.
Qed.
Print Assumptions C78_ensemble.

(** A variable-length ridge with min_len=3, and an ensemble of two members with distinct proba_norm fitted in the order 1, 0. *)
Definition params_X : pyv Z := VList [VArr [2; 4] DInt64 (intcells [1; 2; 3; 9;  2; 1; 0; 5]); VArr [2; 5] DInt64 (intcells [2; 1; 0; 5; 7;  1; 2; 3; 9; 9])].
Definition params_args : @rargs Z :=
  mkArgs (VStr "multivariate_variable") (VBool false) (VInt 0) (VBool false) VNone (VInt 1) (VList [VInt 2]) VNone (VInt 0) (VBool false) (VInt 0)
    (VList [VInt 0; VInt 100]) (VInt 7) None (Some 3) (VInt 6).
Example C78_case : (exists r r' h' t, ridge_init zenv params_args tt = Ok r /\ ridge_fit ZN zrng zenv zsk in_order params_X [0; 1] r [0] = (Ok tt, r', h') /\
    rd_transformer r' = Some t /\ e_type t = TKind KMV /\ e_min_len t = Some 3 /\ e_lengths t = ints [2]) /\
  exists e h1 e' h' m0 m1 ws, ens_init (SC := unit) (M := list Z) ZN zenv (zargs (VInt 0)) tt (VInt 4) (VList [VInt 0; VInt 1]) ztrans [0] = (Ok e, h1) /\
    ens_fit ZN zrng zenv zsk in_order [1; 0] zX1 [0; 1] e h1 = (Ok tt, e', h') /\ en_fitted e' = Some ([m0; m1], ws) /\
    e_proba_norm (m_rdst m0) = VInt 0 /\ e_proba_norm (m_rdst m1) = VInt 1.
Proof.
  split.
  - do 4 eexists. split; [vm_compute; reflexivity|]. split; [vm_compute; reflexivity|]. split; [reflexivity|]. repeat split; reflexivity.
  - do 7 eexists. split; [vm_compute; reflexivity|]. split; [vm_compute; reflexivity|]. split; [reflexivity|]. repeat split; reflexivity.
Qed.
