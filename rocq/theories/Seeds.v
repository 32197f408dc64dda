(** What fit does to the random generators of the program. *)
From Coq Require Import ZArith List Bool Lia.
From Verif Require Import Prelude Num Kernel Parallel Apply Gen Checks Estimator EstimatorProofs EstimatorLaws EstimatorCases Preproc NumbaUtilsProofs Classifiers ClassifierProofs.
Import ListNotations.
Open Scope Z_scope.

Section QUIET.
Context {F : Type} (N : NumOps F) {S : Type} (rng : Rng F S) {RS : Type} (V : pyenv RS).

(** without n_samples only the generator of the object changes *)
Definition quiet {A} (m : @ES F RS A) : Prop := forall s h r s' h', e_n_samples s = VNone -> 0 <= e_rs s -> m s h = (r, s', h') ->
  e_n_samples s' = VNone /\ e_rs s' = e_rs s /\ zlen h' = zlen h /\ forall i, i <> e_rs s -> nthZ h' i = nthZ h i.

Lemma quiet_lift {A} (m : res A) : quiet (liftE m).
Proof. intros s h r s' h' Hn _ E. injection E as <- <- <-. auto. Qed.
Lemma quiet_ret {A} (a : A) : quiet (retE a).
Proof. intros s h r s' h' Hn _ E. injection E as <- <- <-. auto. Qed.
Lemma quiet_bind {A B} (m : ES A) (f : A -> ES B) : quiet m -> (forall a, quiet (f a)) -> quiet (bindE m f).
Proof.
  intros Hm Hf s h r s' h' Hn Hp E. unfold bindE in E. destruct (m s h) as [[[a|e] s0] h0] eqn:Em; destruct (Hm _ _ _ _ _ Hn Hp Em) as (A1 & A2 & A3 & A4).
  - rewrite <- A2 in Hp. destruct (Hf a _ _ _ _ _ A1 Hp E) as (B1 & B2 & B3 & B4). split; [exact B1|]. split; [congruence|]. split; [congruence|].
    intros i Hi. rewrite B4 by (rewrite A2; exact Hi). apply A4. exact Hi.
  - injection E as <- <- <-. auto.
Qed.
Lemma quiet_self {B} (f : est -> ES B) : (forall s, e_n_samples s = VNone -> quiet (f s)) -> quiet (bindE self f).
Proof. intros H s h r s' h' Hn Hp E. change (f s s h = (r, s', h')) in E. exact (H s Hn _ _ _ _ _ Hn Hp E). Qed.
Lemma quiet_put g : (forall s, e_n_samples (g s) = e_n_samples s /\ e_rs (g s) = e_rs s) -> quiet (put g).
Proof. intros H s h r s' h' Hn Hp E. injection E as <- <- <-. destruct (H s) as [-> ->]. auto. Qed.

Lemma quiet_draw_seed : quiet (draw_seed V).
Proof.
  intros s h r s' h' Hn Hp E. unfold draw_seed in E. destruct (get h (e_rs s)) as [g|e] eqn:Eg; [|injection E as <- <- <-; auto].
  destruct (v_randint V g) as [z g']. destruct (set h (e_rs s) g') as [h1|e] eqn:Es; [|injection E as <- <- <-; auto]. injection E as <- <- <-.
  split; [exact Hn|]. split; [reflexivity|]. apply get_range in Eg. rewrite set_ok in Es by lia. injection Es as <-. split; [apply zlen_upd|].
  intros i Hi. rewrite nthZ_upd by lia. destruct (Z.eqb_spec i (e_rs s)); [contradiction|reflexivity].
Qed.

Lemma quiet_set_fit_transform X : quiet (set_fit_transform N X).
Proof.
  unfold set_fit_transform. apply quiet_self. intros s _. apply quiet_bind.
  - destruct (e_type s); [|apply quiet_ret..]. apply quiet_bind; [apply quiet_lift|intros ty].
    apply quiet_bind; [apply quiet_put; auto|intros _; apply quiet_ret].
  - intros [|k|]; [apply quiet_lift|apply quiet_put; auto|apply quiet_lift].
Qed.
Lemma quiet_read_X k X : quiet (read_X N k X).
Proof.
  unfold read_X. destruct (kind_vl k).
  - apply quiet_bind; [apply quiet_lift|intros [[D sh] lens]]. apply quiet_bind; [apply quiet_lift|intros _].
    apply quiet_self. intros s _. apply quiet_bind; [|intros _; apply quiet_ret].
    destruct (e_min_len s); [apply quiet_ret|]. apply quiet_bind; [apply quiet_lift|intros m; apply quiet_put; auto].
  - apply quiet_bind; [apply quiet_lift|intros A]. apply quiet_bind; [apply quiet_lift|intros D].
    apply quiet_bind; [apply quiet_put; auto|intros _; apply quiet_ret].
Qed.
Lemma quiet_subsample D y n : quiet (subsample N V D y n).
Proof. unfold subsample. apply quiet_self. intros s ->. apply quiet_ret. Qed.

Lemma quiet_prepare X y : quiet (prepare N V X y).
Proof.
  unfold prepare. apply quiet_bind; [apply quiet_set_fit_transform|intros _].
  apply quiet_self; intros s _. apply quiet_bind; [destruct (e_type s); apply quiet_ret || apply quiet_lift|intros k].
  apply quiet_bind; [apply quiet_read_X|intros [[D sh] lens]]. apply quiet_bind; [apply quiet_subsample|intros [D' y']].
  apply quiet_self; intros s1 _. apply quiet_bind.
  { destruct (e_max_channels s1); [apply quiet_ret|apply quiet_put; auto]. }
  intros _. apply quiet_self; intros s2 _. apply quiet_bind; [apply quiet_lift|intros ls].
  apply quiet_bind; [apply quiet_put; auto|intros _]. apply quiet_bind; [apply quiet_lift|intros sizes].
  apply quiet_bind; [apply quiet_draw_seed|intros seed]. apply quiet_self; intros s3 _.
  apply quiet_bind; [apply quiet_lift|intros pc]. apply quiet_bind; [apply quiet_lift|intros al].
  apply quiet_bind; [apply quiet_lift|intros pn]. apply quiet_ret.
Qed.
Lemma quiet_fit ex X y : quiet (fit N rng V ex X y).
Proof.
  unfold fit. apply quiet_bind; [apply quiet_prepare|intros q]. apply quiet_bind; [apply quiet_lift|intros f]. apply quiet_put. auto.
Qed.

Lemma set_rs_self (s : @est F) : set_rs (e_rs s) s = s.
Proof. destruct s. reflexivity. Qed.
Lemma set_rs_set i j (s : @est F) : set_rs i (set_rs j s) = set_rs i s.
Proof. reflexivity. Qed.

(** the outcome depends on the generator of the object only *)
Lemma fit_own ex X y s h1 h2 r s1 k1 : e_n_samples s = VNone -> 0 <= e_rs s -> nthZ h1 (e_rs s) = nthZ h2 (e_rs s) -> fit N rng V ex X y s h1 = (r, s1, k1) ->
  exists k2, fit N rng V ex X y s h2 = (r, s1, k2) /\ nthZ k1 (e_rs s) = nthZ k2 (e_rs s).
Proof.
  intros Hn Hp Hh E. assert (HR : hrel (e_rs s) (e_rs s) false h1 h2) by (split; [exact Hp|]; split; [exact Hp|]; split; [discriminate|exact Hh]).
  rewrite <- (set_rs_self s) in E at 1. destruct (reloc_fit N rng V (e_rs s) (e_rs s) false ex X y s h1 h2 r s1 k1 HR (or_intror Hn) E) as (s' & k2 & -> & E2 & (_ & _ & _ & HR') & _).
  rewrite set_rs_self in E2. exists k2. auto.
Qed.

Lemma fit_commute ex1 X1 y1 s1 ex2 X2 y2 s2 h r1 s1' h1 r2 s2' h12 q2 t2 h2 q1 t1 h21 :
  e_n_samples s1 = VNone -> e_n_samples s2 = VNone -> 0 <= e_rs s1 -> 0 <= e_rs s2 -> e_rs s1 <> e_rs s2 ->
  fit N rng V ex1 X1 y1 s1 h = (r1, s1', h1) -> fit N rng V ex2 X2 y2 s2 h1 = (r2, s2', h12) ->
  fit N rng V ex2 X2 y2 s2 h = (q2, t2, h2) -> fit N rng V ex1 X1 y1 s1 h2 = (q1, t1, h21) ->
  q1 = r1 /\ t1 = s1' /\ q2 = r2 /\ t2 = s2' /\ h21 = h12.
Proof.
  intros N1 N2 P1 P2 D E1 E12 E2 E21.
  destruct (quiet_fit ex1 X1 y1 _ _ _ _ _ N1 P1 E1) as (_ & _ & L1 & Q1). destruct (quiet_fit ex2 X2 y2 _ _ _ _ _ N2 P2 E12) as (_ & _ & L12 & Q12).
  destruct (quiet_fit ex2 X2 y2 _ _ _ _ _ N2 P2 E2) as (_ & _ & L2 & Q2). destruct (quiet_fit ex1 X1 y1 _ _ _ _ _ N1 P1 E21) as (_ & _ & L21 & Q21).
  destruct (fit_own ex1 X1 y1 s1 h h2 _ _ _ N1 P1 (eq_sym (Q2 _ D)) E1) as (k & A & B). rewrite E21 in A. injection A as -> -> <-.
  destruct (fit_own ex2 X2 y2 s2 h1 h _ _ _ N2 P2 (Q1 _ (not_eq_sym D)) E12) as (k & A & C). rewrite E2 in A. injection A as -> -> <-.
  do 4 (split; [reflexivity|]). apply nthZ_ext; [congruence|]. intros i _. destruct (Z.eq_dec i (e_rs s1)) as [->|Hi].
  - rewrite <- B, Q12 by exact D. reflexivity.
  - rewrite Q21 by exact Hi. destruct (Z.eq_dec i (e_rs s2)) as [->|Hj]; [symmetry; exact C|]. rewrite Q12, Q2, Q1 by assumption. reflexivity.
Qed.

(** a seed and a generator made from it *)
Definition with_random_state (x : pyv F) (a : @rargs F) : @rargs F := mkArgs (p_transform_type a) (p_phase_invariance a) (p_alpha a) (p_normalize_output a)
  (p_n_samples a) (p_n_shapelets a) (p_shapelet_lengths a) (p_bounds a) (p_reduction a) (p_prime_dilations a) (p_proba_norm a) (p_percentiles a) x (p_max_channels a) (p_min_len a) (p_n_jobs a).

Lemma init_seed a seed id h : 0 <= seed < 2 ^ 32 -> 0 < id -> nthZ h id = Some (v_new V seed) ->
  (exists e h1 h2, init N V (with_random_state (VInt seed) a) h = (Err e, h1) /\ init N V (with_random_state (VRng id) a) h = (Err e, h2)) \/
  exists t i1 h1, init N V (with_random_state (VInt seed) a) h = (Ok (set_rs i1 t), h1) /\ init N V (with_random_state (VRng id) a) h = (Ok (set_rs id t), h) /\
    hrel i1 id true h1 h.
Proof.
  intros Hs Hi Hh. pose proof (nthZ_range _ _ _ Hh) as Hr. unfold init. cbn [with_random_state p_transform_type p_phase_invariance p_alpha p_normalize_output p_n_samples p_n_shapelets p_shapelet_lengths p_bounds p_reduction p_prime_dilations p_proba_norm p_percentiles p_random_state p_max_channels p_min_len p_n_jobs].
  match goal with |- context[match ?b with Ok _ => _ | Err _ => _ end] => destruct b as [[[[[[[[[[[[ty ph] al] no] ns] nsh] sl] bo] re] pr] pn] pc]|e0] eqn:EB end; [|left; eauto 6].
  unfold check_random_state. replace ((0 <=? seed) && (seed <? 2 ^ 32)) with true by (symmetry; apply andb_true_intro; split; [apply Z.leb_le; lia|apply Z.ltb_lt; lia]). cbn [bind].
  destruct (init_n_jobs V (p_n_jobs a)) as [nj|e]; [|left; cbn [bind]; eauto 6]. right. cbn [bind].
  exists (mkEst ty ph al no ns nsh sl bo re pr pn pc 0 nj (p_max_channels a) (p_min_len a) None None), (zlen h), (h ++ [v_new V seed]).
  split; [reflexivity|]. split; [reflexivity|]. split; [lia|]. split; [lia|]. split; [intros _; split; [lia|rewrite nthZ_app_l by lia; reflexivity]|].
  rewrite nthZ_app_last. symmetry. exact Hh.
Qed.
End QUIET.
