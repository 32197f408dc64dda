(** Lemmas about the classifiers. *)
From Coq Require Import ZArith List Bool Lia.
From Verif Require Import Prelude Num Kernel Parallel Apply Gen Checks Estimator EstimatorProofs EstimatorLaws EstimatorCases Preproc NumbaUtilsProofs Classifiers.
Import ListNotations.
Open Scope Z_scope.

Definition set_rs {F} (id : Z) (s : @est F) : est := mkEst (e_type s) (e_phase s) (e_alpha s) (e_normout s) (e_n_samples s) (e_n_shapelets s)
  (e_lengths s) (e_bounds s) (e_reduction s) (e_prime s) (e_proba_norm s) (e_percentiles s) id (e_n_jobs s)
  (e_max_channels s) (e_min_len s) (e_kind s) (e_shapelets s).

(** ** Which generator object an estimator refers to does not matter, only its state *)

Section RELOC.
Context {F : Type} (N : NumOps F) {S : Type} (rng : Rng F S) {RS : Type} (V : pyenv RS) (i1 i2 : Z) (gl : bool).

(** The generators used by the two objects are in the same state, and so is (when [gl]) numpy's global one, which is
    used only if n_samples is not None. *)
Definition hrel (h1 h2 : @heap RS) : Prop :=
  0 <= i1 /\ 0 <= i2 /\ (gl = true -> (i1 = 0 <-> i2 = 0) /\ nthZ h1 0 = nthZ h2 0) /\ nthZ h1 i1 = nthZ h2 i2.
Definition okS (s : @est F) : Prop := gl = true \/ e_n_samples s = VNone.

Definition reloc {A} (m : @ES F RS A) : Prop := forall s h1 h2 r s1 h1', hrel h1 h2 -> okS s -> m (set_rs i1 s) h1 = (r, s1, h1') ->
  exists s' h2', s1 = set_rs i1 s' /\ m (set_rs i2 s) h2 = (r, set_rs i2 s', h2') /\ hrel h1' h2' /\ okS s'.

Lemma reloc_lift {A} (m : res A) : reloc (liftE m).
Proof. intros s h1 h2 r s1 h1' H O E. injection E as <- <- <-. exists s, h2. auto. Qed.
Lemma reloc_ret {A} (a : A) : reloc (retE a).
Proof. intros s h1 h2 r s1 h1' H O E. injection E as <- <- <-. exists s, h2. auto. Qed.
Lemma reloc_bind {A B} (m : ES A) (f : A -> ES B) : reloc m -> (forall a, reloc (f a)) -> reloc (bindE m f).
Proof.
  intros Hm Hf s h1 h2 r s1 h1' H O E. unfold bindE in *. destruct (m (set_rs i1 s) h1) as [[[a|e] s0] h0] eqn:Em.
  - destruct (Hm _ _ _ _ _ _ H O Em) as (s' & h2' & -> & -> & H' & O'). destruct (Hf a _ _ _ _ _ _ H' O' E) as (s2 & h3 & -> & E3 & H3). exists s2, h3. auto.
  - injection E as <- <- <-. destruct (Hm _ _ _ _ _ _ H O Em) as (s' & h2' & -> & -> & H' & O'). exists s', h2'. auto.
Qed.
Lemma reloc_self {B} (f : est -> ES B) : (forall i s, f (set_rs i s) = f s) -> (forall s, okS s -> reloc (f s)) -> reloc (bindE self f).
Proof.
  intros H1 H2 s h1 h2 r s1 h1' H O E. assert (E0 : forall s h, bindE self f s h = f s s h) by reflexivity. rewrite E0, H1 in E.
  destruct (H2 s O _ _ _ _ _ _ H O E) as (s' & h2' & A1 & A2 & A3). exists s', h2'. rewrite E0, H1. auto.
Qed.
Lemma reloc_put g : (forall i s, g (set_rs i s) = set_rs i (g s)) -> (forall s, e_n_samples (g s) = e_n_samples s) -> reloc (put g).
Proof.
  intros H HN s h1 h2 r s1 h1' HR O E. unfold put in *. rewrite H in E. injection E as <- <- <-. exists (g s), h2. rewrite H.
  do 2 (split; [reflexivity|]). split; [exact HR|]. unfold okS. rewrite HN. exact O.
Qed.

Lemma reloc_set_fit_transform X : reloc (set_fit_transform N X).
Proof.
  unfold set_fit_transform. apply reloc_self; [reflexivity|]. intros s _. apply reloc_bind.
  - destruct (e_type s); [|apply reloc_ret..]. apply reloc_bind; [apply reloc_lift|intros ty].
    apply reloc_bind; [apply reloc_put; [reflexivity|reflexivity]|intros _; apply reloc_ret].
  - intros [|k|]; [apply reloc_lift|apply reloc_put; [reflexivity|reflexivity]|apply reloc_lift].
Qed.

Lemma reloc_read_X k X : reloc (read_X N k X).
Proof.
  unfold read_X. destruct (kind_vl k).
  - apply reloc_bind; [apply reloc_lift|intros [[D sh] lens]]. apply reloc_bind; [apply reloc_lift|intros _].
    apply reloc_self; [reflexivity|intros s _]. apply reloc_bind; [|intros _; apply reloc_ret].
    destruct (e_min_len s); [apply reloc_ret|]. apply reloc_bind; [apply reloc_lift|intros m; apply reloc_put; [reflexivity|reflexivity]].
  - apply reloc_bind; [apply reloc_lift|intros A]. apply reloc_bind; [apply reloc_lift|intros D].
    apply reloc_bind; [apply reloc_put; [reflexivity|reflexivity]|intros _; apply reloc_ret].
Qed.

Lemma nthZ_cons_pos {A} (x : A) l i : 0 < i -> nthZ (x :: l) i = nthZ l (i - 1).
Proof. intros H. rewrite nthZ_cons. destruct (Z.eqb_spec i 0); [lia|reflexivity]. Qed.

Lemma reloc_resample n r k y : gl = true -> reloc (call_resample V n r k y).
Proof.
  intros Hg s h1 h2 r0 s1 h1' (P1 & P2 & HG & Hi) O E. destruct (HG Hg) as (Hz & H0). unfold call_resample in *. destruct h1 as [|g t].
  - destruct h2 as [|g2 t2]; [|discriminate H0]. injection E as <- <- <-. exists s, []. do 2 (split; [reflexivity|]). split; [|exact O].
    repeat split; auto; apply Hz.
  - destruct h2 as [|g2 t2]; [discriminate H0|]. change (Some g = Some g2) in H0. injection H0 as <-.
    destruct (v_resample V g n r k y) as [q g']. injection E as <- <- <-. exists s, (g' :: t2). do 2 (split; [reflexivity|]). split; [|exact O].
    do 3 (split; [auto|]). destruct (Z.eq_dec i1 0) as [->|Hn].
    + rewrite (proj1 Hz eq_refl). reflexivity.
    + assert (i2 <> 0) by tauto. rewrite !nthZ_cons_pos in * by lia. exact Hi.
Qed.

Lemma reloc_subsample D y n : reloc (subsample N V D y n).
Proof.
  unfold subsample. apply reloc_self; [reflexivity|intros s O].
  assert (W : gl = true -> forall v r, reloc (bindE (liftE (sample_count N n v)) (fun k => bindE (call_resample V n r k y) (fun ids =>
     bindE (liftE (mapM (get D) ids)) (fun X' => bindE (liftE (mapM (get y) ids)) (fun y' => retE (X', y'))))))).
  { intros Hg v r. apply reloc_bind; [apply reloc_lift|intros k]. apply reloc_bind; [apply reloc_resample; exact Hg|intros ids].
    apply reloc_bind; [apply reloc_lift|intros X']. apply reloc_bind; [apply reloc_lift|intros y']. apply reloc_ret. }
  destruct (e_n_samples s) eqn:En; try (assert (Hg : gl = true) by (destruct O as [O|O]; [exact O|congruence]);
    apply reloc_bind; [apply reloc_lift|intros r];
    destruct (nltb N r (n1 N)); [apply W; exact Hg|]; destruct (nltb N (n1 N) r); [apply W; exact Hg|apply reloc_ret]).
  apply reloc_ret.
Qed.

Lemma get_nthZ_eq {A} (h1 h2 : list A) a b : 0 <= a -> 0 <= b -> nthZ h1 a = nthZ h2 b ->
  (exists g, get h1 a = Ok g /\ get h2 b = Ok g /\ 0 <= a < zlen h1 /\ 0 <= b < zlen h2) \/ (get h1 a = Err OutOfBounds /\ get h2 b = Err OutOfBounds).
Proof.
  intros Ha Hb H. destruct (nthZ h1 a) as [g|] eqn:E1.
  - left. exists g. symmetry in H. repeat split; try lia; try (apply get_nthZ; [lia|assumption]); eapply nthZ_range; eauto.
  - right. symmetry in H. assert (G : forall (h : list A) a, 0 <= a -> nthZ h a = None -> get h a = Err OutOfBounds).
    { clear. intros h a Ha E. unfold get, wrap. destruct (Z.ltb_spec a 0); [lia|]. rewrite E. reflexivity. }
    split; apply G; auto.
Qed.

Lemma reloc_draw_seed : reloc (draw_seed V).
Proof.
  intros s h1 h2 r s1 h1' (P1 & P2 & HG & Hi) O E. unfold draw_seed in *. cbn [e_rs set_rs] in *.
  destruct (get_nthZ_eq _ _ _ _ P1 P2 Hi) as [(g & E1 & E2 & R1 & R2)|(E1 & E2)]; rewrite E1 in E; rewrite E2.
  - destruct (v_randint V g) as [z g']. rewrite set_ok in * by lia. injection E as <- <- <-. exists s. eexists. do 2 (split; [reflexivity|]). split; [|exact O].
    do 2 (split; [auto|]). split.
    + intros Hg. destruct (HG Hg) as (Hz & H0). split; [exact Hz|].
      rewrite !nthZ_upd by lia. destruct (Z.eqb_spec 0 i1), (Z.eqb_spec 0 i2); try reflexivity; try lia; exact H0.
    + rewrite !nthZ_upd by lia. rewrite !Z.eqb_refl. reflexivity.
  - injection E as <- <- <-. exists s, h2. repeat split; auto; try apply HG; auto.
Qed.

Lemma reloc_prepare X y : reloc (prepare N V X y).
Proof.
  unfold prepare. apply reloc_bind; [apply reloc_set_fit_transform|intros _].
  apply reloc_self; [reflexivity|intros s _]. apply reloc_bind; [destruct (e_type s); apply reloc_ret || apply reloc_lift|intros k].
  apply reloc_bind; [apply reloc_read_X|intros [[D sh] lens]]. apply reloc_bind; [apply reloc_subsample|intros [D' y']].
  apply reloc_self; [reflexivity|intros s1 _]. apply reloc_bind.
  { destruct (e_max_channels s1); [apply reloc_ret|apply reloc_put; [reflexivity|reflexivity]]. }
  intros _. apply reloc_self; [reflexivity|intros s2 _]. apply reloc_bind; [apply reloc_lift|intros ls].
  apply reloc_bind; [apply reloc_put; [reflexivity|reflexivity]|intros _]. apply reloc_bind; [apply reloc_lift|intros sizes].
  apply reloc_bind; [apply reloc_draw_seed|intros seed]. apply reloc_self; [reflexivity|intros s3 _].
  apply reloc_bind; [apply reloc_lift|intros pc]. apply reloc_bind; [apply reloc_lift|intros al].
  apply reloc_bind; [apply reloc_lift|intros pn]. apply reloc_ret.
Qed.

Lemma reloc_fit ex X y : reloc (fit N rng V ex X y).
Proof.
  unfold fit. apply reloc_bind; [apply reloc_prepare|intros q]. apply reloc_bind; [apply reloc_lift|intros f].
  apply reloc_put; reflexivity.
Qed.
End RELOC.

Lemma transform_set_rs {F} (N : NumOps F) i (s : @est F) X : transform N (set_rs i s) X = transform N s X.
Proof. reflexivity. Qed.

(** ** R_DST_Ridge *)

Section RIDGE.
Context {F : Type} (N : NumOps F) {S : Type} (rng : Rng F S) {RS : Type} (V : pyenv RS) {SC P M : Type} (K : sklearn F SC P M).

(** The generators a construction with these arguments draws from are in the same state in both heaps: the object given as
    random_state or, for None, numpy's global generator; and with n_samples, numpy's global generator. *)
Definition same_generators (a : @rargs F) (h1 h2 : @heap RS) : Prop :=
  h1 <> [] /\ h2 <> [] /\
  match p_random_state a with
  | VNone => nthZ h1 0 = nthZ h2 0
  | VRng id => 0 <= id /\ nthZ h1 id = nthZ h2 id
  | _ => True
  end /\
  (p_n_samples a <> VNone -> nthZ h1 0 = nthZ h2 0).

Definition uses_global (a : @rargs F) : bool := match p_n_samples a with VNone => false | _ => true end.

Lemma uses_global_true a : uses_global a = true -> p_n_samples a <> VNone.
Proof. unfold uses_global. destruct (p_n_samples a); congruence. Qed.

Lemma nthZ_app_l {A} (l l' : list A) i : 0 <= i < zlen l -> nthZ (l ++ l') i = nthZ l i.
Proof. intros H. unfold nthZ. destruct (i <? 0); [reflexivity|]. apply nth_error_app1. unfold zlen in H. lia. Qed.
Lemma nthZ_app_last {A} (l : list A) x : nthZ (l ++ [x]) (zlen l) = Some x.
Proof. unfold nthZ, zlen. destruct (Z.ltb_spec (Z.of_nat (length l)) 0); [lia|]. rewrite Nat2Z.id, nth_error_app2 by lia. rewrite Nat.sub_diag. reflexivity. Qed.
Lemma zlen_pos {A} (l : list A) : l <> [] -> 0 < zlen l.
Proof. destruct l; [contradiction|]. intros _. rewrite zlen_cons. pose proof (zlen_nonneg l). lia. Qed.

Lemma check_random_state_rel a h1 h2 : same_generators a h1 h2 ->
  (exists e h1' h2', check_random_state V (p_random_state a) h1 = (Err e, h1') /\ check_random_state V (p_random_state a) h2 = (Err e, h2')) \/
  exists i1 i2 h1' h2', check_random_state V (p_random_state a) h1 = (Ok i1, h1') /\ check_random_state V (p_random_state a) h2 = (Ok i2, h2') /\
    hrel i1 i2 (uses_global a) h1' h2'.
Proof.
  intros (N1 & N2 & HR & HG). apply zlen_pos in N1, N2.
  assert (Seed : forall s, (exists e h1' h2', (if (0 <=? s) && (s <? 2 ^ 32) then (Ok (zlen h1), h1 ++ [v_new V s]) else (Err ValueError, h1)) = (Err e, h1') /\
       (if (0 <=? s) && (s <? 2 ^ 32) then (Ok (zlen h2), h2 ++ [v_new V s]) else (Err ValueError, h2)) = (Err e, h2')) \/
     exists i1 i2 h1' h2', (if (0 <=? s) && (s <? 2 ^ 32) then (Ok (zlen h1), h1 ++ [v_new V s]) else (Err ValueError, h1)) = (Ok i1, h1') /\
       (if (0 <=? s) && (s <? 2 ^ 32) then (Ok (zlen h2), h2 ++ [v_new V s]) else (Err ValueError, h2)) = (Ok i2, h2') /\ hrel i1 i2 (uses_global a) h1' h2').
  { intros s. destruct ((0 <=? s) && (s <? 2 ^ 32)); [right|left; eauto 6]. do 4 eexists. split; [reflexivity|]. split; [reflexivity|].
    split; [lia|]. split; [lia|]. split.
    - intros Hg. split; [lia|]. rewrite !nthZ_app_l by lia. apply HG, uses_global_true, Hg.
    - rewrite !nthZ_app_last. reflexivity. }
  unfold check_random_state. destruct (p_random_state a); try (left; eauto 6; fail); try (apply Seed).
  - right. exists 0, 0, h1, h2. do 2 (split; [reflexivity|]). do 2 (split; [lia|]). split; [intros Hg; split; [tauto|exact HR]|exact HR].
  - right. destruct HR as [Hp HR]. do 4 eexists. do 2 (split; [reflexivity|]). do 2 (split; [exact Hp|]). split; [|exact HR].
    intros Hg. split; [tauto|]. apply HG, uses_global_true, Hg.
Qed.

Lemma init_rel a h1 h2 : same_generators a h1 h2 ->
  (exists e h1' h2', init N V a h1 = (Err e, h1') /\ init N V a h2 = (Err e, h2')) \/
  exists t i1 i2 h1' h2', init N V a h1 = (Ok (set_rs i1 t), h1') /\ init N V a h2 = (Ok (set_rs i2 t), h2') /\
    hrel i1 i2 (uses_global a) h1' h2' /\ okS (uses_global a) t.
Proof.
  intros H. destruct (check_random_state_rel a h1 h2 H) as [(e & h1' & h2' & E1 & E2)|(i1 & i2 & h1' & h2' & E1 & E2 & HR)]; unfold init;
    match goal with |- context[match ?b with Ok _ => _ | Err _ => _ end] => destruct b as [[[[[[[[[[[[ty ph] al] no] ns] nsh] sl] bo] re] pr] pn] pc]|e0] eqn:EB end;
    try (left; eauto 6; fail); rewrite E1, E2; cbn [bind].
  - left. eauto 6.
  - destruct (init_n_jobs V (p_n_jobs a)) as [nj|e]; [|left; cbn [bind]; eauto 6]. right. cbn [bind].
    exists (mkEst ty ph al no ns nsh sl bo re pr pn pc 0 nj (p_max_channels a) (p_min_len a) None None), i1, i2, h1', h2'.
    do 2 (split; [reflexivity|]). split; [exact HR|]. unfold okS, uses_global. cbn [e_n_samples].
    destruct (p_n_samples a) eqn:En; [|left; reflexivity..]. right.
    do 4 (apply bind_inv in EB as (? & _ & EB)). apply bind_inv in EB as (ns' & En' & EB). injection En' as <-.
    do 7 (apply bind_inv in EB as (? & _ & EB)). apply bind_inv in EB as (? & _ & EB). congruence.
Qed.

Notation rfit := (ridge_fit N rng V K).
Notation rpredict := (ridge_predict N K).

Lemma ridge_fit_rel ex X y r1 r2 h1 h2 u1 r1' h1' u2 r2' h2' : rd_args r1 = rd_args r2 -> rd_hyper r1 = rd_hyper r2 ->
  same_generators (rd_args r1) h1 h2 -> rfit ex X y r1 h1 = (u1, r1', h1') -> rfit ex X y r2 h2 = (u2, r2', h2') ->
  u2 = u1 /\ (u1 = Ok tt -> forall Z, rpredict r2' Z = rpredict r1' Z).
Proof.
  intros Ea Eh HG H1 H2. unfold ridge_fit in *. rewrite <- Ea, <- Eh in H2.
  assert (HG' : same_generators (ridge_rdst_args (rd_args r1)) h1 h2) by exact HG.
  destruct (init_rel _ _ _ HG') as [(e & k1 & k2 & E1 & E2)|(t & i1 & i2 & k1 & k2 & E1 & E2 & HR & HO)]; rewrite E1 in H1; rewrite E2 in H2.
  - injection H1 as <- <- <-. injection H2 as <- <- <-. split; [reflexivity|discriminate].
  - destruct (fit N rng V ex X y (set_rs i1 t) k1) as [[u t1] k3] eqn:Ef.
    destruct (reloc_fit N rng V i1 i2 _ ex X y _ _ _ _ _ _ HR HO Ef) as (t' & k4 & -> & Ef2 & HR2 & _). rewrite Ef2 in H2.
    rewrite transform_set_rs in H1. rewrite transform_set_rs in H2.
    match type of H1 with context[match ?b with Ok _ => _ | Err _ => _ end] => destruct b as [c|e] end;
      injection H1 as <- <- <-; injection H2 as <- <- <-; (split; [reflexivity|]); [|discriminate].
    intros _ Z. reflexivity.
Qed.

(** a fit changes no parameter *)
Lemma ridge_fit_params ex X y r h u r' h' : rfit ex X y r h = (u, r', h') -> rd_args r' = rd_args r /\ rd_hyper r' = rd_hyper r.
Proof.
  unfold ridge_fit. destruct (init N V _ h) as [[t|e] h1]; [|intros E; injection E as <- <- <-; auto].
  destruct (fit N rng V ex X y t h1) as [[v t1] h2]. destruct (bind v _); intros E; injection E as <- <- <-; auto.
Qed.

Fixpoint ridge_history (ex : @executor S) (calls : list (pyv F * list Z)) (r : ridge) (h : @heap RS) : ridge * heap :=
  match calls with
  | [] => (r, h)
  | (X, y) :: t => let '(_, r', h') := rfit ex X y r h in ridge_history ex t r' h'
  end.

Lemma ridge_history_params ex calls : forall r h r' h', ridge_history ex calls r h = (r', h') -> rd_args r' = rd_args r /\ rd_hyper r' = rd_hyper r.
Proof.
  induction calls as [|[X y] t IH]; intros r h r' h' H; cbn [ridge_history] in H; [injection H as <- <-; auto|].
  destruct (rfit ex X y r h) as [[u r1] h1] eqn:E. apply ridge_fit_params in E as [E1 E2]. apply IH in H as [E3 E4]. split; congruence.
Qed.

Lemma init_heap a h r h' : init N V a h = (r, h') -> h <> [] -> h' <> [].
Proof.
  unfold init. match goal with |- context[match ?b with Ok _ => _ | Err _ => _ end] => destruct b as [[[[[[[[[[[[ty ph] al] no] ns] nsh] sl] bo] re] pr] pn] pc]|e0] eqn:EB end;
    [|intros H; injection H as <- <-; auto].
  unfold check_random_state. intros H Hn.
  assert (C : h' = h \/ exists x, h' = h ++ [x]).
  { destruct (p_random_state a); try (injection H as <- <-; left; reflexivity);
      (destruct (_ && _); injection H as <- <-; [right; eauto|left; reflexivity]). }
  destruct C as [->|(x & ->)]; [exact Hn|]. destruct h; discriminate.
Qed.

Lemma ridge_fit_heap ex X y r h u r' h' : rfit ex X y r h = (u, r', h') -> h <> [] -> h' <> [].
Proof.
  unfold ridge_fit. intros E Hn. destruct (init N V _ h) as [[t|e] h1] eqn:Ei; pose proof (init_heap _ _ _ _ Ei Hn) as H1; [|injection E as <- <- <-; exact H1].
  destruct (fit N rng V ex X y t h1) as [[v t1] h2] eqn:Ef. apply fit_frame in Ef as (_ & (L & _) & _).
  assert (h2 <> []) by (apply zlen_pos in H1; intros ->; change (zlen (@nil RS)) with 0 in L; lia).
  destruct (bind v _); injection E as <- <- <-; assumption.
Qed.
Lemma ridge_history_heap ex calls : forall r h r' h', ridge_history ex calls r h = (r', h') -> h <> [] -> h' <> [].
Proof.
  induction calls as [|[X y] t IH]; intros r h r' h' H Hn; cbn [ridge_history] in H; [injection H as <- <-; auto|].
  destruct (rfit ex X y r h) as [[u r1] h1] eqn:E. apply ridge_fit_heap in E; eauto.
Qed.
End RIDGE.
