(** Property C77: the names of the classes do not matter to R_DST and to R_DST_Ridge. *)
From Coq Require Import String ZArith List Bool Reals Lia FunctionalExtensionality.
From Verif Require Import Prelude Num Kernel Spec KernelProofs RealBase Parallel Apply ApplyProofs NumbaUtils NumbaUtilsProofs Gen GenSched GenUCase Checks ChecksProofs Estimator EstimatorLaws EstimatorCases PropsEstimator Preproc Classifiers PropsClassifiers.
Import ListNotations.
Open Scope Z_scope.

(** different labels of [y] keep different names *)
Definition renames (g : Z -> Z) (y : list Z) : Prop := forall a b, In a y -> In b y -> g a = g b -> a = b.

Section NAMES.
Context {F : Type} (N : NumOps F) {S : Type} (rng : Rng F S) {RS : Type} (V : pyenv RS) (g : Z -> Z).

Lemma pick_test_names y : renames g y -> pick_test rng (map g y) = pick_test rng y.
Proof.
  intros H. apply functional_extensionality. intros i. apply functional_extensionality. intros s. unfold pick_test, bindG, liftG. rewrite get_map.
  destruct (get y i) as [c|e] eqn:E; [|reflexivity]. cbn [bind].
  assert (EM : map (Z.eqb (g c)) (map g y) = map (Z.eqb c) y).
  { rewrite map_map. apply map_ext_in. intros b Hb. assert (Hc : In c y) by (unfold get in E; destruct (nthZ y _) as [x|] eqn:Q; [|discriminate]; apply nthZ_In in Q; congruence).
    destruct (Z.eqb_spec c b) as [->|Hne]; [apply Z.eqb_refl|]. apply Z.eqb_neq. intros Q. apply Hne. apply H; assumption. }
  cbn beta zeta. cbn [fst snd]. rewrite EM. reflexivity.
Qed.

(** the arguments of the fitter with the labels renamed *)
Definition named (q : @request F) : request := mkReq (q_kind q) (q_X q) (map g (q_y q)) (q_P q) (q_max_channels q) (q_min_len q) (q_X_len q).

Lemma fitter_names ex q : renames g (q_y q) -> run_fitter N rng ex (named q) = run_fitter N rng ex q.
Proof.
  intros H. unfold run_fitter, named. cbn [q_kind q_X q_y q_P q_max_channels q_min_len q_X_len].
  unfold U_SL_generate_with, U_VL_generate_with, M_SL_generate_with, M_VL_generate_with, U_SL_iter, U_VL_iter, M_SL_iter, M_VL_iter.
  rewrite (pick_test_names _ H). reflexivity.
Qed.

(** [m] and [m'] run alike: same state and generators afterwards, related results.  [Q] is kept. *)
Definition alike2 {A B} (Q : @est F -> Prop) (P : A -> B -> Prop) (m : @ES F RS A) (m' : @ES F RS B) : Prop :=
  forall s h, Q s -> exists r r' s' h', m s h = (r, s', h') /\ m' s h = (r', s', h') /\ Q s' /\
    match r, r' with Ok a, Ok b => P a b | Err e, Err e' => e = e' | _, _ => False end.

Lemma alike2_bind {A B A' B'} Q (P : A -> A' -> Prop) (P' : B -> B' -> Prop) m m' f f' :
  alike2 Q P m m' -> (forall a a', P a a' -> alike2 Q P' (f a) (f' a')) -> alike2 Q P' (bindE m f) (bindE m' f').
Proof.
  intros H HF s h HQ. destruct (H s h HQ) as (r & r' & s1 & h1 & E & E' & HQ1 & HR). unfold bindE. rewrite E, E'.
  destruct r as [a|e], r' as [a'|e']; try contradiction; [apply (HF a a' HR s1 h1 HQ1)|]. do 4 eexists. repeat split; eauto.
Qed.
Lemma alike2_ret {A B} Q (P : A -> B -> Prop) a b : P a b -> alike2 Q P (retE a) (retE b).
Proof. intros H s h HQ. do 4 eexists. repeat split; eauto. Qed.
Lemma alike2_lift {A} Q (x : res A) : alike2 Q eq (liftE x) (liftE x).
Proof. intros s h HQ. do 4 eexists. repeat split; eauto. destruct x; reflexivity. Qed.
Lemma alike2_put (Q : @est F -> Prop) f : (forall s, Q s -> Q (f s)) -> alike2 Q eq (put f) (put f).
Proof. intros H s h HQ. do 4 eexists. repeat split; eauto. Qed.
Lemma alike2_self {A B} (Q : @est F -> Prop) (P : A -> B -> Prop) f f' : (forall s, Q s -> alike2 Q P (f s) (f' s)) -> alike2 Q P (bindE self f) (bindE self f').
Proof. intros H s h HQ. unfold bindE, self. apply H; assumption. Qed.
Lemma alike2_draw Q : alike2 Q eq (draw_seed V) (draw_seed V).
Proof.
  intros s h HQ. destruct (draw_seed V s h) as [[r s'] h'] eqn:E.
  assert (s' = s). { unfold draw_seed in E. destruct (get h (e_rs s)); [|congruence]. destruct (v_randint V _). destruct (set h _ _); congruence. }
  subst s'. do 4 eexists. repeat split; eauto. destruct r; reflexivity.
Qed.
Lemma alike2_refl_match {A} Q (b : bool) (m1 m2 m1' m2' : @ES F RS A) P : alike2 Q P m1 m1' -> alike2 Q P m2 m2' -> alike2 Q P (if b then m1 else m2) (if b then m1' else m2').
Proof. destruct b; auto. Qed.

(** what is asked of sklearn's resample when it is used *)
Definition sampling (y : list Z) (s : @est F) : Prop := e_n_samples s = VNone \/ forall st n b k, v_resample V st n b k (map g y) = v_resample V st n b k y.

Lemma subsample_names D y n : alike2 (sampling y) (fun p p' => fst p' = fst p /\ snd p' = map g (snd p) /\ incl (snd p) y) (subsample N V D y n) (subsample N V D (map g y) n).
Proof.
  unfold subsample. apply alike2_self. intros s HQ.
  assert (H0 : alike2 (sampling y) (fun p p' => fst p' = fst p /\ snd p' = map g (snd p) /\ incl (snd p) y) (retE (D, y)) (retE (D, map g y))).
  { apply alike2_ret. cbn. auto using incl_refl. }
  destruct HQ as [->|HR]; [exact H0|].
  assert (HS : forall b v, alike2 (sampling y) (fun p p' => fst p' = fst p /\ snd p' = map g (snd p) /\ incl (snd p) y)
    (bindE (liftE (sample_count N n v)) (fun k => bindE (call_resample V n b k y) (fun ids => bindE (liftE (mapM (get D) ids)) (fun X' => bindE (liftE (mapM (get y) ids)) (fun y' => retE (X', y'))))))
    (bindE (liftE (sample_count N n v)) (fun k => bindE (call_resample V n b k (map g y)) (fun ids => bindE (liftE (mapM (get D) ids)) (fun X' => bindE (liftE (mapM (get (map g y)) ids)) (fun y' => retE (X', y'))))))).
  { intros b v. eapply alike2_bind; [apply alike2_lift|]. intros k k' <-. eapply (alike2_bind _ eq).
    - intros s0 h0 H0'. unfold call_resample. destruct h0 as [|st t]; [do 4 eexists; repeat split; eauto|]. rewrite HR. destruct (v_resample V st n b k y) as [r st'].
      do 4 eexists. split; [reflexivity|]. split; [reflexivity|]. split; [exact H0'|]. destruct r; reflexivity.
    - intros ids ids' <-. eapply alike2_bind; [apply alike2_lift|]. intros X1 X1' <-. eapply (alike2_bind _ (fun a b => b = map g a /\ incl a y)); [|intros a a' [-> Ha]; apply alike2_ret; cbn; auto].
      intros s0 h0 H0'. unfold liftE. rewrite mapM_get_map. destruct (mapM (get y) ids) as [y'|e] eqn:E; do 4 eexists; (split; [reflexivity|]; split; [reflexivity|]; split; [exact H0'|]); [|reflexivity].
      split; [reflexivity|]. intros a Ha. apply mapM_Forall2 in E. clear - E Ha.
      induction E as [|i x l l' Hx _ IH]; [destruct Ha|]. destruct Ha as [<-|Ha]; [|auto]. unfold get in Hx. destruct (nthZ y _) as [z|] eqn:Q; [|discriminate]. apply nthZ_In in Q. congruence. }
  destruct (e_n_samples s); try exact H0; (eapply alike2_bind; [apply alike2_lift|]; intros r r' <-; cbn zeta; apply alike2_refl_match; [apply HS|apply alike2_refl_match; [apply HS|exact H0]]).
Qed.

Lemma prepare_names X y : alike2 (sampling y) (fun q q' => q' = named q /\ incl (q_y q) y) (prepare N V X y) (prepare N V X (map g y)).
Proof.
  assert (HP : forall f, (forall s, e_n_samples (f s) = e_n_samples s) -> forall s, sampling y s -> sampling y (f s)) by (intros f Hf s [E|E]; [left; rewrite Hf; exact E|right; exact E]).
  unfold prepare. eapply alike2_bind.
  { unfold set_fit_transform. apply alike2_self. intros s _. eapply alike2_bind.
    - instantiate (1 := eq). destruct (e_type s); try (apply alike2_ret; reflexivity). eapply alike2_bind; [apply alike2_lift|]. intros ty ty' <-.
      eapply alike2_bind; [apply alike2_put; apply HP; reflexivity|]. intros _ _ _. apply alike2_ret. reflexivity.
    - intros ty ty' <-. destruct ty; [apply alike2_lift|apply alike2_put; apply HP; reflexivity|apply alike2_lift]. }
  intros _ _ _. apply alike2_self. intros s _. eapply alike2_bind.
  { instantiate (1 := eq). destruct (e_type s); [apply alike2_lift|apply alike2_ret; reflexivity|apply alike2_lift]. }
  intros k k' <-. eapply alike2_bind.
  { instantiate (1 := eq). unfold read_X. destruct (kind_vl k).
    - eapply alike2_bind; [apply alike2_lift|]. intros [[D sh] lens] r' <-. eapply alike2_bind; [apply alike2_lift|]. intros _ _ _. apply alike2_self. intros s0 _.
      eapply alike2_bind; [|intros _ _ _; apply alike2_ret; reflexivity]. instantiate (1 := eq). destruct (e_min_len s0); [apply alike2_ret; reflexivity|].
      eapply alike2_bind; [apply alike2_lift|]. intros m m' <-. apply alike2_put. apply HP. reflexivity.
    - eapply alike2_bind; [apply alike2_lift|]. intros A A' <-. eapply alike2_bind; [apply alike2_lift|]. intros D D' <-.
      eapply alike2_bind; [apply alike2_put; apply HP; reflexivity|]. intros _ _ _. apply alike2_ret. reflexivity. }
  intros [[D sh] lens] r' <-. eapply alike2_bind; [apply subsample_names|]. intros [D' y'] [D'' y''] (E1 & E2 & E3). cbn [fst snd] in E1, E2, E3. subst D'' y''.
  apply alike2_self. intros s1 _. eapply alike2_bind.
  { instantiate (1 := eq). destruct (e_max_channels s1); [apply alike2_ret; reflexivity|apply alike2_put; apply HP; reflexivity]. }
  intros _ _ _. apply alike2_self. intros s2 _. cbn zeta. eapply alike2_bind; [apply alike2_lift|]. intros ls ls' <-. eapply alike2_bind; [apply alike2_put; apply HP; reflexivity|]. intros _ _ _.
  eapply alike2_bind; [apply alike2_lift|]. intros sizes sizes' <-. eapply alike2_bind; [apply alike2_draw|]. intros seed seed' <-. apply alike2_self. intros s3 _.
  eapply alike2_bind; [apply alike2_lift|]. intros pc pc' <-. eapply alike2_bind; [apply alike2_lift|]. intros al al' <-. eapply alike2_bind; [apply alike2_lift|]. intros pn pn' <-.
  apply alike2_ret. split; [reflexivity|exact E3].
Qed.

Lemma fit_names ex X y s h : renames g y -> sampling y s -> fit N rng V ex X (map g y) s h = fit N rng V ex X y s h.
Proof.
  intros HG HQ. unfold fit, bindE. destruct (prepare_names X y s h HQ) as (r & r' & s' & h' & E & E' & _ & HR). rewrite E, E'.
  destruct r as [q|e], r' as [q'|e']; try contradiction; [|congruence]. destruct HR as [-> HI].
  unfold liftE. rewrite fitter_names; [reflexivity|]. intros a b Ha Hb. apply HG; apply HI; assumption.
Qed.
End NAMES.

(** ** R_DST *)

(** fit with renamed labels does exactly the same: same outcome, same object, same generators (hence the same features of
    whatever data).  With n_samples, if sklearn's resample draws the same samples for the renamed labels. *)
Theorem C77_fit : forall F (N : NumOps F) S (rng : Rng F S) RS (V : pyenv RS) ex X y g s h,
  (forall a b, In a y -> In b y -> g a = g b -> a = b) ->
  (e_n_samples s = VNone \/ forall st n b k, v_resample V st n b k (map g y) = v_resample V st n b k y) ->
  fit N rng V ex X (map g y) s h = fit N rng V ex X y s h.
Proof. intros F N S rng RS V ex X y g s h HG HQ. apply fit_names; assumption. Qed.
Print Assumptions C77_fit.

(** Classes that are merged are another matter: then another series may be used to choose the thresholds, see
    [C77_merged_refuted]. *)

(** ** R_DST_Ridge *)

(** What is assumed of sklearn's RidgeClassifierCV: fitted on renamed labels it is the classifier [ren m], which predicts
    the renamed labels. *)
Definition renamable {F SC P M} (K : sklearn F SC P M) (g : Z -> Z) (y : list Z) (ren : M -> M) : Prop :=
  (forall p T, k_ridge_fit K p T (map g y) = (let* m := k_ridge_fit K p T y in Ok (ren m))) /\
  (forall m T, k_ridge_predict K (ren m) T = (let* l := k_ridge_predict K m T in Ok (map g l))).

(** The two fits end alike, and then predict gives the renamed labels and score the same score. *)
Theorem C77_ridge : forall F (N : NumOps F) S (rng : Rng F S) RS (V : pyenv RS) SC P M (K : sklearn F SC P M) ex X y g ren r h u1 r1 h1 u2 r2 h2,
  (forall a b, In a y -> In b y -> g a = g b -> a = b) ->
  (p_n_samples (rd_args r) = VNone \/ forall st n b k, v_resample V st n b k (map g y) = v_resample V st n b k y) ->
  renamable K g y ren ->
  ridge_fit N rng V K ex X y r h = (u1, r1, h1) -> ridge_fit N rng V K ex X (map g y) r h = (u2, r2, h2) ->
  u2 = u1 /\ h2 = h1 /\ rd_transformer r2 = rd_transformer r1 /\
  (u1 = Ok tt -> forall X', ridge_predict N K r2 X' = (let* l := ridge_predict N K r1 X' in Ok (map g l)) /\
     forall l y', ridge_predict N K r1 X' = Ok l -> (forall a b, In a y' -> In b l -> g a = g b -> a = b) -> ridge_score N K r2 X' (map g y') = ridge_score N K r1 X' y').
Proof.
  intros F N S rng RS V SC P M K ex X y g ren r h u1 r1 h1 u2 r2 h2 HG HQ [HK1 HK2] H1 H2. unfold ridge_fit in H1, H2.
  destruct (init N V (ridge_rdst_args (rd_args r)) h) as [[s|e] h0] eqn:EI; [|injection H1 as <- <- <-; injection H2 as <- <- <-; split; [reflexivity|]; split; [reflexivity|]; split; [reflexivity|discriminate]].
  assert (HS : e_n_samples s = VNone \/ forall st n b k, v_resample V st n b k (map g y) = v_resample V st n b k y).
  { apply C41_constructor in EI as (_ & _ & _ & _ & _ & (_ & I2) & _). unfold ridge_rdst_args in I2. cbn [p_n_samples] in I2. destruct HQ as [E|E]; [left; congruence|right; exact E]. }
  rewrite (C77_fit F N S rng RS V ex X y g s h0 HG HS) in H2. destruct (fit N rng V ex X y s h0) as [[u t] h3].
  destruct u as [[]|e]; cbn [bind] in H1, H2; [|injection H1 as <- <- <-; injection H2 as <- <- <-; split; [reflexivity|]; split; [reflexivity|]; split; [reflexivity|discriminate]].
  destruct (transform N t X) as [T|e]; cbn [bind] in H1, H2; [|injection H1 as <- <- <-; injection H2 as <- <- <-; split; [reflexivity|]; split; [reflexivity|]; split; [reflexivity|discriminate]].
  assert (HPF : pipe_fit N K (rd_hyper r) T (map g y) = (let* c := pipe_fit N K (rd_hyper r) T y in Ok (fst c, ren (snd c)))).
  { unfold pipe_fit. destruct (c_fit N (k_scale_fit K) (ncols T) T) as [sc|e]; [|reflexivity]. cbn [bind]. destruct (c_transform (k_scale K) sc T) as [Q|e]; [|reflexivity]. cbn [bind].
    rewrite HK1. destruct (k_ridge_fit K (rd_hyper r) Q y); reflexivity. }
  rewrite HPF in H2. destruct (pipe_fit N K (rd_hyper r) T y) as [[sc m]|e]; cbn [bind fst snd] in H1, H2; injection H1 as <- <- <-; injection H2 as <- <- <-;
    (split; [reflexivity|]; split; [reflexivity|]; split; [reflexivity|]); [|discriminate]. intros _ X'.
  assert (HP : forall X', ridge_predict N K (mkRidge (rd_args r) (rd_hyper r) (rd_n_jobs r) (Some (Some (sc, ren m))) (Some t)) X' =
     (let* l := ridge_predict N K (mkRidge (rd_args r) (rd_hyper r) (rd_n_jobs r) (Some (Some (sc, m))) (Some t)) X' in Ok (map g l))).
  { intros X0. unfold ridge_predict. cbn [rd_classifier rd_transformer]. destruct (transform N t X0) as [T'|e]; [|reflexivity]. cbn [bind]. unfold pipe_predict. cbn [fst snd].
    destruct (c_transform (k_scale K) sc T') as [Q|e]; [|reflexivity]. cbn [bind]. apply HK2. }
  split; [apply HP|]. intros l y' El HI. unfold ridge_score. rewrite HP, El. cbn [bind]. unfold accuracy. rewrite !zlen_map.
  destruct (guard (zlen y' =? zlen l) ValueError) as [[]|]; [|reflexivity]. cbn [bind]. f_equal. f_equal. f_equal.
  clear El. revert l HI. induction y' as [|a y' IH]; intros l HI; [reflexivity|]. destruct l as [|b l]; [reflexivity|]. cbn [map combine filter fst snd].
  assert (E : (g a =? g b) = (a =? b)).
  { destruct (Z.eqb_spec a b) as [->|Hne]; [apply Z.eqb_refl|]. apply Z.eqb_neq. intros Q. apply Hne. apply HI; [left; reflexivity|left; reflexivity|exact Q]. }
  rewrite E. assert (EI' : zlen (filter (fun q : Z * Z => fst q =? snd q) (combine (map g y') (map g l))) = zlen (filter (fun q : Z * Z => fst q =? snd q) (combine y' l))).
  { apply IH. intros a' b' Ha Hb. apply HI; right; assumption. }
  destruct (a =? b); [rewrite !zlen_cons, EI'; reflexivity|exact EI'].
Qed.
Print Assumptions C77_ridge.

(** ** Merged classes *)

(** Renaming two classes to the same name is not harmless, also for R_DST alone: the threshold is taken on another series. *)
Theorem C77_merged_refuted : exists s h g s1 h1 s2 h2 T1 T2, init ZN zenv (zargs (VInt 3)) [0] = (Ok s, h) /\
  fit ZN zrng zenv in_order zX2 [5; 7] s h = (Ok tt, s1, h1) /\ fit ZN zrng zenv in_order zX2 (map g [5; 7]) s h = (Ok tt, s2, h2) /\
  transform ZN s1 zX2 = Ok T1 /\ transform ZN s2 zX2 = Ok T2 /\ T1 <> T2.
Proof.
  do 2 eexists. exists (fun _ => 5). do 6 eexists. split; [reflexivity|]. split; [vm_compute; reflexivity|]. split; [vm_compute; reflexivity|].
  split; [vm_compute; reflexivity|]. split; [vm_compute; reflexivity|]. discriminate.
Qed.
Print Assumptions C77_merged_refuted.

(** ** A case: labels 5 and 7 renamed to 11 and 2; a classifier that predicts the first label for the first series and the
    second for the others *)
Definition nsk : sklearn Z unit unit (list Z) :=
  mkSk _ _ _ _ (fun _ => Ok tt) (fun _ X => Ok X) (fun _ _ y => Ok y)
    (fun m X => Ok (map (fun row => if 1 <? first_feature row then nthd 0 m 0 else nthd 0 m 1) X))
    (fun m X => Ok (D1 (map (fun row => first_feature row - 1) X))) (fun m => map (fun l => [l]) m) (fun x => x) (fun x a => x ^ a).
Definition other_names (c : Z) : Z := if c =? 5 then 11 else if c =? 7 then 2 else 0.
Example C77_case : renames other_names [5; 7] /\ renamable nsk other_names [5; 7] (map other_names) /\
  exists r r1 h1 r2 h2, ridge_init zenv (zargs (VInt 3)) tt = Ok r /\ p_n_samples (rd_args r) = VNone /\
    ridge_fit ZN zrng zenv nsk in_order zX2 [5; 7] r [0] = (Ok tt, r1, h1) /\ ridge_fit ZN zrng zenv nsk in_order zX2 [11; 2] r [0] = (Ok tt, r2, h2) /\
    ridge_predict ZN nsk r1 zX2 = Ok [5; 7] /\ ridge_predict ZN nsk r2 zX2 = Ok [11; 2].
Proof.
  split; [intros a b [<-|[<-|[]]] [<-|[<-|[]]]; cbn; congruence|]. split.
  - split; [intros p T; reflexivity|]. intros m T. cbn [nsk k_ridge_predict bind]. f_equal. rewrite map_map. apply map_ext. intros row.
    assert (E : forall i, nthd 0 (map other_names m) i = other_names (nthd 0 m i)).
    { intros i. unfold nthd. rewrite nthZ_map. destruct (nthZ m i); reflexivity. }
    destruct (1 <? first_feature row); apply E.
  - do 5 eexists. split; [reflexivity|]. split; [reflexivity|]. split; [vm_compute; reflexivity|]. split; [vm_compute; reflexivity|]. split; vm_compute; reflexivity.
Qed.
