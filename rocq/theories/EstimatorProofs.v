(** Lemmas on R_DST: what each step of fit may change and on what it depends. *)
From Coq Require Import ZArith List Bool Lia String.
From Verif Require Import Prelude Num Kernel Parallel Apply Gen Checks ChecksProofs Estimator.
Import ListNotations.
Open Scope Z_scope.

Section P.
Context {F : Type} (N : NumOps F) {S : Type} (rng : Rng F S) {RS : Type} (V : pyenv RS).
Notation est := (@est F). Notation heap := (@heap RS). Notation ES := (@ES F RS).

Lemma bindE_ok {A B} (m : ES A) (f : A -> ES B) s h b s' h' :
  bindE m f s h = (Ok b, s', h') -> exists a s1 h1, m s h = (Ok a, s1, h1) /\ f a s1 h1 = (Ok b, s', h').
Proof.
  unfold bindE. destruct (m s h) as [[[a|e] s1] h1]; [eauto|]. discriminate.
Qed.

(** ** Frame *)

(** the attributes no method writes *)
Definition same_params (s s' : est) : Prop :=
  e_phase s' = e_phase s /\ e_alpha s' = e_alpha s /\ e_normout s' = e_normout s /\ e_n_samples s' = e_n_samples s /\
  e_n_shapelets s' = e_n_shapelets s /\ e_bounds s' = e_bounds s /\ e_reduction s' = e_reduction s /\
  e_prime s' = e_prime s /\ e_proba_norm s' = e_proba_norm s /\ e_percentiles s' = e_percentiles s /\
  e_rs s' = e_rs s /\ e_n_jobs s' = e_n_jobs s.

(** a length array that _set_lengths leaves alone *)
Definition settled_lengths (s : est) : Prop :=
  e_bounds s = None /\ match e_lengths s with VArr _ dt _ => dtype_eqb dt DFloat64 = false | _ => True end.

Definition frame (s s' : est) : Prop :=
  same_params s s' /\
  (e_type s <> TAuto -> e_type s' = e_type s) /\
  (e_max_channels s <> None -> e_max_channels s' = e_max_channels s) /\
  (match e_type s with TKind k => kind_vl k = true | _ => False end -> e_min_len s <> None -> e_min_len s' = e_min_len s) /\
  (settled_lengths s -> e_lengths s' = e_lengths s) /\
  (forall k, e_type s = TKind k -> e_kind s = Some k -> e_kind s' = Some k).

(** shapelets_ not assigned *)
Definition keeps (s s' : est) : Prop := e_shapelets s' = e_shapelets s.

(** only numpy's global generator and the object's own one change *)
Definition hframe (s : est) (h h' : heap) : Prop :=
  zlen h' = zlen h /\ forall i, i <> 0 -> wrap (zlen h) (e_rs s) <> i -> nthZ h' i = nthZ h i.

Lemma same_params_refl s : same_params s s.
Proof. unfold same_params. repeat split. Qed.
Lemma same_params_trans a b c : same_params a b -> same_params b c -> same_params a c.
Proof. unfold same_params. intuition congruence. Qed.

Lemma frame_refl s : frame s s.
Proof. unfold frame. split; [apply same_params_refl|]. intuition. Qed.
Lemma settled_frame s s' : frame s s' -> settled_lengths s -> settled_lengths s'.
Proof.
  intros (P & _ & _ & _ & L & _) H. pose proof (L H) as E. destruct H as [B D]. unfold settled_lengths.
  rewrite E. split; [|exact D]. destruct P as (_&_&_&_&_&Eb&_). congruence.
Qed.
Lemma frame_trans a b c : frame a b -> frame b c -> frame a c.
Proof.
  intros H1 H2. pose proof (settled_frame _ _ H1) as Hs.
  destruct H1 as (P1 & T1 & C1 & M1 & L1 & K1), H2 as (P2 & T2 & C2 & M2 & L2 & K2).
  split; [eapply same_params_trans; eassumption|]. split; [|split; [|split; [|split]]].
  - intros H. rewrite T2; [auto|]. rewrite T1; assumption.
  - intros H. rewrite C2; [auto|]. rewrite C1; assumption.
  - intros Hk H. assert (E : e_type b = e_type a) by (apply T1; destruct (e_type a); [tauto|discriminate|discriminate]).
    rewrite M2; [auto| |]; [rewrite E; exact Hk|]. rewrite M1; assumption.
  - intros H. rewrite L2 by auto. auto.
  - intros k Hk H. apply K2; [rewrite T1; [exact Hk|congruence]|]. apply K1; assumption.
Qed.

Lemma hframe_refl s h : hframe s h h.
Proof. split; [reflexivity|auto]. Qed.

(** Every outcome of [m] satisfies the frame conditions. *)
Definition within {A} (m : ES A) : Prop := forall s h r s' h', m s h = (r, s', h') ->
  frame s s' /\ keeps s s' /\ hframe s h h'.

Lemma within_ret {A} (a : A) : within (retE a).
Proof. intros s h r s' h' H. injection H as <- <- <-. split; [apply frame_refl|split; [reflexivity|apply hframe_refl]]. Qed.
Lemma within_lift {A} (m : res A) : within (liftE m).
Proof. intros s h r s' h' H. injection H as <- <- <-. split; [apply frame_refl|split; [reflexivity|apply hframe_refl]]. Qed.
Lemma within_self : within self.
Proof. intros s h r s' h' H. injection H as <- <- <-. split; [apply frame_refl|split; [reflexivity|apply hframe_refl]]. Qed.

Lemma within_bind {A B} (m : ES A) (f : A -> ES B) : within m -> (forall a, within (f a)) -> within (bindE m f).
Proof.
  intros Hm Hf s h r s' h' H. unfold bindE in H. destruct (m s h) as [[[a|e] s1] h1] eqn:E.
  - destruct (Hm _ _ _ _ _ E) as (F1 & K1 & H1). destruct (Hf a _ _ _ _ _ H) as (F2 & K2 & H2).
    split; [eapply frame_trans; eassumption|split].
    + unfold keeps in *. congruence.
    + destruct H1 as [L1 N1], H2 as [L2 N2]. split; [congruence|]. intros i Hi Hr.
      rewrite N2; [apply N1; assumption|assumption|].
      rewrite L1. destruct F1 as (P & _). replace (e_rs s1) with (e_rs s); [assumption|].
      symmetry. apply P.
  - injection H as <- <- <-. exact (Hm _ _ _ _ _ E).
Qed.

Lemma within_self_bind {B} (f : est -> ES B) :
  (forall s h r s' h', f s s h = (r, s', h') -> frame s s' /\ keeps s s' /\ hframe s h h') -> within (bindE self f).
Proof. intros H s h r s' h' E. unfold bindE, self in E. eapply H; eassumption. Qed.

Lemma within_set_fit_transform X : within (set_fit_transform N X).
Proof.
  intros s h r s' h'. unfold set_fit_transform, bindE, self, put, liftE, retE.
  destruct (e_type s) as [|k|] eqn:ET.
  - destruct (auto_class N X) as [[|k|]|e]; intros H; injection H as <- <- <-;
      (split; [|split; [reflexivity|apply hframe_refl]]); (split; [repeat split|]); cbn; rewrite ET;
      (split; [congruence|split; [auto|split; [tauto|split; [auto|congruence]]]]).
  - intros H. injection H as <- <- <-. split; [|split; [reflexivity|apply hframe_refl]].
    split; [repeat split|]. cbn. rewrite ET. repeat split; auto. congruence.
  - intros H. injection H as <- <- <-. split; [apply frame_refl|split; [reflexivity|apply hframe_refl]].
Qed.

Lemma read_X_frame k X (s : est) (h : heap) r s' h' : e_type s = TKind k -> read_X N k X s h = (r, s', h') ->
  frame s s' /\ keeps s s' /\ h' = h.
Proof.
  intros ET. unfold read_X, bindE, self, put, liftE, retE. destruct (kind_vl k) eqn:Ek.
  - destruct (format_uneven N X) as [[[D sh] lens]|e].
    2:{ intros H. injection H as <- <- <-. split; [apply frame_refl|split; reflexivity]. }
    destruct (check_shape_3D sh false 2) as [[]|e].
    2:{ intros H. injection H as <- <- <-. split; [apply frame_refl|split; reflexivity]. }
    destruct (e_min_len s) as [m|] eqn:Em.
    + intros H. injection H as <- <- <-. split; [apply frame_refl|split; reflexivity].
    + destruct (min_list lens) as [m|e]; intros H; injection H as <- <- <-.
      * split; [|split; reflexivity]. split; [repeat split|]. cbn. rewrite Em. repeat split; auto; congruence.
      * split; [apply frame_refl|split; reflexivity].
  - destruct (check_array_3D N X false 2) as [A|e].
    2:{ intros H. injection H as <- <- <-. split; [apply frame_refl|split; reflexivity]. }
    destruct (to_dataset N A) as [D|e]; intros H; injection H as <- <- <-.
    + split; [|split; reflexivity]. split; [repeat split|]. cbn. rewrite ET. repeat split; auto. congruence.
    + split; [apply frame_refl|split; reflexivity].
Qed.

Lemma within_call_resample n b k y : within (call_resample V n b k y).
Proof.
  intros s h r s' h' H. unfold call_resample in H. destruct h as [|g t].
  - injection H as <- <- <-. split; [apply frame_refl|split; [reflexivity|apply hframe_refl]].
  - destruct (v_resample V g n b k y) as [r0 g']. injection H as <- <- <-.
    split; [apply frame_refl|split; [reflexivity|]]. split; [rewrite !zlen_cons; reflexivity|].
    intros i Hi _. unfold nthZ. destruct (Z.ltb_spec i 0); [reflexivity|].
    destruct (Z.to_nat i) eqn:E; [lia|]. reflexivity.
Qed.

Lemma within_subsample D y n : within (subsample N V D y n).
Proof.
  unfold subsample. apply within_self_bind. intros s h r s' h'.
  assert (W : forall v b, within
    (bindE (liftE (sample_count N n v)) (fun k => bindE (call_resample V n b k y) (fun ids =>
       bindE (liftE (mapM (get D) ids)) (fun X' => bindE (liftE (mapM (get y) ids)) (fun y' => retE (X', y'))))))).
  { intros v b. apply within_bind; [apply within_lift|intros k].
    apply within_bind; [apply within_call_resample|intros ids].
    apply within_bind; [apply within_lift|intros X']. apply within_bind; [apply within_lift|intros y']. apply within_ret. }
  destruct (e_n_samples s) eqn:En;
    try (intros H; revert H; apply within_bind; [apply within_lift|intros r0];
         destruct (nltb N r0 (n1 N)); [apply W|destruct (nltb N (n1 N) r0); [apply W|apply within_ret]]).
  intros H. injection H as <- <- <-. split; [apply frame_refl|split; [reflexivity|apply hframe_refl]].
Qed.

Lemma within_draw_seed : within (draw_seed V).
Proof.
  intros s h r s' h' H. unfold draw_seed in H.
  assert (T : (r, s', h') = (r, s, h) -> frame s s' /\ keeps s s' /\ hframe s h h').
  { intros E. injection E as -> ->. split; [apply frame_refl|split; [reflexivity|apply hframe_refl]]. }
  destruct (get h (e_rs s)) as [g|e] eqn:Eg.
  2:{ apply T. congruence. }
  destruct (v_randint V g) as [z g']. destruct (set h (e_rs s) g') as [h1|e] eqn:Es.
  2:{ apply T. congruence. }
  injection H as <- <- <-. split; [apply frame_refl|split; [reflexivity|]].
  unfold set in Es. destruct ((0 <=? wrap (zlen h) (e_rs s)) && (wrap (zlen h) (e_rs s) <? zlen h)) eqn:Eb; [|discriminate].
  injection Es as <-. split; [apply zlen_upd|]. intros i Hi Hr.
  apply andb_prop in Eb as [B1 B2]. apply Z.leb_le in B1. apply Z.ltb_lt in B2.
  rewrite nthZ_upd by lia. destruct (Z.eqb_spec i (wrap (zlen h) (e_rs s))); [congruence|reflexivity].
Qed.

Lemma frame_max_channels s c : e_max_channels s = None -> frame s (set_max_channels c s).
Proof. intros H. split; [repeat split|]. cbn. rewrite H. repeat split; auto. congruence. Qed.

Lemma set_lengths_settled s m : settled_lengths s -> set_lengths N s m = Ok (e_lengths s).
Proof.
  intros [B D]. unfold set_lengths. rewrite B. destruct (e_lengths s) as [| | | | | | |sh dt cs| | |]; try reflexivity.
  destruct dt; try reflexivity. discriminate D.
Qed.

Lemma frame_lengths s m l : set_lengths N s m = Ok l -> frame s (set_lengths_attr l s).
Proof.
  intros H. split; [repeat split|]. cbn. repeat split; auto.
  intros Hs. rewrite set_lengths_settled in H by exact Hs. congruence.
Qed.

Lemma within_bind_at {A B} (m : ES A) (f : A -> ES B) s :
  (forall h r s' h', m s h = (r, s', h') -> frame s s' /\ keeps s s' /\ hframe s h h') ->
  (forall a, within (f a)) ->
  forall h r s' h', bindE m f s h = (r, s', h') -> frame s s' /\ keeps s s' /\ hframe s h h'.
Proof.
  intros Hm Hf h r s' h' H. unfold bindE in H. destruct (m s h) as [[[a|e] s1] h1] eqn:E.
  - destruct (Hm _ _ _ _ E) as (F1 & K1 & H1). destruct (Hf a _ _ _ _ _ H) as (F2 & K2 & H2).
    split; [eapply frame_trans; eassumption|split].
    + unfold keeps in *. congruence.
    + destruct H1 as [L1 N1], H2 as [L2 N2]. split; [congruence|]. intros i Hi Hr.
      rewrite N2; [apply N1; assumption|assumption|].
      rewrite L1. destruct F1 as (P & _). replace (e_rs s1) with (e_rs s); [assumption|].
      symmetry. apply P.
  - injection H as <- <- <-. exact (Hm _ _ _ _ E).
Qed.

Lemma within_prepare X y : within (prepare N V X y).
Proof.
  unfold prepare. apply within_bind; [apply within_set_fit_transform|intros _].
  apply within_self_bind. intros s h r s' h' H.
  destruct (e_type s) as [|k|] eqn:ET.
  1,3: unfold bindE, liftE in H; injection H as <- <- <-; split; [apply frame_refl|split; [reflexivity|apply hframe_refl]].
  change (bindE (retE k) ?f s h) with (f k s h) in H. cbv beta in H.
  revert H. apply within_bind_at.
  { intros h0 r0 s0 h0' H0. destruct (read_X_frame _ _ _ _ _ _ _ ET H0) as (A & B & ->).
    split; [exact A|split; [exact B|apply hframe_refl]]. }
  intros [[D sh] lens]. apply within_bind; [apply within_subsample|intros [D' y']].
  apply within_self_bind. intros s1 h1 r1 s1' h1'. apply within_bind_at.
  { intros h2 r2 s2 h2' H2. destruct (e_max_channels s1) eqn:Ec; injection H2 as <- <- <-.
    - split; [apply frame_refl|split; [reflexivity|apply hframe_refl]].
    - split; [apply frame_max_channels; exact Ec|split; [reflexivity|apply hframe_refl]]. }
  intros _. apply within_self_bind. intros s2 h2 r2 s2' h2' H2.
  set (m := match e_min_len s2 with Some m => m | None => 0 end) in *.
  unfold bindE at 1, liftE at 1 in H2. destruct (set_lengths N s2 m) as [ls|e] eqn:El.
  2:{ injection H2 as <- <- <-. split; [apply frame_refl|split; [reflexivity|apply hframe_refl]]. }
  revert H2. apply within_bind_at.
  { intros h3 r3 s3 h3' H3. injection H3 as <- <- <-.
    split; [eapply frame_lengths; exact El|split; [reflexivity|apply hframe_refl]]. }
  intros _. apply within_bind; [apply within_lift|intros sizes].
  apply within_bind; [apply within_draw_seed|intros seed].
  apply within_bind; [apply within_self|intros s3].
  apply within_bind; [apply within_lift|intros pc]. apply within_bind; [apply within_lift|intros al].
  apply within_bind; [apply within_lift|intros pn]. apply within_ret.
Qed.

(** Outcome of fit: the shapelets are assigned on success only. *)
Lemma fit_frame ex X y s h r s' h' : fit N rng V ex X y s h = (r, s', h') ->
  frame s s' /\ hframe s h h' /\
  match r with
  | Ok _ => exists q f, fst (fst (prepare N V X y s h)) = Ok q /\ run_fitter N rng ex q = Ok f /\ e_shapelets s' = Some f
  | Err _ => e_shapelets s' = e_shapelets s
  end.
Proof.
  unfold fit. intros H. unfold bindE at 1 in H. destruct (prepare N V X y s h) as [[[q|e] s1] h1] eqn:E.
  - destruct (within_prepare _ _ _ _ _ _ _ E) as (A & B & C). unfold bindE, liftE, put in H.
    destruct (run_fitter N rng ex q) as [f|e] eqn:Ef; injection H as <- <- <-.
    + split; [|split; [exact C|]].
      * eapply frame_trans; [exact A|]. split; [repeat split|]. cbn. auto.
      * exists q, f. auto.
    + split; [exact A|split; [exact C|exact B]].
  - injection H as <- <- <-. destruct (within_prepare _ _ _ _ _ _ _ E) as (A & B & C). auto.
Qed.

(** ** The type and the transformer after fit *)

Lemma set_fit_transform_ok X s h u s' (h' : heap) : set_fit_transform N X s h = (Ok u, s', h') ->
  exists k, e_type s' = TKind k /\ e_kind s' = Some k /\
    (e_type s = TKind k \/ (e_type s = TAuto /\ auto_class N X = Ok (TKind k))).
Proof.
  unfold set_fit_transform, bindE, self, put, liftE, retE. destruct (e_type s) as [|k|] eqn:ET.
  - destruct (auto_class N X) as [[|k|]|e]; intros H; try discriminate.
    injection H as <- <- <-. exists k. cbn. auto.
  - intros H. injection H as <- <- <-. exists k. cbn. auto.
  - discriminate.
Qed.

End P.
