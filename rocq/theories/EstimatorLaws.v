(** On what R_DST.fit depends, and what it passes to the fitter. *)
From Coq Require Import ZArith List Bool Lia String.
From Verif Require Import Prelude Num Kernel Parallel Apply Gen Checks ChecksProofs Estimator EstimatorProofs.
Import ListNotations.
Open Scope Z_scope.

Section P.
Context {F : Type} (N : NumOps F) {S : Type} (rng : Rng F S) {RS : Type} (V : pyenv RS).
Notation est := (@est F). Notation heap := (@heap RS). Notation ES := (@ES F RS).

(** two objects fit does not tell apart *)
Definition alike (s1 s2 : est) : Prop :=
  same_params s1 s2 /\ e_type s2 = e_type s1 /\ e_max_channels s2 = e_max_channels s1 /\
  (match e_type s1 with TKind k => kind_vl k = false | _ => False end \/ e_min_len s2 = e_min_len s1) /\
  (e_bounds s1 <> None \/ e_lengths s2 = e_lengths s1).
Definition alike1 (s1 s2 : est) : Prop := alike s1 s2 /\ e_min_len s2 = e_min_len s1.

Definition sameR {A} (P Q : est -> est -> Prop) (m : ES A) : Prop := forall s1 s2 h r1 s1' h1' r2 s2' h2',
  P s1 s2 -> m s1 h = (r1, s1', h1') -> m s2 h = (r2, s2', h2') -> r2 = r1 /\ h2' = h1' /\ (forall a, r1 = Ok a -> Q s1' s2').

Lemma sameR_bind {A B} P Q R (m : ES A) (f : A -> ES B) :
  sameR P Q m -> (forall a, sameR Q R (f a)) -> sameR P R (bindE m f).
Proof.
  intros Hm Hf s1 s2 h r1 s1' h1' r2 s2' h2' HP H1 H2. unfold bindE in *.
  destruct (m s1 h) as [[a1 t1] g1] eqn:E1, (m s2 h) as [[a2 t2] g2] eqn:E2.
  destruct (Hm _ _ _ _ _ _ _ _ _ HP E1 E2) as (-> & -> & HQ).
  destruct a1 as [a|e].
  - eapply (Hf a); [apply (HQ a); reflexivity|exact H1|exact H2].
  - injection H1 as <- <- <-. injection H2 as <- <- <-. split; [reflexivity|split; [reflexivity|discriminate]].
Qed.

Lemma sameR_lift {A} P (m : res A) : sameR P P (liftE m).
Proof. intros s1 s2 h r1 s1' h1' r2 s2' h2' HP H1 H2. injection H1 as <- <- <-. injection H2 as <- <- <-. auto. Qed.
Lemma sameR_ret {A} P (a : A) : sameR P P (retE a).
Proof. apply (sameR_lift P (Ok a)). Qed.

Lemma sameR_self {B} (P Q : est -> est -> Prop) (f : est -> ES B) :
  (forall s1 s2 h r1 s1' h1' r2 s2' h2', P s1 s2 -> f s1 s1 h = (r1, s1', h1') -> f s2 s2 h = (r2, s2', h2') ->
     r2 = r1 /\ h2' = h1' /\ (forall a, r1 = Ok a -> Q s1' s2')) -> sameR P Q (bindE self f).
Proof. intros H s1 s2 h r1 s1' h1' r2 s2' h2' HP H1 H2. exact (H _ _ _ _ _ _ _ _ _ HP H1 H2). Qed.

Lemma same_set_fit_transform X : sameR alike alike (set_fit_transform N X).
Proof.
  intros s1 s2 h r1 s1' h1' r2 s2' h2' HP. unfold set_fit_transform, bindE, self, put, liftE, retE.
  destruct HP as (P & T & C & M & L). rewrite T.
  destruct (e_type s1) as [|k|] eqn:ET.
  - destruct (auto_class N X) as [[|k|]|e]; intros H1 H2; injection H1 as <- <- <-; injection H2 as <- <- <-;
      (split; [reflexivity|split; [reflexivity|intros a Ha; try discriminate]]).
    unfold alike, same_params in *. cbn. intuition congruence.
  - intros H1 H2; injection H1 as <- <- <-; injection H2 as <- <- <-.
    split; [reflexivity|split; [reflexivity|intros a Ha]]. unfold alike, same_params in *. cbn. rewrite ET, T in *. intuition congruence.
  - intros H1 H2; injection H1 as <- <- <-; injection H2 as <- <- <-.
    split; [reflexivity|split; [reflexivity|discriminate]].
Qed.

Lemma same_read_X k X : sameR (fun s1 s2 => alike s1 s2 /\ e_type s1 = TKind k) alike1 (read_X N k X).
Proof.
  intros s1 s2 h r1 s1' h1' r2 s2' h2' [HP ET]. unfold read_X, bindE, self, put, liftE, retE.
  destruct (kind_vl k) eqn:Ek.
  - assert (Em : e_min_len s2 = e_min_len s1).
    { destruct HP as (_ & _ & _ & M & _). rewrite ET in M. destruct M as [M|M]; [congruence|exact M]. }
    destruct (format_uneven N X) as [[[D sh] lens]|e].
    2:{ intros H1 H2; injection H1 as <- <- <-; injection H2 as <- <- <-. split; [reflexivity|split; [reflexivity|discriminate]]. }
    destruct (check_shape_3D sh false 2) as [[]|e].
    2:{ intros H1 H2; injection H1 as <- <- <-; injection H2 as <- <- <-. split; [reflexivity|split; [reflexivity|discriminate]]. }
    rewrite Em. destruct (e_min_len s1) as [m|] eqn:E1.
    + intros H1 H2; injection H1 as <- <- <-; injection H2 as <- <- <-.
      split; [reflexivity|split; [reflexivity|intros a Ha]]. split; [exact HP|congruence].
    + destruct (min_list lens) as [m|e]; intros H1 H2; injection H1 as <- <- <-; injection H2 as <- <- <-.
      * split; [reflexivity|split; [reflexivity|intros a Ha]]. unfold alike1, alike, same_params in *. cbn. rewrite ET. intuition congruence.
      * split; [reflexivity|split; [reflexivity|discriminate]].
  - destruct (check_array_3D N X false 2) as [A|e].
    2:{ intros H1 H2; injection H1 as <- <- <-; injection H2 as <- <- <-. split; [reflexivity|split; [reflexivity|discriminate]]. }
    destruct (to_dataset N A) as [D|e]; intros H1 H2; injection H1 as <- <- <-; injection H2 as <- <- <-.
    + split; [reflexivity|split; [reflexivity|intros a Ha]]. unfold alike1, alike, same_params in *. cbn. rewrite ET. intuition congruence.
    + split; [reflexivity|split; [reflexivity|discriminate]].
Qed.

Lemma same_call_resample P n b k y : sameR P P (call_resample V n b k y).
Proof.
  intros s1 s2 h r1 s1' h1' r2 s2' h2' HP. unfold call_resample. destruct h as [|g t].
  - intros H1 H2; injection H1 as <- <- <-; injection H2 as <- <- <-. split; [reflexivity|split; [reflexivity|discriminate]].
  - destruct (v_resample V g n b k y) as [r g']. intros H1 H2; injection H1 as <- <- <-; injection H2 as <- <- <-. auto.
Qed.

Lemma same_subsample D y n : sameR alike1 alike1 (subsample N V D y n).
Proof.
  unfold subsample. apply sameR_self. intros s1 s2 h r1 s1' h1' r2 s2' h2' HP.
  replace (e_n_samples s2) with (e_n_samples s1) by (destruct HP as ((P & _) & _); unfold same_params in P; intuition congruence).
  assert (W : forall v b, sameR alike1 alike1
    (bindE (liftE (sample_count N n v)) (fun k => bindE (call_resample V n b k y) (fun ids =>
       bindE (liftE (mapM (get D) ids)) (fun X' => bindE (liftE (mapM (get y) ids)) (fun y' => retE (X', y'))))))).
  { intros v b. eapply sameR_bind; [apply sameR_lift|intros k].
    eapply sameR_bind; [apply same_call_resample|intros ids].
    eapply sameR_bind; [apply sameR_lift|intros X']. eapply sameR_bind; [apply sameR_lift|intros y']. apply sameR_ret. }
  destruct (e_n_samples s1) eqn:En;
    try (revert s1 s2 h r1 s1' h1' r2 s2' h2' HP En; intros s1 s2 h r1 s1' h1' r2 s2' h2' HP _; revert HP;
         match goal with |- alike1 s1 s2 -> bindE (liftE ?a) ?f s1 h = _ -> _ => apply (sameR_bind alike1 alike1 alike1 (liftE a) f) end;
         [apply sameR_lift|intros r0];
         destruct (nltb N r0 (n1 N)); [apply W|destruct (nltb N (n1 N) r0); [apply W|apply sameR_ret]]).
  intros H1 H2; injection H1 as <- <- <-; injection H2 as <- <- <-. auto.
Qed.

Lemma same_draw_seed : sameR alike1 alike1 (draw_seed V).
Proof.
  intros s1 s2 h r1 s1' h1' r2 s2' h2' HP. unfold draw_seed.
  replace (e_rs s2) with (e_rs s1) by (destruct HP as ((P & _) & _); unfold same_params in P; intuition congruence).
  destruct (get h (e_rs s1)) as [g|e].
  2:{ intros H1 H2; injection H1 as <- <- <-; injection H2 as <- <- <-. split; [reflexivity|split; [reflexivity|discriminate]]. }
  destruct (v_randint V g) as [z g']. destruct (set h (e_rs s1) g');
    intros H1 H2; injection H1 as <- <- <-; injection H2 as <- <- <-.
  - auto.
  - split; [reflexivity|split; [reflexivity|discriminate]].
Qed.

Lemma same_prepare X y : sameR alike (fun _ _ => True) (prepare N V X y).
Proof.
  unfold prepare. eapply sameR_bind; [apply same_set_fit_transform|intros _].
  apply sameR_self. intros s1 s2 h r1 s1' h1' r2 s2' h2' HP.
  replace (e_type s2) with (e_type s1) by (destruct HP as (_ & T & _); congruence).
  destruct (e_type s1) as [|k|] eqn:ET.
  1,3: intros H1 H2; injection H1 as <- <- <-; injection H2 as <- <- <-; split; [reflexivity|split; [reflexivity|discriminate]].
  change (bindE (retE k) ?f ?s h) with (f k s h). cbv beta.
  assert (HP' : alike s1 s2 /\ e_type s1 = TKind k) by auto. revert HP'. clear HP ET.
  match goal with |- _ -> bindE ?m ?f s1 h = _ -> _ =>
    apply (sameR_bind (fun s1 s2 => alike s1 s2 /\ e_type s1 = TKind k) alike1 (fun _ _ => True) m f) end; [apply same_read_X|].
  intros [[D sh] lens]. eapply sameR_bind; [apply same_subsample|intros [D' y']].
  apply sameR_self. clear s1 s2 h r1 s1' h1' r2 s2' h2'. intros s1 s2 h r1 s1' h1' r2 s2' h2' HP.
  replace (e_max_channels s2) with (e_max_channels s1) by (destruct HP as ((_ & _ & C & _) & _); congruence).
  assert (Hc : forall f, (forall u, sameR alike1 (fun _ _ => True) (f u)) ->
     bindE (match e_max_channels s1 with None => put (set_max_channels (Some (nthd 0 sh 1))) | Some _ => retE tt end) f s1 h = (r1, s1', h1') ->
     bindE (match e_max_channels s1 with None => put (set_max_channels (Some (nthd 0 sh 1))) | Some _ => retE tt end) f s2 h = (r2, s2', h2') ->
     r2 = r1 /\ h2' = h1' /\ (forall a, r1 = Ok a -> True)).
  { intros f Hf. destruct (e_max_channels s1).
    - apply (sameR_bind alike1 alike1 (fun _ _ => True) (retE tt) f); [apply sameR_ret|exact Hf|exact HP].
    - apply (sameR_bind alike1 alike1 (fun _ _ => True) (put (set_max_channels (Some (nthd 0 sh 1)))) f); [|exact Hf|exact HP].
      intros t1 t2 g q1 t1' g1' q2 t2' g2' HQ H1 H2. injection H1 as <- <- <-; injection H2 as <- <- <-.
      split; [reflexivity|split; [reflexivity|intros a Ha]]. unfold alike1, alike, same_params in *. cbn. intuition congruence. }
  apply Hc. intros _. clear s1 s2 h r1 s1' h1' r2 s2' h2' HP Hc.
  apply sameR_self. intros s1 s2 h r1 s1' h1' r2 s2' h2' HP.
  replace (e_min_len s2) with (e_min_len s1) by (destruct HP; congruence).
  set (m := match e_min_len s1 with Some m => m | None => 0 end).
  assert (El : set_lengths N s2 m = set_lengths N s1 m).
  { unfold set_lengths. destruct HP as ((P & _ & _ & _ & L) & _).
    replace (e_bounds s2) with (e_bounds s1) by (unfold same_params in P; intuition congruence).
    replace (e_reduction s2) with (e_reduction s1) by (unfold same_params in P; intuition congruence).
    destruct (e_bounds s1); [reflexivity|]. destruct L as [L|L]; [congruence|]. rewrite L. reflexivity. }
  rewrite El. revert HP.
  match goal with |- _ -> bindE ?m ?f s1 h = _ -> _ => apply (sameR_bind alike1 alike1 (fun _ _ => True) m f) end; [apply sameR_lift|].
  intros ls. apply (sameR_bind alike1 alike1 (fun _ _ => True)).
  { intros t1 t2 g q1 t1' g1' q2 t2' g2' HQ H1 H2. injection H1 as <- <- <-; injection H2 as <- <- <-.
    split; [reflexivity|split; [reflexivity|intros a Ha]]. unfold alike1, alike, same_params in *. cbn. intuition congruence. }
  intros _. eapply sameR_bind; [apply sameR_lift|intros sizes]. eapply sameR_bind; [apply same_draw_seed|intros seed].
  clear El. clearbody m. apply sameR_self. clear s1 s2 h r1 s1' h1' r2 s2' h2'. intros s1 s2 h r1 s1' h1' r2 s2' h2' HP H1 H2.
  assert (E : e_percentiles s2 = e_percentiles s1 /\ e_alpha s2 = e_alpha s1 /\ e_proba_norm s2 = e_proba_norm s1 /\
     e_phase s2 = e_phase s1 /\ e_prime s2 = e_prime s1 /\ e_n_shapelets s2 = e_n_shapelets s1 /\ e_max_channels s2 = e_max_channels s1).
  { unfold alike1, alike, same_params in HP. intuition congruence. }
  destruct E as (E1 & E2 & E3 & E4 & E5 & E6 & E7). rewrite E1, E2, E3, E4, E5, E6, E7 in H2.
  unfold bindE, liftE, retE in *.
  destruct (match e_percentiles s1 with VArr _ _ cells => _ | _ => _ end); [|injection H1 as <- <- <-; injection H2 as <- <- <-; auto].
  destruct (as_F N (e_alpha s1)); [|injection H1 as <- <- <-; injection H2 as <- <- <-; auto].
  destruct (as_F N (e_proba_norm s1)); injection H1 as <- <- <-; injection H2 as <- <- <-; auto.
Qed.

(** Two objects that are alike get the same shapelets (or the same exception) from the same call. *)
Lemma fit_alike ex X y s1 s2 h r1 s1' h1' r2 s2' h2' : alike s1 s2 ->
  fit N rng V ex X y s1 h = (r1, s1', h1') -> fit N rng V ex X y s2 h = (r2, s2', h2') ->
  r2 = r1 /\ h2' = h1' /\ (r1 = Ok tt -> e_shapelets s2' = e_shapelets s1').
Proof.
  intros HP. unfold fit, bindE, liftE, put.
  destruct (prepare N V X y s1 h) as [[a1 t1] g1] eqn:E1, (prepare N V X y s2 h) as [[a2 t2] g2] eqn:E2.
  destruct (same_prepare X y _ _ _ _ _ _ _ _ _ HP E1 E2) as (-> & -> & _).
  destruct a1 as [q|e].
  - destruct (run_fitter N rng ex q) as [f|e]; intros H1 H2; injection H1 as <- <- <-; injection H2 as <- <- <-.
    + auto.
    + split; [reflexivity|split; [reflexivity|discriminate]].
  - intros H1 H2; injection H1 as <- <- <-; injection H2 as <- <- <-. split; [reflexivity|split; [reflexivity|discriminate]].
Qed.

(** any sequence of calls of fit, whatever their outcomes *)
Fixpoint history (ex : executor) (calls : list (pyv F * list Z)) (s : est) (h : heap) : est * heap :=
  match calls with
  | [] => (s, h)
  | (X, y) :: t => let '(_, s', h') := fit N rng V ex X y s h in history ex t s' h'
  end.

Lemma history_frame ex calls : forall s h s' h', history ex calls s h = (s', h') -> frame s s'.
Proof.
  induction calls as [|[X y] t IH]; intros s h s' h' H; cbn [history] in H.
  - injection H as <- <-. apply frame_refl.
  - destruct (fit N rng V ex X y s h) as [[r s1] h1] eqn:E.
    destruct (fit_frame _ _ _ _ _ _ _ _ _ _ _ E) as (Fr & _). eapply frame_trans; [exact Fr|]. eapply IH; eassumption.
Qed.

(** Parameters an earlier call cannot change. *)
Definition settled (s : est) : Prop :=
  (exists k, e_type s = TKind k /\ (kind_vl k = false \/ e_min_len s <> None)) /\
  e_max_channels s <> None /\ (e_bounds s <> None \/ settled_lengths s).

Lemma settled_alike s s' : settled s -> frame s s' -> alike s s'.
Proof.
  intros ((k & T & M) & C & L) (P & T' & C' & M' & L' & _). split; [exact P|]. rewrite T in *.
  split; [apply T'; congruence|]. split; [auto|]. split.
  - destruct (kind_vl k) eqn:Ek; [|left; reflexivity]. right. destruct M as [M|M]; [congruence|]. auto.
  - destruct L as [L|L]; auto.
Qed.


(** ** What is passed to the fitter *)

(** [X[ids]], [y[ids]] for some list of positions, or everything *)
Definition selected (D : dataset F) (y : list Z) (D' : dataset F) (y' : list Z) : Prop :=
  (D' = D /\ y' = y) \/ exists ids, mapM (get D) ids = Ok D' /\ mapM (get y) ids = Ok y'.

Lemma subsample_ok D y n s h D' y' s' h' : subsample N V D y n s h = (Ok (D', y'), s', h') ->
  s' = s /\ selected D y D' y' /\ (e_n_samples s = VNone -> D' = D /\ y' = y /\ h' = h).
Proof.
  unfold subsample, bindE at 1, self.
  assert (W : forall v b (s : est) (h : heap) s' h',
    bindE (liftE (sample_count N n v)) (fun k => bindE (call_resample V n b k y) (fun ids =>
       bindE (liftE (mapM (get D) ids)) (fun X' => bindE (liftE (mapM (get y) ids)) (fun y' => retE (X', y'))))) s h
      = (Ok (D', y'), s', h') -> s' = s /\ selected D y D' y').
  { clear s h s' h'. intros v b s h s' h' H.
    apply bindE_ok in H as (k & s1 & h1 & H1 & H). injection H1 as H1 <- <-.
    apply bindE_ok in H as (ids & s2 & h2 & H2 & H).
    assert (s2 = s). { unfold call_resample in H2. destruct h; [discriminate|]. destruct (v_resample V r n b k y). congruence. }
    subst s2.
    apply bindE_ok in H as (X1 & s3 & h3 & H3 & H). injection H3 as H3 <- <-.
    apply bindE_ok in H as (y1 & s4 & h4 & H4 & H). injection H4 as H4 <- <-.
    injection H as <- <- <- <-. split; [reflexivity|]. right. exists ids. auto. }
  destruct (e_n_samples s) eqn:En;
    try (intros H; apply bindE_ok in H as (r0 & s1 & h1 & H1 & H); injection H1 as H1 <- <-;
         destruct (nltb N r0 (n1 N)); [apply W in H; intuition discriminate|];
         destruct (nltb N (n1 N) r0); [apply W in H; intuition discriminate|];
         injection H as <- <- <- <-; split; [reflexivity|split; [left; auto|discriminate]]).
  intros H. injection H as <- <- <- <-. split; [reflexivity|split; [left; auto|auto]].
Qed.

Definition read_as (k : kind) (X : pyv F) (min_len : option Z) (D : dataset F) (sh : list Z) (lens : option (list Z)) (m : Z) : Prop :=
  if kind_vl k then
    exists l, lens = Some l /\ format_uneven N X = Ok (D, sh, l) /\ check_shape_3D sh false 2 = Ok tt /\
      (min_len = Some m \/ min_len = None /\ min_list l = Ok m)
  else lens = None /\ exists A, check_array_3D N X false 2 = Ok A /\ to_dataset N A = Ok D /\ sh = shape A /\ m = nthd 0 sh 2.

Lemma read_X_ok k X s (h : heap) D sh lens s' h' : read_X N k X s h = (Ok (D, sh, lens), s', h') ->
  exists m, read_as k X (e_min_len s) D sh lens m /\ s' = set_min_len (Some m) s /\ h' = h.
Proof.
  unfold read_X, read_as. destruct (kind_vl k).
  - intros H. apply bindE_ok in H as ([[D1 sh1] l1] & s1 & h1 & H1 & H). injection H1 as H1 <- <-.
    apply bindE_ok in H as ([] & s1 & h1 & H2 & H). injection H2 as H2 <- <-.
    apply bindE_ok in H as (s1 & s2 & h1 & H3 & H). injection H3 as <- <- <-.
    apply bindE_ok in H as (u & s1 & h1 & H3 & H). injection H as <- <- <- <- <-.
    destruct (e_min_len s) as [m|] eqn:Em.
    + injection H3 as <- <- <-. exists m. split; [exists l1; auto|]. split; [|reflexivity].
      destruct s. cbn in *. subst. reflexivity.
    + apply bindE_ok in H3 as (m & s2 & h2 & H4 & H3). injection H4 as H4 <- <-. injection H3 as <- <- <-.
      exists m. split; [exists l1; auto 10|]. auto.
  - intros H. apply bindE_ok in H as (A & s1 & h1 & H1 & H). injection H1 as H1 <- <-.
    apply bindE_ok in H as (D1 & s1 & h1 & H2 & H). injection H2 as H2 <- <-.
    apply bindE_ok in H as (u & s1 & h1 & H3 & H). injection H3 as <- <- <-. injection H as <- <- <- <- <-.
    eexists. split; [|split; reflexivity]. split; [reflexivity|]. exists A. auto.
Qed.

Lemma set_lengths_ext s1 s2 m : e_bounds s1 = e_bounds s2 -> e_lengths s1 = e_lengths s2 -> e_reduction s1 = e_reduction s2 ->
  set_lengths N s1 m = set_lengths N s2 m.
Proof. intros E1 E2 E3. unfold set_lengths. rewrite E1, E2, E3. reflexivity. Qed.

Lemma draw_seed_ok (s : est) (h : heap) z s' h' : draw_seed V s h = (Ok z, s', h') ->
  s' = s /\ exists g, get h (e_rs s) = Ok g /\ z = fst (v_randint V g) /\ set h (e_rs s) (snd (v_randint V g)) = Ok h'.
Proof.
  unfold draw_seed. destruct (get h (e_rs s)) as [g|e]; [|discriminate].
  destruct (v_randint V g) as [z1 g'] eqn:E. destruct (set h (e_rs s) g') as [h1|e] eqn:Es; [|discriminate].
  intros H. injection H as <- <- <-. split; [reflexivity|]. exists g. rewrite E. auto.
Qed.

(** the two percentiles *)
Definition percentile_values (p : pyv F) : res (F * F) :=
  match p with
  | VArr _ _ cells => let* a := get cells 0 in let* b := get cells 1 in
                      let* x := as_F N a in let* z := as_F N b in Ok (x, z)
  | _ => Err TypeError
  end.

Lemma prepare_ok X y s h q s' h' : prepare N V X y s h = (Ok q, s', h') ->
  exists k D sh lens m ls D' y' sizes seed pc al pn,
    (e_type s = TKind k \/ (e_type s = TAuto /\ auto_class N X = Ok (TKind k))) /\
    read_as k X (e_min_len s) D sh lens m /\
    selected D y D' y' /\ (e_n_samples s = VNone -> D' = D /\ y' = y) /\
    set_lengths N s m = Ok ls /\ check_lengths N ls m = Ok sizes /\
    (e_n_samples s = VNone -> exists g, get h (e_rs s) = Ok g /\ seed = fst (v_randint V g) /\
       set h (e_rs s) (snd (v_randint V g)) = Ok h') /\
    percentile_values (e_percentiles s) = Ok pc /\ as_F N (e_alpha s) = Ok al /\ as_F N (e_proba_norm s) = Ok pn /\
    q = mkReq k D' y' (mkG (e_n_shapelets s) sizes seed pn (fst pc) (snd pc) al (e_phase s) (e_prime s))
          (match e_max_channels s with Some c => c | None => nthd 0 sh 1 end) m lens /\
    s' = set_lengths_attr ls (set_max_channels (Some (match e_max_channels s with Some c => c | None => nthd 0 sh 1 end))
           (set_min_len (Some m) (set_kind k (set_type (TKind k) s)))).
Proof.
  unfold prepare. intros H. apply bindE_ok in H as (u & s1 & h1 & H1 & H).
  assert (E1 : exists k, s1 = set_kind k (set_type (TKind k) s) /\ h1 = h /\
     (e_type s = TKind k \/ (e_type s = TAuto /\ auto_class N X = Ok (TKind k)))).
  { revert H1. unfold set_fit_transform, bindE, self, put, liftE, retE. destruct (e_type s) as [|k|] eqn:ET.
    - destruct (auto_class N X) as [[|k|]|e]; intros H1; try discriminate. injection H1 as <- <- <-.
      exists k. auto.
    - intros H1. injection H1 as <- <- <-. exists k. split; [|auto]. destruct s; cbn in *; subst; reflexivity.
    - discriminate. }
  destruct E1 as (k & -> & -> & HT). clear u H1.
  apply bindE_ok in H as (s1 & s2 & h1 & H1 & H). injection H1 as <- <- <-. cbn [e_type set_kind set_type] in H.
  apply bindE_ok in H as (k' & s2 & h1 & H1 & H). injection H1 as <- <- <-.
  apply bindE_ok in H as ([[D sh] lens] & s2 & h1 & H1 & H).
  destruct (read_X_ok _ _ _ _ _ _ _ _ _ H1) as (m & Hr & -> & ->). clear H1.
  apply bindE_ok in H as ([D' y'] & s2 & h1 & H1 & H).
  destruct (subsample_ok _ _ _ _ _ _ _ _ _ H1) as (-> & Hsel & Hall).
  cbn [e_n_samples set_min_len set_kind set_type] in Hall. clear H1.
  apply bindE_ok in H as (s2 & s3 & h2 & H1 & H). injection H1 as <- <- <-.
  apply bindE_ok in H as (u & s2 & h2 & H1 & H).
  assert (E2 : s2 = set_max_channels (Some (match e_max_channels s with Some c => c | None => nthd 0 sh 1 end))
           (set_min_len (Some m) (set_kind k (set_type (TKind k) s))) /\ h2 = h1).
  { cbn [e_max_channels set_min_len set_kind set_type] in H1. destruct (e_max_channels s) eqn:Ec; injection H1 as <- <- <-;
      (split; [|reflexivity]); [|reflexivity]. destruct s; cbn in *; subst; reflexivity. }
  destruct E2 as (-> & ->). clear u H1.
  apply bindE_ok in H as (s2 & s3 & h2 & H1 & H). injection H1 as <- <- <-.
  cbn [e_min_len set_max_channels set_min_len] in H.
  apply bindE_ok in H as (ls & s3 & h2 & H1 & H). injection H1 as H1 <- <-.
  apply bindE_ok in H as (u & s3 & h2 & H2 & H). injection H2 as <- <- <-.
  apply bindE_ok in H as (sizes & s3 & h2 & H2 & H). injection H2 as H2 <- <-.
  apply bindE_ok in H as (seed & s3 & h2 & H3 & H). destruct (draw_seed_ok _ _ _ _ _ H3) as (-> & g & Hg & Hz & Hset).
  apply bindE_ok in H as (s4 & s3 & h3 & H4 & H). injection H4 as <- <- <-.
  apply bindE_ok in H as (pc & s3 & h3 & H4 & H). injection H4 as H4 <- <-.
  apply bindE_ok in H as (al & s3 & h3 & H5 & H). injection H5 as H5 <- <-.
  apply bindE_ok in H as (pn & s3 & h3 & H6 & H). injection H6 as H6 <- <-.
  injection H as <- <- <-.
  exists k, D, sh, lens, m, ls, D', y', sizes, seed, pc, al, pn.
  split; [exact HT|]. split; [exact Hr|]. split; [exact Hsel|]. split; [intros Hn; destruct (Hall Hn) as (? & ? & _); auto|].
  split; [rewrite <- H1; apply set_lengths_ext; reflexivity|]. split; [exact H2|].
  split; [intros Hn; destruct (Hall Hn) as (_ & _ & ->); exists g; auto|].
  split; [exact H4|]. split; [exact H5|]. split; [exact H6|]. split; reflexivity.
Qed.

Lemma fit_ok ex X y s h u s' h' : fit N rng V ex X y s h = (Ok u, s', h') ->
  exists q s1 f, prepare N V X y s h = (Ok q, s1, h') /\ run_fitter N rng ex q = Ok f /\ s' = set_shapelets f s1.
Proof.
  unfold fit. intros H. apply bindE_ok in H as (q & s1 & h1 & H1 & H).
  apply bindE_ok in H as (f & s2 & h2 & H2 & H). injection H2 as H2 <- <-. injection H as <- <- <-.
  exists q, s1, f. auto.
Qed.

Lemma run_fitter_kind ex q f : run_fitter N rng ex q = Ok f ->
  match q_kind q with KU | KUV => exists r, f = FU r | KM | KMV => exists r, f = FM r end.
Proof.
  unfold run_fitter. destruct (q_kind q); intros H; apply bind_inv in H as (r & _ & H); injection H as <-; eauto.
Qed.

End P.
