(** C71: sklearn.base.clone (used by cross_validate, GridSearchCV and the ensembles of scikit-learn) on the estimators. *)
From Coq Require Import String ZArith List Bool Lia Reals.
From Verif Require Import Prelude Num Checks Estimator Clone NumbaUtilsProofs PropsEstimator.
Import ListNotations.
Open Scope Z_scope.

Section C71.
Context {F : Type} (N : NumOps F) {RS : Type} (V : pyenv RS).

(** ** What the constructors do with the copy of an attribute *)
Definition accepts (r : rule) := forall n a b, r n a = Ok b -> forall n' m, exists c : obj F, r n' (deepcopy m b) = Ok c.
Definition keeps (r : rule) := forall n a b, r n a = Ok b -> forall n' m, r n' (deepcopy m b : obj F) = Ok (deepcopy m b).

Lemma keeps_accepts r : keeps r -> accepts r.
Proof. intros H n a b E n' m. eexists. exact (H n a b E n' m). Qed.

Ltac go := intros n [ia va] b E n' m; destruct va; cbn in E; try discriminate; try (injection E as <-); cbn; try reflexivity.

Lemma keep_keeps : keeps keep. Proof. intros n a b _ n' m. reflexivity. Qed.
Lemma keep_numeric_keeps : keeps keep_numeric. Proof. go. Qed.
Lemma keep_boolean_keeps : keeps keep_boolean. Proof. go. Qed.
Lemma keep_numeric_or_none_keeps : keeps keep_numeric_or_none. Proof. go. Qed.

Lemma array_1D_arr v w : check_array_1D N v = Ok w -> (exists sh dt c, w = VArr sh dt c) /\ check_array_1D N w = Ok w.
Proof.
  unfold check_array_1D. intros E. destruct v; cbn [check_is_numpy] in E; try discriminate.
  - destruct (np_asarray N (VList l)) as [w'|] eqn:Ew; [|discriminate]. unfold np_asarray in Ew.
    destruct (shape_of (VList l)) as [sh|]; [|discriminate]. injection Ew as <-. cbn [bind] in E.
    destruct (guard (zlen _ =? 1) ValueError) eqn:G1; [|discriminate]. cbn [bind] in E.
    destruct (guard (negb _) ValueError) eqn:G2; [|discriminate]. cbn [bind] in E.
    match type of E with Ok ?a = Ok ?b => assert (E' : b = a) by congruence end. subst w.
    split; [eauto|]. cbn [check_is_numpy bind]. rewrite G1. cbn [bind]. rewrite G2. reflexivity.
  - cbn [bind] in E.
    destruct (guard (zlen _ =? 1) ValueError) eqn:G1; [|discriminate]. cbn [bind] in E.
    destruct (guard (negb _) ValueError) eqn:G2; [|discriminate]. cbn [bind] in E.
    match type of E with Ok ?a = Ok ?b => assert (E' : b = a) by congruence end. subst w.
    split; [eauto|]. cbn [check_is_numpy bind]. rewrite G1. cbn [bind]. rewrite G2. reflexivity.
Qed.

Lemma array_1D_val n a b : array_1D N n a = Ok b -> check_array_1D N (o_val a) = Ok (o_val b).
Proof.
  unfold array_1D. destruct (check_array_1D N (o_val a)) as [w|] eqn:E; [|discriminate]. cbn [bind]. intros H.
  match type of H with Ok ?u = Ok ?v => assert (E' : v = u) by congruence end. subst b.
  destruct (o_val a) eqn:Ea; try reflexivity. rewrite Ea. symmetry.
  revert E. unfold check_array_1D. cbn [check_is_numpy bind]. destruct (guard _ _); [|discriminate]. cbn [bind].
  destruct (guard _ _); [|discriminate]. cbn [bind]. congruence.
Qed.

Lemma array_1D_keeps : keeps (array_1D N).
Proof.
  intros n a b E n' m. apply array_1D_val in E. destruct (array_1D_arr _ _ E) as ((sh & dt & c & Ew) & E').
  destruct b as [i w]. cbn [o_val] in *. subst w. unfold deepcopy. cbn [o_val]. unfold array_1D. cbn [o_val]. rewrite E'. reflexivity.
Qed.

Lemma lower_lower_ascii c : lower_ascii (lower_ascii c) = lower_ascii c.
Proof. destruct c as [[] [] [] [] [] [] [] []]; reflexivity. Qed.
Lemma lower_lower s : lower (lower s) = lower s.
Proof. induction s as [|c s IH]; [reflexivity|]. cbn [lower]. rewrite lower_lower_ascii, IH. reflexivity. Qed.

Lemma lowered_accepts : accepts lowered.
Proof.
  intros n [ia va] b E n' m. destruct va; try discriminate. unfold lowered in *. cbn [o_val] in *.
  destruct (validate_transform_type (VStr s)) as [t|] eqn:Et; [|discriminate]. cbn [bind] in E.
  match type of E with Ok ?u = Ok ?v => assert (E' : v = u) by congruence end. subst b.
  unfold deepcopy. cbn [o_val].
  assert (E2 : validate_transform_type (VStr (lower s) : pyv F) = Ok t)
    by (revert Et; unfold validate_transform_type; rewrite lower_lower; auto).
  rewrite E2. cbn [bind]. eauto.
Qed.

Lemma int_of_numeric_accepts : accepts (int_of_numeric N).
Proof. intros n [ia va] b E n' m. destruct va; try discriminate; cbn in E; injection E as <-; cbn; eauto. Qed.

Lemma bounds_val m v : py_len (o_val (deepcopy m v) : pyv F) = py_len (o_val v).
Proof. destruct v as [i []]; reflexivity. Qed.

Lemma bounds_accepts : accepts bounds_rule.
Proof.
  intros n a b E n' m. assert (b = a).
  { unfold bounds_rule in E. destruct (o_val a); try congruence; cbn [bind] in E;
      destruct (py_len _); cbn [bind] in E; try discriminate; destruct (guard _ _); cbn [bind] in E; congruence. }
  subst b. assert (Hn : o_val (deepcopy m a) = VNone \/ o_val a <> VNone /\ o_val (deepcopy m a) <> VNone)
    by (destruct a as [i []]; cbn; (left; reflexivity) || (right; split; intros Q; discriminate Q)).
  exists (deepcopy m a). pose proof (bounds_val m a) as HL. unfold bounds_rule in *.
  destruct Hn as [Hn | [Ha Hd]]; [rewrite Hn; reflexivity|].
  assert (E' : (let* k := py_len (o_val a) in let* _ := guard (k =? 2) ValueError in Ok a) = Ok a) by (destruct (o_val a); congruence).
  rewrite <- HL in E'.
  assert (E2 : (let* k := py_len (o_val (deepcopy m a)) in let* _ := guard (k =? 2) ValueError in Ok (deepcopy m a)) = Ok (deepcopy m a)).
  { revert E'. destruct (py_len (o_val (deepcopy m a))) as [k|]; [|discriminate]. cbn [bind]. destruct (guard _ _); [reflexivity|discriminate]. }
  destruct (o_val (deepcopy m a)); congruence.
Qed.

Lemma reduction_accepts : accepts (reduction_rule N).
Proof.
  intros n [i v] b E n' m. unfold reduction_rule in *. destruct v; try discriminate; cbn in *;
    (destruct (guard _ _) eqn:G; [|discriminate]); cbn in E; injection E as <-; cbn; rewrite G; cbn; eauto.
Qed.

Lemma percentiles_accepts : accepts (percentiles_rule N).
Proof.
  intros n a b E n' m. unfold percentiles_rule in *.
  destruct (validate_percentiles N (o_val a)) as [p|] eqn:Ep; [|discriminate]. cbn [bind] in E.
  pose proof (array_1D_keeps _ _ _ E n' m) as K. pose proof (array_1D_val _ _ _ E) as Ev.
  destruct (array_1D_arr _ _ Ev) as ((sh & dt & c & Ew) & E').
  assert (Ed : o_val (deepcopy m b) = o_val b) by (destruct b as [i w]; cbn in Ew; subst w; reflexivity).
  assert (E2 : validate_percentiles N (o_val (deepcopy m b)) = Ok p).
  { rewrite Ed. revert Ep. unfold validate_percentiles. rewrite Ev, E'. auto. }
  rewrite E2. cbn [bind]. rewrite K. eauto.
Qed.

Lemma random_state_keeps : keeps random_state_rule.
Proof.
  intros n [i v] b E n' m. unfold random_state_rule in E. destruct v; cbn in E; try discriminate.
  - injection E as <-. reflexivity.
  - injection E as <-. reflexivity.
  - destruct (guard _ _) in E; [|discriminate]. cbn in E. injection E as <-. reflexivity.
  - injection E as <-. reflexivity.
Qed.

Lemma n_jobs_keeps : 1 <= v_cpus V -> keeps (n_jobs_rule V).
Proof.
  intros Hc n [i v] b E n' m.
  assert (Hb : (exists x, b = mkObj i (VBool x)) \/ exists k j, b = mkObj j (VInt k) /\ 1 <= k <= v_threads V /\ k <= v_cpus V).
  { unfold n_jobs_rule in E. cbn [o_val] in E. unfold init_n_jobs, set_num_threads in E.
    destruct v; cbn [check_n_jobs bind] in E; try discriminate.
    - destruct ((1 <=? 1) && (1 <=? v_threads V)) eqn:G; cbn [guard bind] in E; [|discriminate]. injection E as <-.
      right. exists 1, n. split; [reflexivity|]. lia.
    - left. injection E as <-. eauto.
    - rename z into z0. right. destruct (z0 <? 0) eqn:Hn; cbn [bind] in E;
        (destruct (_ && _) eqn:G in E; cbn [guard bind] in E; [|discriminate]).
      + replace (0 <=? z0) with false in E by lia. cbn [andb] in E. injection E as <-.
        exists (v_cpus V + z0 + 1), n. split; [reflexivity|]. lia.
      + replace (0 <=? z0) with true in E by lia. cbn [andb] in E. destruct (z0 <=? v_cpus V) eqn:Hk; injection E as <-.
        * exists z0, i. split; [reflexivity|]. lia.
        * exists (Z.min z0 (v_cpus V)), n. split; [reflexivity|]. lia. }
  destruct Hb as [[x ->] | (k & j & -> & Hk & Hk')]; [reflexivity|].
  unfold deepcopy, n_jobs_rule. cbn [o_val init_n_jobs check_n_jobs].
  replace (k <? 0) with false by lia. cbn [bind]. unfold set_num_threads. replace (Z.min k (v_cpus V)) with k by lia.
  replace ((1 <=? k) && (k <=? v_threads V)) with true by lia. cbn [guard bind].
  replace ((0 <=? k) && (k <=? v_cpus V)) with true by lia. reflexivity.
Qed.

Lemma transformers_keeps : keeps transformers_rule.
Proof. intros n [i v] b E n' m. destruct v; cbn in E; injection E as <-; reflexivity. Qed.

(** ** Lists of arguments *)
Lemma store_accepts rules : Forall accepts rules -> forall n args attrs, store rules n args = Ok attrs ->
  forall n' m, exists l, store rules n' (copies m attrs) = Ok l.
Proof.
  induction 1 as [|r rs Hr _ IH]; intros n args attrs E n' m; destruct args as [|a args]; cbn [store] in E; try discriminate.
  - injection E as <-. cbn. eauto.
  - destruct (r n a) as [o|] eqn:Eo; [|discriminate]. cbn [bind] in E.
    destruct (store rs (n + 1) args) as [os|] eqn:Es; [|discriminate]. cbn [bind] in E. injection E as <-.
    cbn [copies store]. destruct (Hr _ _ _ Eo n' m) as [c ->]. cbn [bind].
    destruct (IH _ _ _ Es (n' + 1) (m + 1)) as [l ->]. cbn [bind]. eauto.
Qed.

Lemma store_keeps rules : Forall keeps rules -> forall n args attrs, store rules n args = Ok attrs ->
  forall n' m, store rules n' (copies m attrs) = Ok (copies m attrs).
Proof.
  induction 1 as [|r rs Hr _ IH]; intros n args attrs E n' m; destruct args as [|a args]; cbn [store] in E; try discriminate.
  - injection E as <-. reflexivity.
  - destruct (r n a) as [o|] eqn:Eo; [|discriminate]. cbn [bind] in E.
    destruct (store rs (n + 1) args) as [os|] eqn:Es; [|discriminate]. cbn [bind] in E. injection E as <-.
    cbn [copies store]. rewrite (Hr _ _ _ Eo n' m). cbn [bind]. rewrite (IH _ _ _ Es (n' + 1) (m + 1)). reflexivity.
Qed.

(** Two parameters hold the same thing: equal values, or generators (of which the copy has the same state). *)
Definition same_value (a b : obj F) : Prop :=
  o_val a = o_val b \/ exists g g', o_val a = VRng g /\ o_val b = VRng g'.

Lemma copies_same m (l : list (obj F)) : Forall2 same_value l (copies m l).
Proof.
  revert m. induction l as [|[i v] l IH]; intros m; [constructor|]. cbn [copies]. constructor; [|apply IH].
  unfold same_value, deepcopy. cbn [o_val]. destruct v; cbn; auto. right. eauto.
Qed.
Lemma copies_ids m (l : list (obj F)) : forallb (fun p => o_id (fst p) =? o_id (snd p)) (combine (copies m l) (copies m l)) = true.
Proof. revert m. induction l as [|a l IH]; intros m; [reflexivity|]. cbn. rewrite Z.eqb_refl. apply IH. Qed.
Lemma copies_get m (l : list (obj F)) i o : 0 <= i -> get l i = Ok o -> exists m', get (copies m l) i = Ok (deepcopy m' o).
Proof.
  intros Hi E. apply get_nthZ in E; [|exact Hi].
  assert (G : forall k l m, nth_error l k = Some o -> exists m', nth_error (copies m l) k = Some (deepcopy m' o : obj F)).
  { clear. induction k as [|k IH]; intros [|a l] m E; cbn in E |- *; try discriminate; [injection E as <-; eauto|eauto]. }
  unfold nthZ in E. destruct (Z.ltb_spec i 0); [lia|]. destruct (G _ _ m E) as [m' E']. exists m'. apply get_nthZ; [exact Hi|].
  unfold nthZ. destruct (Z.ltb_spec i 0); [lia|]. exact E'.
Qed.

Lemma ensemble_check_copies m l : ensemble_check l = Ok tt -> ensemble_check (copies m l : list (obj F)) = Ok tt.
Proof.
  unfold ensemble_check. destruct (get l 12) as [a|] eqn:Ea; [|discriminate]. destruct (get l 14) as [b|] eqn:Eb; [|discriminate].
  destruct (copies_get m _ 12 _ ltac:(lia) Ea) as [m1 ->]. destruct (copies_get m _ 14 _ ltac:(lia) Eb) as [m2 ->].
  cbn [bind]. rewrite !bounds_val. auto.
Qed.

(** An object whose content can change in place. *)
Definition mutable (v : pyv F) : Prop :=
  match v with VNone | VBool _ | VInt _ | VFloat _ | VStr _ => False | _ => True end.

Lemma copies_new m l : Forall2 (fun a b : obj F => mutable (o_val a) -> m <= o_id b) l (copies m l).
Proof.
  assert (G : forall k, m <= k -> Forall2 (fun a b : obj F => mutable (o_val a) -> m <= o_id b) l (copies k l)).
  { induction l as [|[i v] l IH]; intros k Hk; [constructor|]. cbn [copies]. constructor; [|apply IH; lia].
    unfold deepcopy. cbn [o_val]. destruct v; cbn; tauto. }
  apply G. lia.
Qed.

Lemma clone_kept rules (check : list (obj F) -> res unit) : Forall keeps rules ->
  (forall m l, check l = Ok tt -> check (copies m l) = Ok tt) ->
  forall n args attrs, construct rules check n args = Ok attrs ->
  forall new, exists attrs', clone rules check new attrs = Cloned attrs' /\ Forall2 same_value attrs attrs' /\
    Forall2 (fun a b => mutable (o_val a) -> new <= o_id b) attrs attrs'.
Proof.
  intros Hr Hc n args attrs E new. unfold construct in E.
  destruct (store rules n args) as [l|] eqn:Es; [|discriminate]. cbn [bind] in E.
  destruct (check l) as [[]|] eqn:Ec; [|discriminate]. cbn [bind] in E. injection E as <-.
  exists (copies new l). split; [|split; [apply copies_same|apply copies_new]].
  unfold clone, construct. rewrite (store_keeps _ Hr _ _ _ Es). cbn [bind]. rewrite (Hc _ _ Ec). cbn [bind].
  rewrite copies_ids. reflexivity.
Qed.

(** The objects passed to R_DST for its 16 parameters, in the order of the signature. *)
Definition opt_int (o : option Z) : pyv F := match o with Some z => VInt z | None => VNone end.
Definition rdst_values (a : @rargs F) : list (pyv F) :=
  [p_transform_type a; p_phase_invariance a; p_alpha a; p_normalize_output a; p_n_samples a; p_n_shapelets a; p_shapelet_lengths a;
   p_bounds a; p_reduction a; p_prime_dilations a; p_proba_norm a; p_percentiles a; p_random_state a; opt_int (p_max_channels a);
   opt_int (p_min_len a); p_n_jobs a].

Lemma rdst_accepts : 1 <= v_cpus V -> Forall accepts (rdst_rules N V).
Proof.
  intros Hc. unfold rdst_rules.
  repeat (apply Forall_cons; [first
    [ exact lowered_accepts | exact int_of_numeric_accepts | exact bounds_accepts | exact reduction_accepts | exact percentiles_accepts
    | apply keeps_accepts; first [exact keep_boolean_keeps | exact keep_numeric_keeps | exact keep_numeric_or_none_keeps
        | exact array_1D_keeps | exact random_state_keeps | exact keep_keeps | exact (n_jobs_keeps Hc)]]|]).
  constructor.
Qed.

Lemma bind_ok {A B} (m : res A) (f : A -> res B) b : (let* x := m in f x) = Ok b -> exists a, m = Ok a /\ f a = Ok b.
Proof. destruct m; [cbn; eauto|discriminate]. Qed.

(** Whatever R_DST(...) accepts, the rules accept. *)
Lemma rdst_store a h e h' : init N V a h = (Ok e, h') -> forall n args, map o_val args = rdst_values a ->
  exists attrs, store (rdst_rules N V) n args = Ok attrs.
Proof.
  unfold init. intros E n args Ha.
  destruct args as [|a0 [|a1 [|a2 [|a3 [|a4 [|a5 [|a6 [|a7 [|a8 [|a9 [|a10 [|a11 [|a12 [|a13 [|a14 [|a15 [|]]]]]]]]]]]]]]]]]; try discriminate.
  unfold rdst_values in Ha. cbn [map] in Ha. injection Ha as H0 H1 H2 H3 H4 H5 H6 H7 H8 H9 H10 H11 H12 H13 H14 H15.
  match type of E with (match ?B with _ => _ end) = _ => destruct B as [q|] eqn:EB; [|discriminate] end.
  apply bind_ok in EB. destruct EB as (ty & T0 & EB). apply bind_ok in EB. destruct EB as (ph & T1 & EB).
  apply bind_ok in EB. destruct EB as (al & T2 & EB). apply bind_ok in EB. destruct EB as (no & T3 & EB).
  apply bind_ok in EB. destruct EB as (ns & T4 & EB). apply bind_ok in EB. destruct EB as (nsh & T5 & EB).
  apply bind_ok in EB. destruct EB as (sl & T6 & EB). apply bind_ok in EB. destruct EB as (bo & T7 & EB).
  apply bind_ok in EB. destruct EB as (re & T8 & EB). apply bind_ok in EB. destruct EB as (u8 & T8' & EB).
  apply bind_ok in EB. destruct EB as (pr & T9 & EB). apply bind_ok in EB. destruct EB as (pn & T10 & EB).
  apply bind_ok in EB. destruct EB as (pc & T11 & EB). injection EB as <-.
  destruct (check_random_state V (p_random_state a) h) as [r h2] eqn:T12. injection E as E _.
  apply bind_ok in E. destruct E as (id & -> & E). apply bind_ok in E. destruct E as (nj & T15 & _).
  assert (R : forall (r : rule) rs n x l, (exists o, r n x = Ok o) -> (exists os, store rs (n + 1) l = Ok os) ->
              exists os : list (obj F), store (r :: rs) n (x :: l) = Ok os).
  { intros r rs k xo l [o Eo] [os Es]. cbn [store]. rewrite Eo. cbn [bind]. rewrite Es. cbn [bind]. eauto. }
  assert (B : forall k x b, check_is_boolean (o_val x : pyv F) = Ok b -> exists o, keep_boolean k x = Ok o)
    by (intros k xo b Eb; unfold keep_boolean; rewrite Eb; cbn; eauto).
  assert (U : forall k x v, check_is_numeric (o_val x : pyv F) = Ok v -> exists o, keep_numeric k x = Ok o)
    by (intros k xo b Eb; unfold keep_numeric; rewrite Eb; cbn; eauto).
  assert (A : forall k x v, check_array_1D N (o_val x : pyv F) = Ok v -> exists o, array_1D N k x = Ok o)
    by (intros k xo b Eb; unfold array_1D; rewrite Eb; cbn; eauto).
  unfold rdst_rules.
  apply R. { unfold lowered. rewrite H0, T0. cbn [bind]. eauto. }
  apply R. { eapply B. rewrite H1. exact T1. }
  apply R. { eapply U. rewrite H2. exact T2. }
  apply R. { eapply B. rewrite H3. exact T3. }
  apply R. { unfold keep_numeric_or_none. rewrite H4. destruct (p_n_samples a) eqn:E4; eauto; eapply U; rewrite H4; exact T4. }
  apply R. { unfold int_of_numeric. rewrite H5. apply bind_ok in T5. destruct T5 as (v & Ev & Ei). rewrite Ev. cbn [bind].
             rewrite Ei. cbn [bind]. eauto. }
  apply R. { eapply A. rewrite H6. exact T6. }
  apply R. { unfold bounds_rule. rewrite H7. destruct (p_bounds a) eqn:E7; eauto; 
             apply bind_ok in T7; destruct T7 as (k & Ek & T7); rewrite Ek; cbn [bind];
             (destruct (k =? 2); [cbn; eauto|discriminate]). }
  apply R. { unfold reduction_rule. rewrite H8, T8. cbn [bind]. apply bind_ok in T8'. destruct T8' as (r & Er & G). rewrite Er. cbn [bind].
             rewrite G. cbn. eauto. }
  apply R. { eapply B. rewrite H9. exact T9. }
  apply R. { eapply U. rewrite H10. exact T10. }
  apply R. { unfold percentiles_rule. rewrite H11, T11. cbn [bind]. unfold validate_percentiles in T11.
             apply bind_ok in T11. destruct T11 as (w & Ew & _). eapply A. rewrite H11. exact Ew. }
  apply R. { unfold random_state_rule. rewrite H12. unfold check_random_state in T12. destruct (p_random_state a); try discriminate; eauto.
             destruct ((0 <=? z) && (z <? 2 ^ 32)); [cbn; eauto|discriminate]. }
  apply R. { unfold keep. eauto. }
  apply R. { unfold keep. eauto. }
  apply R. { unfold n_jobs_rule. rewrite H15, T15. cbn. eauto. }
  cbn. eauto.
Qed.

(** No R_DST object can be cloned: clone raises RuntimeError, because the transform_type attribute is never the object given. *)
Theorem C71_rdst_refuted a h e h' : 1 <= v_cpus V -> init N V a h = (Ok e, h') ->
  forall n args, map o_val args = rdst_values a ->
  exists attrs, construct (rdst_rules N V) (fun _ => Ok tt) n args = Ok attrs /\
    forall new, n < new -> clone (rdst_rules N V) (fun _ => Ok tt) new attrs = RuntimeError.
Proof.
  intros Hc E n args Ha. destruct (rdst_store _ _ _ _ E n args Ha) as [attrs Es]. exists attrs. unfold construct.
  rewrite Es. split; [reflexivity|]. intros new Hn. unfold clone, construct.
  destruct (store_accepts _ (rdst_accepts Hc) _ _ _ Es (new + zlen attrs) new) as [l El]. rewrite El. cbn [bind].
  assert (HL : 0 <= zlen attrs) by apply zlen_nonneg.
  unfold rdst_rules in *. destruct args as [|x args]; [discriminate|]. cbn [store] in Es.
  apply bind_ok in Es. destruct Es as (o & Eo & Es). apply bind_ok in Es. destruct Es as (os & _ & Es). injection Es as <-.
  cbn [copies store] in El |- *. apply bind_ok in El. destruct El as (o' & Eo' & El). apply bind_ok in El. destruct El as (os' & _ & El).
  injection El as <-. unfold lowered in Eo, Eo'. apply bind_ok in Eo. destruct Eo as (t & Et & Eo). injection Eo as <-.
  apply bind_ok in Eo'. destruct Eo' as (t' & _ & Eo'). injection Eo' as <-.
  cbn [combine forallb fst snd].
  destruct (o_val x); try discriminate. unfold deepcopy at 1. cbn [o_val o_id].
  replace (n =? _) with false; [reflexivity|]. symmetry. apply Z.eqb_neq. lia.
Qed.

(** R_DST_Ridge and R_DST_Ensemble objects can always be cloned: the copy holds the same parameter values, and nothing
    mutable is shared with the original. *)
Theorem C71_ridge n args attrs : 1 <= v_cpus V ->
  construct (ridge_rules V) (fun _ => Ok tt) n args = Ok attrs ->
  forall new, exists attrs', clone (ridge_rules V) (fun _ => Ok tt) new attrs = Cloned attrs' /\ Forall2 same_value attrs attrs' /\
    Forall2 (fun a b => mutable (o_val a) -> new <= o_id b) attrs attrs'.
Proof.
  intros Hc. apply clone_kept; [|reflexivity]. unfold ridge_rules.
  repeat (apply Forall_cons; [first [exact keep_keeps | exact (n_jobs_keeps Hc)]|]). constructor.
Qed.

Theorem C71_ensemble n args attrs :
  construct (ensemble_rules N) ensemble_check n args = Ok attrs ->
  forall new, exists attrs', clone (ensemble_rules N) ensemble_check new attrs = Cloned attrs' /\ Forall2 same_value attrs attrs' /\
    Forall2 (fun a b => mutable (o_val a) -> new <= o_id b) attrs attrs'.
Proof.
  apply clone_kept; [|exact ensemble_check_copies]. unfold ensemble_rules.
  repeat (apply Forall_cons; [first [exact keep_boolean_keeps | exact keep_numeric_keeps | exact keep_numeric_or_none_keeps
        | exact array_1D_keeps | exact random_state_keeps | exact transformers_keeps | exact keep_keeps]|]).
  constructor.
Qed.
(** the number of entries of a list or of an array of one dimension *)
Inductive entries : pyv F -> Z -> Prop :=
| entries_list l : entries (VList l) (zlen l)
| entries_array k dt c : entries (VArr [k] dt c) k.

Lemma store_nth rules : forall n args l, store rules n args = Ok l -> forall i r (a : obj F), nthZ rules i = Some r -> nthZ args i = Some a ->
  exists m o, r m a = Ok o /\ nthZ l i = Some o.
Proof.
  induction rules as [|r0 rules IH]; intros n args l E i r a Hr Ha; [apply nthZ_range in Hr; change (zlen (@nil (@rule F))) with 0 in Hr; lia|].
  destruct args as [|a0 args]; [discriminate|]. cbn [store] in E. apply bind_ok in E. destruct E as (o & Eo & E). apply bind_ok in E. destruct E as (os & Es & E). injection E as <-.
  rewrite nthZ_cons in Hr. rewrite nthZ_cons in Ha. rewrite nthZ_cons. destruct (Z.eqb_spec i 0); [injection Hr as <-; injection Ha as <-; eauto|]. eapply IH; eauto.
Qed.

Lemma shape_list (l : list (pyv F)) : forall sh, shape_of (VList l) = Some sh -> exists t, sh = zlen l :: t.
Proof.
  induction l as [|x l IH]; intros sh E; [injection E as <-; exists []; reflexivity|]. destruct l as [|y l].
  - cbn in E. destruct (shape_of x) as [s|]; [|discriminate]. injection E as <-. exists s. reflexivity.
  - change (match shape_of x, shape_of (VList (y :: l)) with Some s, Some (n :: s') => if shape_eqb s s' then Some (n + 1 :: s') else None | _, _ => None end = Some sh) in E.
    destruct (shape_of x) as [s|]; [|discriminate]. destruct (shape_of (VList (y :: l))) as [[|n s']|]; try discriminate. destruct (IH _ eq_refl) as (t & Q). injection Q as -> ->.
    destruct (shape_eqb s t); [|discriminate]. injection E as <-. exists t. rewrite (zlen_cons x). reflexivity.
Qed.

Lemma array_1D_entries n (a o : obj F) k : entries (o_val a) k -> array_1D N n a = Ok o -> py_len (o_val o) = Ok k.
Proof.
  intros H E. destruct a as [i w]. cbn [o_val] in H. unfold array_1D in E. cbn [o_val] in E. apply bind_ok in E. destruct E as (v & Ev & E). injection E as <-. destruct H as [l|k dt c]; [|reflexivity].
  cbn [o_val]. unfold check_array_1D in Ev. apply bind_ok in Ev. destruct Ev as (w' & Ew & Ev). cbn [check_is_numpy] in Ew. unfold np_asarray in Ew.
  destruct (shape_of (VList l)) as [sh|] eqn:Es; [|discriminate]. injection Ew as <-. apply bind_ok in Ev. destruct Ev as ([] & _ & Ev). apply bind_ok in Ev. destruct Ev as ([] & _ & Ev). injection Ev as <-.
  apply shape_list in Es as (t & ->). reflexivity.
Qed.

(** An R_DST_Ensemble object has as many input transformers as values of proba_norm (three transformers when none are given):
    with other numbers the constructor raises an exception. *)
Theorem C71_ensemble_lengths n args x y k m : nthZ args 12 = Some x -> entries (o_val x) k -> nthZ args 14 = Some y ->
  entries (o_val y) m \/ (o_val y = VNone /\ m = 3) -> k <> m -> exists e, construct (ensemble_rules N) ensemble_check n args = Err e.
Proof.
  intros Hx Ex Hy Ey Hkm. destruct (construct (ensemble_rules N) ensemble_check n args) as [l|e] eqn:E; [exfalso|eauto].
  unfold construct in E. apply bind_ok in E. destruct E as (l' & Es & E). apply bind_ok in E. destruct E as ([] & Ec & E).
  destruct (store_nth _ _ _ _ Es 12 (array_1D N) x eq_refl Hx) as (n1 & o1 & R1 & G1). destruct (store_nth _ _ _ _ Es 14 transformers_rule y eq_refl Hy) as (n2 & o2 & R2 & G2).
  apply array_1D_entries with (k := k) in R1; [|exact Ex].
  assert (R3 : py_len (o_val o2) = Ok m).
  { unfold transformers_rule in R2. destruct Ey as [Ey|[Ey ->]]; [|rewrite Ey in R2; injection R2 as <-; reflexivity]. destruct y as [iy vy]. cbn [o_val] in *. destruct Ey; injection R2 as <-; reflexivity. }
  unfold ensemble_check in Ec. apply get_nthZ in G1; [|lia]. apply get_nthZ in G2; [|lia]. rewrite G1, G2 in Ec. cbn [bind] in Ec. rewrite R1, R3 in Ec. cbn [bind] in Ec.
  unfold guard in Ec. destruct (Z.eqb_spec m k); [lia|discriminate].
Qed.
End C71.
Print Assumptions C71_rdst_refuted.
Print Assumptions C71_ridge.
Print Assumptions C71_ensemble.
Print Assumptions C71_ensemble_lengths.

(** The default objects, on a machine with four processors: objects 1, 2, ... are the default arguments. *)
Definition objs (l : list (pyv Z)) : list (obj Z) := map (fun p => mkObj (fst p) (snd p)) (combine (zrange 1 (1 + zlen l)) l).
Example C71_case :
  let rd := objs [VStr "auto"; VBool false; VInt 0; VBool false; VNone; VInt 100; VList [VInt 11]; VNone; VInt 0; VBool false; VInt 1;
                  VList [VInt 5; VInt 10]; VNone; VNone; VNone; VInt 1] in
  let ri := objs [VStr "auto"; VBool false; VInt 0; VBool false; VNone; VInt 100; VList [VInt 11]; VNone; VInt 0; VBool false; VInt 1;
                  VList [VInt 5; VInt 10]; VInt (-1); VNone; VNone; VNone; VBool true; VList [VInt 1; VInt 10]] in
  let en := objs [VInt 100; VList [VInt 11]; VNone; VInt 0; VBool false; VNone; VInt 1; VNone; VStr "sharedmem"; VNone; VInt 0; VInt 4;
                  VList [VInt 1; VInt 1; VInt 1]; VBool false; VNone; VStr "auto"; VBool false; VList [VInt 5; VInt 10]; VNone; VNone; VNone;
                  VBool true; VList [VInt 1; VInt 10]] in
  (exists a, construct (rdst_rules ZN caseV) (fun _ => Ok tt) 50 rd = Ok a /\ clone (rdst_rules ZN caseV) (fun _ => Ok tt) 100 a = RuntimeError) /\
  (exists a a' o, construct (ridge_rules caseV) (fun _ => Ok tt) 50 ri = Ok a /\ clone (ridge_rules caseV) (fun _ => Ok tt) 100 a = Cloned a' /\
     get a 12 = Ok (mkObj 62 (VInt 4)) /\ get a' 12 = Ok (mkObj 62 (VInt 4)) /\ get a' 6 = Ok (mkObj o (VList [VInt 11])) /\ 100 <= o) /\
  (exists a a', construct (ensemble_rules ZN) ensemble_check 50 en = Ok a /\ clone (ensemble_rules ZN) ensemble_check 100 a = Cloned a' /\
     get a 14 = Ok (mkObj 64 (VList [VOther; VOther; VOther])) /\ get a' 14 = Ok (mkObj 114 (VList [VOther; VOther; VOther])) /\
     get a' 9 = Ok (mkObj 109 (VRng 109))) /\
  construct (ensemble_rules ZN) ensemble_check 50 (firstn 12 en ++ mkObj 40 (VList [VInt 1; VInt 1]) :: skipn 13 en) = Err ValueError.
Proof.
  intros rd ri en.
  split; [|split; [|split; [|vm_compute; reflexivity]]].
  - eexists. split; [vm_compute; reflexivity|]. vm_compute. reflexivity.
  - eexists _, _, _. split; [vm_compute; reflexivity|]. split; [vm_compute; reflexivity|]. repeat split; try (vm_compute; reflexivity).
    vm_compute. discriminate.
  - eexists _, _. split; [vm_compute; reflexivity|]. split; [vm_compute; reflexivity|]. repeat split; vm_compute; reflexivity.
Qed.
