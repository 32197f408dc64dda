(** Properties C37 and C38 (R_DST_Ridge) and C44 to C46 and C67 (R_DST_Ensemble): convst/classifiers/rdst_ridge.py and
    convst/classifiers/rdst_ensemble.py. *)
From Coq Require Import String ZArith List Bool Lia Reals Lra.
From Verif Require Import Prelude Num RealBase Kernel Parallel Apply ApplyProofs Gen Checks Estimator EstimatorCases EstimatorNum Preproc NumbaUtilsProofs Classifiers
  ClassifierProofs EnsembleProofs VoteProofs.
Import ListNotations.
Open Scope Z_scope.

(** A small instance used by the examples: integer numbers; a generator which counts; the scaler changes nothing; the ridge
    classifier keeps the labels and decides by comparing the first feature with 1. *)
Definition zrng : Rng Z Z := mkRng Z Z (fun s => s) (fun n s => (s mod n, s + 1)) (fun s => (0, s + 1)).
Definition zenv : pyenv Z := mkEnv Z (fun s => s) (fun g => (g, g + 1)) (fun g n r k y => (Ok [2; 0], g + 1)) 6 6.
Definition in_order {S} : @executor S := fun ST => exec_seq.
Definition first_feature (row : list Z) : Z := match row with x :: _ => x | [] => 0 end.
Definition zsk : sklearn Z unit unit (list Z) :=
  mkSk _ _ _ _ (fun _ => Ok tt) (fun _ X => Ok X) (fun _ _ y => Ok y) (fun m X => Ok (map (fun row => if 1 <? first_feature row then 7 else 5) X))
    (fun m X => Ok (D1 (map (fun row => first_feature row - 1) X))) (fun m => map (fun l => [l]) m) (fun x => if x =? 0 then 1 else 0) (fun x a => x ^ a).
Definition zargs (seed : pyv Z) : @rargs Z :=
  mkArgs (VStr "auto") (VBool false) (VInt 0) (VBool false) VNone (VInt 1) (VList [VInt 2]) VNone (VInt 0) (VBool false) (VInt 0)
    (VList [VInt 0; VInt 100]) seed None None (VInt 6).
Definition zX1 : pyv Z := VArr [2; 1; 4] DInt64 (intcells [1; 2; 3; 9;  2; 1; 0; 5]).
Definition zbad : pyv Z := VArr [2; 4] DInt64 (intcells [1; 2; 3; 9;  2; 1; 0; 5]).
Definition zX2 : pyv Z := VArr [2; 1; 6] DInt64 (intcells [0; 0; 3; 9; 1; 1;  2; 1; 0; 5; 5; 5]).

(** ** C37.  R_DST_Ridge.fit does not depend on the history of the object *)

(** Whatever was fitted before on an object, successfully or not, a fit on it gives the same outcome as on a new object
    constructed with the same arguments, and the same predictions, when the generators it draws from are in the same state. *)
Theorem C37_ridge_history : forall F (N : NumOps F) S (rng : Rng F S) RS (V : pyenv RS) SC P M (K : sklearn F SC P M) ex a p r0 calls h r h' X y hf u rf k u0 r1 k0,
  ridge_init V a p = Ok r0 -> ridge_history N rng V K ex calls r0 h = (r, h') -> same_generators a h' hf ->
  ridge_fit N rng V K ex X y r h' = (u, rf, k) -> ridge_fit N rng V K ex X y r0 hf = (u0, r1, k0) ->
  u = u0 /\ (u = Ok tt -> forall Z, ridge_predict N K rf Z = ridge_predict N K r1 Z).
Proof.
  intros F N S rng RS V SC P M K ex a p r0 calls h r h' X y hf u rf k u0 r1 k0 HI HH HG H1 H0.
  assert (Ha : rd_args r0 = a) by (unfold ridge_init in HI; apply bind_inv in HI as (nj & _ & HI); injection HI as <-; reflexivity).
  destruct (ridge_history_params _ _ _ _ _ _ _ _ _ _ HH) as (E1 & E2).
  destruct (ridge_fit_rel N rng V K ex X y r r0 h' hf u rf k u0 r1 k0 E1 E2) as (A & B); auto; [rewrite E1, Ha; exact HG|].
  split; [auto|]. intros Hu Z. symmetry. apply B; exact Hu.
Qed.
Print Assumptions C37_ridge_history.

(** With an integer random_state and n_samples None this needs no assumption about generators: the result of fit is a
    function of the arguments and the data. *)
Theorem C37_ridge_seeded : forall F (N : NumOps F) S (rng : Rng F S) RS (V : pyenv RS) SC P M (K : sklearn F SC P M) ex a p r0 calls h r h' X y hf u rf k u0 r1 k0 seed,
  p_random_state a = VInt seed -> p_n_samples a = VNone -> h <> [] -> hf <> [] ->
  ridge_init V a p = Ok r0 -> ridge_history N rng V K ex calls r0 h = (r, h') ->
  ridge_fit N rng V K ex X y r h' = (u, rf, k) -> ridge_fit N rng V K ex X y r0 hf = (u0, r1, k0) ->
  u = u0 /\ (u = Ok tt -> forall Z, ridge_predict N K rf Z = ridge_predict N K r1 Z).
Proof.
  intros F N S rng RS V SC P M K ex a p r0 calls h r h' X y hf u rf k u0 r1 k0 seed Hs Hn Hh Hf HI HH H1 H0.
  eapply C37_ridge_history; eauto. split; [eapply ridge_history_heap; eauto|]. split; [exact Hf|]. rewrite Hs, Hn. split; [exact I|contradiction].
Qed.
Print Assumptions C37_ridge_seeded.

(** Two fits on series of 4 points, one of which fails (a 2D array), and then a fit on series of 6 points. *)
Example C37_ridge_case : exists r0 r h' rf k, ridge_init zenv (zargs (VInt 3)) tt = Ok r0 /\
  ridge_history ZN zrng zenv zsk in_order [(zX1, [5; 7]); (zbad, [5; 7])] r0 [0] = (r, h') /\
  ridge_fit ZN zrng zenv zsk in_order zX2 [5; 7] r h' = (Ok tt, rf, k) /\ ridge_predict ZN zsk rf zX2 = Ok [7; 5] /\
  same_generators (zargs (VInt 3)) h' [0; 8].
Proof.
  do 5 eexists. split; [vm_compute; reflexivity|]. split; [vm_compute; reflexivity|]. split; [vm_compute; reflexivity|]. split; [vm_compute; reflexivity|].
  split; [discriminate|]. split; [discriminate|]. split; [exact I|]. intros H. exfalso. apply H. reflexivity.
Qed.

(** ** C38.  After a failed fit R_DST_Ridge refuses to predict *)

(** The classifier is replaced before the transformer is fitted: after a failed fit, predict and score raise, also on an
    object which was fitted before; they never answer with a mixture of the old and the new model. *)
Theorem C38_ridge_no_stale_model : forall F (N : NumOps F) S (rng : Rng F S) RS (V : pyenv RS) SC P M (K : sklearn F SC P M) ex X y r h e r' h' Z l,
  ridge_fit N rng V K ex X y r h = (Err e, r', h') ->
  (exists e', ridge_predict N K r' Z = Err e') /\ (exists e', ridge_score N K r' Z l = Err e').
Proof.
  intros F N S rng RS V SC P M K ex X y r h e r' h' Z l H.
  assert (E : exists e', ridge_predict N K r' Z = Err e').
  { unfold ridge_fit in H. destruct (init N V _ h) as [[t|e1] h1].
    - destruct (fit N rng V ex X y t h1) as [[v t1] h2]. destruct (bind v _); [discriminate H|]. injection H as <- <- <-.
      unfold ridge_predict. cbn [rd_classifier rd_transformer]. destruct (transform N t1 Z); cbn [bind]; eauto.
    - injection H as <- <- <-. unfold ridge_predict. cbn [rd_classifier rd_transformer]. destruct (rd_transformer r) as [t|]; [|eauto].
      destruct (transform N t Z); cbn [bind]; eauto. }
  split; [exact E|]. destruct E as (e' & E). exists e'. unfold ridge_score. rewrite E. reflexivity.
Qed.
Print Assumptions C38_ridge_no_stale_model.

Example C38_ridge_case : exists r0 r1 h1 r2 h2, ridge_init zenv (zargs (VInt 3)) tt = Ok r0 /\
  ridge_fit ZN zrng zenv zsk in_order zX1 [5; 7] r0 [0] = (Ok tt, r1, h1) /\ ridge_predict ZN zsk r1 zX1 = Ok [5; 7] /\
  ridge_fit ZN zrng zenv zsk in_order zbad [5; 7] r1 h1 = (Err ValueError, r2, h2) /\ ridge_predict ZN zsk r2 zX1 = Err NotFittedError.
Proof. do 5 eexists. repeat (split; [vm_compute; reflexivity|]). vm_compute. reflexivity. Qed.

(** ** C44.  Thread budget of R_DST_Ensemble *)

(** [total] threads asked for: None means 1, a negative number counts down from the number of cpus, at most all cpus *)
Definition asked {F} (cpus : Z) (n_jobs : pyv F) (total : Z) : Prop :=
  (n_jobs = VNone /\ total = 1) \/ exists n, n_jobs = VInt n /\ ((n < 0 /\ total = cpus + 1 + n) \/ (0 <= n /\ total = Z.min n cpus)).

Lemma asked_check {F} cpus (v : pyv F) total : asked cpus v total -> check_n_jobs cpus v = Ok total.
Proof.
  intros [(-> & ->)|(n & -> & [(H & ->)|(H & ->)])]; cbn [check_n_jobs]; [reflexivity| |]; destruct (Z.ltb_spec n 0); try lia; f_equal; lia.
Qed.

(** If at least one thread is asked for, [outer] members are fitted at a time with [inner] threads each: both are at least
    1, their product does not exceed the budget, and it cannot be increased by one more inner thread per member.  This
    holds also when the fit fails later on. *)
Theorem C44_budget : forall F (N : NumOps F) S (rng : Rng F S) RS (V : pyenv RS) SC P M (K : sklearn F SC P M) ex sched X y (e e' : ens) h h' u total,
  asked (v_cpus V) (en_n_jobs e) total -> 1 <= total -> en_trans e <> [] -> ens_fit N rng V K ex sched X y e h = (u, e', h') ->
  exists outer inner, en_n_jobs e' = VInt outer /\ en_n_jobs_rdst e' = Some inner /\
    1 <= outer <= zlen (en_trans e) /\ 1 <= inner /\ outer * inner <= total < outer * (inner + 1).
Proof.
  intros F N S rng RS V SC P M K ex sched X y e e' h h' u total HA Ht Hn H.
  assert (Hl : 1 <= zlen (en_trans e)) by (apply zlen_pos in Hn; lia).
  unfold ens_fit, manage_n_jobs in H. rewrite (asked_check _ _ _ HA) in H.
  destruct (Z.eqb_spec (Z.min (zlen (en_trans e)) total) 0) as [|_]; [lia|].
  set (o := Z.min (zlen (en_trans e)) total) in *. set (e1 := mkEns (en_args e) _ _ _ _ _ _ _ _) in H.
  assert (E : en_n_jobs e' = VInt o /\ en_n_jobs_rdst e' = Some (Z.max 1 (total / o))).
  { destruct (set_num_threads V _) as [[]|er]; [|injection H as <- <- <-; split; reflexivity].
    destruct (run_members N rng V K ex e1 X y sched h) as [r h1]. destruct (bind r _) as [models|er]; [|injection H as <- <- <-; split; reflexivity].
    destruct (ens_weights N K e1 y models) as [ws|er]; injection H as <- <- <-; split; reflexivity. }
  destruct E as (E1 & E2). exists o, (Z.max 1 (total / o)). split; [exact E1|]. split; [exact E2|].
  assert (Ho : 1 <= o <= total) by lia. split; [lia|]. split; [lia|].
  assert (Hd : 1 <= total / o) by (apply Z.div_le_lower_bound; lia). rewrite Z.max_r by lia.
  pose proof (Z.div_mod total o ltac:(lia)). pose proof (Z.mod_pos_bound total o ltac:(lia)). nia.
Qed.
Print Assumptions C44_budget.

(** n_jobs=0, as any value giving 0 threads, is not rejected by a readable error: the division fails, and the attribute
    n_jobs is already overwritten. *)
Theorem C44_zero_jobs : forall F (N : NumOps F) S (rng : Rng F S) RS (V : pyenv RS) SC P M (K : sklearn F SC P M) ex sched X y (e : ens) h,
  asked (v_cpus V) (en_n_jobs e) 0 -> exists e', ens_fit N rng V K ex sched X y e h = (Err ZeroDivisionError, e', h) /\ en_n_jobs e' = VInt 0.
Proof.
  intros F N S rng RS V SC P M K ex sched X y e h HA. unfold ens_fit, manage_n_jobs. rewrite (asked_check _ _ _ HA).
  pose proof (zlen_nonneg (en_trans e)). replace (Z.min (zlen (en_trans e)) 0) with 0 by lia. cbn [Z.eqb]. eexists. split; reflexivity.
Qed.
Print Assumptions C44_zero_jobs.

(** Fitting again: n_jobs now holds the number of members fitted at a time, so that every later fit gives each member a
    single thread. *)
Theorem C44_refit_single_thread : forall F (N : NumOps F) S (rng : Rng F S) RS (V : pyenv RS) SC P M (K : sklearn F SC P M) ex sched X y (e e' : ens) h h' u
    sched2 X2 y2 h2 u2 (e2 : ens) k2 total,
  asked (v_cpus V) (en_n_jobs e) total -> 1 <= total <= v_cpus V -> en_trans e <> [] -> ens_fit N rng V K ex sched X y e h = (u, e', h') ->
  ens_fit N rng V K ex sched2 X2 y2 e' h2 = (u2, e2, k2) ->
  en_n_jobs_rdst e2 = Some 1 /\ en_n_jobs e2 = en_n_jobs e'.
Proof.
  intros F N S rng RS V SC P M K ex sched X y e e' h h' u sched2 X2 y2 h2 u2 e2 k2 total HA Ht Hn H H2.
  destruct (C44_budget F N S rng RS V SC P M K ex sched X y e e' h h' u total HA (proj1 Ht) Hn H) as (o & i & E1 & E2 & Ho & Hi & Hb).
  assert (Et : en_trans e' = en_trans e).
  { unfold ens_fit, manage_n_jobs in H. rewrite (asked_check _ _ _ HA) in H. destruct (_ =? 0); [injection H as <- <- <-; reflexivity|].
    destruct (set_num_threads V _) as [[]|er]; [|injection H as <- <- <-; reflexivity].
    destruct (run_members N rng V K ex _ X y sched h) as [r h1]. destruct (bind r _) as [models|er]; [|injection H as <- <- <-; reflexivity].
    destruct (ens_weights N K _ y models) as [ws|er]; injection H as <- <- <-; reflexivity. }
  assert (HA2 : asked (v_cpus V) (en_n_jobs e') o) by (right; exists o; split; [exact E1|right; nia]).
  assert (Hn2 : en_trans e' <> []) by congruence.
  destruct (C44_budget F N S rng RS V SC P M K ex sched2 X2 y2 e' e2 h2 k2 u2 o HA2 ltac:(lia) Hn2 H2) as (o2 & i2 & G1 & G2 & Ho2 & Hi2 & Hb2).
  unfold ens_fit, manage_n_jobs in H2. rewrite (asked_check _ _ _ HA2), Et in H2. replace (Z.min (zlen (en_trans e)) o) with o in H2 by lia.
  destruct (Z.eqb_spec o 0) as [|_]; [lia|]. rewrite Z.div_same, Z.max_id in H2 by lia. rewrite E1.
  destruct (set_num_threads V 1) as [[]|er]; [|injection H2 as <- <- <-; split; reflexivity].
  destruct (run_members N rng V K ex _ X2 y2 sched2 h2) as [r h1]. destruct (bind r _) as [models|er]; [|injection H2 as <- <- <-; split; reflexivity].
  destruct (ens_weights N K _ y2 models) as [ws|er]; injection H2 as <- <- <-; split; reflexivity.
Qed.
Print Assumptions C44_refit_single_thread.

(** 6 threads and 2 members: 2 members at a time with 3 threads each; refitting the same object on the same data: 2 x 1. *)
Definition ztrans : list (@itrans Z) := [fun X => Ok X; fun X => match X with VArr sh dt cells => Ok (VArr sh dt (rev cells)) | _ => Err TypeError end].
Definition zens (seed : pyv Z) := ens_init (SC := unit) (M := list Z) ZN zenv (zargs seed) tt (VInt 4) (VList [VInt 0; VInt 0]) ztrans.
Example C44_case : exists e1 h1 e2 h2 e3 h3, zens (VInt 0) [0] = (Ok e1, h1) /\ asked (v_cpus zenv) (en_n_jobs e1) 6 /\
  ens_fit ZN zrng zenv zsk in_order [0; 1] zX1 [0; 1] e1 h1 = (Ok tt, e2, h2) /\ en_n_jobs e2 = VInt 2 /\ en_n_jobs_rdst e2 = Some 3 /\
  ens_fit ZN zrng zenv zsk in_order [0; 1] zX1 [0; 1] e2 h2 = (Ok tt, e3, h3) /\ en_n_jobs e3 = VInt 2 /\ en_n_jobs_rdst e3 = Some 1.
Proof.
  do 6 eexists. split; [vm_compute; reflexivity|]. split; [right; exists 6; split; [reflexivity|right; split; [lia|reflexivity]]|].
  split; [vm_compute; reflexivity|]. split; [reflexivity|]. split; [reflexivity|]. split; [vm_compute; reflexivity|]. split; reflexivity.
Qed.

(** ** C45.  The vote *)

(** the decision values of a member for the data X, one row per sample: with two classes -d and d *)
Definition decides {SC P M} (K : sklearn R SC P M) (m : @member R SC M) (X : pyv R) (D : list (list R)) : Prop :=
  exists X1 Z Zs d, m_in m X = Ok X1 /\ transform RN (m_rdst m) X1 = Ok Z /\ k_scale K (fst (m_ridge m)) Z = Ok Zs /\
    k_decision K (snd (m_ridge m)) Zs = Ok d /\ D = match d with D1 l => map (fun x => [- x; x]%R) l | D2 l => l end.

(** softmax: the share of class c *)
Definition share (row : list R) (c : Z) : R := match nthZ row c with Some d => (exp d / rsum (map exp row))%R | None => 0%R end.
(** the score of class c for sample i: weighted sum of the shares over the members *)
Definition score (ws : list R) (Ds : list (list (list R))) (i c : Z) : R :=
  rsum (map (fun wD => match nthZ (snd wD) i with Some row => (fst wD * share row c)%R | None => 0%R end) (combine ws Ds)).

Lemma member_proba_R {SC P M} (K : sklearn R SC P M) m w X D n k : (forall x, k_exp K x = exp x) -> 1 <= k -> decides K m X D -> zlen D = n -> Forall (fun r => zlen r = k) D ->
  exists A, member_proba RN K m w X = Ok A /\ is_mat n k A (fun i c => match nthZ D i with Some row => (w * share row c)%R | None => 0%R end).
Proof.
  intros Hexp Hk (X1 & Z & Zs & d & E1 & E2 & E3 & E4 & ED) Hn HF. unfold member_proba, iridge_proba. rewrite E1. cbn [bind]. rewrite E2. cbn [bind]. rewrite E3. cbn [bind]. rewrite E4. cbn [bind].
  assert (ER : rows_of_decision RN d = D).
  { rewrite ED. destruct d as [l|l]; [|reflexivity]. cbn [rows_of_decision]. apply map_ext. intros x. cbn. f_equal. lra. }
  rewrite ER. rewrite Forall_forall in HF.
  destruct (mapM_indexed (softmax RN K) D (fun i r => exists row, nthZ D i = Some row /\ r = map (fun x => exp x / rsum (map exp row))%R row)) as (A & EA & LA & HA).
  { intros i row Hi. exists (map (fun x => exp x / rsum (map exp row))%R row). split; [|eauto]. apply softmax_R; [exact Hexp|].
    intros ->. apply nthZ_In in Hi. apply HF in Hi. cbn in Hi. lia. }
  rewrite EA. cbn [bind]. eexists. split; [reflexivity|]. split; [rewrite zlen_map; congruence|].
  intros i r Hi. rewrite nthZ_map in Hi. destruct (nthZ A i) as [s|] eqn:Es; [|discriminate]. injection Hi as <-.
  destruct (HA i s Es) as (row & Er & ->). rewrite !zlen_map. split; [apply HF; eapply nthZ_In; exact Er|].
  intros c x Hx. rewrite !nthZ_map in Hx. rewrite Er. unfold share. destruct (nthZ row c) as [v|]; [|discriminate]. injection Hx as <-. cbn [nmul RN]. lra.
Qed.

Lemma predict_scores {SC P M} (K : sklearn R SC P M) (e : ens) models ws X Ds n k : (forall x, k_exp K x = exp x) -> 1 <= k ->
  en_fitted e = Some (models, ws) -> models <> [] -> zlen ws = zlen models -> zlen Ds = zlen models ->
  (forall j m D, nthZ models j = Some m -> nthZ Ds j = Some D -> decides K m X D /\ zlen D = n /\ Forall (fun r => zlen r = k) D) ->
  exists l, ens_predict RN K e X = Ok l /\ zlen l = n /\ forall i c, nthZ l i = Some c ->
    exists row, zlen row = k /\ (forall c0 x, nthZ row c0 = Some x -> x = score ws Ds i c0) /\ first_max RN row c.
Proof.
  intros Hexp Hk HE Hm Hw HD H.
  assert (G : exists As, mapM (fun mw => member_proba RN K (fst mw) (snd mw) X) (combine models ws) = Ok As /\
     Forall2 (is_mat n k) As (map (fun wD => fun i c => match nthZ (snd wD) i with Some row => (fst wD * share row c)%R | None => 0%R end) (combine ws Ds)) /\ (models <> [] -> As <> [])).
  { clear HE Hm. revert ws Ds Hw HD H. induction models as [|m t IH]; intros ws Ds Hw HD H.
    - exists []. split; [reflexivity|]. split; [|contradiction]. destruct ws; [constructor|rewrite zlen_cons in Hw; pose proof (zlen_nonneg ws); cbn in Hw; lia].
    - destruct ws as [|w ws]; [rewrite zlen_cons in Hw; pose proof (zlen_nonneg t); cbn in Hw; lia|].
      destruct Ds as [|D Ds]; [rewrite zlen_cons in HD; pose proof (zlen_nonneg t); cbn in HD; lia|]. rewrite !zlen_cons in *.
      destruct (H 0 m D eq_refl eq_refl) as (H1 & H2 & H3). destruct (member_proba_R K m w X D n k Hexp Hk H1 H2 H3) as (A & EA & HA).
      destruct (IH ws Ds ltac:(lia) ltac:(lia)) as (As & EAs & HAs & _).
      { intros j m' D' Hj1 Hj2. apply (H (j + 1)); rewrite nthZ_cons; pose proof (nthZ_range _ _ _ Hj1); (destruct (Z.eqb_spec (j + 1) 0); [lia|]);
          replace (j + 1 - 1) with j by lia; assumption. }
      exists (A :: As). cbn [combine mapM fst snd]. rewrite EA. cbn [bind]. rewrite EAs. cbn [bind map]. split; [reflexivity|]. split; [constructor; assumption|discriminate]. }
  destruct G as (As & EAs & HAs & Hne). specialize (Hne Hm). unfold ens_predict. rewrite HE, EAs. cbn [bind].
  destruct As as [|A As]; [contradiction|]. inversion HAs as [|? a ? fs HA HF E0 E1]; subst.
  destruct (fold_mats_R n k As fs A a HA HF) as (C & EC & LC & HC). rewrite EC. cbn [bind].
  destruct (mapM_indexed (argmax RN) C (fun i c => exists row, zlen row = k /\ (forall c0 x, nthZ row c0 = Some x -> x = score ws Ds i c0) /\ first_max RN row c)) as (l & El & Ll & Hl).
  { intros i row Hi. destruct (HC i row Hi) as (Lr & Hr). destruct (argmax_spec RN (fun _ => True) R_order_laws row) as (c & E & Hc).
    - intros ->. cbn in Lr. lia.
    - apply Forall_forall. auto.
    - exists c. split; [exact E|]. exists row. split; [exact Lr|]. split; [|exact Hc]. intros c0 x Hx. rewrite (Hr _ _ Hx).
      unfold score. pose proof (f_equal (fun fs : list (Z -> Z -> R) => rsum (map (fun f => f i c0) fs)) E1) as E2. cbn [map rsum] in E2. rewrite E2.
      rewrite map_map. reflexivity. }
  exists l. split; [exact El|]. split; [congruence|exact Hl].
Qed.

(** For every fitted ensemble whose members decide between k classes: predict returns for each sample a number c in
    [0, k) with the largest score, the smallest such number if there are several. *)
Theorem C45_vote : forall SC P M (K : sklearn R SC P M) (e : ens) models ws X Ds n k, (forall x, k_exp K x = exp x) -> 1 <= k ->
  en_fitted e = Some (models, ws) -> models <> [] -> zlen ws = zlen models -> zlen Ds = zlen models ->
  (forall j m D, nthZ models j = Some m -> nthZ Ds j = Some D -> decides K m X D /\ zlen D = n /\ Forall (fun r => zlen r = k) D) ->
  exists l, ens_predict RN K e X = Ok l /\ zlen l = n /\ forall i c, nthZ l i = Some c ->
    0 <= c < k /\ forall c', 0 <= c' < k -> (score ws Ds i c' <= score ws Ds i c)%R /\ (c' < c -> (score ws Ds i c' < score ws Ds i c)%R).
Proof.
  intros SC P M K e models ws X Ds n k Hexp Hk HE Hm Hw HD H.
  destruct (predict_scores K e models ws X Ds n k Hexp Hk HE Hm Hw HD H) as (l & El & Ll & Hl). exists l. split; [exact El|]. split; [exact Ll|].
  intros i c Hc. destruct (Hl i c Hc) as (row & Lr & Hr & mx & Em & Hmx). pose proof (nthZ_range _ _ _ Em) as Rc. split; [lia|].
  intros c' Hc'. destruct (nthZ_some row c') as (x & Ex); [lia|]. destruct (Hmx _ _ Ex) as (A & B).
  rewrite <- (Hr _ _ Em), <- (Hr _ _ Ex). apply Rltb_false in A. split; [lra|]. intros Hlt. apply B in Hlt. apply Rltb_true in Hlt. exact Hlt.
Qed.
Print Assumptions C45_vote.

(** If the weights are not negative, some member has a positive one, and all members with a positive weight rank class c
    strictly first for sample i, then c is predicted for sample i. *)
Theorem C45_unanimous : forall SC P M (K : sklearn R SC P M) (e : ens) models ws X Ds n k i c, (forall x, k_exp K x = exp x) -> 1 <= k ->
  en_fitted e = Some (models, ws) -> models <> [] -> zlen ws = zlen models -> zlen Ds = zlen models ->
  (forall j m D, nthZ models j = Some m -> nthZ Ds j = Some D -> decides K m X D /\ zlen D = n /\ Forall (fun r => zlen r = k) D) ->
  0 <= i < n -> 0 <= c < k -> Forall (fun w => 0 <= w)%R ws -> Exists (fun w => 0 < w)%R ws ->
  (forall j w D row dc, nthZ ws j = Some w -> (0 < w)%R -> nthZ Ds j = Some D -> nthZ D i = Some row -> nthZ row c = Some dc ->
     forall c' d', nthZ row c' = Some d' -> c' <> c -> (d' < dc)%R) ->
  exists l, ens_predict RN K e X = Ok l /\ nthZ l i = Some c.
Proof.
  intros SC P M K e models ws X Ds n k i c Hexp Hk HE Hm Hw HD H Hi Hc Hpos Hex Hun.
  destruct (C45_vote SC P M K e models ws X Ds n k Hexp Hk HE Hm Hw HD H) as (l & El & Ll & Hl). exists l. split; [exact El|].
  destruct (nthZ_some l i) as (b & Eb); [lia|]. destruct (Hl i b Eb) as (Rb & Hb). destruct (Z.eq_dec b c) as [->|Hbc]; [exact Eb|]. exfalso.
  destruct (Hb c Hc) as (Hle & _).
  (** every member gives c at least the share of b, and some member more *)
  assert (Hmem : forall j w D, nthZ ws j = Some w -> nthZ Ds j = Some D -> exists row, nthZ D i = Some row /\
    (w * share row b <= w * share row c)%R /\ ((0 < w)%R -> (w * share row b < w * share row c)%R)).
  { intros j w D Ew ED. pose proof (nthZ_range _ _ _ Ew) as Rj. destruct (nthZ_some models j) as (m & Em); [lia|].
    destruct (H j m D Em ED) as (_ & LD & HF). destruct (nthZ_some D i) as (row & Er); [lia|]. exists row. split; [exact Er|].
    rewrite Forall_forall in HF. pose proof (HF row (nthZ_In _ _ _ Er)) as Lr. cbn beta in Lr.
    destruct (nthZ_some row b) as (db & Edb); [lia|]. destruct (nthZ_some row c) as (dc & Edc); [lia|].
    assert (Hne : row <> []) by (intros ->; cbn in Lr; lia). pose proof (exp_sum_pos row Hne) as Hs.
    assert (Hw0 : (0 <= w)%R) by (rewrite Forall_forall in Hpos; apply Hpos; eapply nthZ_In; exact Ew).
    unfold share. rewrite Edb, Edc.
    assert (Hstrict : (0 < w)%R -> (w * (exp db / rsum (map exp row)) < w * (exp dc / rsum (map exp row)))%R).
    { intros Hw1. apply Rmult_lt_compat_l; [exact Hw1|]. unfold Rdiv. apply Rmult_lt_compat_r; [apply Rinv_0_lt_compat; exact Hs|].
      apply exp_increasing. exact (Hun j w D row dc Ew Hw1 ED Er Edc b db Edb Hbc). }
    split; [|exact Hstrict]. destruct (Rle_lt_or_eq_dec _ _ Hw0) as [Hw1|<-]; [left; auto|lra]. }
  assert (Hlt : (score ws Ds i b < score ws Ds i c)%R).
  { unfold score. clear - Hmem Hex Hw HD. assert (HL : zlen Ds = zlen ws) by congruence. clear Hw HD. revert Ds HL Hmem.
    assert (Hshift : forall A (x : A) t j y, nthZ t j = Some y -> nthZ (x :: t) (j + 1) = Some y).
    { intros A x t j y Hy. rewrite nthZ_cons. pose proof (nthZ_range _ _ _ Hy). destruct (Z.eqb_spec (j + 1) 0); [lia|]. replace (j + 1 - 1) with j by lia. exact Hy. }
    assert (Hge : forall ws Ds, zlen Ds = zlen ws -> (forall j w D, nthZ ws j = Some w -> nthZ Ds j = Some D -> exists row, nthZ D i = Some row /\
        (w * share row b <= w * share row c)%R /\ ((0 < w)%R -> (w * share row b < w * share row c)%R)) ->
      (rsum (map (fun wD => match nthZ (snd wD) i with Some row => fst wD * share row b | None => 0 end) (combine ws Ds)) <=
       rsum (map (fun wD => match nthZ (snd wD) i with Some row => fst wD * share row c | None => 0 end) (combine ws Ds)))%R).
    { clear. intros ws Ds HL Hmem. apply rsum_map_le. intros [w D] Hin. apply In_nthZ in Hin as (j & Hj). rewrite nthZ_combine in Hj.
      destruct (nthZ ws j) as [w'|] eqn:E1; [|discriminate]. destruct (nthZ Ds j) as [D'|] eqn:E2; [|discriminate]. injection Hj as -> ->.
      destruct (Hmem j w D E1 E2) as (row & Er & Hr & _). cbn [fst snd]. rewrite Er. exact Hr. }
    induction Hex as [w t Hw|w t Hex IH]; intros [|D Ds] HL Hmem; rewrite ?zlen_cons in HL; try (pose proof (zlen_nonneg t); cbn in HL; lia).
    - cbn [combine map rsum fst snd]. destruct (Hmem 0 w D eq_refl eq_refl) as (row & Er & _ & Hs). rewrite Er. specialize (Hs Hw).
      specialize (Hge t Ds ltac:(lia)). assert (Hge' := Hge (fun j w0 D0 A B => Hmem (j + 1) w0 D0 (Hshift _ _ _ _ _ A) (Hshift _ _ _ _ _ B))). lra.
    - cbn [combine map rsum fst snd]. destruct (Hmem 0 w D eq_refl eq_refl) as (row & Er & Hr & _). rewrite Er.
      specialize (IH Ds ltac:(lia)). assert (IH' := IH (fun j w0 D0 A B => Hmem (j + 1) w0 D0 (Hshift _ _ _ _ _ A) (Hshift _ _ _ _ _ B))). lra. }
  lra.
Qed.
Print Assumptions C45_unanimous.

(** If all weights are 0 then class number 0 is predicted for every sample, whatever the members decide. *)
Theorem C45_zero_weights : forall SC P M (K : sklearn R SC P M) (e : ens) models ws X Ds n k, (forall x, k_exp K x = exp x) -> 1 <= k ->
  en_fitted e = Some (models, ws) -> models <> [] -> zlen ws = zlen models -> zlen Ds = zlen models ->
  (forall j m D, nthZ models j = Some m -> nthZ Ds j = Some D -> decides K m X D /\ zlen D = n /\ Forall (fun r => zlen r = k) D) ->
  Forall (fun w => w = 0)%R ws ->
  exists l, ens_predict RN K e X = Ok l /\ zlen l = n /\ forall i c, nthZ l i = Some c -> c = 0.
Proof.
  intros SC P M K e models ws X Ds n k Hexp Hk HE Hm Hw HD H H0.
  destruct (C45_vote SC P M K e models ws X Ds n k Hexp Hk HE Hm Hw HD H) as (l & El & Ll & Hl). exists l. split; [exact El|]. split; [exact Ll|].
  intros i c Hc. destruct (Hl i c Hc) as (Rc & Hb). destruct (Z.eq_dec c 0) as [?|Hn0]; [assumption|]. exfalso.
  destruct (Hb 0 ltac:(lia)) as (_ & Hlt). specialize (Hlt ltac:(lia)).
  assert (Hz : forall c0, score ws Ds i c0 = 0%R).
  { intros c0. unfold score. rewrite (rsum_map_ext _ (fun _ => 0%R)); [rewrite rsum_map_const; lra|]. intros [w D] Hin. apply in_combine_l in Hin.
    rewrite Forall_forall in H0. rewrite (H0 w Hin). cbn [fst snd]. destruct (nthZ D i); lra. }
  rewrite !Hz in Hlt. lra.
Qed.
Print Assumptions C45_zero_weights.

(** predict returns numbers of classes and not their labels: with labels outside 0..k-1 (for instance 5 and 7) every single
    prediction is wrong. *)
Theorem C45_labels_refuted : forall SC P M (K : sklearn R SC P M) (e : ens) models ws X Ds n k (y : list Z), (forall x, k_exp K x = exp x) -> 1 <= k ->
  en_fitted e = Some (models, ws) -> models <> [] -> zlen ws = zlen models -> zlen Ds = zlen models ->
  (forall j m D, nthZ models j = Some m -> nthZ Ds j = Some D -> decides K m X D /\ zlen D = n /\ Forall (fun r => zlen r = k) D) ->
  zlen y = n -> Forall (fun label => label < 0 \/ k <= label) y ->
  exists l, ens_predict RN K e X = Ok l /\ zlen l = zlen y /\ forall i c label, nthZ l i = Some c -> nthZ y i = Some label -> c <> label.
Proof.
  intros SC P M K e models ws X Ds n k y Hexp Hk HE Hm Hw HD H Hy HF.
  destruct (C45_vote SC P M K e models ws X Ds n k Hexp Hk HE Hm Hw HD H) as (l & El & Ll & Hl). exists l. split; [exact El|]. split; [congruence|].
  intros i c label Hc Hlab. destruct (Hl i c Hc) as (Rc & _). rewrite Forall_forall in HF. apply nthZ_In, HF in Hlab. lia.
Qed.
Print Assumptions C45_labels_refuted.

(** An ensemble of two members, three classes and two samples; the second member has weight 0. *)
Definition rsk : sklearn R unit unit (list (list R)) :=
  mkSk _ _ _ _ (fun _ => Ok tt) (fun _ X => Ok X) (fun _ X y => Ok X) (fun m X => Ok []) (fun m _ => Ok (D2 m)) (fun m => m) exp (fun x a => x * a)%R.
Definition rest : @est R :=
  mkEst (TKind KU) false (VInt 0) false VNone 1 (ints [2]) None (VInt 0) false (VInt 0) (ints [5; 10]) 0 (VBool false) (Some 1) (Some 5)
    (Some KU) (Some (FU (mkUshp [] [] [] [] []))).
Definition rD1 : list (list R) := [[1; 3; 2]; [0; 0; 5]]%R.
Definition rD2 : list (list R) := [[9; 0; 0]; [0; 7; 0]]%R.
Definition rmembers : list (@member R unit (list (list R))) := [mkMember (fun X => Ok X) rest (tt, rD1); mkMember (fun X => Ok X) rest (tt, rD2)].
Definition rens : @ens R unit unit (list (list R)) :=
  mkEns (mkArgs VNone VNone VNone VNone VNone VNone VNone VNone VNone VNone VNone VNone VNone None None VNone) tt VNone [] [] 0 VNone None
    (Some (rmembers, [1; 0]%R)).
Definition rX : pyv R := VArr [2; 1; 4] DInt64 (intcells [1; 2; 3; 9;  2; 1; 0; 5]).
Lemma rens_decides : forall j m D, nthZ rmembers j = Some m -> nthZ [rD1; rD2] j = Some D ->
  decides rsk m rX D /\ zlen D = 2 /\ Forall (fun r => zlen r = 3) D.
Proof.
  assert (T : transform RN rest rX = Ok [[]; []]) by reflexivity.
  intros j m D Hm HD. pose proof (nthZ_range _ _ _ Hm) as Rj. change (0 <= j < 2) in Rj. assert (j = 0 \/ j = 1) as [-> | ->] by lia;
    injection Hm as <-; injection HD as <-; (split; [|split; [reflexivity|repeat constructor]]); exists rX, [[]; []], [[]; []]; eexists;
    (split; [reflexivity|]; split; [exact T|]; split; [reflexivity|]; split; reflexivity).
Qed.
Example C45_case : ens_predict RN rsk rens rX = Ok [1; 2].
Proof.
  assert (G : forall i c, 0 <= i < 2 -> 0 <= c < 3 ->
     (forall row dc, nthZ rD1 i = Some row -> nthZ row c = Some dc -> forall c' d', nthZ row c' = Some d' -> c' <> c -> (d' < dc)%R) ->
     exists l, ens_predict RN rsk rens rX = Ok l /\ nthZ l i = Some c).
  { intros i c Hi Hc Hd. apply (C45_unanimous _ _ _ rsk rens rmembers [1; 0]%R rX [rD1; rD2] 2 3 i c); try reflexivity; try lia; try discriminate; try assumption.
    - exact rens_decides.
    - repeat constructor; lra.
    - constructor. lra.
    - intros j w D row dc Hw Hw0 HD Hr Hdc. pose proof (nthZ_range _ _ _ Hw) as Rj. change (0 <= j < 2) in Rj. assert (j = 0 \/ j = 1) as [-> | ->] by lia.
      + injection HD as <-. apply Hd; assumption.
      + injection Hw as <-. lra. }
  assert (D : forall (row : list R) c d0 d1 d2 dc, row = [d0; d1; d2] -> nthZ row c = Some dc ->
     (c <> 0 -> (d0 < dc)%R) -> (c <> 1 -> (d1 < dc)%R) -> (c <> 2 -> (d2 < dc)%R) -> forall c' d', nthZ row c' = Some d' -> c' <> c -> (d' < dc)%R).
  { intros row c d0 d1 d2 dc -> Hc A0 A1 A2 c' d' H' Hne. pose proof (nthZ_range _ _ _ H') as Rc. change (0 <= c' < 3) in Rc.
    assert (c' = 0 \/ c' = 1 \/ c' = 2) as [-> |[-> | ->]] by lia; injection H' as <-; auto. }
  destruct (G 0 1 ltac:(lia) ltac:(lia)) as (l & E & H0).
  { intros row dc Hr Hdc. injection Hr as <-. injection Hdc as <-. apply (D _ 1 1%R 3%R 2%R 3%R); try reflexivity; intros; try lia; lra. }
  destruct (G 1 2 ltac:(lia) ltac:(lia)) as (l' & E' & H1).
  { intros row dc Hr Hdc. injection Hr as <-. injection Hdc as <-. apply (D _ 2 0%R 0%R 5%R 5%R); try reflexivity; intros; try lia; lra. }
  destruct (C45_vote _ _ _ rsk rens rmembers [1; 0]%R rX [rD1; rD2] 2 3 ltac:(reflexivity) ltac:(lia) eq_refl ltac:(discriminate) eq_refl eq_refl rens_decides) as (l2 & E2 & L2 & _).
  assert (l' = l2) by congruence. assert (l = l2) by congruence. subst l l'. rewrite E2. f_equal.
  destruct l2 as [|a [|b [|? ?]]]; try (cbn in L2; lia). injection H0 as ->. injection H1 as ->. reflexivity.
Qed.

(** ** C46.  The members share one generator *)

(** The member fitted as number k (counting from 0) in the order of execution uses the seed drawn from the shared generator
    after k other draws: it is the member one gets by fitting it alone with the generator in that state. *)
Theorem C46_positions : forall F (N : NumOps F) S (rng : Rng F S) RS (V : pyenv RS) SC P M (K : sklearn F SC P M) ex sched X y (e e' : ens) h h' g,
  ens_fit N rng V K ex sched X y e h = (Ok tt, e', h') -> p_n_samples (en_args e) = VNone -> 0 <= en_rs e -> nthZ h (en_rs e) = Some g -> NoDup sched ->
  exists models ws, en_fitted e' = Some (models, ws) /\ zlen models = zlen (en_trans e) /\
    forall k i m, nthZ sched k = Some i -> nthZ models i = Some m ->
      (exists q f, run_fitter N rng ex q = Ok f /\ e_shapelets (m_rdst m) = Some f /\ g_seed (q_P q) = fst (v_randint V (after V k g))) /\
      forall hk, nthZ hk (en_rs e) = Some (after V k g) -> exists hk', member_fit N rng V K ex e X y i hk = (Ok m, hk').
Proof.
  intros F N S rng RS V SC P M K ex sched X y e e' h h' g H Hn Hp Hg Hnd.
  destruct (ens_fit_ok _ _ _ _ _ _ _ _ _ _ _ _ H) as (e1 & total & ms & models & ws & _ & _ & _ & _ & Hr & Hf & _ & He & _).
  exists models, ws. split; [exact He|]. destruct (run_positions N rng V K ex e X y Hn Hp sched h g ms h' Hg Hr) as (Hs & HI).
  pose proof (zlen_nonneg (en_trans e)) as Hz.
  split; [unfold zlen at 1; rewrite (mapM_length _ _ _ Hf); fold (zlen (zrange 0 (zlen (en_trans e)))); rewrite zlen_zrange; lia|].
  intros k i m Hk Hm. destruct (HI k i Hk) as (m' & Hm' & HA).
  assert (Eq : m' = m).
  { apply mapM_Forall2 in Hf. pose proof (nthZ_range _ _ _ Hm) as Ri.
    assert (Ri2 : 0 <= i < zlen (en_trans e)).
    { apply Forall2_length in Hf. assert (zlen models = zlen (zrange 0 (zlen (en_trans e)))) by exact (f_equal Z.of_nat (eq_sym Hf)). rewrite zlen_zrange in *. lia. }
    assert (Ei : nthZ (zrange 0 (zlen (en_trans e))) i = Some i) by (rewrite nthZ_zrange; [f_equal; lia|lia]).
    pose proof (NumbaUtilsProofs.Forall2_nthZ _ _ _ _ _ _ Hf Ei Hm) as Ef. cbn beta in Ef.
    rewrite (find_member_at ms k i m') in Ef; [congruence| |exact Hm']. rewrite Hs. exact Hnd. }
  subst m'. split.
  - destruct (nthZ_range _ _ _ Hk) as (Hk0 & _). pose (hk := upd h (Z.to_nat (en_rs e)) (after V k g)).
    destruct (HA hk) as (hk' & _ & Hq); [|exact Hq]. pose proof (nthZ_range _ _ _ Hg) as Rg. unfold hk. rewrite nthZ_upd by lia.
    rewrite Z.eqb_refl. reflexivity.
  - intros hk Hhk. destruct (HA hk Hhk) as (hk' & Hq & _). eauto.
Qed.
Print Assumptions C46_positions.

(** Two ensembles constructed with the same arguments, whose members are fitted in the same order on the same data, behave
    alike when the generators they draw from are in the same state; with an integer random_state and n_samples None this is
    no condition. *)
Theorem C46_same_order : forall F (N : NumOps F) S (rng : Rng F S) RS (V : pyenv RS) SC P M (K : sklearn F SC P M) ex sched X y a p aw pn trans
    (e1 e2 f1 f2 : ens) h1 h2 k1 k2 u1 u2 q1 q2,
  same_generators a h1 h2 -> ens_init N V a p aw pn trans h1 = (Ok e1, k1) -> ens_init N V a p aw pn trans h2 = (Ok e2, k2) ->
  ens_fit N rng V K ex sched X y e1 k1 = (u1, f1, q1) -> ens_fit N rng V K ex sched X y e2 k2 = (u2, f2, q2) ->
  u2 = u1 /\ (u1 = Ok tt -> forall Z, ens_predict N K f2 Z = ens_predict N K f1 Z).
Proof.
  intros F N S rng RS V SC P M K ex sched X y a p aw pn trans e1 e2 f1 f2 h1 h2 k1 k2 u1 u2 q1 q2 HG I1 I2 H1 H2.
  pose proof (ens_init_rel N V a p aw pn trans h1 h2 _ _ _ _ HG I1 I2) as (HE & HJ & HR).
  exact (ens_fit_rel N rng V K ex sched X y e1 e2 k1 k2 u1 f1 q1 u2 f2 q2 HE HJ HR H1 H2).
Qed.
Print Assumptions C46_same_order.
Corollary C46_seeded : forall F (N : NumOps F) S (rng : Rng F S) RS (V : pyenv RS) SC P M (K : sklearn F SC P M) ex sched X y a p aw pn trans
    (e1 e2 f1 f2 : ens) h1 h2 k1 k2 u1 u2 q1 q2 seed,
  p_random_state a = VInt seed -> p_n_samples a = VNone -> h1 <> [] -> h2 <> [] ->
  ens_init N V a p aw pn trans h1 = (Ok e1, k1) -> ens_init N V a p aw pn trans h2 = (Ok e2, k2) ->
  ens_fit N rng V K ex sched X y e1 k1 = (u1, f1, q1) -> ens_fit N rng V K ex sched X y e2 k2 = (u2, f2, q2) ->
  u2 = u1 /\ (u1 = Ok tt -> forall Z, ens_predict N K f2 Z = ens_predict N K f1 Z).
Proof.
  intros F N S rng RS V SC P M K ex sched X y a p aw pn trans e1 e2 f1 f2 h1 h2 k1 k2 u1 u2 q1 q2 seed Hs Hn N1 N2 I1 I2 H1 H2.
  refine (C46_same_order F N S rng RS V SC P M K ex sched X y a p aw pn trans e1 e2 f1 f2 h1 h2 k1 k2 u1 u2 q1 q2 _ I1 I2 H1 H2). split; [exact N1|]. split; [exact N2|]. rewrite Hs, Hn. split; [exact I|contradiction].
Qed.
Print Assumptions C46_seeded.

(** The same ensemble (random_state=0, two members) on the same data: run in the other order the members get each other's
    seed, other shapelets, and the predictions change. *)
Definition shapelets_of (e : @ens Z unit unit (list Z)) : list (option (@fitted Z)) :=
  match en_fitted e with Some (ms, _) => map (fun m => e_shapelets (m_rdst m)) ms | None => [] end.
Theorem C46_order_refuted : exists e h e1 h1 e2 h2 X, zens (VInt 0) [0] = (Ok e, h) /\
  ens_fit ZN zrng zenv zsk in_order [0; 1] zX1 [0; 1] e h = (Ok tt, e1, h1) /\
  ens_fit ZN zrng zenv zsk in_order [1; 0] zX1 [0; 1] e h = (Ok tt, e2, h2) /\
  shapelets_of e1 = [Some (FU (mkUshp [[1; 0]] [2] [1] [0] [false])); Some (FU (mkUshp [[2; 1]] [2] [1] [0] [false]))] /\
  shapelets_of e2 = [Some (FU (mkUshp [[0; 5]] [2] [1] [0] [false])); Some (FU (mkUshp [[3; 2]] [2] [1] [0] [false]))] /\
  ens_predict ZN zsk e1 X = Ok [1; 0] /\ ens_predict ZN zsk e2 X = Ok [1; 1].
Proof.
  do 6 eexists. exists (VArr [2; 1; 4] DInt64 (intcells [1; 2; 4; 5;  0; 0; 1; 1])). do 5 (split; [vm_compute; reflexivity|]).
  split; vm_compute; reflexivity.
Qed.
Print Assumptions C46_order_refuted.

(** Conditions of [C46_positions] on the same ensemble. *)
Example C46_case : exists e h e1 h1, zens (VInt 0) [0] = (Ok e, h) /\ ens_fit ZN zrng zenv zsk in_order [1; 0] zX1 [0; 1] e h = (Ok tt, e1, h1) /\
  p_n_samples (en_args e) = VNone /\ en_rs e = 1 /\ nthZ h (en_rs e) = Some 0 /\ NoDup [1; 0].
Proof.
  do 4 eexists. split; [vm_compute; reflexivity|]. split; [vm_compute; reflexivity|]. do 3 (split; [reflexivity|]).
  repeat constructor; cbn; intuition lia.
Qed.

(** ** C67.  Weights of the members *)

(** the class number given by a row of leave-one-out decisions: with two classes there is one column and its sign decides *)
Definition loo_class {F} (N : NumOps F) (row : list F) (c : Z) : Prop :=
  match row with
  | [x] => (nltb N (n0 N) x = true /\ c = 1) \/ (nltb N (n0 N) x = false /\ c = 0)
  | _ => first_max N row c
  end.
(** number of positions at which two lists agree *)
Definition agreements (p y : list Z) : Z := zlen (filter (fun q => fst q =? snd q) (combine p y)).

(** The weight of a member is (agreements / samples) ** a_w, where the leave-one-out class numbers of the training samples
    are compared with their labels. *)
Theorem C67_weights : forall F (N : NumOps F) ok S (rng : Rng F S) RS (V : pyenv RS) SC P M (K : sklearn F SC P M) ex sched X y (e e' : ens) h h',
  OrderLaws N ok -> ens_fit N rng V K ex sched X y e h = (Ok tt, e', h') ->
  (forall m, Forall (Forall ok) (k_cv K m)) ->
  exists models ws, en_fitted e' = Some (models, ws) /\ zlen ws = zlen models /\ zlen models = zlen (en_trans e) /\
    forall j m w, nthZ models j = Some m -> nthZ ws j = Some w ->
      exists cls a, as_F N (en_a_w e) = Ok a /\ zlen cls = zlen y /\ zlen cls = zlen (k_cv K (snd (m_ridge m))) /\
        (forall i row c, nthZ (k_cv K (snd (m_ridge m))) i = Some row -> nthZ cls i = Some c -> loo_class N row c) /\
        w = k_pow K (ndiv N (nofZ N (agreements cls y)) (nofZ N (zlen y))) a.
Proof.
  intros F N ok S rng RS V SC P M K ex sched X y e e' h h' L H Hok.
  destruct (ens_fit_ok _ _ _ _ _ _ _ _ _ _ _ _ H) as (e1 & total & ms & models & ws & _ & _ & _ & _ & Hr & Hf & Hw & He & _).
  exists models, ws. split; [exact He|].
  pose proof (zlen_nonneg (en_trans e)) as Hz.
  split; [unfold zlen; rewrite (mapM_length _ _ _ Hw); reflexivity|].
  split; [unfold zlen at 1; rewrite (mapM_length _ _ _ Hf); fold (zlen (zrange 0 (zlen (en_trans e)))); rewrite zlen_zrange; lia|].
  intros j m w Hm Hwj. apply mapM_Forall2 in Hw. pose proof (NumbaUtilsProofs.Forall2_nthZ _ _ _ _ _ _ Hw Hm Hwj) as E. cbn beta in E.
  apply bind_inv in E as (acc & Ea & E). apply bind_inv in E as (a & Eaw & E). injection E as <-.
  unfold loocv_acc in Ea. apply bind_inv in Ea as (cls & Ec & Ea). unfold accuracy in Ea. apply bind_inv in Ea as ([] & Eg & Ea). injection Ea as <-.
  unfold guard in Eg. destruct (Z.eqb_spec (zlen cls) (zlen y)) as [El|]; [|discriminate]. exists cls, a. split; [exact Eaw|]. split; [exact El|].
  split; [unfold zlen; rewrite (mapM_length _ _ _ Ec); reflexivity|]. split; [|rewrite <- El; reflexivity].
  intros i row c Hi Hc. pose proof (nthZ_In _ _ _ Hi) as Hin. apply mapM_Forall2 in Ec. pose proof (NumbaUtilsProofs.Forall2_nthZ _ _ _ _ _ _ Ec Hi Hc) as E. cbn beta in E.
  assert (HO : Forall ok row) by (specialize (Hok (snd (m_ridge m))); rewrite Forall_forall in Hok; auto).
  unfold loo_class. unfold loocv_class in E. destruct row as [|x [|x2 t]].
  - discriminate E.
  - destruct (nltb N (n0 N) x) eqn:Ex; injection E as <-; auto.
  - destruct (argmax_spec N ok L (x :: x2 :: t) ltac:(discriminate) HO) as (c' & E' & Hfm). congruence.
Qed.
Print Assumptions C67_weights.

(** With labels other than the class numbers the weights do not measure accuracy.  Labels 1 and 2: if every leave-one-out
    decision of every member is right (positive exactly for label 2), then every member has weight 0 ** a_w; so, when this
    is 0, the ensemble answers 0 for every sample. *)
Theorem C67_shifted_labels_refuted : forall S (rng : Rng R S) RS (V : pyenv RS) SC P M (K : sklearn R SC P M) ex sched X y (e e' : ens) h h',
  ens_fit RN rng V K ex sched X y e h = (Ok tt, e', h') -> Forall (fun label => label = 1 \/ label = 2) y ->
  (forall m, zlen (k_cv K m) = zlen y /\ forall i row label, nthZ (k_cv K m) i = Some row -> nthZ y i = Some label -> exists x, row = [x] /\ ((0 < x)%R <-> label = 2)) ->
  (forall a, as_F RN (en_a_w e) = Ok a -> k_pow K (0 / IZR (zlen y))%R a = 0%R) -> (forall x, k_exp K x = exp x) ->
  exists models ws, en_fitted e' = Some (models, ws) /\ Forall (fun w => w = 0%R) ws /\
    forall Z Ds n k, models <> [] -> zlen Ds = zlen models -> 1 <= k ->
      (forall j m D, nthZ models j = Some m -> nthZ Ds j = Some D -> decides K m Z D /\ zlen D = n /\ Forall (fun r => zlen r = k) D) ->
      exists l, ens_predict RN K e' Z = Ok l /\ zlen l = n /\ forall i c, nthZ l i = Some c -> c = 0.
Proof.
  intros S rng RS V SC P M K ex sched X y e e' h h' H Hy Hcv Hpow Hexp.
  destruct (C67_weights _ RN (fun _ => True) _ rng _ V _ _ _ K ex sched X y e e' h h' R_order_laws H) as (models & ws & He & Lw & Lm & HW).
  { intros m. apply Forall_forall. intros r _. apply Forall_forall. auto. }
  assert (HZ : Forall (fun w => w = 0%R) ws).
  { apply Forall_forall. intros w Hw. apply In_nthZ in Hw as (j & Hj). pose proof (nthZ_range _ _ _ Hj) as Rj.
    destruct (nthZ_some models j) as (m & Hm); [lia|]. destruct (HW j m w Hm Hj) as (cls & a & Ea & L1 & L2 & Hc & ->).
    destruct (Hcv (snd (m_ridge m))) as (L3 & Hcm).
    assert (EA : agreements cls y = 0).
    { unfold agreements. replace (filter (fun q => fst q =? snd q) (combine cls y)) with (@nil (Z * Z)); [reflexivity|]. symmetry.
      assert (NA : forall q, In q (combine cls y) -> fst q =? snd q = false).
      { intros [c label] Hin. apply In_nthZ in Hin as (i & Hi). rewrite nthZ_combine in Hi. destruct (nthZ cls i) as [c0|] eqn:E1; [|discriminate].
        destruct (nthZ y i) as [l0|] eqn:E2; [|discriminate]. injection Hi as -> ->. pose proof (nthZ_range _ _ _ E1) as Ri.
        destruct (nthZ_some (k_cv K (snd (m_ridge m))) i) as (row & Er); [lia|]. destruct (Hcm i row label Er E2) as (x & -> & Hx).
        pose proof (Hc i [x] c Er E1) as HC. cbn [loo_class] in HC. rewrite Forall_forall in Hy. pose proof (Hy label (nthZ_In _ _ _ E2)) as Hl.
        cbn [fst snd]. apply Z.eqb_neq. destruct HC as [(A & ->)|(A & ->)].
        - apply Rltb_true in A. change (n0 RN) with 0%R in A. apply Hx in A. lia.
        - apply Rltb_false in A. change (n0 RN) with 0%R in A. assert (label <> 2) by (intros ->; destruct Hx as [_ Hx]; specialize (Hx eq_refl); lra). lia. }
      clear - NA. induction (combine cls y) as [|q t IH]; [reflexivity|]. cbn [filter]. rewrite (NA q (or_introl eq_refl)). apply IH. intros r Hr. apply NA. right. exact Hr. }
    rewrite EA. apply (Hpow a Ea). }
  exists models, ws. split; [exact He|]. split; [exact HZ|]. intros Z Ds n k Hne LD Hk HD.
  apply (C45_zero_weights SC P M K e' models ws Z Ds n k Hexp Hk He Hne Lw LD HD HZ).
Qed.
Print Assumptions C67_shifted_labels_refuted.

(** Two members in integer arithmetic, with perfect leave-one-out decisions (the decision is the class number minus one
    half, doubled); labels 0 and 1 give weights 1, labels 1 and 2 give weights 0. *)
Definition psk : sklearn Z unit unit (list Z) :=
  mkSk _ _ _ _ (fun _ => Ok tt) (fun _ X => Ok X) (fun _ _ y => Ok y) (fun m X => Ok []) (fun m X => Ok (D1 (map (fun row => first_feature row - 1) X)))
    (fun m => map (fun l => [2 * (l - fold_right Z.min 9 m) - 1]) m) (fun x => if x =? 0 then 1 else 0) (fun x a => x ^ a).
Example C67_case : exists e h e1 h1 e2 h2, zens (VInt 0) [0] = (Ok e, h) /\
  ens_fit ZN zrng zenv psk in_order [0; 1] zX1 [0; 1] e h = (Ok tt, e1, h1) /\ option_map snd (en_fitted e1) = Some [1; 1] /\
  ens_fit ZN zrng zenv psk in_order [0; 1] zX1 [1; 2] e h = (Ok tt, e2, h2) /\ option_map snd (en_fitted e2) = Some [0; 0].
Proof. do 6 eexists. repeat (split; [vm_compute; reflexivity|]). vm_compute. reflexivity. Qed.

(** ** The ridge pipeline of a member of the ensemble *)

(** The scaler [fst c] was fitted on the features [T], and the ridge classifier [snd c] on [T] scaled by it. *)
Definition ridge_trained {F SC P M} (K : sklearn F SC P M) (p : P) (T : list (list F)) (y : list Z) (c : SC * M) : Prop :=
  exists Q, k_scale_fit K T = Ok (fst c) /\ k_scale K (fst c) T = Ok Q /\ k_ridge_fit K p Q y = Ok (snd c).
(** sklearn raises [er] when fitting the scaler on [T], when scaling [T], or when fitting the ridge on the scaled [T]. *)
Definition ridge_refuses {F SC P M} (K : sklearn F SC P M) (p : P) (T : list (list F)) (y : list Z) (er : err) : Prop :=
  k_scale_fit K T = Err er \/
  exists sc, k_scale_fit K T = Ok sc /\ (k_scale K sc T = Err er \/ exists Q, k_scale K sc T = Ok Q /\ k_ridge_fit K p Q y = Err er).

Lemma iridge_ok {F SC P M} (K : sklearn F SC P M) p T y c : iridge_fit K p T y = Ok c -> ridge_trained K p T y c.
Proof.
  unfold iridge_fit. intros H. apply bind_inv in H as (sc & E1 & H). apply bind_inv in H as (Q & E2 & H). apply bind_inv in H as (m & E3 & H).
  injection H as <-. exists Q. auto.
Qed.
Lemma iridge_err {F SC P M} (K : sklearn F SC P M) p T y er : iridge_fit K p T y = Err er -> ridge_refuses K p T y er.
Proof.
  unfold iridge_fit, ridge_refuses. destruct (k_scale_fit K T) as [sc|e]; cbn [bind]; [|intros H; left; congruence]. intros H. right. exists sc. split; [reflexivity|].
  destruct (k_scale K sc T) as [Q|e]; cbn [bind] in H; [|left; congruence]. right. exists Q. split; [reflexivity|].
  destruct (k_ridge_fit K p Q y) as [m|e]; cbn [bind] in H; congruence.
Qed.
