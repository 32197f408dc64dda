(** Other percentiles, in any arithmetic: two runs of the same code with different percentiles, when both come to their end. *)
From Coq Require Import ZArith String List Bool Reals Lra Lia.
From Verif Require Import Prelude Num Kernel Spec KernelProofs KernelLaws RealBase RealProofs Parallel Apply TransformProofs ChoiceProofs Gen GenSched GenBase GenUni GenDraw GenSpec GenUTop NumbaUtilsProofs Checks Estimator Units UnitsU Levels.
Import ListNotations.
Open Scope Z_scope.

(** ** Related results and computations, when there is no exception *)

Definition wres {A B} (P : A -> B -> Prop) (m : res A) (m' : res B) : Prop := match m, m' with Ok a, Ok b => P a b | _, _ => True end.
Definition wG {S A B} (P : A -> B -> Prop) (m : G S A) (m' : G S B) : Prop := forall s, wres (fun p p' => P (fst p) (fst p') /\ snd p = snd p') (m s) (m' s).

Lemma wres_bind {A B A' B'} (P : A -> A' -> Prop) (Q : B -> B' -> Prop) m m' f f' :
  wres P m m' -> (forall a a', P a a' -> wres Q (f a) (f' a')) -> wres Q (bind m f) (bind m' f').
Proof. destruct m as [a|e], m' as [a'|e']; cbn; intros H HF; [auto| |exact I|exact I]. destruct (f a); exact I. Qed.
Lemma wres_refl {A} (m : res A) : wres eq m m.
Proof. destruct m; cbn; auto. Qed.
Lemma wres_of {A B} (P : A -> B -> Prop) m m' : rres P m m' -> wres P m m'.
Proof. destruct m, m'; cbn; auto. Qed.
Lemma wG_bind {S A B A' B'} (P : A -> A' -> Prop) (Q : B -> B' -> Prop) (m : G S A) (m' : G S A') f f' :
  wG P m m' -> (forall a a', P a a' -> wG Q (f a) (f' a')) -> wG Q (bindG m f) (bindG m' f').
Proof. intros H HF s. unfold bindG. eapply wres_bind; [apply H|]. intros [a s1] [a' s2] [HP E]. cbn [fst snd] in *. subst s2. apply HF. exact HP. Qed.
Lemma wG_lift {S A B} (P : A -> B -> Prop) m m' : wres P m m' -> wG (S := S) P (liftG m) (liftG m').
Proof. intros H s. unfold liftG. eapply wres_bind; [exact H|]. intros a a' HP. cbn. auto. Qed.
Lemma wG_ret {S A B} (P : A -> B -> Prop) a b : P a b -> wG (S := S) P (retG a) (retG b).
Proof. intros H s. cbn. auto. Qed.
Lemma wG_refl {S A} (m : G S A) : wG eq m m.
Proof. intros s. destruct (m s) as [[a s']|]; cbn; auto. Qed.
Lemma foldM_w {A T T'} (P : T -> T' -> Prop) (f : T -> A -> res T) f' l s s' : P s s' -> (forall t t' a, In a l -> P t t' -> wres P (f t a) (f' t' a)) ->
  wres P (foldM f l s) (foldM f' l s').
Proof.
  revert s s'. induction l as [|a l IH]; intros s s' H0 H; cbn [foldM]; [exact H0|]. eapply wres_bind; [apply H; [left; reflexivity|exact H0]|].
  intros t t' Ht. apply IH; [exact Ht|]. intros u u' x Hx. apply H. right. exact Hx.
Qed.
Lemma foldG_w {S A T T'} (P : T -> T' -> Prop) (f : T -> A -> G S T) f' l t t' : P t t' -> (forall t t' a, In a l -> P t t' -> wG P (f t a) (f' t' a)) ->
  wG P (foldG f l t) (foldG f' l t').
Proof.
  revert t t'. induction l as [|a l IH]; intros t t' H0 H; cbn [foldG]; [apply wG_ret; exact H0|]. eapply wG_bind; [apply H; [left; reflexivity|exact H0]|].
  intros u u' Hu. apply IH; [exact Hu|]. intros w w' x Hx. apply H. right. exact Hx.
Qed.

Definition wplain {S} (exec : forall ST : Type, @drawn -> (ST -> Z * Z -> G S ST) -> ST -> G S ST) : Prop :=
  forall ST ST' (P : ST -> ST' -> Prop) dr it it' st st', P st st' ->
    (forall t t' e, P t t' -> wG P (it t e) (it' t' e)) -> wG P (exec ST dr it st) (exec ST' dr it' st').
Lemma wplain_seq {S} : wplain (fun ST => @exec_seq S ST).
Proof. intros ST ST' P dr it it' st st' H0 H. unfold exec_seq. apply foldG_w; [exact H0|]. intros t t' e _. apply H. Qed.
Lemma wplain_par {S} (rs : Z -> S) sched : wplain (fun ST => @exec_par S ST rs sched).
Proof.
  intros ST ST' P dr it it' st st' H0 H. unfold exec_par. apply wG_lift. unfold run_sched. apply foldM_w; [exact H0|]. intros t t' e He HP.
  eapply wres_bind; [apply H; exact HP|]. intros p p' [Q _]. exact Q.
Qed.

Section L.
Context {F : Type} (N : NumOps F) {S : Type} (rng : Rng F S) (Q : F -> F -> Prop) (P P' : gparams F).
(** the two settings differ in the percentiles only *)
Hypothesis HP : exists a b, P' = mkG (g_n P) (g_sizes P) (g_seed P) (g_pnorm P) a b (g_alpha P) (g_phase P) (g_prime P).
Hypothesis HQ : forall a, wG Q (draw_threshold N rng a (g_pmin P) (g_pmax P)) (draw_threshold N rng a (g_pmin P') (g_pmax P')).
Hypothesis H0 : Q (n0 N) (n0 N).

Notation uthr := (uthr Q). Notation mthr := (mthr Q). Notation shapelets_thr := (shapelets_thr Q). Notation mshapelets_thr := (mshapelets_thr Q). Notation fitted_thr := (fitted_thr Q).

Lemma same_rest_any : g_n P' = g_n P /\ g_sizes P' = g_sizes P /\ g_seed P' = g_seed P /\ g_pnorm P' = g_pnorm P /\ g_alpha P' = g_alpha P /\ g_phase P' = g_phase P /\ g_prime P' = g_prime P.
Proof. destruct HP as (a & b & ->). cbn. auto 10. Qed.

Ltac same := eapply wG_bind; [apply wG_refl|]; let a := fresh "a" in let b := fresh "b" in intros a b <-.

Lemma U_SL_iter_thr_any X y n_ts dr st st' e : uthr st st' -> wG uthr (U_SL_iter N rng X y n_ts P dr st e) (U_SL_iter N rng X y n_ts P' dr st' e).
Proof.
  intros HU. pose proof HU as (E1 & E2 & E3). destruct e as [i_d i]. unfold U_SL_iter. destruct same_rest_any as (_ & _ & _ & _ & -> & -> & _). rewrite E1, E2.
  do 5 same. destruct (0 <? _); [|apply wG_ret; exact HU]. do 8 same. eapply wG_bind; [apply HQ|]. intros t t' Ht.
  eapply wG_bind; [apply wG_lift; apply wres_of; apply (set_F2 Q); [exact E3|exact Ht]|]. intros ts ts' Hts. same. apply wG_ret. split; [reflexivity|]. split; [reflexivity|exact Hts].
Qed.

Lemma U_VL_iter_thr_any X X_len y dr st st' e : uthr st st' -> wG uthr (U_VL_iter N rng X X_len y P dr st e) (U_VL_iter N rng X X_len y P' dr st' e).
Proof.
  intros HU. pose proof HU as (E1 & E2 & E3). destruct e as [i_d i]. unfold U_VL_iter. destruct same_rest_any as (_ & _ & _ & _ & -> & -> & _). rewrite E1, E2.
  do 6 same. destruct (0 <? _); [|apply wG_ret; exact HU]. do 10 same. eapply wG_bind; [apply HQ|]. intros t t' Ht.
  eapply wG_bind; [apply wG_lift; apply wres_of; apply (set_F2 Q); [exact E3|exact Ht]|]. intros ts ts' Hts. same. apply wG_ret. split; [reflexivity|]. split; [reflexivity|exact Hts].
Qed.

Lemma mask_F2_any (m : list bool) l l' : Forall2 Q l l' -> Forall2 Q (mask_select m l) (mask_select m l').
Proof. intros H. revert m. induction H as [|a b l l' Ha H IH]; intros [|[] m]; cbn; try constructor; auto; apply IH. Qed.

Lemma finish_thr_any dr st st' : uthr st st' -> shapelets_thr (U_finish N dr st) (U_finish N dr st').
Proof.
  intros (E1 & E2 & E3). unfold U_finish. rewrite E2. split; [reflexivity|]. split; [reflexivity|]. split; [reflexivity|]. split; [reflexivity|]. cbn [us_thr]. apply mask_F2_any. exact E3.
Qed.

Lemma zeros_thr_any n v : full n (n0 N) = Ok v -> Forall2 Q v v.
Proof.
  unfold full. destruct (n <? 0); [discriminate|]. intros E. injection E as <-. induction (Z.to_nat n) as [|k IH]; cbn [repeat]; constructor; auto.
Qed.

Lemma U_init_thr_any n sizes n_ts p pr s values dr thr s1 : U_init N rng n sizes n_ts p pr s = Ok (values, dr, thr, s1) -> Forall2 Q thr thr.
Proof.
  intros H. unfold U_init in H. apply bindG_inv in H as (lens & t1 & H1 & H). apply bindG_inv in H as (dils & t2 & H2 & H).
  apply bind_liftG in H as (th & H3 & H). apply bind_liftG in H as (w & H4 & H). apply bind_liftG in H as (row & H5 & H). apply bind_liftG in H as (vs & H6 & H).
  apply bindG_inv in H as (nm & t3 & H7 & H). unfold retG in H. assert (thr = th) by congruence. subst th. eapply zeros_thr_any; eauto.
Qed.

Lemma M_SL_iter_thr_any X y nf n_ts dr nch st st' e : mthr st st' -> wG mthr (M_SL_iter N rng X y nf n_ts P dr nch st e) (M_SL_iter N rng X y nf n_ts P' dr nch st' e).
Proof.
  intros HU. pose proof HU as (E1 & E2 & E3 & E4 & E5). destruct e as [i_d i]. unfold M_SL_iter. destruct same_rest_any as (_ & _ & _ & _ & Ea & Eph & _). rewrite Ea, Eph, E1, E4.
  do 9 same. destruct (0 <? _).
  - do 4 same. eapply wG_bind with (P := eq); [unfold M_channels; rewrite Eph; apply wG_refl|]. intros [[mk xd] vs] ? <-.
    eapply wG_bind with (P := eq); [unfold M_store; rewrite E2, E3; apply wG_refl|]. intros vc ? <-. eapply wG_bind; [apply HQ|]. intros t t' Ht.
    eapply wG_bind; [apply wG_lift; apply wres_of; apply (set_F2 Q); [exact E5|exact Ht]|]. intros ts ts' Hts. apply wG_ret. repeat (split; [reflexivity|]). exact Hts.
  - same. apply wG_ret. split; [reflexivity|]. split; [exact E2|]. split; [exact E3|]. split; [reflexivity|exact E5].
Qed.

Lemma M_VL_iter_thr_any X X_len y nf dr nch st st' e : mthr st st' -> wG mthr (M_VL_iter N rng X X_len y nf P dr nch st e) (M_VL_iter N rng X X_len y nf P' dr nch st' e).
Proof.
  intros HU. pose proof HU as (E1 & E2 & E3 & E4 & E5). destruct e as [i_d i]. unfold M_VL_iter. destruct same_rest_any as (_ & _ & _ & _ & Ea & Eph & _). rewrite Ea, Eph, E1, E4.
  do 9 same. destruct (0 <? _).
  - do 8 same. eapply wG_bind with (P := eq); [unfold M_channels; rewrite Eph; apply wG_refl|]. intros [[mk xd] vs] ? <-.
    eapply wG_bind with (P := eq); [unfold M_store; rewrite E2, E3; apply wG_refl|]. intros vc ? <-. eapply wG_bind; [apply HQ|]. intros t t' Ht.
    eapply wG_bind; [apply wG_lift; apply wres_of; apply (set_F2 Q); [exact E5|exact Ht]|]. intros ts ts' Hts. apply wG_ret. repeat (split; [reflexivity|]). exact Hts.
  - same. apply wG_ret. split; [reflexivity|]. split; [exact E2|]. split; [exact E3|]. split; [reflexivity|exact E5].
Qed.

Lemma M_finish_thr_any dr nch st st' : mthr st st' -> wres mshapelets_thr (M_finish N dr nch st) (M_finish N dr nch st').
Proof.
  intros (E1 & E2 & E3 & E4 & E5). unfold M_finish. cbv zeta. rewrite E2, E3, E4. do 2 (eapply wres_bind; [apply wres_refl|]; intros ? ? <-).
  eapply wres_bind; [apply wres_refl|]. intros [[[c1 c2] mv] mc] ? <-. cbn [wres]. unfold mshapelets_thr. cbn. repeat (split; [reflexivity|]). apply mask_F2_any. exact E5.
Qed.

Lemma M_init_thr_any n sizes n_ts p mc pr s values dr thr nch chan s1 : M_init N rng n sizes n_ts p mc pr s = Ok (values, dr, thr, nch, chan, s1) -> Forall2 Q thr thr.
Proof.
  intros H. unfold M_init in H. apply bindG_inv in H as (lens & t1 & H1 & H). apply bindG_inv in H as (dils & t2 & H2 & H).
  apply bind_liftG in H as (th & H3 & H). apply bindG_inv in H as (ch & t3 & H4 & H). apply bind_liftG in H as (ci & H5 & H). apply bind_liftG in H as (vs & H6 & H).
  apply bindG_inv in H as (nm & t4 & H7 & H). unfold retG in H. assert (thr = th) by congruence. subst th. eapply zeros_thr_any; eauto.
Qed.

(** ** The generators *)
Context (ex : forall ST : Type, @drawn -> (ST -> Z * Z -> G S ST) -> ST -> G S ST) (HE : wplain ex).

Lemma U_SL_thr_any X y : wres shapelets_thr (U_SL_generate_with N rng X y P (ex _)) (U_SL_generate_with N rng X y P' (ex _)).
Proof.
  unfold U_SL_generate_with. destruct same_rest_any as (-> & -> & -> & -> & _ & _ & ->). destruct (U_init _ _ _ _ _ _ _ _) as [[[[values dr] thr] s1]|e] eqn:EI; [|exact I]. cbn [bind].
  eapply wres_bind; [apply (HE _ _ uthr dr) with (s := s1)|].
  - split; [reflexivity|]. split; [reflexivity|]. cbn. eapply U_init_thr_any; eauto.
  - intros t t' e HU. apply U_SL_iter_thr_any. exact HU.
  - intros p p' [HU _]. cbn [wres]. apply finish_thr_any. exact HU.
Qed.
Lemma U_VL_thr_any X X_len y m : wres shapelets_thr (U_VL_generate_with N rng X X_len y m P (ex _)) (U_VL_generate_with N rng X X_len y m P' (ex _)).
Proof.
  unfold U_VL_generate_with. destruct same_rest_any as (-> & -> & -> & -> & _ & _ & ->). destruct (U_init _ _ _ _ _ _ _ _) as [[[[values dr] thr] s1]|e] eqn:EI; [|exact I]. cbn [bind].
  destruct (U_VL_start X X_len dr values thr) as [st0|] eqn:E0; [|exact I]. cbn [bind].
  eapply wres_bind; [apply (HE _ _ uthr dr) with (s := s1)|].
  - split; [reflexivity|]. split; [reflexivity|]. unfold U_VL_start in E0. apply bind_inv in E0 as (ml & _ & E0). apply bind_inv in E0 as (sl & _ & E0). injection E0 as <-. cbn [u_thr]. eapply U_init_thr_any; eauto.
  - intros t t' e HU. apply U_VL_iter_thr_any. exact HU.
  - intros p p' [HU _]. cbn [wres]. apply finish_thr_any. exact HU.
Qed.
Lemma M_SL_thr_any X y mc : wres mshapelets_thr (M_SL_generate_with N rng X y mc P (ex _)) (M_SL_generate_with N rng X y mc P' (ex _)).
Proof.
  unfold M_SL_generate_with. destruct same_rest_any as (-> & -> & -> & -> & _ & _ & ->). destruct (M_init _ _ _ _ _ _ _ _ _) as [[[[[[values dr] thr] nch] chan] s1]|e] eqn:EI; [|exact I]. cbn [bind].
  eapply wres_bind; [apply (HE _ _ mthr dr) with (s := s1)|].
  - unfold mthr. cbn. repeat (split; [reflexivity|]). eapply M_init_thr_any; eauto.
  - intros t t' e HU. apply M_SL_iter_thr_any. exact HU.
  - intros p p' [HU _]. apply M_finish_thr_any. exact HU.
Qed.
Lemma M_VL_thr_any X X_len y mc m : wres mshapelets_thr (M_VL_generate_with N rng X X_len y mc m P (ex _)) (M_VL_generate_with N rng X X_len y mc m P' (ex _)).
Proof.
  unfold M_VL_generate_with. destruct same_rest_any as (-> & -> & -> & -> & _ & _ & ->). destruct (M_init _ _ _ _ _ _ _ _ _) as [[[[[[values dr] thr] nch] chan] s1]|e] eqn:EI; [|exact I]. cbn [bind].
  destruct (M_VL_start X X_len dr values thr chan) as [st0|] eqn:E0; [|exact I]. cbn [bind].
  eapply wres_bind; [apply (HE _ _ mthr dr) with (s := s1)|].
  - unfold M_VL_start in E0. apply bind_inv in E0 as (ml & _ & E0). apply bind_inv in E0 as (sl & _ & E0). injection E0 as <-. unfold mthr. cbn [m_thr m_mask m_val m_chan m_ret]. repeat (split; [reflexivity|]). eapply M_init_thr_any; eauto.
  - intros t t' e HU. apply M_VL_iter_thr_any. exact HU.
  - intros p p' [HU _]. apply M_finish_thr_any. exact HU.
Qed.

Lemma run_fitter_thr_any q q' : q_P q = P -> q' = mkReq (q_kind q) (q_X q) (q_y q) P' (q_max_channels q) (q_min_len q) (q_X_len q) ->
  wres fitted_thr (run_fitter N rng ex q) (run_fitter N rng ex q').
Proof.
  intros EP ->. unfold run_fitter. cbn [q_kind q_X q_y q_P q_max_channels q_min_len q_X_len]. rewrite EP. destruct (q_kind q).
  - eapply wres_bind; [apply U_SL_thr_any|]. intros T T' HT. exact HT.
  - eapply wres_bind; [apply M_SL_thr_any|]. intros T T' HT. exact HT.
  - eapply wres_bind; [apply U_VL_thr_any|]. intros T T' HT. exact HT.
  - eapply wres_bind; [apply M_VL_thr_any|]. intros T T' HT. exact HT.
Qed.
End L.

(** drawing a threshold uses one random number, whatever the percentiles *)
Lemma draw_threshold_any {F S} (N : NumOps F) (rng : Rng F S) a q1 q2 q1' q2' : wG (fun _ _ => True) (draw_threshold N rng a q1 q2) (draw_threshold N rng a q1' q2').
Proof.
  unfold draw_threshold. eapply wG_bind with (P := fun _ _ => True); [apply wG_lift; destruct (percentiles N a q1 q2), (percentiles N a q1' q2'); exact I|].
  intros p p' _ s. unfold uniform, bindG, draw_unif, retG. destruct (r_unif rng s) as [u s']. cbn. auto.
Qed.

(** ** The features of two sets of shapelets that only differ in the thresholds *)
Section T.
Context {F : Type} (N : NumOps F).
Notation any := (fun _ _ : F => True).
Definition same_min (f f' : F * F * F) : Prop := fst f' = fst f.
Definition wrel (w w' : write F) : Prop := fst w' = fst w /\ (snd (fst w) mod 3 <> 2 -> snd w' = snd w).
Definition rrel (r r' : list F) : Prop := zlen r' = zlen r /\ (exists k, zlen r = 3 * k) /\ forall q, q mod 3 <> 2 -> nthZ r' q = nthZ r q.

Lemma mapM_F2 {A B B'} (P : B -> B' -> Prop) (f : A -> res B) f' l : (forall a, rres P (f a) (f' a)) -> rres (Forall2 P) (mapM f l) (mapM f' l).
Proof.
  intros H. induction l as [|a l IH]; cbn [mapM]; [constructor|]. eapply rres_bind; [apply H|]. intros x x' Hx. eapply rres_bind; [exact IH|]. intros y y' Hy. cbn. constructor; assumption.
Qed.
Lemma concat_F2 {B B'} (P : B -> B' -> Prop) l l' : Forall2 (Forall2 P) l l' -> Forall2 P (concat l) (concat l').
Proof. intros H. induction H; cbn; [constructor|]. apply Forall2_app; assumption. Qed.

Lemma feat_step_min thr thr' st st' i d : fst st' = fst st -> fst (feat_step N thr' st' i d) = fst (feat_step N thr st i d).
Proof. destruct st as [[m a] c], st' as [[m' a'] c']. cbn [fst]. intros E. injection E as -> ->. cbn. destruct (_ || _); reflexivity. Qed.

Lemma one_min x v thr thr' : rres same_min (apply_one_univariate N x v thr) (apply_one_univariate N x v thr').
Proof.
  unfold apply_one_univariate. eapply rres_bind with (P := fun st st' => fst st' = fst st).
  - apply foldM_rr; [reflexivity|]. intros t t' i _ Ht. eapply rres_bind; [apply rres_refl|]. intros row ? <-. eapply rres_bind; [apply rres_refl|]. intros d ? <-. cbn [rres]. apply feat_step_min. exact Ht.
  - intros [[m a] c] [[m' a'] c'] E. cbn [fst] in E. injection E as -> ->. reflexivity.
Qed.
Lemma mone_min x v thr thr' : rres same_min (apply_one_multivariate N x v thr) (apply_one_multivariate N x v thr').
Proof.
  unfold apply_one_multivariate. eapply rres_bind with (P := fun st st' => fst st' = fst st).
  - apply foldM_rr; [reflexivity|]. intros t t' i _ Ht. eapply rres_bind; [apply rres_refl|]. intros d ? <-. cbn [rres]. apply feat_step_min. exact Ht.
  - intros [[m a] c] [[m' a'] c'] E. cbn [fst] in E. injection E as -> ->. reflexivity.
Qed.

Lemma writes_min i j f f' : same_min f f' -> Forall2 wrel (feature_writes i j f) (feature_writes i j f').
Proof.
  destruct f as [[m a] c], f' as [[m' a'] c']. unfold same_min. cbn [fst]. intros E. injection E as -> ->. unfold feature_writes.
  repeat constructor. cbn [fst snd]. intros H. exfalso. apply H. clear. lia.
Qed.

Lemma tasks_min {ST} strides_of (norm_strides : ST -> ST) one one' lens dils norms n : (forall st i l, rres same_min (one st i l) (one' st i l)) ->
  rres (Forall2 (Forall2 wrel)) (apply_tasks strides_of norm_strides one lens dils norms n) (apply_tasks strides_of norm_strides one' lens dils norms n).
Proof.
  intros H. unfold apply_tasks. eapply rres_bind; [apply rres_refl|]. intros [[params idx] cnt] ? <-. apply mapM_F2. intros [i p]. cbn [fst snd]. unfold apply_task.
  eapply rres_bind; [apply rres_refl|]. intros [l d] ? <-. do 5 (eapply rres_bind; [apply rres_refl|]; intros ? ? <-).
  assert (W : forall st ids, rres (Forall2 (Forall2 wrel)) (mapM (fun i_shp => let* f := one st i_shp l in Ok (feature_writes i i_shp f)) ids) (mapM (fun i_shp => let* f := one' st i_shp l in Ok (feature_writes i i_shp f)) ids)).
  { intros st ids. apply mapM_F2. intros k. eapply rres_bind; [apply H|]. intros f f' Hf. apply writes_min. exact Hf. }
  eapply rres_bind; [apply W|]. intros w1 w1' H1. eapply rres_bind; [apply rres_refl|]. intros ids ? <-.
  eapply rres_bind with (P := Forall2 (Forall2 wrel)); [destruct (0 <? _); [apply W|constructor]|]. intros w2 w2' H2. cbn [rres]. apply Forall2_app; apply concat_F2; assumption.
Qed.

Lemma set_rrel r r' c v v' : rrel r r' -> (c mod 3 <> 2 -> v' = v) -> rres rrel (set r c v) (set r' c v').
Proof.
  intros (E1 & (k & E2) & E3) HV. unfold set. rewrite E1. destruct (_ && _) eqn:EB; [|reflexivity]. cbn [rres]. apply andb_true_iff in EB as [B1 B2]. split; [rewrite !zlen_upd; exact E1|].
  split; [exists k; rewrite zlen_upd; exact E2|]. intros q Hq. rewrite !nthZ_upd by lia. destruct (Z.eqb_spec q (wrap (zlen r) c)) as [->|]; [|apply E3; exact Hq]. f_equal. apply HV. revert Hq.
  unfold wrap. destruct (c <? 0); [|auto]. rewrite E2. replace (c + 3 * k) with (c + k * 3) by lia. rewrite Z.mod_add by lia. auto.
Qed.

Lemma run_min ws ws' M M' : Forall2 wrel ws ws' -> Forall2 rrel M M' -> rres (Forall2 rrel) (run_writes ws M) (run_writes ws' M').
Proof.
  intros H. revert M M'. unfold run_writes. induction H as [|[[r c] v] [[r' c'] v'] ws ws' [HW HV] H IH]; intros M M' HM; cbn [foldM]; [exact HM|]. cbn [fst snd] in HW, HV. injection HW as -> ->.
  eapply rres_bind; [|apply IH]. unfold set2. eapply rres_bind; [apply (get_F2 rrel); exact HM|]. intros x x' Hx. eapply rres_bind; [apply set_rrel; [exact Hx|exact HV]|].
  intros y y' Hy. apply (set_F2 rrel); assumption.
Qed.

Lemma zeros_rrel n k : 0 <= k -> Forall2 rrel (X_new0 N n k) (X_new0 N n k).
Proof.
  intros Hk. unfold X_new0. induction (Z.to_nat n) as [|m IH]; cbn [repeat]; constructor; auto. split; [reflexivity|]. split; [|auto]. exists k. unfold zlen. rewrite repeat_length. lia.
Qed.

Lemma transform_min (s s' : @est F) X f f' : fitted_thr any f f' -> e_shapelets s = Some f -> e_shapelets s' = Some f' -> e_type s' = e_type s -> e_kind s' = e_kind s -> e_phase s' = e_phase s ->
  rres (Forall2 rrel) (transform N s X) (transform N s' X).
Proof.
  intros HF E E' Et Ek Ep. unfold transform. rewrite E, E', Et, Ek, Ep.
  assert (U : forall T T', shapelets_thr any T T' -> forall st i l, rres same_min (u_one N T st i l) (u_one N T' st i l)).
  { intros T T' (Q1 & Q2 & Q3 & Q4 & Q5) st i l. unfold u_one. rewrite Q1. eapply rres_bind; [apply rres_refl|]. intros v ? <-. eapply rres_bind; [apply (get_F2 any); exact Q5|]. intros t t' _. apply one_min. }
  assert (M : forall T T', mshapelets_thr any T T' -> forall st i l, rres same_min (m_one N T st i l) (m_one N T' st i l)).
  { intros T T' (Q1 & Q2 & Q3 & Q4 & Q5 & Q6 & Q7) st i l. unfold m_one. rewrite Q1, Q2, Q5, Q6. cbv zeta. do 6 (eapply rres_bind; [apply rres_refl|]; intros ? ? <-).
    eapply rres_bind; [apply (get_F2 any); exact Q7|]. intros t t' _. eapply rres_bind; [apply rres_refl|]. intros sel ? <-. apply mone_min. }
  cbv zeta. destruct (match e_type s with TKind k => kind_vl k | _ => false end).
  - eapply rres_bind; [apply rres_refl|]. intros [[D sh] lens] ? <-. eapply rres_bind; [apply rres_refl|]. intros ? ? _.
    destruct (e_kind s) as [[| | |]|], f as [T|T], f' as [T'|T']; cbn in HF; try contradiction; try reflexivity.
    + pose proof HF as (Q1 & Q2 & Q3 & Q4 & _). unfold U_VL_apply, U_VL_tasks. rewrite Q2, Q3, Q4. eapply rres_bind; [apply tasks_min; apply U; exact HF|]. intros ts ts' Hts. apply run_min; [apply concat_F2; exact Hts|apply zeros_rrel; apply zlen_nonneg].
    + pose proof HF as (Q1 & Q2 & Q3 & Q4 & _). unfold M_VL_apply, M_VL_tasks. rewrite Q2, Q3, Q4. eapply rres_bind; [apply tasks_min; apply M; exact HF|]. intros ts ts' Hts. apply run_min; [apply concat_F2; exact Hts|apply zeros_rrel; apply zlen_nonneg].
  - eapply rres_bind; [apply rres_refl|]. intros A ? <-. eapply rres_bind; [apply rres_refl|]. intros D ? <-.
    destruct (e_kind s) as [[| | |]|], f as [T|T], f' as [T'|T']; cbn in HF; try contradiction; try reflexivity.
    + pose proof HF as (Q1 & Q2 & Q3 & Q4 & _). unfold U_SL_apply, U_SL_tasks. rewrite Q2, Q3, Q4. eapply rres_bind; [apply tasks_min; apply U; exact HF|]. intros ts ts' Hts. apply run_min; [apply concat_F2; exact Hts|apply zeros_rrel; apply zlen_nonneg].
    + pose proof HF as (Q1 & Q2 & Q3 & Q4 & _). unfold M_SL_apply, M_SL_tasks. rewrite Q2, Q3, Q4. eapply rres_bind; [apply tasks_min; apply M; exact HF|]. intros ts ts' Hts. apply run_min; [apply concat_F2; exact Hts|apply zeros_rrel; apply zlen_nonneg].
Qed.
End T.

(** ** R_DST.fit with other percentiles *)
(** the object with another value of the attribute percentiles *)
Definition with_percentiles {F} (pc : pyv F) (s : @est F) : @est F :=
  mkEst (e_type s) (e_phase s) (e_alpha s) (e_normout s) (e_n_samples s) (e_n_shapelets s) (e_lengths s) (e_bounds s) (e_reduction s) (e_prime s)
    (e_proba_norm s) pc (e_rs s) (e_n_jobs s) (e_max_channels s) (e_min_len s) (e_kind s) (e_shapelets s).

Section E.
Context {F : Type} (N : NumOps F) {RS : Type} (V : pyenv RS) (pc : pyv F).
Notation sp := (with_percentiles pc).

(** the two runs do the same, except for the attribute percentiles, when both come to their end *)
Definition wE {A B} (P : A -> B -> Prop) (m : @ES F RS A) (m' : @ES F RS B) : Prop := forall s h,
  match m s h, m' (sp s) h with (Ok a, s1, h1), (Ok a', s1', h1') => P a a' /\ s1' = sp s1 /\ h1' = h1 | _, _ => True end.

Lemma wE_bind {A B A' B'} (P : A -> A' -> Prop) (Q : B -> B' -> Prop) m m' f f' :
  wE P m m' -> (forall a a', P a a' -> wE Q (f a) (f' a')) -> wE Q (bindE m f) (bindE m' f').
Proof.
  intros H HF s h. unfold bindE. specialize (H s h). destruct (m s h) as [[[a|e] s1] h1], (m' (sp s) h) as [[[a'|e'] s1'] h1']; [|destruct (f a s1 h1) as [[[] ?] ?]; exact I|exact I|exact I].
  destruct H as (H & -> & ->). apply HF. exact H.
Qed.
Lemma wE_lift {A B} (P : A -> B -> Prop) m m' : wres P m m' -> wE P (liftE m) (liftE m').
Proof. intros H s h. unfold liftE. destruct m, m'; cbn in *; auto. Qed.
Lemma wE_same {A} (m : res A) : wE eq (liftE m) (liftE m).
Proof. apply wE_lift. apply wres_refl. Qed.
Lemma wE_ret {A B} (P : A -> B -> Prop) a b : P a b -> wE P (retE a) (retE b).
Proof. intros H s h. cbn. auto. Qed.
Lemma wE_self : wE (fun s s' => s' = sp s) self self.
Proof. intros s h. cbn. auto. Qed.
Lemma wE_put f : (forall s, f (sp s) = sp (f s)) -> wE eq (put f) (put f).
Proof. intros H s h. cbn. auto. Qed.

Ltac put1 := eapply wE_bind; [apply wE_put; intros; reflexivity|]; intros ? ? _.

Lemma set_fit_transform_any X : wE eq (set_fit_transform N X) (set_fit_transform N X).
Proof.
  unfold set_fit_transform. eapply wE_bind; [apply wE_self|]. intros s s' ->. change (e_type (sp s)) with (e_type s).
  eapply wE_bind with (P := eq).
  - destruct (e_type s); [|apply wE_ret; reflexivity|apply wE_ret; reflexivity]. eapply wE_bind; [apply wE_same|]. intros t t' <-. put1. apply wE_ret. reflexivity.
  - intros t t' <-. destruct t; [apply wE_same| |apply wE_same]. apply wE_put; intros; reflexivity.
Qed.

Lemma read_X_any k X : wE eq (read_X N k X) (read_X N k X).
Proof.
  unfold read_X. destruct (kind_vl k).
  - eapply wE_bind; [apply wE_same|]. intros [[D sh] lens] ? <-. eapply wE_bind; [apply wE_same|]. intros ? ? _. eapply wE_bind; [apply wE_self|]. intros s s' ->. change (e_min_len (sp s)) with (e_min_len s).
    eapply wE_bind with (P := fun _ _ => True); [|intros ? ? _; apply wE_ret; reflexivity].
    destruct (e_min_len s); [apply wE_ret; exact I|]. eapply wE_bind; [apply wE_same|]. intros m m' <-. intros s2 h2. cbn. auto.
  - eapply wE_bind; [apply wE_same|]. intros A ? <-. eapply wE_bind; [apply wE_same|]. intros D ? <-. put1. apply wE_ret. reflexivity.
Qed.

Lemma subsample_any X y n : wE eq (subsample N V X y n) (subsample N V X y n).
Proof.
  unfold subsample. eapply wE_bind; [apply wE_self|]. intros s s' ->. change (e_n_samples (sp s)) with (e_n_samples s).
  assert (SEL : forall v replace, wE eq
     (bindE (liftE (sample_count N n v)) (fun k => bindE (call_resample V n replace k y) (fun ids => bindE (liftE (mapM (get X) ids)) (fun X' => bindE (liftE (mapM (get y) ids)) (fun y' => retE (X', y'))))))
     (bindE (liftE (sample_count N n v)) (fun k => bindE (call_resample V n replace k y) (fun ids => bindE (liftE (mapM (get X) ids)) (fun X' => bindE (liftE (mapM (get y) ids)) (fun y' => retE (X', y'))))))).
  { intros v replace. eapply wE_bind; [apply wE_same|]. intros k ? <-. eapply wE_bind with (P := eq).
    - intros s1 h. unfold call_resample. destruct h as [|g t]; [cbn; auto|]. destruct (v_resample V g n replace k y) as [[r|e] g']; [auto|exact I].
    - intros ids ? <-. eapply wE_bind; [apply wE_same|]. intros X' ? <-. eapply wE_bind; [apply wE_same|]. intros y' ? <-. apply wE_ret. reflexivity. }
  destruct (e_n_samples s); try (apply wE_ret; reflexivity); (eapply wE_bind; [apply wE_same|]; intros r ? <-; cbv zeta; destruct (nltb N r _); [apply SEL|]; destruct (nltb N _ r); [apply SEL|apply wE_ret; reflexivity]).
Qed.

Lemma draw_seed_any : wE eq (draw_seed (F := F) V) (draw_seed V).
Proof.
  intros s h. unfold draw_seed. change (e_rs (sp s)) with (e_rs s). destruct (get h (e_rs s)) as [g|]; [|cbn; auto]. destruct (v_randint V g) as [z g']. destruct (set h (e_rs s) g'); cbn; auto.
Qed.


(** two requests that differ in the percentiles only *)
Definition other_levels (q q' : @request F) : Prop := exists a b,
  q' = mkReq (q_kind q) (q_X q) (q_y q) (mkG (g_n (q_P q)) (g_sizes (q_P q)) (g_seed (q_P q)) (g_pnorm (q_P q)) a b (g_alpha (q_P q)) (g_phase (q_P q)) (g_prime (q_P q)))
    (q_max_channels q) (q_min_len q) (q_X_len q).

Lemma prepare_any X y : wE other_levels (prepare N V X y) (prepare N V X y).
Proof.
  unfold prepare. eapply wE_bind; [apply set_fit_transform_any|]. intros ? ? _. eapply wE_bind; [apply wE_self|]. intros s s' ->. change (e_type (sp s)) with (e_type s).
  eapply wE_bind with (P := eq); [destruct (e_type s); [apply wE_same|apply wE_ret; reflexivity|apply wE_same]|]. intros k ? <-.
  eapply wE_bind; [apply read_X_any|]. intros [[D sh] lens] ? <-. eapply wE_bind; [apply subsample_any|]. intros [D' y'] ? <-.
  eapply wE_bind; [apply wE_self|]. intros s1 ? ->. change (e_max_channels (sp s1)) with (e_max_channels s1).
  eapply wE_bind with (P := eq); [destruct (e_max_channels s1); [apply wE_ret; reflexivity|apply wE_put; intros; reflexivity]|]. intros ? ? _.
  eapply wE_bind; [apply wE_self|]. intros s2 ? ->. change (e_min_len (sp s2)) with (e_min_len s2). cbv zeta.
  change (set_lengths N (sp s2)) with (set_lengths N s2). eapply wE_bind; [apply wE_same|]. intros ls ? <-. put1. eapply wE_bind; [apply wE_same|]. intros sizes ? <-.
  eapply wE_bind; [apply draw_seed_any|]. intros seed ? <-. eapply wE_bind; [apply wE_self|]. intros s3 ? ->.
  eapply wE_bind with (P := fun _ _ => True).
  { apply wE_lift. match goal with |- wres _ ?u ?v => destruct u, v; exact I end. }
  intros p p' _. change (e_alpha (sp s3)) with (e_alpha s3). change (e_proba_norm (sp s3)) with (e_proba_norm s3). eapply wE_bind; [apply wE_same|]. intros al ? <-. eapply wE_bind; [apply wE_same|]. intros pn ? <-.
  apply wE_ret. exists (fst p'), (snd p'). reflexivity.
Qed.

Lemma fit_any {S} (rng : Rng F S) ex X y s h s1 h1 s1' h1' : wplain ex -> fit N rng V ex X y s h = (Ok tt, s1, h1) -> fit N rng V ex X y (sp s) h = (Ok tt, s1', h1') ->
  h1' = h1 /\ exists s0 f f', s1 = set_shapelets f s0 /\ s1' = set_shapelets f' (sp s0) /\ fitted_thr (fun _ _ => True) f f'.
Proof.
  intros HE. unfold fit, bindE. pose proof (prepare_any X y s h) as HP. destruct (prepare N V X y s h) as [[[q|e] s0] h0], (prepare N V X y (sp s) h) as [[[q'|e'] s0'] h0']; try discriminate.
  destruct HP as ((a & b & HQ) & -> & ->).
  assert (HT : wres (fitted_thr (fun _ _ => True)) (run_fitter N rng ex q) (run_fitter N rng ex q')).
  { apply (run_fitter_thr_any N rng (fun _ _ => True) (q_P q) (q_P q')) with (1 := ex_intro _ a (ex_intro _ b (f_equal q_P HQ))).
    - intros w. apply draw_threshold_any.
    - exact I.
    - exact HE.
    - reflexivity.
    - rewrite HQ. reflexivity. }
  unfold liftE. destruct (run_fitter N rng ex q) as [f|e], (run_fitter N rng ex q') as [f'|e']; try discriminate. cbn. intros E E'. injection E as <- <-. injection E' as <- <-.
  split; [reflexivity|]. exists s0, f, f'. auto.
Qed.
End E.
