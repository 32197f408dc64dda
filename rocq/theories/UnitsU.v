(** Change of units: the univariate generators. *)
From Coq Require Import ZArith String List Bool Reals Lra Lia.
From Verif Require Import Prelude Num Kernel Spec KernelProofs KernelLaws RealBase RealProofs Apply TransformProofs ChoiceProofs Gen GenSched GenBase GenUni GenDraw GenSpec GenUTop NumbaUtilsProofs DrawLaws DrawFit Units.
Import ListNotations.
Open Scope Z_scope.

(** an execution of the parallel loop of the fitter, see [real_executor] *)
Definition plain {S} (exec : forall ST : Type, @drawn -> (ST -> Z * Z -> G S ST) -> ST -> G S ST) : Prop :=
  forall ST ST' (P : ST -> ST' -> Prop) dr it it' st st', P st st' ->
    (forall t t' e, 0 <= snd e -> P t t' -> rG P (it t e) (it' t' e)) -> rG P (exec ST dr it st) (exec ST' dr it' st').

Lemma group_ids_nonneg dils i_d i : In i (group_ids dils i_d) -> 0 <= i.
Proof. unfold group_ids. destruct (nthZ _ _); [|intros []]. intros H. apply in_where in H. apply nthZ_range in H. lia. Qed.

Lemma plain_seq {S} : plain (fun ST => @exec_seq S ST).
Proof.
  intros ST ST' P dr it it' st st' H0 H. unfold exec_seq. apply foldG_rr; [exact H0|]. intros t t' e He. apply H. unfold seq_sched in He. apply in_concat in He as (l & Hl & He).
  apply in_map_iff in Hl as (i_d & <- & _). apply in_map_iff in He as (i & <- & Hi). cbn [snd]. eapply group_ids_nonneg; eauto.
Qed.

Lemma plain_par {S} (rs : Z -> S) sched : scheduler sched -> plain (fun ST => @exec_par S ST rs sched).
Proof.
  intros HS ST ST' P dr it it' st st' H0 H. unfold exec_par. apply rG_lift. unfold run_sched. apply foldM_rr; [exact H0|]. intros t t' e He HP.
  eapply rres_bind; [apply H; [|exact HP]|].
  - assert (Q : In e (filter (fun x => fst x =? fst e) (sched (dr_dil dr)))) by (apply filter_In; split; [exact He|apply Z.eqb_refl]). rewrite (HS (dr_dil dr) (fst e)) in Q.
    apply in_map_iff in Q as (i & <- & Hi). cbn [snd]. eapply group_ids_nonneg; eauto.
  - intros p p' [Q _]. exact Q.
Qed.

Section U.
Context (c b : R).
Hypothesis Hc : c <> 0%R.
Notation f := (fun x : R => (c * x + b)%R).
Notation g := (Rmult (Rabs c)).
(** zero before exactly when zero after *)
Definition nz (x : R) : Prop := x = 0%R <-> f x = 0%R.

(** one row of the array of values before and after: not written, or written *)
Definition rowrel (nm : bool) (l : Z) (row row' : list R) : Prop :=
  (row' = row /\ forall x, In x row -> x = 0%R) \/
  exists v rest, row = v ++ rest /\ row' = fv c b nm v ++ rest /\ zlen v = l /\ (nm = false -> Forall nz v).
Definition vrel (dr : @drawn) (V V' : list (list R)) : Prop :=
  zlen V = zlen (dr_len dr) /\ zlen V = zlen V' /\ forall i row row', nthZ V i = Some row -> nthZ V' i = Some row' -> rowrel (nthd false (dr_norm dr) i) (nthd 0 (dr_len dr) i) row row'.
Definition urel (dr : @drawn) (st st' : ust R) : Prop :=
  u_mask st' = u_mask st /\ u_thr st' = map g (u_thr st) /\ vrel dr (u_val st) (u_val st').

Lemma zlen_fv nm v : zlen (fv c b nm v) = zlen v.
Proof. unfold fv. destruct nm; [reflexivity|apply zlen_map]. Qed.

Lemma skipn_rowrel nm l row row' : rowrel nm l row row' -> skipn (Z.to_nat l) row' = skipn (Z.to_nat l) row.
Proof.
  intros [[-> _]|(v & rest & -> & -> & E & _)]; [reflexivity|]. pose proof (zlen_fv nm v) as E2. unfold zlen in *.
  rewrite !skipn_app. rewrite (skipn_all2 v), (skipn_all2 (fv c b nm v)) by lia. replace (Z.to_nat l - length v)%nat with 0%nat by lia. replace (Z.to_nat l - length (fv c b nm v))%nat with 0%nat by lia. reflexivity.
Qed.
Lemma zlen_rowrel nm l row row' : rowrel nm l row row' -> zlen row' = zlen row.
Proof. intros [[-> _]|(v & rest & -> & -> & E & _)]; [reflexivity|]. rewrite !zlen_app, zlen_fv. reflexivity. Qed.

Lemma set_slice_rowrel nm l row row' v : rowrel nm l row row' -> zlen v = l -> (nm = false -> Forall nz v) ->
  rres (rowrel nm l) (set_slice row 0 l v) (set_slice row' 0 l (fv c b nm v)).
Proof.
  intros HR Hl HZ. unfold set_slice. rewrite (zlen_rowrel _ _ _ _ HR), zlen_fv. set (bb := Z.max _ _). assert (E0 : clip (zlen row) 0 = 0) by (unfold clip, wrap; cbn; lia). rewrite E0 in *.
  destruct (Z.eqb_spec (bb - 0) (zlen v)) as [E|E]; [|reflexivity]. cbn [rres]. change (Z.to_nat 0) with 0%nat. cbn [firstn app]. right. exists v, (skipn (Z.to_nat l) row).
  assert (bb = l) by lia. split; [congruence|]. split; [|auto]. rewrite <- (skipn_rowrel _ _ _ _ HR). congruence.
Qed.

Lemma upd_vrel dr V V' i nm l v : vrel dr V V' -> 0 <= i -> get (dr_norm dr) i = Ok nm -> get (dr_len dr) i = Ok l -> zlen v = l -> (nm = false -> Forall nz v) ->
  rres (vrel dr) (upd_at V i (fun row => set_slice row 0 l v)) (upd_at V' i (fun row => set_slice row 0 l (fv c b nm v))).
Proof.
  intros (EL & EZ & HV) Hi Hn Hl Hv HZ. assert (En : nthd false (dr_norm dr) i = nm) by (apply nthd_some; apply get_nthZ; assumption).
  assert (El : nthd 0 (dr_len dr) i = l) by (apply nthd_some; apply get_nthZ; assumption).
  unfold upd_at. destruct (Z.lt_ge_cases i (zlen V)) as [Hlt|Hge].
  - destruct (nthZ_some V i ltac:(lia)) as (row & Hr). destruct (nthZ_some V' i ltac:(lia)) as (row' & Hr'). rewrite (proj2 (get_nthZ V i row Hi) Hr), (proj2 (get_nthZ V' i row' Hi) Hr'). cbn [bind].
    specialize (HV i row row' Hr Hr') as HR. rewrite En, El in HR. eapply rres_bind; [apply set_slice_rowrel; [exact HR|exact Hv|exact HZ]|]. intros r r' HR2.
    rewrite !set_ok by lia. cbn [rres]. split; [rewrite zlen_upd; exact EL|]. split; [rewrite !zlen_upd; exact EZ|]. intros j x x' Hx Hx'. rewrite nthZ_upd in Hx by lia. rewrite nthZ_upd in Hx' by lia.
    destruct (Z.eqb_spec j i) as [->|]; [injection Hx as <-; injection Hx' as <-; rewrite En, El; exact HR2|eauto].
  - assert (N1 : nthZ V i = None) by (destruct (nthZ V i) eqn:Q; [apply nthZ_range in Q; lia|reflexivity]). assert (N2 : nthZ V' i = None) by (destruct (nthZ V' i) eqn:Q; [apply nthZ_range in Q; lia|reflexivity]).
    unfold get, wrap. destruct (Z.ltb_spec i 0); [lia|]. rewrite N1, N2. reflexivity.
Qed.

Lemma set_thr thr i x : rres (fun t t' => t' = map g t) (set thr i x) (set (map g thr) i (g x)).
Proof.
  unfold set. rewrite zlen_map. destruct (_ && _); [|reflexivity]. cbn [rres]. generalize (Z.to_nat (wrap (zlen thr) i)) as k. clear. induction thr as [|a t IH]; intros [|k]; cbn [upd map]; [reflexivity|reflexivity|reflexivity|]. rewrite IH. reflexivity.
Qed.

(** ** The loop bodies, for any way of reading the series *)
Section Tail.
Context {S : Type} (rng : Rng R S) (dr : @drawn) (P : gparams R) (y : list Z) (ser ser' : Z -> res (list R)) (An : Prop).
Hypothesis Hser : forall i, rres (fun x x' => x' = map f x /\ (An \/ Forall nz x)) (ser i) (ser' i).
Hypothesis Hnorm : forall i nm, get (dr_norm dr) i = Ok nm -> nm = true -> c = 1%R.
(** every shapelet is normalised *)
Hypothesis HAn : An -> forall i nm, get (dr_norm dr) i = Ok nm -> nm = true.

(** from the choice of the window on *)
Definition utail (srs : Z -> res (list R)) (mask' : list (list (list (list bool)))) (st : ust R) (i_shp l d : Z) (nm : bool) (id_sample index : Z) : G S (ust R) :=
  let! x := liftG (srs id_sample) in
  let! v := liftG (get_subsequence RN x index l d nm (g_phase P)) in
  let! id_test := pick_test rng y id_sample in
  let! xt := liftG (srs id_test) in
  let! x_dist := liftG (compute_shapelet_dist_vector RN xt v l d nm (g_phase P)) in
  let! thr := draw_threshold RN rng x_dist (g_pmin P) (g_pmax P) in
  let! thr' := liftG (set (u_thr st) i_shp thr) in
  let! val' := liftG (upd_at (u_val st) i_shp (fun row => set_slice row 0 l v)) in
  retG (mkUst mask' thr' val').

Lemma utail_units mask' st st' i l d nm id ix : urel dr st st' -> 0 <= i -> get (dr_norm dr) i = Ok nm -> get (dr_len dr) i = Ok l ->
  rG (urel dr) (utail ser mask' st i l d nm id ix) (utail ser' mask' st' i l d nm id ix).
Proof.
  intros (U1 & U2 & U3) Hi Hn Hl. unfold utail. pose proof (Hnorm i nm Hn) as HN. eapply rG_bind; [apply rG_lift; apply Hser|]. intros x x' [-> Hx].
  eapply rG_bind; [apply rG_lift; apply subsequence_units; assumption|]. intros v v' (-> & Ev & Iv).
  eapply rG_bind; [apply rG_refl|]. intros t t' <-. eapply rG_bind; [apply rG_lift; apply Hser|]. intros xt xt' [-> _].
  eapply rG_bind; [apply rG_lift; apply dists_units; assumption|]. intros ds ds' ->. eapply rG_bind; [apply threshold_units; exact Hc|]. intros th th' ->.
  rewrite U2. eapply rG_bind; [apply rG_lift; apply set_thr|]. intros t1 t1' ->.
  eapply rG_bind; [apply rG_lift; apply upd_vrel; try eassumption|].
  - intros E. destruct Hx as [Hx|Hx]; [specialize (HAn Hx i nm Hn); congruence|]. rewrite Forall_forall in *. intros z Hz. apply Hx. apply Iv; assumption.
  - intros w w' HW. apply rG_ret. split; [reflexivity|]. split; [reflexivity|exact HW].
Qed.
End Tail.

Section SL.
Context {S : Type} (rng : Rng R S) (X X' : dataset R) (y : list Z) (P : gparams R) (An : Prop).
Hypothesis Hser : forall i, rres (fun x x' => x' = map f x /\ (An \/ Forall nz x)) (u_series X i) (u_series X' i).

Lemma U_SL_iter_units dr n_ts st st' e : (forall i nm, get (dr_norm dr) i = Ok nm -> nm = true -> c = 1%R) -> (An -> forall i nm, get (dr_norm dr) i = Ok nm -> nm = true) -> 0 <= snd e -> urel dr st st' ->
  rG (urel dr) (U_SL_iter RN rng X y n_ts P dr st e) (U_SL_iter RN rng X' y n_ts P dr st' e).
Proof.
  intros HN HAn He HU. destruct e as [i_d i]. cbn [snd] in He. unfold U_SL_iter. pose proof HU as (U1 & U2 & U3). rewrite U1.
  eapply rG_bind; [apply rG_refl|]. intros ml ml' <-. eapply rG_bind; [apply rG_refl|]. intros d d' <-.
  eapply rG_bind with (P := fun a a' => a' = a /\ get (dr_len dr) i = Ok a); [apply rG_lift; destruct (get (dr_len dr) i); cbn; auto|]. intros l l' [-> Hl].
  eapply rG_bind with (P := fun a a' => a' = a /\ get (dr_norm dr) i = Ok a); [apply rG_lift; destruct (get (dr_norm dr) i); cbn; auto|]. intros nm nm' [-> Hn].
  cbv zeta. eapply rG_bind; [apply rG_refl|]. intros md md' <-. destruct (0 <? _); [|apply rG_ret; exact HU].
  eapply rG_bind; [apply rG_refl|]. intros id id' <-. eapply rG_bind; [apply rG_refl|]. intros ix ix' <-. eapply rG_bind; [apply rG_refl|]. intros mk mk' <-.
  exact (utail_units rng dr P y (u_series X) (u_series X') An Hser HN HAn mk st st' i l d nm id ix HU He Hn Hl).
Qed.
End SL.

Section VL.
Context {S : Type} (rng : Rng R S) (X X' : dataset R) (X_len : list Z) (y : list Z) (P : gparams R) (An : Prop).
Hypothesis Hser : forall i, rres (fun x x' => x' = map f x /\ (An \/ Forall nz x)) (u_series_vl X X_len i) (u_series_vl X' X_len i).
Hypothesis Hz : zlen X' = zlen X.

Lemma U_VL_iter_units dr st st' e : (forall i nm, get (dr_norm dr) i = Ok nm -> nm = true -> c = 1%R) -> (An -> forall i nm, get (dr_norm dr) i = Ok nm -> nm = true) -> 0 <= snd e -> urel dr st st' ->
  rG (urel dr) (U_VL_iter RN rng X X_len y P dr st e) (U_VL_iter RN rng X' X_len y P dr st' e).
Proof.
  intros HN HAn He HU. destruct e as [i_d i]. cbn [snd] in He. unfold U_VL_iter. pose proof HU as (U1 & U2 & U3). rewrite U1, Hz.
  eapply rG_bind; [apply rG_refl|]. intros ml ml' <-. eapply rG_bind; [apply rG_refl|]. intros d d' <-.
  eapply rG_bind with (P := fun a a' => a' = a /\ get (dr_len dr) i = Ok a); [apply rG_lift; destruct (get (dr_len dr) i); cbn; auto|]. intros l l' [-> Hl].
  eapply rG_bind with (P := fun a a' => a' = a /\ get (dr_norm dr) i = Ok a); [apply rG_lift; destruct (get (dr_norm dr) i); cbn; auto|]. intros nm nm' [-> Hn].
  cbv zeta. eapply rG_bind; [apply rG_refl|]. intros md md' <-. eapply rG_bind; [apply rG_refl|]. intros im im' <-. destruct (0 <? _); [|apply rG_ret; exact HU].
  eapply rG_bind; [apply rG_refl|]. intros id id' <-. eapply rG_bind; [apply rG_refl|]. intros ns ns' <-. eapply rG_bind; [apply rG_refl|]. intros rr rr' <-.
  eapply rG_bind; [apply rG_refl|]. intros ix ix' <-. eapply rG_bind; [apply rG_refl|]. intros mk mk' <-.
  exact (utail_units rng dr P y (u_series_vl X X_len) (u_series_vl X' X_len) An Hser HN HAn mk st st' i l d nm id ix HU He Hn Hl).
Qed.
End VL.

(** ** The fitted shapelets *)
Definition fitted_units (T T' : ushp R) : Prop :=
  us_len T' = us_len T /\ us_dil T' = us_dil T /\ us_norm T' = us_norm T /\ us_thr T' = map g (us_thr T) /\ zlen (us_values T') = zlen (us_values T) /\
  forall k v l d thr nm, ushp_at T k v l d thr nm -> ushp_at T' k (fv c b nm v) l d (g thr) nm.

Lemma zero_rowrel nm l row row' : rowrel nm l row row' -> forallb (fun x => neqb RN x (n0 RN)) row' = forallb (fun x => neqb RN x (n0 RN)) row.
Proof.
  intros [[-> _]|(v & rest & -> & -> & _ & HZ)]; [reflexivity|]. rewrite !forallb_app. f_equal. destruct nm; [reflexivity|]. specialize (HZ eq_refl). cbn [fv]. induction HZ as [|x t Hx HZ IH]; [reflexivity|].
  cbn [map forallb]. rewrite IH. f_equal. cbn [neqb RN n0]. unfold nz in Hx. destruct (Reqb x 0) eqn:E; [apply Reqb_true in E; apply Reqb_true; apply Hx; exact E|]. apply Reqb_false in E. apply Reqb_false. intros Q. apply E. apply Hx. exact Q.
Qed.

Lemma finish_units dr st st' : urel dr st st' -> zlen (dr_norm dr) = zlen (dr_len dr) -> fitted_units (U_finish RN dr st) (U_finish RN dr st').
Proof.
  intros (U1 & U2 & EL & EZ & HV) ZN. assert (ZL : zlen (dr_len dr) = zlen (u_val st)) by auto. rewrite ZL in ZN. unfold U_finish. set (nzr := fun row : list R => negb (forallb (fun x => neqb RN x (n0 RN)) row)).
  assert (EM : map nzr (u_val st') = map nzr (u_val st)).
  { apply nthZ_ext; [rewrite !zlen_map; auto|]. intros i Hi. rewrite zlen_map in Hi. rewrite !nthZ_map. destruct (nthZ_some (u_val st) i ltac:(lia)) as (r & Hr). destruct (nthZ_some (u_val st') i ltac:(lia)) as (r' & Hr').
    rewrite Hr, Hr'. cbn [option_map]. unfold nzr. rewrite (zero_rowrel _ _ _ _ (HV i r r' Hr Hr')). reflexivity. }
  rewrite EM. set (M := map nzr (u_val st)). assert (ZM : length M = length (u_val st)) by apply map_length.
  split; [reflexivity|]. split; [reflexivity|]. split; [reflexivity|]. split; [cbn [us_thr]; rewrite U2; apply mask_select_map|].
  split; [cbn [us_values]; unfold zlen; rewrite !mask_select_length by (unfold zlen in EZ; lia); reflexivity|].
  intros k v l d thr nm ((v0 & A1 & A2) & B & C & D & E). cbn [us_values us_len us_dil us_thr us_norm] in *.
  assert (SEL : forall A (dd : A) (L : list A), zlen L = zlen (u_val st) -> mask_select M L = map (nthd dd L) (where_ M)) by (intros A dd L HL; apply mask_select_nthd; unfold zlen in HL; lia).
  rewrite (SEL _ [] (u_val st) eq_refl), nthZ_map in A1. rewrite (SEL _ 0 (dr_len dr) ZL), nthZ_map in B. rewrite (SEL _ false (dr_norm dr) ZN), nthZ_map in E.
  destruct (nthZ (where_ M) k) as [i|] eqn:Ei; [|discriminate]. cbn [option_map] in *. assert (Hi : nthZ M i = Some true) by (apply in_where; eapply nthZ_In; eauto).
  unfold M in Hi. rewrite nthZ_map in Hi. destruct (nthZ (u_val st) i) as [row|] eqn:Hr; [|discriminate]. rewrite (nthd_some _ _ _ _ Hr) in A1. pose proof (nthZ_range _ _ _ Hr) as Ri.
  destruct (nthZ_some (u_val st') i ltac:(lia)) as (row' & Hr'). pose proof (HV i row row' Hr Hr') as HR. injection A1 as <-. injection B as <-. injection E as <-. injection Hi as Hi.
  split; [|cbn [us_len us_dil us_thr us_norm]; split; [rewrite (SEL _ 0 (dr_len dr) ZL), nthZ_map, Ei; reflexivity|split; [exact C|split; [rewrite U2, mask_select_map, nthZ_map, D; reflexivity|rewrite (SEL _ false (dr_norm dr) ZN), nthZ_map, Ei; reflexivity]]]].
  exists row'. cbn [us_values]. split; [rewrite (SEL _ [] (u_val st')) by auto; rewrite nthZ_map, Ei; cbn [option_map]; rewrite (nthd_some _ _ _ _ Hr'); reflexivity|].
  subst v. destruct HR as [[-> HZ]|(v & rest & -> & -> & Ev & _)].
  - exfalso. assert (Q : forallb (fun x => neqb RN x (n0 RN)) row = true) by (apply forallb_forall; intros x Hx; apply Reqb_true; apply HZ; exact Hx). unfold nzr in Hi. rewrite Q in Hi. discriminate.
  - set (nm := nthd false (dr_norm dr) i) in *. rewrite <- Ev. pose proof (zlen_nonneg v) as Pv. pose proof (zlen_nonneg rest). pose proof (zlen_fv nm v) as Q.
    rewrite !slice_ok by (rewrite ?zlen_app; lia). rewrite !Z.sub_0_r. change (Z.to_nat 0) with 0%nat. cbn [skipn]. rewrite <- Q at 2. unfold zlen. rewrite !Nat2Z.id, !firstn_app, !Nat.sub_diag, !firstn_all. cbn [firstn]. rewrite !app_nil_r. reflexivity.
Qed.

(** ** The generators *)
Section Gen.
Context {S : Type} (rng : Rng R S) (L : RngLaws RN rng) (P : gparams R) (y : list Z).
Hypothesis Hnorm : c = 1%R \/ (g_pnorm P <= 0)%R.

Lemma init_units n_ts s values dr thr s1 : U_init RN rng (g_n P) (g_sizes P) n_ts (g_pnorm P) (g_prime P) s = Ok (values, dr, thr, s1) ->
  zlen (dr_norm dr) = zlen (dr_len dr) /\ thr = map g thr /\ vrel dr values values /\ (forall i nm, get (dr_norm dr) i = Ok nm -> nm = true -> c = 1%R) /\ ((1 <= g_pnorm P)%R -> forall i nm, get (dr_norm dr) i = Ok nm -> nm = true).
Proof.
  intros H. unfold U_init in H. apply bindG_inv in H as (lens & t1 & H1 & H). apply bindG_inv in H as (dils & t2 & H2 & H).
  apply bind_liftG in H as (th & H3 & H). apply bind_liftG in H as (w & H4 & H). apply bind_liftG in H as (row & H5 & H). apply bind_liftG in H as (vs & H6 & H).
  apply bindG_inv in H as (nm & t3 & H7 & H). unfold retG in H. inversion H; subst. cbn [dr_norm dr_len]. clear H.
  apply (choice_n_ints rng RN L) in H1 as (Hn & _ & _ & F1). apply draw_norm_draws in H7 as [_ F7].
  assert (Z1 : zlen lens = g_n P). { apply Forall2_length in F1. rewrite ints_length in F1. unfold zlen. lia. }
  assert (Z7 : zlen nm = g_n P). { apply Forall2_length in F7. rewrite draws_length in F7. unfold zlen. lia. }
  unfold full in H3, H5, H6. destruct (g_n P <? 0); [discriminate|]. injection H3 as <-. destruct (w <? 0); [discriminate|]. injection H5 as <-. injection H6 as <-.
  split; [lia|]. split; [cbn [n0 RN]; generalize (Z.to_nat (g_n P)) as k; clear; induction k as [|k IH]; cbn [repeat map]; [reflexivity|]; rewrite <- IH, Rmult_0_r; reflexivity|]. split.
  - split; [cbn [dr_len]; unfold zlen; rewrite repeat_length; unfold zlen in Z1; lia|]. split; [reflexivity|]. intros i r r' Hr Hr'. left. split; [congruence|].
    intros x Hx. apply nthZ_In in Hr. apply repeat_spec in Hr. subst r. apply repeat_spec in Hx. exact Hx.
  - assert (HU : forall i b0, get nm i = Ok b0 -> exists u, (0 <= u < 1)%R /\ Rltb u (g_pnorm P) = b0).
    { intros i b0 Hb. unfold get in Hb. destruct (nthZ nm (wrap (zlen nm) i)) as [x|] eqn:E; [|discriminate]. injection Hb as ->.
      pose proof (nthZ_range _ _ _ E) as Ri. destruct (nthZ_some (fst (draws rng (Z.to_nat (g_n P)) t2)) (wrap (zlen nm) i)) as (u & Hu). { unfold zlen in *. rewrite draws_length. lia. }
      pose proof (Forall2_nth _ _ _ _ _ _ F7 Hu E) as Q2. cbn in Q2. exists u. split; [|congruence]. apply nthZ_In in Hu.
      clear - L Hu. revert t2 Hu. induction (Z.to_nat (g_n P)) as [|m IH]; intros t2 Hu; cbn [draws] in Hu; [destruct Hu|].
      pose proof (RngLaws_R rng L t2) as Q. destruct (r_unif rng t2) as [u0 s1]. specialize (IH s1). destruct (draws rng m s1) as [us s2]. cbn [fst] in *. destruct Hu as [<-|Hu]; [lra|auto]. }
    split.
    + intros i b0 Hb ->. destruct Hnorm as [Q|Q]; [exact Q|exfalso]. destruct (HU i _ Hb) as (u & Hu & Q2). apply Rltb_true in Q2. lra.
    + intros Q i b0 Hb. destruct (HU i _ Hb) as (u & Hu & <-). apply Rltb_true. lra.
Qed.

Notation An := (1 <= g_pnorm P)%R.
Lemma U_SL_units ex X X' : plain ex -> n_timestamps X' = n_timestamps X -> length X' = length X ->
  (forall i, rres (fun x x' => x' = map f x /\ (An \/ Forall nz x)) (u_series X i) (u_series X' i)) ->
  rres fitted_units (U_SL_generate_with RN rng X y P (ex _)) (U_SL_generate_with RN rng X' y P (ex _)).
Proof.
  intros HE Et El Hs. unfold U_SL_generate_with. rewrite Et. destruct (U_init _ _ _ _ _ _ _ _) as [[[[values dr] thr] s1]|e] eqn:EI; [|reflexivity]. cbn [bind].
  destruct (init_units _ _ _ _ _ _ EI) as (I1 & I2 & I3 & I4 & I5).
  eapply rres_bind; [apply (HE _ _ (urel dr) dr) with (s := s1)|].
  - unfold U_SL_start. rewrite Et, El. split; [reflexivity|]. split; [exact I2|exact I3].
  - intros t t' e He HU. apply (U_SL_iter_units rng X X' y P (1 <= g_pnorm P)%R); assumption.
  - intros p p' [HU _]. cbn [rres]. apply finish_units; assumption.
Qed.

Lemma U_VL_units ex X X' X_len m : plain ex -> zlen X' = zlen X ->
  (forall i, rres (fun x x' => x' = map f x /\ (An \/ Forall nz x)) (u_series_vl X X_len i) (u_series_vl X' X_len i)) ->
  rres fitted_units (U_VL_generate_with RN rng X X_len y m P (ex _)) (U_VL_generate_with RN rng X' X_len y m P (ex _)).
Proof.
  intros HE El Hs. unfold U_VL_generate_with. destruct (U_init _ _ _ _ _ _ _ _) as [[[[values dr] thr] s1]|e] eqn:EI; [|reflexivity]. cbn [bind].
  destruct (init_units _ _ _ _ _ _ EI) as (I1 & I2 & I3 & I4 & I5). eapply rres_bind with (P := urel dr).
  - unfold U_VL_start. rewrite El. eapply rres_bind; [apply rres_refl|]. intros ml ml' <-. eapply rres_bind; [apply rres_refl|]. intros sl sl' <-. cbn [rres].
    split; [reflexivity|]. split; [exact I2|exact I3].
  - intros st st' HU. eapply rres_bind; [apply (HE _ _ (urel dr) dr) with (s := s1); [exact HU|]|].
    + intros t t' e He HU2. apply (U_VL_iter_units rng X X' X_len y P (1 <= g_pnorm P)%R); assumption.
    + intros p p' [HU2 _]. cbn [rres]. apply finish_units; assumption.
Qed.
End Gen.
End U.
