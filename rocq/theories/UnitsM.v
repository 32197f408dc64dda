(** Change of units: the multivariate generators. *)
From Coq Require Import ZArith String List Bool Reals Lra Lia.
From Verif Require Import Prelude Num Kernel Spec KernelProofs KernelLaws RealBase RealProofs Apply ApplyUni ApplyMulti TransformProofs ChoiceProofs Gen GenSched GenBase GenUni GenMulti GenDraw GenSpec GenMSpec
  GenMRun GenMTop GenMFinal GenULaws GenMLaws GenMLoop NumbaUtilsProofs DrawLaws DrawFit Units UnitsU.
Import ListNotations.
Open Scope Z_scope.

(** an execution of the parallel loop, remembering the iterations done: each shapelet once *)
Definition counted {S} (exec : forall ST : Type, @drawn -> (ST -> Z * Z -> G S ST) -> ST -> G S ST) : Prop :=
  forall ST ST' (P : list (Z * Z) -> ST -> ST' -> Prop) dr it it' st st', P [] st st' ->
    (forall done t t' e, 0 <= snd e < zlen (dr_dil dr) -> P done t t' -> rG (P (done ++ [e])) (it t e) (it' t' e)) ->
    rG (fun t t' => exists sched, is_schedule (dr_dil dr) sched /\ P sched t t') (exec ST dr it st) (exec ST' dr it' st').

Lemma foldM_rrd {A T T'} (P : list A -> T -> T' -> Prop) (f : T -> A -> res T) f' l : forall done s s', P done s s' ->
  (forall d r t t' a, done ++ l = d ++ a :: r -> P d t t' -> rres (P (d ++ [a])) (f t a) (f' t' a)) -> rres (P (done ++ l)) (foldM f l s) (foldM f' l s').
Proof.
  induction l as [|a l IH]; intros done s s' H0 H; cbn [foldM]; [rewrite app_nil_r; exact H0|]. eapply rres_bind; [apply (H done l); [reflexivity|exact H0]|].
  intros t t' Ht. replace (done ++ a :: l) with ((done ++ [a]) ++ l) in * by (rewrite <- app_assoc; reflexivity). apply IH; assumption.
Qed.
Lemma foldG_rrd {S A T T'} (P : list A -> T -> T' -> Prop) (f : T -> A -> G S T) f' l : forall done s s', P done s s' ->
  (forall d t t' a, In a l -> P d t t' -> rG (P (d ++ [a])) (f t a) (f' t' a)) -> rG (P (done ++ l)) (foldG f l s) (foldG f' l s').
Proof.
  induction l as [|a l IH]; intros done s s' H0 H; cbn [foldG]; [rewrite app_nil_r; apply rG_ret; exact H0|]. eapply rG_bind; [apply (H done); [left; reflexivity|exact H0]|].
  intros t t' Ht. replace (done ++ a :: l) with ((done ++ [a]) ++ l) in * by (rewrite <- app_assoc; reflexivity). apply IH; [exact Ht|]. intros. apply H; [right; assumption|assumption].
Qed.

Lemma counted_seq {S} : counted (fun ST => @exec_seq S ST).
Proof.
  intros ST ST' P dr it it' st st' H0 H. unfold exec_seq. intros s. eapply rres_impl; [|apply (foldG_rrd P it it' (seq_sched (dr_dil dr)) [] st st' H0)].
  - intros p p' [Q E]. split; [|exact E]. eexists. split; [apply seq_sched_ok|exact Q].
  - intros d t t' e He. apply H. destruct e as [g i]. apply (sched_event _ _ _ _ (seq_sched_ok _) He).
Qed.

Lemma counted_par {S} (rs : Z -> S) sched : scheduler sched -> counted (fun ST => @exec_par S ST rs sched).
Proof.
  intros HS ST ST' P dr it it' st st' H0 H. unfold exec_par. apply rG_lift. unfold run_sched. eapply rres_impl; [|apply (foldM_rrd P) with (done := []); [exact H0|]].
  - intros p p' Q. eexists. split; [apply HS|exact Q].
  - intros d r t t' e He HP. cbn [app] in He. eapply rres_bind; [apply (H d); [|exact HP]|].
    + destruct e as [g i]. apply (sched_event _ (sched (dr_dil dr)) g i (HS _)). rewrite He. apply in_or_app. right. left. reflexivity.
    + intros p p' [Q _]. exact Q.
Qed.

Section U.
Context (c : R) (b : Z -> R) (nf : Z).
Hypothesis Hc : c <> 0%R.
Notation g := (Rmult (Rabs c)).

(** the values of one shapelet before and after: channel by channel *)
Definition fvs (nm : bool) (chs : list Z) (vs : list (list R)) : list (list R) := map (fun p => fv c (b (fst p)) nm (snd p)) (combine chs vs).

Lemma zlen_fvs nm chs vs : zlen vs = zlen chs -> zlen (fvs nm chs vs) = zlen chs.
Proof. intros H. unfold fvs. rewrite zlen_map. unfold zlen in *. rewrite combine_length. lia. Qed.
Lemma fvs_snoc nm chs vs ch v : zlen vs = zlen chs -> fvs nm (chs ++ [ch]) (vs ++ [v]) = fvs nm chs vs ++ [fv c (b ch) nm v].
Proof.
  unfold fvs, zlen. revert vs. induction chs as [|a t IH]; intros [|w vs] H; try discriminate; [reflexivity|]. cbn [app combine map fst snd]. rewrite IH; [reflexivity|]. cbn [length] in H. lia.
Qed.
Lemma zlen_fvs_in nm chs vs l : (forall v, In v vs -> zlen v = l) -> forall v, In v (fvs nm chs vs) -> zlen v = l.
Proof. intros H v Hv. unfold fvs in Hv. apply in_map_iff in Hv as ((ch, w) & <- & Hp). cbn [fst snd]. rewrite zlen_fv. apply H. apply in_combine_r in Hp. exact Hp. Qed.
Lemma nthZ_fvs nm chs vs j ch v : nthZ chs j = Some ch -> nthZ vs j = Some v -> nthZ (fvs nm chs vs) j = Some (fv c (b ch) nm v).
Proof.
  intros H1 H2. unfold fvs. rewrite nthZ_map. assert (Q : nthZ (combine chs vs) j = Some (ch, v)); [|rewrite Q; reflexivity].
  revert vs j H1 H2. induction chs as [|a t IH]; intros vs j H1 H2; [apply nthZ_range in H1; cbn in H1; lia|]. destruct vs as [|w vs]; [apply nthZ_range in H2; cbn in H2; lia|].
  cbn [combine]. rewrite nthZ_cons. rewrite nthZ_cons in H1. rewrite nthZ_cons in H2. destruct (j =? 0); [injection H1 as ->; injection H2 as ->; reflexivity|auto].
Qed.

Lemma vadd_units a d : rres (fun r r' => r' = map g r) (vadd RN a d) (vadd RN (map g a) (map g d)).
Proof.
  unfold vadd. rewrite !zlen_map. eapply rres_bind; [apply rres_refl|]. intros _ _ _. cbn [rres]. revert d. induction a as [|x a IH]; intros [|y d]; cbn [map combine]; try reflexivity. rewrite IH. f_equal. cbn. ring.
Qed.

Section Chan.
Context (P : gparams R) (ser ser' : Z -> Z -> res (list R)).
Hypothesis Hser : forall i ch, 0 <= ch < nf -> rres (fun x x' => x' = map (fun x : R => (c * x + b ch)%R) x) (ser i ch) (ser' i ch).

Definition chrel (nm : bool) (l : Z) (chs : list Z) (done : list Z) (q q' : list (list (list (list (list bool)))) * list R * list R) : Prop :=
  let '(mask, xd, vals) := q in let '(mask', xd', vals') := q' in
  mask' = mask /\ xd' = map g xd /\ zlen vals = zlen chs * l /\ exists vs rest, vals = concat vs ++ rest /\ vals' = concat (fvs nm (firstn (length done) chs) vs) ++ rest /\ zlen vs = zlen done /\ forall v, In v vs -> zlen v = l.

Lemma channels_units norm i_d id it ix l d n asize nm chs mask xd vals : (nm = true -> c = 1%R) -> (forall ch, In ch chs -> 0 <= ch < nf) -> zlen vals = zlen chs * l ->
  rres (fun q q' => let '(m, x, v) := q in let '(m', x', v') := q' in
          m' = m /\ x' = map g x /\ exists vs, v = concat vs /\ v' = concat (fvs nm chs vs) /\ zlen vs = zlen chs /\ forall v, In v vs -> zlen v = l)
    (M_channels RN P ser norm i_d id it ix l d n asize nm chs (mask, xd, vals)) (M_channels RN P ser' norm i_d id it ix l d n asize nm chs (mask, map g xd, vals)).
Proof.
  intros Hn Hch Hz. unfold M_channels. eapply rres_impl; [|apply (foldM_rrd (chrel nm l chs)) with (done := [])].
  - intros [[m x] v] [[m' x'] v'] (-> & -> & A & vs & rest & -> & -> & E1 & E2). split; [reflexivity|]. split; [reflexivity|]. cbn [app] in *. rewrite zlen_zrange in E1. exists vs.
    assert (E1' : zlen vs = zlen chs) by (pose proof (zlen_nonneg chs); lia). rewrite zlen_app, (concat_regular_len vs l E2), E1' in A. pose proof (zlen_nonneg rest).
    assert (rest = []) by (destruct rest; [reflexivity|rewrite zlen_cons in *; pose proof (zlen_nonneg rest); lia]). subst rest. rewrite !app_nil_r.
    assert (EL : length (zrange 0 (zlen chs)) = length chs). { pose proof (zlen_zrange 0 (zlen chs)) as Q. unfold zlen in *. lia. } rewrite EL, firstn_all. auto.
  - split; [reflexivity|]. split; [reflexivity|]. split; [exact Hz|]. exists [], vals. cbn [length firstn]. split; [reflexivity|]. split; [reflexivity|]. split; [reflexivity|]. intros v [].
  - intros dn r [[m x] v] [[m' x'] v'] k Ek (-> & -> & A & vs & rest & -> & -> & E1 & E2). cbn [app] in Ek.
    assert (Hk : nthZ (zrange 0 (zlen chs)) (zlen dn) = Some k) by (rewrite Ek, nthZ_app, Z.ltb_irrefl, Z.sub_diag; reflexivity).
    pose proof (nthZ_range _ _ _ Hk) as Rk. rewrite zlen_zrange in Rk. rewrite nthZ_zrange in Hk by lia. assert (k = zlen dn) by (injection Hk as <-; lia). subst k. clear Hk.
    destruct (nthZ_some chs (zlen dn) ltac:(pose proof (zlen_nonneg dn); lia)) as (ch & Hc0). rewrite (proj2 (get_nthZ chs (zlen dn) ch (zlen_nonneg dn)) Hc0). cbn [bind].
    assert (Rc : 0 <= ch < nf) by (apply Hch; eapply nthZ_In; eauto).
    eapply rres_bind; [apply rres_refl|]. intros mk mk' <-. eapply rres_bind; [apply Hser; exact Rc|]. intros y y' ->.
    eapply rres_bind; [apply subsequence_units; assumption|]. intros w w' (-> & Ew & _). eapply rres_bind; [apply Hser; exact Rc|]. intros z z' ->.
    eapply rres_bind; [apply dists_units; assumption|]. intros ds ds' ->. eapply rres_bind; [apply vadd_units|]. intros xn xn' ->.
    assert (ZC : zlen (concat vs) = zlen dn * l) by (rewrite (concat_regular_len vs l E2), E1; reflexivity).
    assert (F1 : zlen (firstn (length dn) chs) = zlen dn) by (unfold zlen in *; rewrite firstn_length; lia).
    assert (ZC' : zlen (concat (fvs nm (firstn (length dn) chs) vs)) = zlen dn * l).
    { rewrite (concat_regular_len _ l (zlen_fvs_in nm _ vs l E2)), zlen_fvs, F1 by lia. reflexivity. }
    rewrite zlen_app, ZC in A. pose proof (zlen_nonneg w) as Pw. assert (HR : l <= zlen rest) by nia.
    set (g1 := firstn (Z.to_nat l) rest). set (r1 := skipn (Z.to_nat l) rest). assert (ER : rest = g1 ++ r1) by (symmetry; apply firstn_skipn). assert (Zg : zlen g1 = l) by (unfold g1, zlen in *; rewrite firstn_length; lia).
    replace (zlen dn * l) with (zlen (concat vs)) at 1 by exact ZC. replace ((zlen dn + 1) * l) with (zlen (concat vs) + zlen g1) at 1 by lia.
    replace (zlen dn * l) with (zlen (concat (fvs nm (firstn (length dn) chs) vs))) by exact ZC'. replace ((zlen dn + 1) * l) with (zlen (concat (fvs nm (firstn (length dn) chs) vs)) + zlen g1) by lia.
    rewrite ER, !set_slice_mid, zlen_fv, Zg, Ew, Z.eqb_refl. cbn [bind rres]. split; [reflexivity|]. split; [reflexivity|]. split; [rewrite !zlen_app in *; rewrite ER, zlen_app in A; lia|].
    exists (vs ++ [w]), r1. split; [rewrite concat_app, <- app_assoc; cbn [concat]; rewrite app_nil_r; reflexivity|]. split.
    + rewrite app_length. cbn [length]. replace (firstn (length dn + 1) chs) with (firstn (length dn) chs ++ [ch]).
      * rewrite fvs_snoc by lia. rewrite concat_app, <- app_assoc. cbn [concat]. rewrite app_nil_r. reflexivity.
      * apply nthZ_split in Hc0 as (pre & post & -> & Hp). replace (length dn) with (length pre) by (unfold zlen in Hp; lia). rewrite firstn_app, Nat.sub_diag, firstn_all. cbn [firstn]. rewrite app_nil_r.
        rewrite firstn_app. replace (length pre + 1 - length pre)%nat with 1%nat by lia. rewrite firstn_all2 by lia. reflexivity.
    + split; [rewrite !zlen_app, E1; reflexivity|]. intros v Hv. apply in_app_or in Hv as [Hv|[<-|[]]]; [auto|exact Ew].
Qed.
End Chan.

(** ** The state of the loop *)
Definition mrel (dr : @drawn) (nch : list Z) (done : list (Z * Z)) (st st' : mst R) : Prop :=
  m_mask st' = m_mask st /\ m_chan st' = m_chan st /\ m_ret st' = m_ret st /\ m_thr st' = map g (m_thr st) /\ zlen (m_ret st) = zlen (dr_len dr) /\
  exists gs gs' cs, m_val st = concat gs /\ m_val st' = concat gs' /\ m_chan st = concat cs /\ map zlen gs = zmul_list nch (dr_len dr) /\ map zlen gs' = zmul_list nch (dr_len dr) /\ map zlen cs = nch /\
    forall i, In i (map snd done) -> nthZ (m_ret st) i = Some false \/
      exists chs vs, nthZ cs i = Some chs /\ nthZ gs i = Some (concat vs) /\ nthZ gs' i = Some (concat (fvs (nthd false (dr_norm dr) i) chs vs)) /\ zlen vs = zlen chs /\ forall v, In v vs -> zlen v = nthd 0 (dr_len dr) i.

Lemma put_ok {A} (gs : list (list A)) i v : 0 <= i < zlen gs -> zlen v = nthd 0 (map zlen gs) i ->
  exists a d, get (offsets (map zlen gs)) i = Ok a /\ get (offsets (map zlen gs)) (i + 1) = Ok d /\ set_slice (concat gs) a d v = Ok (concat (upd gs (Z.to_nat i) v)) /\ map zlen (upd gs (Z.to_nat i) v) = map zlen gs.
Proof.
  intros Hi Hv. destruct (nthZ_some gs i Hi) as (r & Hr). rewrite (nthd_some 0 (map zlen gs) i (zlen r)) in Hv by (rewrite nthZ_map, Hr; reflexivity).
  destruct (put_chunk_flat gs i v Hi) as (a & d & A1 & A2 & A3). exists a, d. split; [exact A1|]. split; [exact A2|]. unfold put_chunk, upd_at in A3.
  rewrite (proj2 (get_nthZ gs i r ltac:(lia)) Hr) in A3. cbn [bind] in A3. rewrite Hv, Z.eqb_refl in A3. cbn [guard bind] in A3. rewrite set_ok in A3 by exact Hi. exact A3.
Qed.

Lemma store_units dr nch done st st' i vs chs nm l e : wf_m dr nch -> mrel dr nch done st st' -> 0 <= i < zlen (dr_len dr) -> nthZ (dr_norm dr) i = Some nm -> nthZ (dr_len dr) i = Some l -> nthZ nch i = Some (zlen chs) ->
  zlen vs = zlen chs -> (forall v, In v vs -> zlen v = l) -> snd e = i ->
  rres (fun q q' => forall mk thr, mrel dr nch (done ++ [e]) (mkMst mk thr (fst q) (snd q) (m_ret st)) (mkMst mk (map g thr) (fst q') (snd q') (m_ret st')))
    (M_store dr nch i (concat vs) chs st) (M_store dr nch i (concat (fvs nm chs vs)) chs st').
Proof.
  intros [[W1 W2] W3] (M1 & M2 & M3 & M4 & M5 & gs & gs' & cs & G1 & G2 & G3 & G4 & G5 & G6 & G7) Hi Hn Hl Hc0 E1 E2 Ee.
  assert (Zg : zlen gs = zlen (dr_len dr)) by (rewrite <- (zlen_map zlen), G4, zlen_zmul; lia). assert (Zg' : zlen gs' = zlen (dr_len dr)) by (rewrite <- (zlen_map zlen), G5, zlen_zmul; lia).
  assert (Zc : zlen cs = zlen (dr_len dr)) by (rewrite <- (zlen_map zlen), G6; lia).
  assert (HV : zlen chs * l = nthd 0 (zmul_list nch (dr_len dr)) i) by (symmetry; apply nthd_some; apply nthZ_zmul; assumption).
  destruct (put_ok gs i (concat vs)) as (a & d & P1 & P2 & P3 & P4); [lia|rewrite G4, (concat_regular_len vs l E2), E1; exact HV|].
  destruct (put_ok gs' i (concat (fvs nm chs vs))) as (a' & d' & P1' & P2' & P3' & P4'); [lia|rewrite G5, (concat_regular_len _ l (zlen_fvs_in nm chs vs l E2)), (zlen_fvs nm chs vs E1); exact HV|].
  destruct (put_ok cs i chs) as (p & q & Q1 & Q2 & Q3 & Q4); [lia|rewrite G6; symmetry; apply nthd_some; exact Hc0|].
  rewrite G4 in P1, P2. rewrite G5 in P1', P2'. rewrite G6 in Q1, Q2. assert (a' = a) by congruence. assert (d' = d) by congruence. subst a' d'.
  unfold M_store. rewrite P1. cbn [bind]. rewrite P2. cbn [bind]. rewrite Q1. cbn [bind]. rewrite Q2. cbn [bind]. rewrite M2, G1, G2, G3, P3. cbn [bind]. rewrite P3', Q3. cbn [bind rres fst snd].
  intros mk thr. split; [reflexivity|]. split; [reflexivity|]. split; [exact M3|]. split; [reflexivity|]. split; [exact M5|]. cbn [m_val m_chan m_ret].
  exists (upd gs (Z.to_nat i) (concat vs)), (upd gs' (Z.to_nat i) (concat (fvs nm chs vs))), (upd cs (Z.to_nat i) chs).
  split; [reflexivity|]. split; [reflexivity|]. split; [reflexivity|]. split; [congruence|]. split; [congruence|]. split; [congruence|].
  intros j Hj. rewrite map_app in Hj. apply in_app_or in Hj. rewrite !nthZ_upd by lia. destruct (Z.eqb_spec j i) as [->|Nj].
  - right. exists chs, vs. rewrite (nthd_some _ _ _ _ Hn), (nthd_some _ _ _ _ Hl). auto.
  - destruct Hj as [Hj|[Hj|[]]]; [auto|congruence].
Qed.

Lemma skip_units dr nch done st st' i e : mrel dr nch done st st' -> 0 <= i < zlen (dr_len dr) -> snd e = i ->
  rres (fun r r' => mrel dr nch (done ++ [e]) (mkMst (m_mask st) (m_thr st) (m_val st) (m_chan st) r) (mkMst (m_mask st') (m_thr st') (m_val st') (m_chan st') r')) (set (m_ret st) i false) (set (m_ret st') i false).
Proof.
  intros (M1 & M2 & M3 & M4 & M5 & gs & gs' & cs & G1 & G2 & G3 & G4 & G5 & G6 & G7) Hi Ee. rewrite M3, set_ok by lia. cbn [rres].
  split; [exact M1|]. split; [exact M2|]. split; [reflexivity|]. split; [exact M4|]. split; [cbn [m_ret]; rewrite zlen_upd; exact M5|]. exists gs, gs', cs. cbn [m_val m_chan m_ret].
  split; [exact G1|]. split; [exact G2|]. split; [exact G3|]. split; [exact G4|]. split; [exact G5|]. split; [exact G6|]. intros j Hj. rewrite map_app in Hj. apply in_app_or in Hj. rewrite nthZ_upd by lia.
  destruct (Z.eqb_spec j i) as [->|Nj]; [left; reflexivity|]. destruct Hj as [Hj|[Hj|[]]]; [auto|congruence].
Qed.

Lemma get_rec {A} (l : list A) i : rres (fun a a' => a' = a /\ (0 <= i -> nthZ l i = Some a)) (get l i) (get l i).
Proof. destruct (get l i) eqn:E; cbn; [|reflexivity]. split; [reflexivity|]. intros Hi. apply get_nthZ; assumption. Qed.
Lemma choice_rec {S} (rng : Rng R S) (L : RngLaws RN rng) n : rG (fun a a' => a' = a /\ zlen a = n /\ forall x, In x a -> 0 <= x < nf) (choice_norep rng (zrange 0 nf) n) (choice_norep rng (zrange 0 nf) n).
Proof.
  intros s. destruct (choice_norep rng (zrange 0 nf) n s) as [[a s']|] eqn:E; cbn; [|reflexivity]. apply (choice_norep_inv RN rng L) in E as (_ & A & _ & C); [|apply zrange_NoDup].
  split; [|reflexivity]. split; [reflexivity|]. split; [exact A|]. intros x Hx. apply C, in_zrange in Hx. lia.
Qed.
Lemma full_rec n : rres (fun a a' => a' = map g a /\ a' = a /\ zlen a = n) (full n (n0 RN)) (full n (n0 RN)).
Proof.
  unfold full. destruct (Z.ltb_spec n 0); cbn; [reflexivity|]. split; [|split; [reflexivity|rewrite zlen_repeat; lia]]. generalize (Z.to_nat n) as k. induction k as [|k IH]; cbn [repeat map]; [reflexivity|]. rewrite <- IH, Rmult_0_r. reflexivity.
Qed.

(** ** The loop bodies *)
Section Tail.
Context {S : Type} (rng : Rng R S) (L : RngLaws RN rng) (dr : @drawn) (nch : list Z) (P : gparams R) (y : list Z) (ser ser' : Z -> Z -> res (list R)).
Hypothesis Hser : forall i ch, 0 <= ch < nf -> rres (fun x x' => x' = map (fun x : R => (c * x + b ch)%R) x) (ser i ch) (ser' i ch).
Hypothesis Hnorm : forall i nm, nthZ (dr_norm dr) i = Some nm -> nm = true -> c = 1%R.
Hypothesis WF : wf_m dr nch.

(** from the loop over the channels on *)
Definition mtail (srs : Z -> Z -> res (list R)) (norm i_d id it ix l d n asize : Z) (nm : bool) (chs : list Z) (xd vals : list R) (i : Z) mk (st : mst R) : G S (mst R) :=
  let! r := liftG (M_channels RN P srs norm i_d id it ix l d n asize nm chs (mk, xd, vals)) in
  let '(mask', x_dist', vals) := r in
  let! vc := liftG (M_store dr nch i vals chs st) in
  let! thr := draw_threshold RN rng x_dist' (g_pmin P) (g_pmax P) in
  let! thr' := liftG (set (m_thr st) i thr) in
  retG (mkMst mask' thr' (fst vc) (snd vc) (m_ret st)).

Lemma mtail_units norm i_d id it ix l d n asize nm chs xd vals i mk0 st st' done e : mrel dr nch done st st' -> 0 <= i < zlen (dr_len dr) -> nthZ (dr_norm dr) i = Some nm -> nthZ (dr_len dr) i = Some l -> nthZ nch i = Some (zlen chs) ->
  (forall x, In x chs -> 0 <= x < nf) -> zlen vals = zlen chs * l -> xd = map g xd -> snd e = i ->
  rG (mrel dr nch (done ++ [e])) (mtail ser norm i_d id it ix l d n asize nm chs xd vals i mk0 st) (mtail ser' norm i_d id it ix l d n asize nm chs xd vals i mk0 st').
Proof.
  intros HM Hi Hn Hl Hch HC Hv Hx Ee. pose proof HM as (M1 & M2 & M3 & M4 & M5 & _). unfold mtail. rewrite Hx at 2.
  eapply rG_bind; [apply rG_lift; apply channels_units; [exact Hser|eauto|exact HC|exact Hv]|].
  intros [[mk x] v] [[mk' x'] v'] (-> & -> & vs & -> & -> & E1 & E2).
  eapply rG_bind; [apply rG_lift; apply (store_units dr nch done st st' i vs chs nm l e); assumption|]. intros vc vc' HS.
  eapply rG_bind; [apply threshold_units; exact Hc|]. intros th th' ->. rewrite M4. eapply rG_bind; [apply rG_lift; apply set_thr|]. intros t1 t1' ->. apply rG_ret. apply HS.
Qed.
End Tail.

Section SL.
Context {S : Type} (rng : Rng R S) (L : RngLaws RN rng) (X X' : dataset R) (y : list Z) (P : gparams R) (dr : @drawn) (nch : list Z).
Hypothesis Hser : forall i ch, 0 <= ch < nf -> rres (fun x x' => x' = map (fun x : R => (c * x + b ch)%R) x) (ch_series X i ch) (ch_series X' i ch).
Hypothesis Hnorm : forall i nm, nthZ (dr_norm dr) i = Some nm -> nm = true -> c = 1%R.
Hypothesis WF : wf_m dr nch.

Lemma M_SL_iter_units n_ts st st' done e : 0 <= snd e < zlen (dr_dil dr) -> mrel dr nch done st st' ->
  rG (mrel dr nch (done ++ [e])) (M_SL_iter RN rng X y nf n_ts P dr nch st e) (M_SL_iter RN rng X' y nf n_ts P dr nch st' e).
Proof.
  intros He HM. destruct e as [i_d i]. cbn [snd] in He. assert (Hi : 0 <= i < zlen (dr_len dr)) by (destruct WF as [[W1 W2] W3]; lia).
  unfold M_SL_iter. pose proof HM as (M1 & _). rewrite M1.
  eapply rG_bind; [apply rG_refl|]. intros ml ml' <-. eapply rG_bind; [apply rG_refl|]. intros d d' <-.
  eapply rG_bind; [apply rG_lift; apply get_rec|]. intros l l' [-> Hl]. eapply rG_bind; [apply rG_lift; apply get_rec|]. intros nm nm' [-> Hn].
  cbv zeta. eapply rG_bind; [apply rG_lift; apply get_rec|]. intros nc nc' [-> Hnc]. eapply rG_bind; [apply rG_refl|]. intros md md' <-.
  eapply rG_bind; [apply rG_lift; apply full_rec|]. intros vals vals' (_ & -> & Hv). eapply rG_bind; [apply choice_rec; exact L|]. intros chs chs' (-> & Hz & HC). subst nc.
  eapply rG_bind; [apply rG_refl|]. intros ct ct' <-. destruct (0 <? _).
  - eapply rG_bind; [apply rG_lift; apply full_rec|]. intros xd xd' (Hx & -> & _). eapply rG_bind; [apply rG_refl|]. intros id id' <-. eapply rG_bind; [apply rG_refl|]. intros ix ix' <-. eapply rG_bind; [apply rG_refl|]. intros it it' <-.
    assert (T : forall srs mk0 st0, (let! r := liftG (M_channels RN P srs (b2z nm) i_d id it ix l d n_ts (alpha_size RN (g_alpha P) l ml) nm chs (mk0, xd, vals)) in
      let '(mask', x_dist', vals) := r in let! vc := liftG (M_store dr nch i vals chs st0) in let! thr := draw_threshold RN rng x_dist' (g_pmin P) (g_pmax P) in
      let! thr' := liftG (set (m_thr st0) i thr) in retG (mkMst mask' thr' (fst vc) (snd vc) (m_ret st0))) = mtail rng dr nch P srs (b2z nm) i_d id it ix l d n_ts (alpha_size RN (g_alpha P) l ml) nm chs xd vals i mk0 st0) by reflexivity.
    rewrite !T. apply mtail_units; auto; intuition lia.
  - eapply rG_bind; [apply rG_lift; apply (skip_units dr nch done st st' i (i_d, i)); auto|]. intros r r' HR. apply rG_ret. rewrite <- M1 at 2. exact HR.
Qed.
End SL.

Section VL.
Context {S : Type} (rng : Rng R S) (L : RngLaws RN rng) (X X' : dataset R) (X_len y : list Z) (P : gparams R) (dr : @drawn) (nch : list Z).
Hypothesis Hser : forall i ch, 0 <= ch < nf -> rres (fun x x' => x' = map (fun x : R => (c * x + b ch)%R) x) (ch_series_vl X X_len i ch) (ch_series_vl X' X_len i ch).
Hypothesis Hz : zlen X' = zlen X.
Hypothesis Hnorm : forall i nm, nthZ (dr_norm dr) i = Some nm -> nm = true -> c = 1%R.
Hypothesis WF : wf_m dr nch.

Lemma M_VL_iter_units st st' done e : 0 <= snd e < zlen (dr_dil dr) -> mrel dr nch done st st' ->
  rG (mrel dr nch (done ++ [e])) (M_VL_iter RN rng X X_len y nf P dr nch st e) (M_VL_iter RN rng X' X_len y nf P dr nch st' e).
Proof.
  intros He HM. destruct e as [i_d i]. cbn [snd] in He. assert (Hi : 0 <= i < zlen (dr_len dr)) by (destruct WF as [[W1 W2] W3]; lia).
  unfold M_VL_iter. pose proof HM as (M1 & _). rewrite M1, Hz.
  eapply rG_bind; [apply rG_refl|]. intros ml ml' <-. eapply rG_bind; [apply rG_refl|]. intros d d' <-.
  eapply rG_bind; [apply rG_lift; apply get_rec|]. intros l l' [-> Hl]. eapply rG_bind; [apply rG_lift; apply get_rec|]. intros nm nm' [-> Hn].
  cbv zeta. eapply rG_bind; [apply rG_lift; apply get_rec|]. intros nc nc' [-> Hnc].
  eapply rG_bind; [apply choice_rec; exact L|]. intros chs chs' (-> & Hzc & HC). subst nc. eapply rG_bind; [apply rG_lift; apply full_rec|]. intros vals vals' (_ & -> & Hv).
  eapply rG_bind; [apply rG_refl|]. intros md md' <-. eapply rG_bind; [apply rG_refl|]. intros im im' <-. destruct (0 <? _).
  - eapply rG_bind; [apply rG_refl|]. intros id id' <-. eapply rG_bind; [apply rG_refl|]. intros it it' <-. eapply rG_bind; [apply rG_refl|]. intros nt nt' <-.
    eapply rG_bind; [apply rG_lift; apply full_rec|]. intros xd xd' (Hx & -> & _). eapply rG_bind; [apply rG_refl|]. intros ns ns' <-. eapply rG_bind; [apply rG_refl|]. intros sm sm' <-.
    eapply rG_bind; [apply rG_refl|]. intros ct ct' <-. eapply rG_bind; [apply rG_refl|]. intros ix ix' <-.
    assert (T : forall srs mk0 st0, (let! r := liftG (M_channels RN P srs (b2z nm) i_d id it ix l d ns (alpha_size RN (g_alpha P) l ml) nm chs (mk0, xd, vals)) in
      let '(mask', x_dist', vals) := r in let! vc := liftG (M_store dr nch i vals chs st0) in let! thr := draw_threshold RN rng x_dist' (g_pmin P) (g_pmax P) in
      let! thr' := liftG (set (m_thr st0) i thr) in retG (mkMst mask' thr' (fst vc) (snd vc) (m_ret st0))) = mtail rng dr nch P srs (b2z nm) i_d id it ix l d ns (alpha_size RN (g_alpha P) l ml) nm chs xd vals i mk0 st0) by reflexivity.
    rewrite !T. apply mtail_units; auto; intuition lia.
  - eapply rG_bind; [apply rG_lift; apply (skip_units dr nch done st st' i (i_d, i)); auto|]. intros r r' HR. apply rG_ret. rewrite <- M1 at 2. exact HR.
Qed.
End VL.

(** ** The fitted shapelets *)
Lemma block_at {F} Gs Ls Ds Ths Ns Cs k chs (vs : list (list F)) l d thr nm : map (@zlen F) Gs = zmul_list (map (@zlen Z) Cs) Ls -> zlen Ls = zlen Cs ->
  packed_at (mkMshp (concat Gs) Ls Ds Ths Ns (map (@zlen Z) Cs) (concat Cs)) k chs vs l d thr nm <->
  nthZ Cs k = Some chs /\ nthZ Ls k = Some l /\ nthZ Ds k = Some d /\ nthZ Ths k = Some thr /\ nthZ Ns k = Some nm /\
  exists G, nthZ Gs k = Some G /\ vs = map (fun j => slice G (j * l) ((j + 1) * l)) (zrange 0 (zlen chs)).
Proof.
  intros EG EL. assert (ZG : zlen Gs = zlen Cs) by (rewrite <- (zlen_map zlen), EG, zlen_zmul; rewrite zlen_map; [reflexivity|auto]).
  assert (K : forall C G l0, nthZ Cs k = Some C -> nthZ Gs k = Some G -> nthZ Ls k = Some l0 -> zlen G = zlen C * l0 /\
    slice (concat Cs) (zsum (slice (map (@zlen Z) Cs) 0 k)) (zsum (slice (map (@zlen Z) Cs) 0 k) + zlen C) = C /\
    forall i j, 0 <= i <= j -> j <= zlen G -> slice (concat Gs) (zsum (zmul_list (slice (map (@zlen Z) Cs) 0 k) (slice Ls 0 k)) + i) (zsum (zmul_list (slice (map (@zlen Z) Cs) 0 k) (slice Ls 0 k)) + j) = slice G i j).
  { intros C G l0 HC HG HL. assert (ZGk : zlen G = zlen C * l0).
    { assert (Q : nthZ (map (@zlen F) Gs) k = Some (zlen C * l0)) by (rewrite EG; apply nthZ_zmul; [rewrite nthZ_map, HC; reflexivity|exact HL]). rewrite nthZ_map, HG in Q. cbn in Q. congruence. }
    split; [exact ZGk|]. apply nthZ_split in HC as (cp & cq & -> & Hcp). apply nthZ_split in HG as (gp & gq & -> & Hgp). apply nthZ_split in HL as (lp & lq & -> & Hlp).
    assert (EN : slice (map (@zlen Z) (cp ++ C :: cq)) 0 k = map (@zlen Z) cp). { rewrite map_app, <- Hcp. rewrite <- (zlen_map (@zlen Z) cp). apply slice_app_l. }
    assert (ES : slice (lp ++ l0 :: lq) 0 k = lp) by (rewrite <- Hlp; apply slice_app_l). rewrite EN, ES.
    split; [rewrite zsum_zlen, concat_app; cbn [concat]; apply slice_app_mid|].
    assert (EV : zmul_list (map (@zlen Z) cp) lp = map (@zlen F) gp).
    { rewrite !map_app, zmul_app in EG by (rewrite map_length; unfold zlen in *; lia). apply app_eq_app in EG as (w & [[A B]|[A B]]).
      - assert (Q : length (map (@zlen F) gp) = length (zmul_list (map (@zlen Z) cp) lp ++ w)) by (rewrite A; reflexivity). rewrite app_length in Q. unfold zmul_list in Q. rewrite !map_length, combine_length, map_length in Q. destruct w; [|cbn in Q; unfold zlen in *; lia]. rewrite app_nil_r in A. auto.
      - assert (Q : length (zmul_list (map (@zlen Z) cp) lp) = length (map (@zlen F) gp ++ w)) by (rewrite A; reflexivity). rewrite app_length in Q. unfold zmul_list in Q. rewrite !map_length, combine_length, map_length in Q. destruct w; [|cbn in Q; unfold zlen in *; lia]. rewrite app_nil_r in A. auto. }
    rewrite EV, zsum_zlen, concat_app. cbn [concat]. intros i j Hi Hj. apply slice_inner; assumption. }
  unfold packed_at. cbn [ms_nch ms_len ms_dil ms_thr ms_norm ms_chan ms_values]. split.
  - intros (nc & H1 & H2 & H3 & H4 & H5 & H6 & H7). rewrite nthZ_map in H1. destruct (nthZ Cs k) as [C|] eqn:HC; [|discriminate]. injection H1 as <-. pose proof (nthZ_range _ _ _ HC).
    destruct (nthZ_some Gs k ltac:(lia)) as (G & HG). destruct (K C G l eq_refl HG H2) as (K1 & K2 & K3). rewrite K2 in H6. subst chs. split; [reflexivity|]. split; [exact H2|]. split; [exact H3|]. split; [exact H4|]. split; [exact H5|].
    exists G. split; [exact HG|]. rewrite H7. apply map_ext_in. intros j Hj. apply in_zrange in Hj. pose proof (zlen_nonneg G). apply K3; nia.
  - intros (HC & H2 & H3 & H4 & H5 & G & HG & ->). destruct (K chs G l HC HG H2) as (K1 & K2 & K3). exists (zlen chs). split; [rewrite nthZ_map, HC; reflexivity|]. split; [exact H2|]. split; [exact H3|]. split; [exact H4|]. split; [exact H5|].
    split; [symmetry; exact K2|]. apply map_ext_in. intros j Hj. apply in_zrange in Hj. pose proof (zlen_nonneg G). symmetry. apply K3; nia.
Qed.

Definition fitted_munits (T T' : mshp R) : Prop :=
  ms_len T' = ms_len T /\ ms_dil T' = ms_dil T /\ ms_norm T' = ms_norm T /\ ms_nch T' = ms_nch T /\ ms_chan T' = ms_chan T /\ ms_thr T' = map g (ms_thr T) /\
  forall k chs vs l d thr nm, packed_at T k chs vs l d thr nm -> zlen vs = zlen chs /\ packed_at T' k chs (fvs nm chs vs) l d (g thr) nm.

Lemma slices_concat {F} (vs : list (list F)) l : (forall v, In v vs -> zlen v = l) -> map (fun j => slice (concat vs) (j * l) ((j + 1) * l)) (zrange 0 (zlen vs)) = vs.
Proof.
  intros H. pose proof (reshape_concat vs l H) as HR. unfold reshape in HR. rewrite (concat_regular_len _ _ H), Z.eqb_refl in HR. cbn in HR. congruence.
Qed.

Lemma mfinish_units dr nch sched st st' : wf_m dr nch -> is_schedule (dr_dil dr) sched -> mrel dr nch sched st st' -> rres fitted_munits (M_finish RN dr nch st) (M_finish RN dr nch st').
Proof.
  intros WF HS (M1 & M2 & M3 & M4 & M5 & gs & gs' & cs & G1 & G2 & G3 & G4 & G5 & G6 & G7). pose proof WF as [[W1 W2] W3].
  rewrite (M_finish_ok RN dr nch st gs cs WF M5 G1 G3 G4 G6). rewrite (M_finish_ok RN dr nch st' gs' cs WF ltac:(congruence) G2 ltac:(congruence) G5 G6). cbn [rres]. rewrite M3, M4.
  set (ret := m_ret st) in *. set (w := where_ ret).
  assert (Zg : zlen gs = zlen (dr_len dr)) by (rewrite <- (zlen_map zlen), G4, zlen_zmul; lia). assert (Zg' : zlen gs' = zlen (dr_len dr)) by (rewrite <- (zlen_map zlen), G5, zlen_zmul; lia).
  assert (Zc : zlen cs = zlen (dr_len dr)) by (rewrite <- (zlen_map zlen), G6; lia).
  assert (SEL : forall A (d : A) (l : list A), zlen l = zlen (dr_len dr) -> mask_select ret l = map (nthd d l) w). { intros A d l Hl. apply mask_select_nthd. unfold zlen in *. lia. }
  assert (HD : forall A (q : list (list A)) i, nthd 0 (map (@zlen A) q) i = zlen (nthd [] q i)) by (intros A q i; unfold nthd; rewrite nthZ_map; destruct (nthZ q i); reflexivity).
  assert (EC : mask_select ret nch = map (@zlen Z) (mask_select ret cs)). { rewrite (SEL _ 0 nch), (SEL _ [] cs), map_map by lia. apply map_ext. intros i. rewrite <- HD, G6. reflexivity. }
  assert (EV : forall hs, zlen hs = zlen (dr_len dr) -> map (@zlen R) hs = zmul_list nch (dr_len dr) -> map (@zlen R) (mask_select ret hs) = zmul_list (map (@zlen Z) (mask_select ret cs)) (mask_select ret (dr_len dr))).
  { intros hs Zh Eh. rewrite <- EC, (SEL _ [] hs Zh), (SEL _ 0 nch), (SEL _ 0 (dr_len dr)), zmul_map, map_map by lia. apply map_ext. intros i. rewrite <- HD, Eh. apply zmul_nth. lia. }
  assert (ZS : zlen (mask_select ret (dr_len dr)) = zlen (mask_select ret cs)) by (rewrite (SEL _ 0 (dr_len dr)), (SEL _ [] cs), !zlen_map by lia; reflexivity).
  rewrite EC. split; [reflexivity|]. split; [reflexivity|]. split; [reflexivity|]. split; [reflexivity|]. split; [reflexivity|]. split; [cbn [ms_thr]; apply Prelude.mask_select_map|].
  intros k chs vs l d thr nm HP. apply block_at in HP as (B1 & B2 & B3 & B4 & B5 & G & B6 & B7); [|apply EV; assumption|exact ZS].
  rewrite (SEL _ [] cs), nthZ_map in B1 by lia. destruct (nthZ w k) as [i|] eqn:Ei; [|discriminate]. cbn [option_map] in B1. injection B1 as B1.
  assert (Hi : nthZ ret i = Some true) by (apply in_where; eapply nthZ_In; exact Ei). pose proof (nthZ_range _ _ _ Hi) as Ri. fold ret in M5.
  destruct (sched_shapelet _ _ i HS ltac:(lia)) as (gg & Hgg & _). destruct (G7 i) as [Q|(chs0 & vs0 & Q1 & Q2 & Q3 & Q4 & Q5)]; [apply in_map_iff; exists (gg, i); auto|congruence|].
  rewrite (nthd_some _ _ _ _ Q1) in B1. subst chs0. rewrite (SEL _ [] gs Zg), nthZ_map, Ei in B6. cbn [option_map] in B6. injection B6 as <-. rewrite (nthd_some _ _ _ _ Q2) in B7.
  pose proof B2 as B2'. rewrite (SEL _ 0 (dr_len dr) eq_refl), nthZ_map, Ei in B2'. cbn [option_map] in B2'. injection B2' as El. rewrite El in Q5. rewrite <- Q4, (slices_concat vs0 l Q5) in B7. subst vs.
  pose proof B5 as B5'. rewrite (SEL _ false (dr_norm dr)), nthZ_map, Ei in B5' by lia. cbn [option_map] in B5'. injection B5' as En. rewrite En in Q3.
  split; [exact Q4|]. apply block_at; [apply EV; assumption|exact ZS|]. split; [rewrite (SEL _ [] cs), nthZ_map, Ei by lia; cbn [option_map]; rewrite (nthd_some _ _ _ _ Q1); reflexivity|].
  split; [exact B2|]. split; [exact B3|]. split; [rewrite Prelude.mask_select_map, nthZ_map, B4; reflexivity|]. split; [exact B5|]. exists (concat (fvs nm chs vs0)).
  split; [rewrite (SEL _ [] gs' Zg'), nthZ_map, Ei; cbn [option_map]; rewrite (nthd_some _ _ _ _ Q3); reflexivity|].
  rewrite <- (zlen_fvs nm chs vs0 Q4). symmetry. apply slices_concat. apply zlen_fvs_in. exact Q5.
Qed.

(** ** The generators *)
Section Gen.
Context {S : Type} (rng : Rng R S) (L : RngLaws RN rng) (P : gparams R) (y : list Z) (mc : Z).
Hypothesis Hnorm : c = 1%R \/ (g_pnorm P <= 0)%R.

Lemma minit_units n_ts s values dr thr nch chan s1 : lengths_ok P n_ts -> M_init RN rng (g_n P) (g_sizes P) n_ts (g_pnorm P) mc (g_prime P) s = Ok (values, dr, thr, nch, chan, s1) ->
  wf_m dr nch /\ (forall mk, mrel dr nch [] (mkMst mk thr values chan (repeat true (length (dr_len dr)))) (mkMst mk thr values chan (repeat true (length (dr_len dr))))) /\ forall i nm, nthZ (dr_norm dr) i = Some nm -> nm = true -> c = 1%R.
Proof.
  intros HL H. destruct (M_init_inv rng L _ _ _ _ _ _ _ _ _ _ _ _ _ HL H) as (Hn & HD & HZ & HC & Et & Ec & Ev).
  pose proof (do_len _ _ _ _ _ HD) as D1. pose proof (do_dil _ _ _ _ _ HD) as D2. pose proof (do_norm _ _ _ _ _ HD) as D3.
  assert (WF : wf_m dr nch) by (unfold wf_m, wf_drawn; split; [split|]; lia).
  assert (L1 : forall i, 0 <= i < zlen (dr_len dr) -> 1 <= dlen dr i). { intros i Hi. rewrite D1 in Hi. pose proof (do_size _ _ _ _ _ HD i Hi) as Q. apply HL in Q. lia. }
  assert (C1 : forall i, 0 <= i < zlen (dr_len dr) -> 1 <= dnch nch i). { intros i Hi. apply HC. unfold dnch. apply (nthZ_In _ i). apply nthZ_nthd. lia. }
  destruct (out_start_shape RN dr nch WF L1 C1) as (A1 & A2 & A3 & A4).
  assert (NV : forall k, In k (zmul_list nch (dr_len dr)) -> 0 <= k) by (rewrite <- A3; intros k Hk; apply in_map_iff in Hk as (q & <- & _); apply zlen_nonneg).
  assert (NC : forall k, In k nch -> 0 <= k) by (intros k Hk; specialize (HC k Hk); lia).
  split; [exact WF|]. split.
  - intros mk. split; [reflexivity|]. split; [reflexivity|]. split; [reflexivity|]. cbn [m_thr m_ret m_val m_chan]. split.
    { rewrite Et. generalize (Z.to_nat (g_n P)) as k. clear. induction k as [|k IH]; cbn [repeat map]; [reflexivity|]. rewrite <- IH, Rmult_0_r. reflexivity. }
    split; [unfold zlen; rewrite repeat_length; reflexivity|]. exists (out_val (out_start RN dr nch)), (out_val (out_start RN dr nch)), (out_chan (out_start RN dr nch)).
    assert (EVV : values = concat (out_val (out_start RN dr nch))). { rewrite Ev. unfold out_start. cbn [out_val n0 RN]. rewrite concat_repeat by exact NV. rewrite (zmul_comm (dr_len dr)). reflexivity. }
    split; [exact EVV|]. split; [exact EVV|]. split; [rewrite Ec; unfold out_start; cbn [out_chan]; rewrite concat_repeat by exact NC; reflexivity|]. split; [exact A3|]. split; [exact A3|]. split; [exact A4|]. intros i [].
  - intros i nm Hi ->. destruct Hnorm as [Q|Q]; [exact Q|exfalso]. apply nthZ_In in Hi. destruct (M_init_flags rng L mc _ _ _ _ _ _ _ _ _ _ _ _ _ H Hi) as (u & Hu & Hb). pose proof (proj1 Hb eq_refl). lra.
Qed.

Lemma M_SL_units ex X X' : counted ex -> lengths_ok P (n_timestamps X) -> n_timestamps X' = n_timestamps X -> n_features X = nf -> n_features X' = nf -> length X' = length X ->
  (forall i ch, 0 <= ch < nf -> rres (fun x x' => x' = map (fun x : R => (c * x + b ch)%R) x) (ch_series X i ch) (ch_series X' i ch)) ->
  rres fitted_munits (M_SL_generate_with RN rng X y mc P (ex _)) (M_SL_generate_with RN rng X' y mc P (ex _)).
Proof.
  intros HE HL Et E1 E2 El Hs. unfold M_SL_generate_with. rewrite Et, E1, E2. destruct (M_init _ _ _ _ _ _ _ _ _) as [[[[[[values dr] thr] nch] chan] s1]|e] eqn:EI; [|reflexivity]. cbn [bind].
  destruct (minit_units _ _ _ _ _ _ _ _ HL EI) as (I1 & I2 & I3).
  eapply rres_bind; [apply (HE _ _ (mrel dr nch) dr) with (s := s1)|].
  - unfold M_SL_start. rewrite Et, El, E1, E2. apply I2.
  - intros done t t' e He HU. apply M_SL_iter_units; assumption.
  - intros p p' [(sched & HS & HU) _]. apply (mfinish_units dr nch sched); assumption.
Qed.

Lemma M_VL_units ex X X' X_len m : counted ex -> lengths_ok P m -> n_features X = nf -> n_features X' = nf -> zlen X' = zlen X ->
  (forall i ch, 0 <= ch < nf -> rres (fun x x' => x' = map (fun x : R => (c * x + b ch)%R) x) (ch_series_vl X X_len i ch) (ch_series_vl X' X_len i ch)) ->
  rres fitted_munits (M_VL_generate_with RN rng X X_len y mc m P (ex _)) (M_VL_generate_with RN rng X' X_len y mc m P (ex _)).
Proof.
  intros HE HL E1 E2 El Hs. unfold M_VL_generate_with. rewrite E1, E2. destruct (M_init _ _ _ _ _ _ _ _ _) as [[[[[[values dr] thr] nch] chan] s1]|e] eqn:EI; [|reflexivity]. cbn [bind].
  destruct (minit_units _ _ _ _ _ _ _ _ HL EI) as (I1 & I2 & I3). eapply rres_bind with (P := mrel dr nch []).
  - unfold M_VL_start. rewrite El, E1, E2. eapply rres_bind; [apply rres_refl|]. intros ml ml' <-. eapply rres_bind; [apply rres_refl|]. intros sl sl' <-. cbn [rres]. apply I2.
  - intros st st' HU. eapply rres_bind; [apply (HE _ _ (mrel dr nch) dr) with (s := s1); [exact HU|]|].
    + intros done t t' e He HU2. apply M_VL_iter_units; assumption.
    + intros p p' [(sched & HS & HU2) _]. apply (mfinish_units dr nch sched); assumption.
Qed.
End Gen.
End U.
