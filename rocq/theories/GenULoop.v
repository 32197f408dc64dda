(** Univariate shapelet generation: what one iteration does, and what a whole run does. *)
From Coq Require Import ZArith List Bool Lia Permutation.
From Verif Require Import Prelude Num Kernel Spec KernelProofs Apply ApplyUni TransformProofs TransformLaws Gen GenSched GenBase GenUni.
Import ListNotations.
Open Scope Z_scope.

(** a cell of the mask of one (normalisation, dilation) *)
Definition mcell (m : list (list bool)) (s t : Z) : bool := nthd false (nthd [] m s) t.
Definition mask_ok (nsamp wd : Z) (m : list (list bool)) : Prop := zlen m = nsamp /\ forall s r, nthZ m s = Some r -> zlen r = wd.

Lemma mcell_nth m s t r b : nthZ m s = Some r -> nthZ r t = Some b -> mcell m s t = b.
Proof. intros H1 H2. unfold mcell, nthd. rewrite H1, H2. reflexivity. Qed.

Lemma mcell_true m s t : mcell m s t = true -> exists r, nthZ m s = Some r /\ nthZ r t = Some true.
Proof.
  unfold mcell, nthd. destruct (nthZ m s) as [r|].
  - destruct (nthZ r t) as [b|] eqn:E; [|discriminate]. intros ->. exists r. auto.
  - cbn. unfold nthZ. destruct (t <? 0); [discriminate|]. destruct (Z.to_nat t); discriminate.
Qed.

Lemma mask_row nsamp wd m s : mask_ok nsamp wd m -> 0 <= s < nsamp -> exists r, nthZ m s = Some r /\ get m s = Ok r /\ zlen r = wd.
Proof.
  intros [H1 H2] Hs. destruct (get_ok m s ltac:(lia)) as (r & A & B). exists r. split; [exact B|]. split; [exact A|]. eapply H2; eauto.
Qed.

Lemma clear2_ok nsamp wd m id t : mask_ok nsamp wd m -> 0 <= id < nsamp -> 0 <= t < wd ->
  exists m', clear2 m id t = Ok m' /\ mask_ok nsamp wd m' /\
    forall s u, mcell m' s u = mcell m s u && negb ((s =? id) && (u =? t)).
Proof.
  intros HM Hid Ht. destruct (mask_row _ _ m id HM Hid) as (r & Hr & Hg & Hl).
  unfold clear2, upd_at. rewrite Hg. cbn [bind]. rewrite set_ok by lia. cbn [bind]. destruct HM as [M1 M2].
  rewrite set_ok by lia. eexists. split; [reflexivity|].
  assert (HN : forall s, nthZ (upd m (Z.to_nat id) (upd r (Z.to_nat t) false)) s = if s =? id then Some (upd r (Z.to_nat t) false) else nthZ m s)
    by (intros s; apply nthZ_upd; lia).
  split.
  - split; [rewrite zlen_upd; exact M1|]. intros s r' Hr'. rewrite HN in Hr'. destruct (s =? id); [|eapply M2; eauto].
    assert (E : r' = upd r (Z.to_nat t) false) by congruence. rewrite E, zlen_upd. exact Hl.
  - intros s u. unfold mcell, nthd at 1 2. rewrite HN. destruct (Z.eqb_spec s id) as [->|Hs]; cbn [andb negb].
    + unfold nthd at 1. rewrite nthZ_upd by lia. unfold nthd. rewrite Hr. destruct (Z.eqb_spec u t); cbn [negb]; [rewrite andb_false_r|rewrite andb_true_r]; reflexivity.
    + rewrite andb_true_r. unfold nthd. reflexivity.
Qed.

Lemma clear_fold_ok nsamp wd id ts : 0 <= id < nsamp -> (forall t, In t ts -> 0 <= t < wd) -> forall m, mask_ok nsamp wd m ->
  exists m', foldM (fun m t => clear2 m id t) ts m = Ok m' /\ mask_ok nsamp wd m' /\
    forall s u, mcell m' s u = mcell m s u && negb ((s =? id) && existsb (Z.eqb u) ts).
Proof.
  intros Hid. induction ts as [|t ts IH]; intros Hts m HM; cbn [foldM].
  - exists m. split; [reflexivity|]. split; [exact HM|]. intros s u. cbn [existsb]. rewrite andb_false_r. cbn. rewrite andb_true_r. reflexivity.
  - destruct (clear2_ok nsamp wd m id t HM Hid (Hts t (or_introl eq_refl))) as (m1 & E1 & HM1 & C1). rewrite E1. cbn [bind].
    destruct (IH (fun u Hu => Hts u (or_intror Hu)) m1 HM1) as (m' & E & HM' & C). exists m'. split; [exact E|]. split; [exact HM'|].
    intros s u. rewrite C, C1. cbn [existsb]. destruct (mcell m s u), (s =? id), (u =? t); reflexivity.
Qed.

(** the positions masked after a shapelet of dilation [d] was taken at [index] *)
Definition masked_at (index d n asize t : Z) : Prop :=
  exists j, 0 <= j < asize /\ (t = (index - j * d) mod n \/ t = (index + j * d) mod n).

Lemma positions_existsb index d n asize t : existsb (Z.eqb t) (positions index d n asize) = true <-> masked_at index d n asize t.
Proof.
  rewrite existsb_exists. unfold masked_at. rewrite <- in_positions. split.
  - intros (x & Hx & E). apply Z.eqb_eq in E. subst. exact Hx.
  - intros H. exists t. split; [exact H|apply Z.eqb_refl].
Qed.

Lemma positions_range index d n asize t : 0 < n -> In t (positions index d n asize) -> 0 <= t < n.
Proof. intros Hn H. apply in_positions in H as (j & _ & [->| ->]); apply Z.mod_pos_bound; lia. Qed.

Lemma slice_true (r : list bool) b t : 0 <= b <= zlen r -> nthZ (slice r 0 b) t = Some true <-> 0 <= t < b /\ nthZ r t = Some true.
Proof.
  intros Hb. split.
  - intros H. pose proof (nthZ_range _ _ _ H) as R. rewrite slice_length in R by lia. split; [lia|]. rewrite nthZ_slice in H by lia. exact H.
  - intros [Ht H]. rewrite nthZ_slice by lia. exact H.
Qed.

Section L.
Context {F : Type} (N : NumOps F) {S : Type} (rng : Rng F S).

Lemma pick_test_inv y id s t s' : 0 <= id -> pick_test rng y id s = Ok (t, s') ->
  0 <= t < zlen y /\ nthZ y t = nthZ y id /\ (t = id -> forall j, 0 <= j < zlen y -> nthZ y j = nthZ y id -> j = id).
Proof.
  intros Hid H. unfold pick_test in H. apply bind_liftG in H as (c & Hc & H). apply get_nthZ in Hc; [|exact Hid].
  pose proof (nthZ_range _ _ _ Hc) as Rid.
  assert (HW : forall j, In j (where_ (map (Z.eqb c) y)) <-> nthZ y j = Some c).
  { intros j. rewrite in_where, nthZ_map. split.
    - destruct (nthZ y j) as [d|]; [|discriminate]. cbn [option_map]. intros E. assert (E' : (c =? d) = true) by congruence.
      apply Z.eqb_eq in E'. congruence.
    - intros ->. cbn. rewrite Z.eqb_refl. reflexivity. }
  destruct (1 <? zlen (where_ (map (Z.eqb c) y))) eqn:E.
  - apply choice_In in H. apply filter_In in H as [H1 H2]. apply HW in H1. apply negb_true_iff in H2. apply Z.eqb_neq in H2.
    split; [eapply nthZ_range; eauto|]. split; [congruence|]. intros ->. congruence.
  - unfold retG in H. assert (t = id) by congruence. subst t. split; [exact Rid|]. split; [reflexivity|]. intros _ j Hj Ej.
    apply Z.ltb_ge in E. assert (Hj' : In j (where_ (map (Z.eqb c) y))) by (apply HW; congruence).
    assert (Hi' : In id (where_ (map (Z.eqb c) y))) by (apply HW; congruence).
    destruct (where_ (map (Z.eqb c) y)) as [|a [|b l]] eqn:Ew; [destruct Hj'| |exfalso; rewrite !zlen_cons in E; pose proof (zlen_nonneg l); lia].
    destruct Hj' as [<-|[]], Hi' as [<-|[]]. reflexivity.
Qed.

Lemma pick_test_total (L : RngLaws N rng) y id s : 0 <= id < zlen y -> exists t s', pick_test rng y id s = Ok (t, s').
Proof.
  intros Hid. unfold pick_test. destruct (get_ok y id Hid) as (c & Hc & Hn). rewrite (liftG_ok _ _ _ c Hc).
  destruct (1 <? zlen (where_ (map (Z.eqb c) y))) eqn:E.
  - apply Z.ltb_lt in E. destruct (choice_total N rng L (filter (fun i => negb (i =? id)) (where_ (map (Z.eqb c) y))) s) as (t & s' & H & _); [|eauto].
    pose proof (where_NoDup (map (Z.eqb c) y)) as HD. destruct (where_ (map (Z.eqb c) y)) as [|a [|b l]] eqn:Ew.
    + cbv in E. discriminate.
    + cbv in E. discriminate.
    + intros Hf. inversion HD as [|? ? Ha _]; subst. cbn [filter] in Hf.
      destruct (Z.eqb_spec a id) as [->|]; cbn [negb] in Hf; [|discriminate].
      destruct (Z.eqb_spec b id) as [->|]; cbn [negb] in Hf; [|discriminate]. apply Ha. left. reflexivity.
  - eexists _, _. reflexivity.
Qed.

(** the threshold is drawn uniformly between the two percentiles *)
Definition threshold_of (dist : list F) (p_min p_max thr : F) : Prop :=
  exists a b s, percentiles N dist p_min p_max = Ok (a, b) /\ thr = nadd N a (nmul N (nsub N b a) (fst (r_unif rng s))).

Lemma draw_threshold_inv dist p_min p_max s thr s' : draw_threshold N rng dist p_min p_max s = Ok (thr, s') -> threshold_of dist p_min p_max thr.
Proof.
  unfold draw_threshold. intros H. apply bind_liftG in H as ([a b] & Hp & H). unfold uniform, bindG, draw_unif, retG in H. cbn [bind fst snd] in H.
  exists a, b, s. split; [exact Hp|]. congruence.
Qed.

Lemma draw_threshold_total dist p_min p_max s p : percentiles N dist p_min p_max = Ok p ->
  exists thr s', draw_threshold N rng dist p_min p_max s = Ok (thr, s').
Proof. intros H. unfold draw_threshold. rewrite (liftG_ok _ _ _ p H). eexists _, _. reflexivity. Qed.

(** ** One iteration *)

Context (nsamp wd : Z) (nlen : Z -> Z) (srs : Z -> list F) (srs_m : Z -> res (list F)) (y : list Z) (P : gparams F) (dr : drawn).
Notation ph := (g_phase P).
Notation nw s i := (nwin ph (nlen s) (dlen dr i) (ddil dr i)).

(** parameters drawn for shapelet [i] are usable on every series *)
Definition draw_fits (i : Z) : Prop :=
  1 <= dlen dr i /\ 1 <= ddil dr i /\ forall s, 0 <= s < nsamp -> (dlen dr i - 1) * ddil dr i <= nlen s - 1.

Hypothesis Hser : forall s, 0 <= s < nsamp -> srs_m s = Ok (srs s) /\ zlen (srs s) = nlen s.
Hypothesis Hlen : forall s, 0 <= s < nsamp -> 0 < nlen s <= wd.
Hypothesis Hy : zlen y = nsamp.

Lemma draw_fits_fits i s : draw_fits i -> 0 <= s < nsamp -> fits ph (nlen s) (dlen dr i) (ddil dr i) /\ 0 < nw s i <= wd.
Proof using Hlen.
  clear Hser Hy srs srs_m. intros (H1 & H2 & H3) Hs. specialize (H3 s Hs). pose proof (Hlen s Hs). unfold fits, nwin. destruct ph; [lia|]. split; [lia|]. nia.
Qed.

(** admissible starts for shapelet [i] under mask [m] *)
Definition admissible (i : Z) (m : list (list bool)) (s t : Z) : Prop :=
  0 <= s < nsamp /\ 0 <= t < nw s i /\ mcell m s t = true.

(** what an iteration for shapelet [i] that starts with mask [m] may choose *)
Definition pick_ok (i : Z) (m : list (list bool)) (pk : pick F) : Prop :=
  admissible i m (pk_sample pk) (pk_index pk) /\
  pk_len pk = dlen dr i /\
  pk_v pk = seen N (dnorm dr i) (window N ph (srs (pk_sample pk)) (dlen dr i) (ddil dr i) (pk_index pk)) /\
  0 <= pk_test pk < nsamp /\ nthZ y (pk_test pk) = nthZ y (pk_sample pk) /\
  (pk_test pk = pk_sample pk -> forall j, 0 <= j < nsamp -> nthZ y j = nthZ y (pk_sample pk) -> j = pk_sample pk) /\
  pk_dist pk = distances N ph (dnorm dr i) (srs (pk_test pk)) (pk_v pk) (dlen dr i) (ddil dr i) /\
  threshold_of (pk_dist pk) (g_pmin P) (g_pmax P) (pk_thr pk).

(** and how it changes the mask *)
Definition mask_after (g i : Z) (m m' : list (list bool)) (w : option (pick F)) : Prop :=
  match w with
  | None => m' = m
  | Some pk => forall s t, mcell m' s t = true <-> mcell m s t = true /\
      ~ (s = pk_sample pk /\ masked_at (pk_index pk) (ddil dr i) (nlen s) (alpha_size N (g_alpha P) (dlen dr i) (gmin dr g)) t)
  end.

Definition iter_ok (e : Z * Z) (m m' : list (list bool)) (w : option (pick F)) : Prop :=
  mask_ok nsamp wd m' /\ mask_after (fst e) (snd e) m m' w /\
  match w with None => forall s t, ~ admissible (snd e) m s t | Some pk => pick_ok (snd e) m pk end.

Lemma zlen_seen nm w : zlen (seen N nm w) = zlen w.
Proof. unfold seen, zscore. destruct nm; [apply zlen_map|reflexivity]. Qed.

Lemma subseq_seen s i t : draw_fits i -> 0 <= s < nsamp -> 0 <= t < nw s i ->
  get_subsequence N (srs s) t (dlen dr i) (ddil dr i) (dnorm dr i) ph =
  Ok (seen N (dnorm dr i) (window N ph (srs s) (dlen dr i) (ddil dr i) t)).
Proof.
  intros HD Hs Ht. destruct (draw_fits_fits i s HD Hs) as [Hf _]. destruct (Hser s Hs) as [_ HL].
  rewrite get_subsequence_ok; [|rewrite HL; exact Hf|rewrite HL; exact Ht]. unfold seen. rewrite znorm_zscore. reflexivity.
Qed.

Lemma rest_inv g i m id index s r : mask_ok nsamp wd m -> draw_fits i -> admissible i m id index ->
  u_rest N rng srs_m y P (dlen dr i) (ddil dr i) (dnorm dr i) (alpha_size N (g_alpha P) (dlen dr i) (gmin dr g)) (nlen id) id index m s = Ok r ->
  iter_ok (g, i) m (fst (fst r)) (snd (fst r)).
Proof.
  intros HM HD HA H. pose proof HA as (Hid & Hix & _). destruct (Hser id Hid) as [Hsm Hsl].
  unfold u_rest in H. apply bind_liftG in H as (m' & Hm' & H).
  destruct (clear_fold_ok nsamp wd id (positions index (ddil dr i) (nlen id) (alpha_size N (g_alpha P) (dlen dr i) (gmin dr g)))
              Hid) with (m := m) as (m2 & E2 & HM2 & C2); [|exact HM|].
  { intros t Ht. apply positions_range in Ht; [|apply Hlen; exact Hid]. pose proof (Hlen id Hid). lia. }
  rewrite E2 in Hm'. assert (m2 = m') by congruence. subst m2. clear Hm' E2.
  apply bind_liftG in H as (x & Hx & H). rewrite Hsm in Hx. assert (x = srs id) by congruence. subst x. clear Hx.
  apply bind_liftG in H as (v & Hv & H). rewrite (subseq_seen id i index HD Hid Hix) in Hv.
  apply bindG_inv in H as (tst & s1 & Ht & H). destruct (pick_test_inv y id _ tst _ ltac:(lia) Ht) as (T1 & T2 & T3). rewrite Hy in T1, T3.
  apply bind_liftG in H as (xt & Hxt & H). destruct (Hser tst T1) as [Hst Htl]. rewrite Hst in Hxt. assert (xt = srs tst) by congruence. subst xt. clear Hxt.
  apply bind_liftG in H as (xd & Hxd & H).
  assert (Hvl : zlen v = dlen dr i).
  { assert (Ev : v = seen N (dnorm dr i) (window N ph (srs id) (dlen dr i) (ddil dr i) index)) by congruence.
    rewrite Ev, zlen_seen, zlen_window; [reflexivity|]. destruct HD as (? & _). lia. }
  rewrite dist_vector_distances in Hxd; [|rewrite Htl; apply (draw_fits_fits i tst HD T1)|lia].
  apply bindG_inv in H as (thr & s2 & Hth & H). apply draw_threshold_inv in Hth. unfold retG in H.
  assert (Er : r = (m', Some (mkPick id index tst (dlen dr i) v xd thr), s2)) by congruence. subst r. clear H. cbn [fst snd].
  split; [exact HM2|]. split.
  - cbn [mask_after]. intros s0 t. cbn [pk_sample pk_index snd fst]. rewrite C2, andb_true_iff, negb_true_iff. split; intros [A B]; (split; [exact A|]).
    + intros [-> HC]. apply positions_existsb in HC. rewrite Z.eqb_refl, HC in B. discriminate.
    + apply not_true_is_false. intros HC. apply andb_true_iff in HC as [HC1 HC2]. apply Z.eqb_eq in HC1. subst s0. apply B. split; [reflexivity|].
      apply positions_existsb. exact HC2.
  - unfold pick_ok. cbn [pk_sample pk_index pk_test pk_len pk_v pk_dist pk_thr snd fst]. split; [exact HA|]. split; [reflexivity|].
    split; [congruence|]. split; [exact T1|]. split; [exact T2|]. split; [exact T3|]. split; [congruence|exact Hth].
Qed.

Lemma rest_total (L : RngLaws N rng) (HP : forall a, zlen a <= wd -> exists p, percentiles N a (g_pmin P) (g_pmax P) = Ok p) g i m id index s :
  mask_ok nsamp wd m -> draw_fits i -> admissible i m id index -> exists r,
  u_rest N rng srs_m y P (dlen dr i) (ddil dr i) (dnorm dr i) (alpha_size N (g_alpha P) (dlen dr i) (gmin dr g)) (nlen id) id index m s = Ok r.
Proof.
  intros HM HD HA. pose proof HA as (Hid & Hix & _). destruct (Hser id Hid) as [Hsm Hsl]. unfold u_rest.
  destruct (clear_fold_ok nsamp wd id (positions index (ddil dr i) (nlen id) (alpha_size N (g_alpha P) (dlen dr i) (gmin dr g)))
              Hid) with (m := m) as (m2 & E2 & HM2 & C2); [|exact HM|].
  { intros t Ht. apply positions_range in Ht; [|apply Hlen; exact Hid]. pose proof (Hlen id Hid). lia. }
  rewrite (liftG_ok _ _ _ _ E2), (liftG_ok _ _ _ _ Hsm), (liftG_ok _ _ _ _ (subseq_seen id i index HD Hid Hix)).
  unfold bindG at 1. destruct (pick_test_total L y id s ltac:(lia)) as (tst & s1 & Ht). rewrite Ht. cbn [bind fst snd].
  destruct (pick_test_inv y id _ tst _ ltac:(lia) Ht) as (T1 & _). rewrite Hy in T1. destruct (Hser tst T1) as [Hst Htl].
  rewrite (liftG_ok _ _ _ _ Hst). erewrite liftG_ok.
  2:{ apply dist_vector_distances; [rewrite Htl; apply (draw_fits_fits i tst HD T1)|]. rewrite zlen_seen, zlen_window; [lia|]. destruct HD as (? & _). lia. }
  match goal with |- context [draw_threshold N rng ?xd _ _] => assert (Hxd : zlen xd <= wd) end.
  { unfold distances. rewrite zlen_map, zlen_zrange, Htl. destruct (draw_fits_fits i tst HD T1) as [_ Hw]. pose proof (Hlen tst T1). lia. }
  match goal with |- context [draw_threshold N rng ?xd _ _] => destruct (HP xd Hxd) as (p & Hp); destruct (draw_threshold_total xd _ _ s1 p Hp) as (th & s2 & E) end.
  unfold bindG. rewrite E. cbn [bind fst snd]. unfold retG. eauto.
Qed.


(** ** The two ways of choosing the sample and the start *)


Lemma adm_row i m s t r : mask_ok nsamp wd m -> draw_fits i -> nthZ m s = Some r ->
  admissible i m s t <-> nthZ (slice r 0 (nw s i)) t = Some true.
Proof using Hlen.
  clear Hser Hy srs srs_m. intros HM HD Hr. pose proof HM as [M1 M2]. pose proof (nthZ_range _ _ _ Hr) as Rs. rewrite M1 in Rs.
  destruct (draw_fits_fits i s HD Rs) as [_ Hn]. rewrite slice_true by (rewrite (M2 s r Hr); lia). unfold admissible. split.
  - intros (_ & Ht & Hc). split; [exact Ht|]. apply mcell_true in Hc as (r' & Hr' & Hc). congruence.
  - intros [Ht Hc]. split; [exact Rs|]. split; [exact Ht|]. eapply mcell_nth; eauto.
Qed.

End L.

(** ** Same length *)
Section SL.
Context {F : Type} (N : NumOps F) {S : Type} (rng : Rng F S).
Context (X : dataset F) (y : list Z) (n : Z) (P : gparams F) (dr : drawn).
Hypothesis HX : has_ft X.
Hypothesis Hn : 0 < n.
Hypothesis HXn : forall i, 0 <= i < zlen X -> zlen (ser X i) = n.
Hypothesis Hy : zlen y = zlen X.

Let nlen := fun _ : Z => n.
Notation fitsd i := (draw_fits (zlen X) nlen dr i).

Lemma SL_ser : forall s, 0 <= s < zlen X -> u_series X s = Ok (ser X s) /\ zlen (ser X s) = nlen s.
Proof. intros s Hs. split; [apply u_series_ok; assumption|apply HXn; exact Hs]. Qed.
Lemma SL_len : forall s, 0 <= s < zlen X -> 0 < nlen s <= n.
Proof. unfold nlen. intros. lia. Qed.

Definition SL_ok := iter_ok N rng (zlen X) n nlen (ser X) y P dr.

Lemma SL_imask i m s t : mask_ok (zlen X) n m -> fitsd i ->
  In (s, t) (where2 (map (fun r => slice r 0 (nwin (g_phase P) n (dlen dr i) (ddil dr i))) m)) <-> admissible (zlen X) nlen P dr i m s t.
Proof.
  intros HM HD. rewrite in_where2. split.
  - intros (r' & Hr & Ht). rewrite nthZ_map in Hr. destruct (nthZ m s) as [r|] eqn:E; [|discriminate]. cbn [option_map] in Hr.
    apply (adm_row _ _ _ P dr SL_len i m s t r HM HD E). inversion Hr; subst r'. exact Ht.
  - intros HA. pose proof HA as (Hs & _). destruct (mask_row _ _ m s HM Hs) as (r & Hr & _ & _).
    apply (adm_row _ _ _ P dr SL_len i m s t r HM HD Hr) in HA. exists (slice r 0 (nwin (g_phase P) n (dlen dr i) (ddil dr i))).
    rewrite nthZ_map, Hr. cbn [option_map]. split; [reflexivity|exact HA].
Qed.

Lemma SL_local_inv g i m s r : mask_ok (zlen X) n m -> fitsd i -> U_SL_localG N rng X y n P dr (g, i) m s = Ok r ->
  SL_ok (g, i) m (fst (fst r)) (snd (fst r)).
Proof.
  intros HM HD H. unfold U_SL_localG in H. cbn [fst snd] in H.
  set (im := where2 _) in H. destruct (0 <? zlen im) eqn:E.
  - apply bindG_inv in H as (id & s1 & H1 & H). apply choice_In in H1.
    apply bindG_inv in H as (index & s2 & H2 & H). apply choice_In in H2. apply in_map_iff in H2 as ([a t] & E2 & H2). cbn in E2. subst t.
    apply filter_In in H2 as [H2 H3]. cbn in H3. apply Z.eqb_eq in H3. subst a.
    apply (SL_imask i m id index HM HD) in H2.
    eapply (rest_inv N rng (zlen X) n nlen (ser X) (u_series X) y P dr SL_ser SL_len Hy); eauto.
  - unfold retG in H. assert (Er : r = (m, None, s)) by congruence. subst r. cbn [fst snd]. split; [exact HM|]. split; [reflexivity|].
    intros a t HA. apply (SL_imask i m a t HM HD) in HA. apply zlen_pos in HA. apply Z.ltb_ge in E. unfold im in E. cbn [snd] in HA. lia.
Qed.

Lemma SL_local_total (L : RngLaws N rng) (HP : forall a, zlen a <= n -> exists p, percentiles N a (g_pmin P) (g_pmax P) = Ok p) g i m s :
  mask_ok (zlen X) n m -> fitsd i -> exists r, U_SL_localG N rng X y n P dr (g, i) m s = Ok r.
Proof.
  intros HM HD. unfold U_SL_localG. cbn [fst snd].
  pose proof (fun s t => SL_imask i m s t HM HD) as HI. set (im := where2 _) in *. destruct (0 <? zlen im) eqn:E; [|eexists; reflexivity].
  apply Z.ltb_lt in E. destruct (choice_total N rng L (map fst im) s) as (id & s1 & E1 & I1).
  { intros Hz. destruct im; [cbv in E; discriminate|discriminate]. }
  unfold bindG. rewrite E1. cbn [bind fst snd]. apply in_map_iff in I1 as ([a t] & Ea & I1). cbn in Ea. subst a.
  destruct (choice_total N rng L (map snd (filter (fun p => fst p =? id) im)) s1) as (index & s2 & E2 & I2).
  { intros Hz. apply map_eq_nil in Hz. assert (Hf : In (id, t) (filter (fun p => fst p =? id) im)) by (apply filter_In; split; [exact I1|apply Z.eqb_refl]).
    rewrite Hz in Hf. destruct Hf. }
  rewrite E2. cbn [bind fst snd]. apply in_map_iff in I2 as ([a t'] & Ea & I2). cbn in Ea. subst t'.
  apply filter_In in I2 as [I2 I3]. cbn in I3. apply Z.eqb_eq in I3. subst a. apply HI in I2.
  eapply (rest_total N rng (zlen X) n nlen (ser X) (u_series X) y P dr SL_ser SL_len Hy L HP); eauto.
Qed.
End SL.

(** ** Variable length *)
Section VL.
Context {F : Type} (N : NumOps F) {S : Type} (rng : Rng F S).
Context (X : dataset F) (X_len : list Z) (y : list Z) (wd : Z) (P : gparams F) (dr : drawn).
Hypothesis HX : has_ft X.
Hypothesis HL : zlen X_len = zlen X.
Hypothesis Hy : zlen y = zlen X.
Let nlen := nthd 0 X_len.
Hypothesis VL_len : forall s, 0 <= s < zlen X -> 0 < nlen s <= wd.
Hypothesis HXn : forall i, 0 <= i < zlen X -> wd <= zlen (ser X i).
Notation fitsd i := (draw_fits (zlen X) nlen dr i).

Lemma VL_ser : forall s, 0 <= s < zlen X -> u_series_vl X X_len s = Ok (ser_vl X X_len s) /\ zlen (ser_vl X X_len s) = nlen s.
Proof.
  intros s Hs. split; [apply u_series_vl_ok; assumption|]. unfold ser_vl. pose proof (VL_len s Hs). pose proof (HXn s Hs). unfold ser in *.
  fold nlen. rewrite slice_length; unfold nlen in *; lia.
Qed.

Definition VL_ok := iter_ok N rng (zlen X) wd nlen (ser_vl X X_len) y P dr.

Lemma VL_rows i m : mask_ok (zlen X) wd m ->
  mapM (fun i_x => let* r := get m i_x in let* n := get X_len i_x in
     Ok (existsb (fun b : bool => b) (slice r 0 (nwin (g_phase P) n (dlen dr i) (ddil dr i))))) (zrange 0 (zlen X)) =
  Ok (map (fun s => existsb (fun b : bool => b) (slice (nthd [] m s) 0 (nwin (g_phase P) (nlen s) (dlen dr i) (ddil dr i)))) (zrange 0 (zlen X))).
Proof.
  intros [HM _]. apply mapM_ok. intros s Hs. apply in_zrange in Hs. rewrite (get_nthd [] m) by lia. cbn [bind].
  rewrite (get_nthd 0 X_len) by lia. reflexivity.
Qed.

Lemma VL_imask i m s : mask_ok (zlen X) wd m -> fitsd i ->
  In s (where_ (map (fun s => existsb (fun b : bool => b) (slice (nthd [] m s) 0 (nwin (g_phase P) (nlen s) (dlen dr i) (ddil dr i)))) (zrange 0 (zlen X)))) <->
  exists t, admissible (zlen X) nlen P dr i m s t.
Proof.
  intros HM HD. rewrite in_where, nthZ_map. split.
  - destruct (nthZ (zrange 0 (zlen X)) s) as [s'|] eqn:E; [|discriminate]. cbn [option_map]. intros H.
    pose proof (nthZ_range _ _ _ E) as R. rewrite zlen_zrange in R. rewrite nthZ_zrange in E by lia. assert (s' = s) by (assert (E' : 0 + s = s') by congruence; lia). subst s'.
    assert (H' : existsb (fun b : bool => b) (slice (nthd [] m s) 0 (nwin (g_phase P) (nlen s) (dlen dr i) (ddil dr i))) = true) by congruence.
    apply existsb_exists in H' as (b & Hb & ->). apply In_nthZ in Hb as (t & Ht).
    destruct (mask_row _ _ m s HM ltac:(lia)) as (r & Hr & _ & _). rewrite (nthd_some [] m s r Hr) in Ht. exists t.
    apply (adm_row _ _ _ P dr VL_len i m s t r HM HD Hr). exact Ht.
  - intros (t & HA). pose proof HA as (Hs & _). rewrite nthZ_zrange by lia. cbn [option_map]. rewrite Z.add_0_l. f_equal.
    destruct (mask_row _ _ m s HM Hs) as (r & Hr & _ & _). apply (adm_row _ _ _ P dr VL_len i m s t r HM HD Hr) in HA.
    apply existsb_exists. exists true. split; [|reflexivity]. rewrite (nthd_some [] m s r Hr). eapply nthZ_In; eauto.
Qed.

Lemma VL_local_inv g i m s r : mask_ok (zlen X) wd m -> fitsd i -> U_VL_localG N rng X X_len y P dr (g, i) m s = Ok r ->
  VL_ok (g, i) m (fst (fst r)) (snd (fst r)).
Proof.
  intros HM HD H. unfold U_VL_localG in H. cbn [fst snd] in H.
  apply bind_liftG in H as (im & Him & H). rewrite (VL_rows i m HM) in Him.
  pose proof (fun s => VL_imask i m s HM HD) as HI. set (im0 := map _ _) in Him, HI. assert (im = im0) by congruence. subst im.
  destruct (0 <? zlen (where_ im0)) eqn:E.
  - apply bindG_inv in H as (id & s1 & H1 & H). apply choice_In in H1. apply HI in H1 as (t0 & HA0). pose proof HA0 as (Hid & _).
    destruct (mask_row _ _ m id HM Hid) as (row & Hr & Hg & _).
    rewrite (liftG_ok _ _ _ (nlen id)) in H by (apply get_nthd; lia). rewrite (liftG_ok _ _ _ row Hg) in H.
    apply bindG_inv in H as (index & s2 & H2 & H). apply choice_In in H2. apply in_where in H2.
    apply (adm_row _ _ _ P dr VL_len i m id index row HM HD Hr) in H2.
    eapply (rest_inv N rng (zlen X) wd nlen (ser_vl X X_len) (u_series_vl X X_len) y P dr VL_ser VL_len Hy); eauto.
  - unfold retG in H. assert (Er : r = (m, None, s)) by congruence. subst r. cbn [fst snd]. split; [exact HM|]. split; [reflexivity|].
    intros a t HA. assert (Hin : In a (where_ im0)) by (apply HI; exists t; exact HA). apply zlen_pos in Hin. apply Z.ltb_ge in E. lia.
Qed.

Lemma VL_local_total (L : RngLaws N rng) (HP : forall a, zlen a <= wd -> exists p, percentiles N a (g_pmin P) (g_pmax P) = Ok p) g i m s :
  mask_ok (zlen X) wd m -> fitsd i -> exists r, U_VL_localG N rng X X_len y P dr (g, i) m s = Ok r.
Proof.
  intros HM HD. unfold U_VL_localG. cbn [fst snd]. rewrite (liftG_ok _ _ _ _ (VL_rows i m HM)).
  pose proof (fun s => VL_imask i m s HM HD) as HI. set (im0 := map _ _) in *.
  destruct (0 <? zlen (where_ im0)) eqn:E; [|eexists; reflexivity].
  apply Z.ltb_lt in E. destruct (choice_total N rng L (where_ im0) s) as (id & s1 & E1 & I1).
  { intros Hz. rewrite Hz in E. cbv in E. discriminate. }
  unfold bindG at 1. rewrite E1. cbn [bind fst snd]. apply HI in I1 as (t0 & HA0). pose proof HA0 as (Hid & _).
  destruct (mask_row _ _ m id HM Hid) as (row & Hr & Hg & _).
  rewrite (liftG_ok _ _ _ (nlen id)) by (apply get_nthd; lia). rewrite (liftG_ok _ _ _ row Hg).
  destruct (choice_total N rng L (where_ (slice row 0 (nwin (g_phase P) (nlen id) (dlen dr i) (ddil dr i)))) s1) as (index & s2 & E2 & I2).
  { intros Hz. apply (adm_row _ _ _ P dr VL_len i m id t0 row HM HD Hr) in HA0. apply in_where in HA0. rewrite Hz in HA0. destruct HA0. }
  unfold bindG at 1. rewrite E2. cbn [bind fst snd]. apply in_where in I2. apply (adm_row _ _ _ P dr VL_len i m id index row HM HD Hr) in I2.
  eapply (rest_total N rng (zlen X) wd nlen (ser_vl X X_len) (u_series_vl X X_len) y P dr VL_ser VL_len Hy L HP); eauto.
Qed.
End VL.
