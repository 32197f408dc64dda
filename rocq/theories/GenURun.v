(** Univariate shapelet generation: the result of a whole run. *)
From Coq Require Import ZArith List Bool Lia Permutation.
From Verif Require Import Prelude Num Kernel Spec KernelProofs Apply ApplyUni TransformProofs TransformLaws Gen GenSched GenBase GenUni GenULoop GenTrace.
Import ListNotations.
Open Scope Z_scope.

Section Put.
Context {F : Type}.
Notation entry := ((Z * Z) * list (list bool) * option (pick F))%type.

Lemma u_put_inv i w (o o' : list F * list (list F)) : 0 <= i -> u_put i w o = Ok o' ->
  zlen (fst o') = zlen (fst o) /\ zlen (snd o') = zlen (snd o) /\
  (forall j, j <> i -> nthZ (fst o') j = nthZ (fst o) j /\ nthZ (snd o') j = nthZ (snd o) j) /\
  match w with
  | None => o' = o
  | Some pk => nthZ (fst o') i = Some (pk_thr pk) /\
      exists r r', nthZ (snd o) i = Some r /\ set_slice r 0 (pk_len pk) (pk_v pk) = Ok r' /\ nthZ (snd o') i = Some r'
  end.
Proof.
  intros Hi H. destruct w as [pk|]; cbn [u_put] in H.
  - apply bind_inv in H as (thr & Ht & H). apply bind_inv in H as (val & Hv & H). assert (o' = (thr, val)) by congruence. subst o'. clear H. cbn [fst snd].
    apply set_inv in Ht as (jt & Ejt & Rt & ->). unfold upd_at in Hv. apply bind_inv in Hv as (r & Hr & Hv). apply bind_inv in Hv as (r' & Hr' & Hv).
    apply set_inv in Hv as (jv & Ejv & Rv & ->). unfold wrap in *. destruct (Z.ltb_spec i 0); [lia|]. subst jt jv.
    rewrite !zlen_upd. split; [reflexivity|]. split; [reflexivity|]. split.
    + intros j Hj. rewrite !nthZ_upd by assumption. destruct (Z.eqb_spec j i); [contradiction|]. split; reflexivity.
    + rewrite !nthZ_upd by assumption. rewrite Z.eqb_refl. split; [reflexivity|]. exists r, r'. apply get_nthZ in Hr; [|exact Hi]. auto.
  - assert (o' = o) by congruence. subst. auto.
Qed.

Lemma puts_u (tr : list entry) : forall (o o' : list F * list (list F)), NoDup (map snd (map ev tr)) -> Forall (fun t => 0 <= snd (ev t)) tr ->
  puts u_put tr o = Ok o' ->
  zlen (fst o') = zlen (fst o) /\ zlen (snd o') = zlen (snd o) /\
  forall i, match entry_at tr i with
    | Some (_, _, Some pk) => nthZ (fst o') i = Some (pk_thr pk) /\
        exists r r', nthZ (snd o) i = Some r /\ set_slice r 0 (pk_len pk) (pk_v pk) = Ok r' /\ nthZ (snd o') i = Some r'
    | _ => nthZ (fst o') i = nthZ (fst o) i /\ nthZ (snd o') i = nthZ (snd o) i
    end.
Proof.
  unfold puts. induction tr as [|t tr IH]; intros o o' HN HF H; cbn [foldM map] in *.
  - assert (o' = o) by congruence. subst. cbn. auto.
  - inversion HN as [|? ? Hn HN']; subst. inversion HF as [|? ? Hp HF']; subst. apply bind_inv in H as (o1 & H1 & H).
    destruct (u_put_inv _ _ _ _ Hp H1) as (A1 & A2 & A3 & A4). destruct (IH o1 o' HN' HF' H) as (B1 & B2 & B3).
    split; [congruence|]. split; [congruence|]. intros i. specialize (B3 i).
    change (entry_at (t :: tr) i) with (if snd (ev t) =? i then Some t else entry_at tr i).
    destruct (Z.eqb_spec (snd (ev t)) i) as [<-|Hne].
    + assert (Hnone : entry_at tr (snd (ev t)) = None).
      { destruct (entry_at tr (snd (ev t))) as [t'|] eqn:E; [|reflexivity]. exfalso. apply entry_at_some in E as [E1 E2]. apply Hn. rewrite <- E2.
        apply in_map, in_map. exact E1. }
      rewrite Hnone in B3. destruct B3 as [B3 B4]. destruct t as [[e m] [pk|]]; cbn [snd] in *.
      * destruct A4 as (A4 & r & r' & A5 & A6 & A7). rewrite B3, B4. split; [exact A4|]. exists r, r'. auto.
      * subst o1. auto.
    + destruct (A3 i) as [A5 A6]; [congruence|]. rewrite A5, A6 in B3. exact B3.
Qed.

Lemma set_upd_comm {A} (l : list A) i j x y : 0 <= i -> 0 <= j -> i <> j ->
  (let* l1 := set l i x in set l1 j y) = (let* l1 := set l j y in set l1 i x).
Proof.
  intros Hi Hj Hne. unfold set, wrap. destruct (Z.ltb_spec i 0); [lia|]. destruct (Z.ltb_spec j 0); [lia|].
  destruct (Z.leb_spec 0 i); [|lia]. destruct (Z.leb_spec 0 j); [|lia]. cbn [andb].
  destruct (Z.ltb_spec i (zlen l)) as [L1|L1], (Z.ltb_spec j (zlen l)) as [L2|L2]; cbn [bind]; rewrite ?zlen_upd.
  - destruct (Z.ltb_spec j 0); [lia|]. destruct (Z.ltb_spec i 0); [lia|]. destruct (Z.leb_spec 0 j); [|lia]. destruct (Z.leb_spec 0 i); [|lia]. cbn [andb].
    destruct (Z.ltb_spec j (zlen l)); [|lia]. destruct (Z.ltb_spec i (zlen l)); [|lia]. f_equal. apply nthZ_ext; [rewrite !zlen_upd; reflexivity|].
    intros k _. rewrite !nthZ_upd by (rewrite ?zlen_upd; lia). destruct (Z.eqb_spec k i), (Z.eqb_spec k j); try reflexivity. lia.
  - destruct (Z.ltb_spec j 0); [lia|]. destruct (Z.leb_spec 0 j); [|lia]. cbn [andb]. destruct (Z.ltb_spec j (zlen l)); [lia|reflexivity].
  - destruct (Z.ltb_spec i 0); [lia|]. destruct (Z.leb_spec 0 i); [|lia]. cbn [andb]. destruct (Z.ltb_spec i (zlen l)); [lia|reflexivity].
  - reflexivity.
Qed.

Lemma upd_at_comm {A} (l : list A) i j f g l1 l2 : 0 <= i -> 0 <= j -> i <> j -> upd_at l i f = Ok l1 -> upd_at l1 j g = Ok l2 ->
  exists l3, upd_at l j g = Ok l3 /\ upd_at l3 i f = Ok l2.
Proof.
  intros Hi Hj Hne H1 H2. unfold upd_at in *. apply bind_inv in H1 as (x & Hx & H1). apply bind_inv in H1 as (x' & Hx' & H1).
  apply bind_inv in H2 as (z & Hz & H2). apply bind_inv in H2 as (z' & Hz' & H2).
  assert (Ez : get l j = Ok z).
  { apply get_nthZ in Hz; [|exact Hj]. apply get_nthZ; [exact Hj|]. apply set_inv in H1 as (k & Ek & Rk & ->). unfold wrap in Ek.
    destruct (Z.ltb_spec i 0); [lia|]. subst k. rewrite nthZ_upd in Hz by exact Rk. destruct (Z.eqb_spec j i); [congruence|exact Hz]. }
  rewrite Ez. cbn [bind]. rewrite Hz'. cbn [bind].
  pose proof (set_upd_comm l i j x' z' Hi Hj Hne) as HC. rewrite H1 in HC. cbn [bind] in HC. rewrite H2 in HC. symmetry in HC.
  apply bind_inv in HC as (l3 & E3 & HC). exists l3. split; [exact E3|].
  assert (Ex : get l3 i = Ok x).
  { apply get_nthZ in Hx; [|exact Hi]. apply get_nthZ; [exact Hi|]. apply set_inv in E3 as (k & Ek & Rk & ->). unfold wrap in Ek.
    destruct (Z.ltb_spec j 0); [lia|]. subst k. rewrite nthZ_upd by exact Rk. destruct (Z.eqb_spec i j); [congruence|exact Hx]. }
  rewrite Ex. cbn [bind]. rewrite Hx'. cbn [bind]. exact HC.
Qed.

Lemma set_comm_ok {A} (l : list A) i j x y l1 l2 : 0 <= i -> 0 <= j -> i <> j -> set l i x = Ok l1 -> set l1 j y = Ok l2 ->
  exists l3, set l j y = Ok l3 /\ set l3 i x = Ok l2.
Proof.
  intros Hi Hj Hne H1 H2. pose proof (set_upd_comm l i j x y Hi Hj Hne) as HC. rewrite H1 in HC. cbn [bind] in HC. rewrite H2 in HC. symmetry in HC.
  apply bind_inv in HC as (l3 & E3 & HC). eauto.
Qed.

Lemma u_put_comm i j (w w' : option (pick F)) (o o1 o2 : list F * list (list F)) : 0 <= i -> 0 <= j -> i <> j ->
  u_put i w o = Ok o1 -> u_put j w' o1 = Ok o2 -> exists o3, u_put j w' o = Ok o3 /\ u_put i w o3 = Ok o2.
Proof.
  intros Hi Hj Hne H1 H2. destruct w as [p|], w' as [q|]; cbn [u_put] in *.
  - apply bind_inv in H1 as (t1 & T1 & H1). apply bind_inv in H1 as (v1 & V1 & H1). assert (o1 = (t1, v1)) by congruence. subst o1.
    cbn [fst snd] in H2. apply bind_inv in H2 as (t2 & T2 & H2). apply bind_inv in H2 as (v2 & V2 & H2).
    destruct (set_comm_ok _ i j _ _ _ _ Hi Hj Hne T1 T2) as (t3 & T3 & T4). destruct (upd_at_comm _ i j _ _ _ _ Hi Hj Hne V1 V2) as (v3 & V3 & V4).
    exists (t3, v3). rewrite T3. cbn [bind]. rewrite V3. cbn [bind fst snd]. rewrite T4. cbn [bind]. rewrite V4. cbn [bind]. auto.
  - assert (o2 = o1) by congruence. subst. exists o. auto.
  - assert (o1 = o) by congruence. subst. exists o2. auto.
  - exists o. split; congruence.
Qed.
End Put.

(** the smallest length among the shapelets sharing the dilation of shapelet [i] *)
Definition is_min_len (dr : drawn) (i ml : Z) : Prop :=
  (exists j, 0 <= j < zlen (dr_len dr) /\ ddil dr j = ddil dr i /\ dlen dr j = ml) /\
  (forall j, 0 <= j < zlen (dr_len dr) -> ddil dr j = ddil dr i -> ml <= dlen dr j).

Lemma gmin_min dr sched g i : wf_drawn dr -> is_schedule (dr_dil dr) sched -> In (g, i) sched -> is_min_len dr i (gmin dr g).
Proof.
  intros HW HS Hin. pose proof (min_len_ok dr sched g i HW HS Hin) as H. destruct HW as [W1 W2].
  unfold min_len_of in H. apply bind_inv in H as (ls & Hls & H). apply min_list_spec in H as [H1 H2].
  assert (HG : forall j, In j (group_ids (dr_dil dr) g) <-> 0 <= j < zlen (dr_len dr) /\ ddil dr j = ddil dr i).
  { intros j. apply (sched_in _ sched g i HS) in Hin. apply group_ids_in in Hin as (d & Hd & Hi).
    assert (Ei : ddil dr i = d) by (unfold ddil; apply nthd_some; exact Hi). rewrite group_ids_in. split.
    - intros (d' & Hd' & Hj). assert (d' = d) by congruence. subst d'. split; [apply nthZ_range in Hj; lia|]. unfold ddil at 1. rewrite (nthd_some 0 _ _ _ Hj). congruence.
    - intros [Hj Ej]. exists d. split; [exact Hd|]. rewrite <- Ei, <- Ej. apply nthZ_nthd. lia. }
  assert (Els : ls = map (dlen dr) (group_ids (dr_dil dr) g)).
  { assert (E : mapM (get (dr_len dr)) (group_ids (dr_dil dr) g) = Ok (map (dlen dr) (group_ids (dr_dil dr) g))); [|congruence].
    apply mapM_ok. intros j Hj. apply HG in Hj. apply get_nthd. lia. }
  subst ls. split.
  - apply in_map_iff in H1 as (j & Ej & Hj). apply HG in Hj. exists j. tauto.
  - intros j Hj Ej. apply H2. apply in_map. apply HG. auto.
Qed.

Lemma min_len_unique dr i a b : is_min_len dr i a -> is_min_len dr i b -> a = b.
Proof.
  intros [(j & A1 & A2 & A3) A4] [(k & B1 & B2 & B3) B4]. specialize (A4 k B1 B2). specialize (B4 j A1 A2). lia.
Qed.

Lemma is_min_len_dil dr i j a : ddil dr i = ddil dr j -> is_min_len dr i a -> is_min_len dr j a.
Proof. intros E [(k & A1 & A2 & A3) A4]. split; [exists k; repeat split; auto; try lia; congruence|]. intros l Hl El. apply A4; auto. congruence. Qed.

Section Run.
Context {F : Type} (N : NumOps F) {S : Type} (rng : Rng F S).
Context (nsamp wd : Z) (nlen : Z -> Z) (srs : Z -> list F) (y : list Z) (P : gparams F) (dr : drawn).
Context (localG : Z * Z -> list (list bool) -> G S (list (list bool) * option (pick F))).
Context (m0 : list (list bool)) (W : Z) (rs : Z -> S) (sched : list (Z * Z)).
Notation nshp := (zlen (dr_len dr)).
Notation ok := (iter_ok N rng nsamp wd nlen srs y P dr).
Notation asize g i := (alpha_size N (g_alpha P) (dlen dr i) (gmin dr g)).

Hypothesis HW : wf_drawn dr.
Hypothesis HS : is_schedule (dr_dil dr) sched.
Hypothesis Hm0 : mask_ok nsamp wd m0.
Hypothesis HWl : forall i, 0 <= i < nshp -> 0 <= dlen dr i <= W.

Definition thr0 : list F := repeat (n0 N) (Z.to_nat nshp).
Definition val0 : list (list F) := repeat (repeat (n0 N) (Z.to_nat W)) (Z.to_nat nshp).
Definition mask0 : list (list (list (list bool))) := repeat (repeat m0 (length (unique (dr_dil dr)))) 2.

Lemma mask0_part nm g : part mask0 nm g = if (0 <=? g) && (g <? zlen (unique (dr_dil dr))) then Some m0 else None.
Proof.
  unfold part, mask0. rewrite nthZ_repeat by (destruct nm; cbn; lia).
  destruct (Z.leb_spec 0 g), (Z.ltb_spec g (zlen (unique (dr_dil dr)))); cbn [andb]; try (apply nthZ_none; rewrite zlen_repeat; unfold zlen in *; lia).
  apply nthZ_repeat. unfold zlen in *. lia.
Qed.

Lemma mask0_event e : In e sched -> part mask0 (dnorm dr (snd e)) (fst e) = Some m0.
Proof.
  intros H. destruct e as [g i]. destruct (sched_event _ _ g i HS H) as [Hg _]. rewrite mask0_part. cbn [fst].
  destruct (Z.leb_spec 0 g), (Z.ltb_spec g (zlen (unique (dr_dil dr)))); try lia. reflexivity.
Qed.

Hypothesis Hloc : forall e m s r, In e sched -> mask_ok nsamp wd m -> localG e m s = Ok r -> ok e m (fst (fst r)) (snd (fst r)).

Definition blockedU (e : Z * Z) (w : option (pick F)) (c : Z * Z) : Prop :=
  match w with
  | None => False
  | Some pk => fst c = pk_sample pk /\ masked_at (pk_index pk) (ddil dr (snd e)) (nlen (fst c)) (asize (fst e) (snd e)) (snd c)
  end.

Lemma local_cells e m m' w : In e sched -> mask_ok nsamp wd m -> with_rs rs localG e m = Ok (m', w) ->
  mask_ok nsamp wd m' /\ forall c, mcell m' (fst c) (snd c) = true <-> mcell m (fst c) (snd c) = true /\ ~ blockedU e w c.
Proof.
  intros He HM H. unfold with_rs in H. apply bind_inv in H as (r & H1 & H). destruct (Hloc e m _ r He HM H1) as (A & B & _).
  assert (E : fst r = (m', w)) by congruence. rewrite E in A, B. cbn [fst snd] in A, B. split; [exact A|]. intros [s t]. cbn [fst snd].
  destruct w as [pk|]; cbn [mask_after blockedU fst snd] in *; [apply B|]. rewrite B. tauto.
Qed.

(** What a run did for each shapelet: the mask it saw and its choice. *)
Record u_history (thr' : list F) (val' : list (list F)) (ms : Z -> list (list bool)) (pks : Z -> option (pick F)) : Prop := {
  uh_thr : zlen thr' = nshp;
  uh_val : zlen val' = nshp;
  uh_none : forall i, 0 <= i < nshp -> pks i = None ->
    nthZ thr' i = Some (n0 N) /\ nthZ val' i = Some (repeat (n0 N) (Z.to_nat W)) /\
    forall s t, ~ admissible nsamp nlen P dr i (ms i) s t;
  uh_some : forall i pk, 0 <= i < nshp -> pks i = Some pk ->
    nthZ thr' i = Some (pk_thr pk) /\ nthZ val' i = Some (pk_v pk ++ repeat (n0 N) (Z.to_nat (W - dlen dr i))) /\
    pick_ok N rng nsamp nlen srs y P dr i (ms i) pk;
  uh_mask : forall i s t, 0 <= i < nshp ->
    mcell (ms i) s t = true <-> mcell m0 s t = true /\
      forall j pk, 0 <= j < i -> pks j = Some pk -> dnorm dr j = dnorm dr i -> ddil dr j = ddil dr i ->
        forall ml, is_min_len dr i ml ->
        ~ (s = pk_sample pk /\ masked_at (pk_index pk) (ddil dr i) (nlen s) (alpha_size N (g_alpha P) (dlen dr j) ml) t)
}.

Lemma set_slice_prefix (v : list F) l : 0 <= l <= W -> zlen v = l ->
  set_slice (repeat (n0 N) (Z.to_nat W)) 0 l v = Ok (v ++ repeat (n0 N) (Z.to_nat (W - l))).
Proof.
  intros Hl Hv. rewrite set_slice_ok; [|lia|rewrite zlen_repeat; lia|lia]. cbn [firstn Z.to_nat app].
  do 2 f_equal. replace (Z.to_nat W) with (Z.to_nat l + Z.to_nat (W - l))%nat by lia. rewrite repeat_app.
  rewrite skipn_app, repeat_length, Nat.sub_diag. cbn [skipn]. rewrite skipn_all2 by (rewrite repeat_length; lia). reflexivity.
Qed.

Lemma u_run_history_run M' thr' val' :
  foldM (u_step rs localG dr) sched (mask0, (thr0, val0)) = Ok (M', (thr', val')) ->
  exists ms pks, u_history thr' val' ms pks /\
    forall i, 0 <= i < nshp -> exists g m', In (g, i) sched /\ mask_ok nsamp wd (ms i) /\ with_rs rs localG (g, i) (ms i) = Ok (m', pks i).
Proof.
  intros H. unfold u_step in H. destruct HW as [W1 W2].
  destruct (run_cells (dnorm dr) (with_rs rs localG) u_put (mask_ok nsamp wd) (fun m c => mcell m (fst c) (snd c)) blockedU (dr_dil dr) sched HS)
    with (M := mask0) (o := (thr0, val0)) (M' := M') (o' := (thr', val')) (m0 := m0) as (tr & T1 & T2 & T3);
    [intros; eapply local_cells; eauto|exact Hm0|apply mask0_event|exact H|].
  pose proof (sched_shp_NoDup _ _ HS) as HN. rewrite <- T1 in HN.
  assert (HF : Forall (fun t => 0 <= snd (ev t)) tr).
  { apply Forall_forall. intros t Ht. assert (He : In (ev t) sched) by (rewrite <- T1; apply in_map; exact Ht).
    destruct (ev t) as [g i]. apply (sched_event _ _ g i HS) in He. cbn. lia. }
  destruct (puts_u tr (thr0, val0) (thr', val') HN HF T2) as (B1 & B2 & B3). cbn [fst snd] in *.
  assert (Z1 : zlen thr0 = nshp) by (unfold thr0; rewrite zlen_repeat; pose proof (zlen_nonneg (dr_len dr)); lia).
  assert (Z2 : zlen val0 = nshp) by (unfold val0; rewrite zlen_repeat; pose proof (zlen_nonneg (dr_len dr)); lia).
  assert (N1 : forall i, 0 <= i < nshp -> nthZ thr0 i = Some (n0 N)) by (intros i Hi; apply nthZ_repeat; lia).
  assert (N2 : forall i, 0 <= i < nshp -> nthZ val0 i = Some (repeat (n0 N) (Z.to_nat W))) by (intros i Hi; apply nthZ_repeat; lia).
  exists (fun i => match entry_at tr i with Some t => snd (fst t) | None => m0 end),
         (fun i => match entry_at tr i with Some t => snd t | None => None end).
  split; [|intros i Hi; destruct (entry_at_ex (dr_dil dr) sched HS tr i T1 ltac:(lia)) as (g & t & Ht & Et & Hs); destruct t as [[e m] w]; unfold ev in Et; cbn [fst] in Et; subst e;
    destruct (T3 i _ Ht) as (A & (m' & B) & _); unfold ev in B; cbn [fst snd] in A, B; rewrite Ht; cbn [fst snd]; exists g, m'; auto].
  assert (HE : forall i, 0 <= i < nshp -> exists g m w, entry_at tr i = Some (g, i, m, w) /\ In (g, i) sched /\
     exists m', ok (g, i) m m' w).
  { intros i Hi. destruct (entry_at_ex (dr_dil dr) sched HS tr i T1 ltac:(lia)) as (g & t & Ht & Et & Hs).
    destruct t as [[e m] w]. unfold ev in Et. cbn [fst] in Et. subst e. exists g, m, w. split; [exact Ht|]. split; [exact Hs|].
    destruct (T3 i _ Ht) as (A & (m' & B) & _). unfold ev in B. cbn [fst snd] in A, B. unfold with_rs in B. apply bind_inv in B as (r & Br & B).
    exists m'. pose proof (Hloc (g, i) m _ r Hs A Br) as HO. assert (E : fst r = (m', w)) by congruence. rewrite E in HO. exact HO. }
  split.
  - congruence.
  - congruence.
  - intros i Hi. destruct (HE i Hi) as (g & m & w & Et & Hs & m' & HO). specialize (B3 i). rewrite Et in B3. rewrite Et. cbn [fst snd]. intros ->.
    destruct B3 as [B3 B4]. rewrite B3, B4. split; [apply N1; exact Hi|]. split; [apply N2; exact Hi|]. destruct HO as (_ & _ & HO). exact HO.
  - intros i pk Hi. destruct (HE i Hi) as (g & m & w & Et & Hs & m' & HO). specialize (B3 i). rewrite Et in B3. rewrite Et. cbn [fst snd]. intros ->.
    destruct B3 as (B3 & r & r' & B4 & B5 & B6). split; [exact B3|]. destruct HO as (_ & _ & HO). cbn [snd] in HO. split; [|exact HO].
    rewrite N2 in B4 by exact Hi. assert (r = repeat (n0 N) (Z.to_nat W)) by congruence. subst r.
    destruct HO as (_ & Hl & Hv & _). rewrite Hl in B5. pose proof (HWl i Hi).
    rewrite set_slice_prefix in B5; [congruence|exact (HWl i Hi)|]. rewrite Hv, (zlen_seen N), zlen_window; lia.
  - intros i s t Hi. destruct (HE i Hi) as (g & m & w & Et & Hs & _). destruct (T3 i _ Et) as (_ & _ & HC). rewrite Et. cbn [fst snd] in *.
    rewrite (HC (s, t)). cbn [fst snd]. split; intros [X1 X2]; (split; [exact X1|]).
    + intros j pk Hj Hpk Hnm Hd ml Hml. destruct (HE j ltac:(lia)) as (g' & mj & w' & Etj & Hsj & _). rewrite Etj in Hpk. cbn [snd] in Hpk. subst w'.
      specialize (X2 j _ Etj ltac:(lia) Hnm). unfold ev in X2. cbn [fst snd blockedU] in X2.
      rewrite <- Hd. assert (Eg : gmin dr g' = ml). { eapply (min_len_unique dr i); [|exact Hml]. eapply is_min_len_dil; [exact Hd|]. apply (gmin_min dr sched); assumption. }
      rewrite <- Eg. apply X2. unfold ddil in Hd. rewrite !(nthZ_nthd 0) by lia. congruence.
    + intros j t' Hj Hlt Hnm Hd. destruct t' as [[e' mj] [pk|]]; [|cbn; tauto]. pose proof (entry_at_some tr j _ Hj) as [Hin Hej]. unfold ev in Hej. cbn [fst snd] in Hej.
      assert (He' : In e' sched) by (rewrite <- T1; apply in_map_iff; exists (e', mj, Some pk); split; [reflexivity|exact Hin]).
      destruct e' as [g' j']. cbn [snd] in Hej. subst j'. destruct (sched_event _ _ g' j HS He') as [_ Rj].
      assert (Hdd : ddil dr j = ddil dr i) by (unfold ddil, nthd; rewrite Hd; reflexivity).
      unfold ev. cbn [fst snd blockedU]. rewrite Hdd. apply (X2 j pk); [lia| |exact Hnm|exact Hdd|].
      * rewrite Hj. reflexivity.
      * eapply is_min_len_dil; [exact Hdd|]. apply (gmin_min dr sched); assumption.
Qed.

Lemma u_run_history M' thr' val' :
  foldM (u_step rs localG dr) sched (mask0, (thr0, val0)) = Ok (M', (thr', val')) ->
  exists ms pks, u_history thr' val' ms pks.
Proof. intros H. destruct (u_run_history_run M' thr' val' H) as (ms & pks & A & _). eauto. Qed.

(** ** Totality and schedule independence *)

Lemma u_put_total e m m' w o : In e sched -> ok e m m' w -> zlen (fst o) = nshp -> zlen (snd o) = nshp ->
  (forall r, In r (snd o) -> zlen r = W) ->
  exists o', u_put (snd e) w o = Ok o' /\ zlen (fst o') = nshp /\ zlen (snd o') = nshp /\ (forall r, In r (snd o') -> zlen r = W).
Proof.
  intros He HO Z1 Z2 HR. destruct w as [pk|]; cbn [u_put]; [|exists o; auto].
  destruct e as [g i]. destruct (sched_event _ _ g i HS He) as [_ Ri]. destruct HW as [W1 W2]. cbn [snd].
  destruct HO as (_ & _ & HO). cbn [snd] in HO. destruct HO as (_ & Hl & Hv & _).
  rewrite set_ok by lia. cbn [bind]. destruct (get_ok (snd o) i ltac:(lia)) as (r & Hr & Hrn). unfold upd_at. rewrite Hr. cbn [bind].
  pose proof (HR r (nthZ_In _ _ _ Hrn)) as Hrl. pose proof (HWl i ltac:(lia)) as HWi.
  assert (Hvl : zlen (pk_v pk) = dlen dr i) by (rewrite Hv, (zlen_seen N), zlen_window; lia).
  destruct (set_slice r 0 (pk_len pk) (pk_v pk)) as [r'|] eqn:E; [|rewrite set_slice_ok in E by lia; discriminate]. cbn [bind].
  apply zlen_set_slice in E; [|lia|lia|lia]. rewrite set_ok by lia. cbn [bind].
  eexists. split; [reflexivity|]. cbn [fst snd]. rewrite !zlen_upd. split; [exact Z1|]. split; [exact Z2|].
  intros q Hq. apply In_nthZ in Hq as (k & Hk). rewrite nthZ_upd in Hk by lia. destruct (k =? i).
  - assert (q = r') by congruence. subst. lia.
  - apply HR. eapply nthZ_In; eauto.
Qed.

Lemma u_run_total : (forall e m s, In e sched -> mask_ok nsamp wd m -> exists r, localG e m s = Ok r) ->
  exists M' o', foldM (u_step rs localG dr) sched (mask0, (thr0, val0)) = Ok (M', o').
Proof.
  intros HT. unfold u_step. pose proof (zlen_nonneg (dr_len dr)) as HZ.
  destruct (run_total (dnorm dr) (with_rs rs localG) u_put (mask_ok nsamp wd)
           (fun o => zlen (fst o) = nshp /\ zlen (snd o) = nshp /\ forall r, In r (snd o) -> zlen r = W) sched mask0 (thr0, val0)) as (M' & o' & E & _).
  - apply (sched_nonneg _ _ HS).
  - cbn [fst snd]. unfold thr0, val0. rewrite !zlen_repeat. split; [lia|]. split; [lia|]. intros r Hr.
    assert (0 < nshp). { destruct (Z.eq_dec nshp 0) as [E0|]; [|lia]. rewrite E0 in Hr. destruct Hr. }
    apply repeat_spec in Hr. subst r. rewrite zlen_repeat. pose proof (HWl 0 ltac:(lia)). lia.
  - intros e m He HM. destruct (HT e m (rs (snd e)) He HM) as ([[m' w] s'] & Hr). exists m', w.
    pose proof (Hloc e m _ _ He HM Hr) as HO. cbn [fst snd] in HO. split; [unfold with_rs; rewrite Hr; reflexivity|]. split; [apply HO|].
    intros o (A & B & D). destruct (u_put_total e m m' w o He HO A B D) as (o' & E & X). eauto.
  - intros e He. exists m0. split; [apply mask0_event; exact He|exact Hm0].
  - eauto.
Qed.

End Run.

Lemma mask0_present dr m0 sched e : is_schedule (dr_dil dr) sched -> In e sched -> part (mask0 dr m0) (dnorm dr (snd e)) (fst e) = Some m0.
Proof.
  intros HS H. destruct e as [g i]. destruct (sched_event _ _ g i HS H) as [Hg _]. cbn [fst].
  unfold part, mask0. rewrite nthZ_repeat by (destruct (dnorm dr _); cbn; lia). apply nthZ_repeat. unfold zlen in *. lia.
Qed.
