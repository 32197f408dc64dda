(** Laws of the transform proved from its exact result. *)
From Coq Require Import ZArith List Bool Reals Lra Lia Permutation.
From Verif Require Import Prelude Num Kernel Spec KernelProofs CombProofs Parallel Apply ApplyProofs ApplyUni ApplyMulti
  RealBase RealProofs TransformProofs.
Import ListNotations.
Open Scope Z_scope.

(** The four kinds of transform calls: same/variable length, uni/multivariate. For the multivariate ones
    [L] is the logical content of the packed shapelets, [nf] the number of channels, [n] the (padded) width. *)
Inductive call (F : Type) : Type :=
| CallUS (X : dataset F) (s : ushp F)
| CallUV (X : dataset F) (X_len : list Z) (s : ushp F)
| CallMS (nf n : Z) (X : dataset F) (s : mshp F) (L : list (lshp F))
| CallMV (nf n : Z) (X : dataset F) (X_len : list Z) (s : mshp F) (L : list (lshp F)).
Arguments CallUS {F}. Arguments CallUV {F}. Arguments CallMS {F}. Arguments CallMV {F}.

Definition wf_call {F} (c : call F) : Prop :=
  match c with
  | CallUS X s => has_ft X /\ wf_ushp s
  | CallUV X X_len s => has_ft X /\ zlen X_len = zlen X /\ wf_ushp s
  | CallMS nf n X s L => mdata nf n X /\ packed s L /\ chan_ok L nf
  | CallMV nf n X X_len s L => mdata nf n X /\ vl_ok n X X_len /\ packed s L /\ chan_ok L nf
  end.

Definition run {F} (N : NumOps F) (c : call F) (ph : bool) : res (list (list F)) :=
  match c with
  | CallUS X s => U_SL_apply N X s ph
  | CallUV X X_len s => U_VL_apply N X X_len s ph
  | CallMS _ _ X s _ => M_SL_apply N X s ph
  | CallMV _ _ X X_len s _ => M_VL_apply N X X_len s ph
  end.

Definition tasks {F} (N : NumOps F) (c : call F) (ph : bool) : res (list (list (write F))) :=
  match c with
  | CallUS X s => U_SL_tasks N X s ph
  | CallUV X X_len s => U_VL_tasks N X X_len s ph
  | CallMS _ _ X s _ => M_SL_tasks N X s ph
  | CallMV _ _ X X_len s _ => M_VL_tasks N X X_len s ph
  end.

Definition n_samples {F} (c : call F) : Z :=
  match c with CallUS X _ => zlen X | CallUV X _ _ => zlen X | CallMS _ _ X _ _ => zlen X | CallMV _ _ X _ _ _ => zlen X end.
Definition n_shapelets {F} (c : call F) : Z :=
  match c with CallUS _ s => zlen (us_len s) | CallUV _ _ s => zlen (us_len s)
             | CallMS _ _ _ s _ => zlen (ms_len s) | CallMV _ _ _ _ s _ => zlen (ms_len s) end.

(** [D] is the vector of distances of shapelet [k] to the windows of sample [i]; the shapelet has length [l],
    [nch] channels, threshold [thr] and normalisation flag [nm]. *)
Inductive dist_of {F} (N : NumOps F) (ph : bool) : call F -> Z -> Z -> list F -> F -> Prop :=
| dist_US X s i k x sr v l d thr nm :
    nthZ X i = Some x -> nthZ x 0 = Some sr -> ushp_at s k v l d thr nm ->
    dist_of N ph (CallUS X s) i k (distances N ph nm sr v l d) thr
| dist_UV X X_len s i k sr v l d thr nm :
    real_points X X_len i sr -> ushp_at s k v l d thr nm ->
    dist_of N ph (CallUV X X_len s) i k (distances N ph nm sr v l d) thr
| dist_MS nf n X s L i k x chs vs l d thr nm :
    nthZ X i = Some x -> mshp_at s L k chs vs l d thr nm ->
    dist_of N ph (CallMS nf n X s L) i k (mdistances N ph nm n x chs vs l d) thr
| dist_MV nf n X X_len s L i ni sr k chs vs l d thr nm :
    mreal_points X X_len i ni sr -> mshp_at s L k chs vs l d thr nm ->
    dist_of N ph (CallMV nf n X X_len s L) i k (mdistances N ph nm ni sr chs vs l d) thr.

Section G.
Context {F : Type} (N : NumOps F).

Lemma call_cell c ph T i k D thr : wf_call c -> run N c ph = Ok T -> dist_of N ph c i k D thr ->
  cell3 T i k (feats N D thr).
Proof.
  intros HW HT HD. destruct HD; cbn in HW, HT.
  - destruct HW. eapply U_SL_cell; eauto.
  - destruct HW as (? & ? & ?). eapply U_VL_cell; eauto.
  - destruct HW as (? & ? & ?). eapply M_SL_cell; eauto.
  - destruct HW as (? & ? & ? & ?). eapply M_VL_cell; eauto.
Qed.

Lemma call_shape c ph T : wf_call c -> run N c ph = Ok T -> shape T (n_samples c) (3 * n_shapelets c).
Proof.
  destruct c; cbn; intros HW HT.
  - destruct HW. eapply U_SL_shape; eauto.
  - destruct HW as (? & ? & ?). eapply U_VL_shape; eauto.
  - destruct HW as (? & ? & ?). eapply M_SL_shape; eauto.
  - destruct HW as (? & ? & ? & ?). eapply M_VL_shape; eauto.
Qed.

(** every cell of the result belongs to one (sample, shapelet) pair *)
Lemma call_dist c ph i k : wf_call c -> 0 <= i < n_samples c -> 0 <= k < n_shapelets c ->
  exists D thr, dist_of N ph c i k D thr.
Proof.
  assert (HU : forall s : ushp F, wf_ushp s -> 0 <= k < zlen (us_len s) -> exists v l d thr nm, ushp_at s k v l d thr nm).
  { intros s (W1 & W2 & W3 & W4 & W5 & W6) Hk.
    destruct (nthZ_some (us_values s) k) as (v0 & E0); [lia|]. destruct (nthZ_some (us_len s) k) as (l & E1); [lia|].
    destruct (nthZ_some (us_dil s) k) as (d & E2); [lia|]. destruct (nthZ_some (us_thr s) k) as (t & E3); [lia|].
    destruct (nthZ_some (us_norm s) k) as (b & E4); [lia|]. exists (slice v0 0 l), l, d, t, b. repeat split; eauto. }
  assert (HM : forall (s : mshp F) L, packed s L -> 0 <= k < zlen (ms_len s) -> exists chs vs l d thr nm, mshp_at s L k chs vs l d thr nm).
  { intros s L (P1 & P2 & P3 & P4 & P5 & P6 & P7 & P8 & P9) Hk.
    destruct (nthZ_some L k) as ((chs, vs) & E0); [lia|]. destruct (nthZ_some (ms_len s) k) as (l & E1); [lia|].
    destruct (nthZ_some (ms_dil s) k) as (d & E2); [lia|]. destruct (nthZ_some (ms_thr s) k) as (t & E3); [lia|].
    destruct (nthZ_some (ms_norm s) k) as (b & E4); [lia|]. exists chs, vs, l, d, t, b. repeat split; eauto. }
  destruct c; cbn; intros HW Hi Hk.
  - destruct HW as [H1 H2]. destruct (HU s H2 Hk) as (v & l & d & t & b & H).
    destruct (nthZ_some X i Hi) as (x & Ex). destruct (nthZ_some x 0) as (sr & Er).
    { specialize (H1 x (nthZ_In _ _ _ Ex)). destruct x; [congruence|]. rewrite zlen_cons. pose proof (zlen_nonneg x). lia. }
    eexists _, _. eapply dist_US; eauto.
  - destruct HW as (H1 & H3 & H2). destruct (HU s H2 Hk) as (v & l & d & t & b & H).
    destruct (nthZ_some X i Hi) as (x & Ex). destruct (nthZ_some x 0) as (sr & Er).
    { specialize (H1 x (nthZ_In _ _ _ Ex)). destruct x; [congruence|]. rewrite zlen_cons. pose proof (zlen_nonneg x). lia. }
    destruct (nthZ_some X_len i) as (n & En); [lia|].
    eexists _, _. eapply dist_UV; [|exact H]. exists x, sr, n. eauto.
  - destruct HW as (H1 & H2 & H3). destruct (HM s L H2 Hk) as (chs & vs & l & d & t & b & H).
    destruct (nthZ_some X i Hi) as (x & Ex). eexists _, _. eapply dist_MS; eauto.
  - destruct HW as (H1 & H2 & H3 & H4). destruct (HM s L H3 Hk) as (chs & vs & l & d & t & b & H).
    destruct (nthZ_some X i Hi) as (x & Ex). destruct H2 as [H2 _]. destruct (nthZ_some X_len i) as (ni & En); [lia|].
    eexists _, _. eapply (dist_MV N ph nf n X X_len s L i ni _ k); [|exact H]. exists x. eauto.
Qed.

(** ** C12: schedules *)
Lemma call_par c ph T : wf_call c -> run N c ph = Ok T ->
  exists ts, tasks N c ph = Ok ts /\ NoDup (cells (concat ts)) /\
    forall out, interleave ts out -> run_writes out (X_new0 N (n_samples c) (n_shapelets c)) = Ok T.
Proof.
  destruct c; cbn; intros HW HT.
  - destruct HW as [H1 H2]. destruct (U_SL_iff N X s ph H1 H2) as [[Hf E]|[_ E]]; rewrite E in HT; [|discriminate].
    injection HT as <-. apply U_SL_par; assumption.
  - destruct HW as (H1 & H2 & H3). destruct (U_VL_iff N X X_len s ph H1 H2 H3) as [[Hf E]|[_ E]]; rewrite E in HT; [|discriminate].
    injection HT as <-. apply U_VL_par; assumption.
  - destruct HW as (H1 & H2 & H3). destruct (M_SL_iff N X nf n s L ph H1 H2 H3) as [[Hf E]|[_ E]]; rewrite E in HT; [|discriminate].
    injection HT as <-. destruct Hf as [->|Hf]; [|apply (M_SL_par N X nf); assumption].
    pose proof (mtasks_ok N (fun _ => []) (fun _ => n) (get []) ph s L 0) as HH. unfold mtasks in HH.
    apply HH; auto; lia.
  - destruct HW as (H1 & H2 & H3 & H4). destruct (M_VL_iff N X X_len nf n s L ph H1 H2 H3 H4) as [[Hf E]|[_ E]]; rewrite E in HT; [|discriminate].
    injection HT as <-. apply (M_VL_par N X X_len nf n); assumption.
Qed.

(** ** C11: padding *)

Lemma real_points_all (X : dataset F) X_len i : has_ft X -> zlen X_len = zlen X -> 0 <= i < zlen X ->
  real_points X X_len i (ser_vl X X_len i).
Proof.
  intros HX HL Hi. destruct (nthZ_some X i Hi) as (x & Ex). destruct (nthZ_some x 0) as (r & Er).
  { specialize (HX x (nthZ_In _ _ _ Ex)). destruct x; [congruence|]. rewrite zlen_cons. pose proof (zlen_nonneg x). lia. }
  destruct (nthZ_some X_len i) as (n & En); [lia|]. exists x, r, n. repeat split; auto.
  unfold ser_vl. rewrite (nthd_some [] X i x Ex), (nthd_some [] x 0 r Er), (nthd_some 0 X_len i n En). reflexivity.
Qed.

Lemma U_VL_as_SL X X_len s ph T i sr : has_ft X -> zlen X_len = zlen X -> wf_ushp s ->
  U_VL_apply N X X_len s ph = Ok T -> real_points X X_len i sr ->
  exists row, nthZ T i = Some row /\ U_SL_apply N [[sr]] s ph = Ok [row].
Proof.
  intros HX HL HW HT Hr. apply real_points_ser in Hr as [Es Hi].
  destruct (U_VL_iff N X X_len s ph HX HL HW) as [[Hf E]|[_ E]]; rewrite E in HT; [|discriminate].
  injection HT as <-. exists (u_row N ph s sr). split.
  - rewrite nthZ_u_result by exact Hi. rewrite Es. reflexivity.
  - rewrite (U_SL_ok N [[sr]] s ph); auto.
    + intros x [<-|[]]. discriminate.
    + intros j Hj. change (zlen [[sr]]) with 1 in Hj. assert (j = 0) by lia. subst j.
      change (ser [[sr]] 0) with sr. rewrite <- Es. apply Hf. exact Hi.
Qed.

Lemma U_VL_ext X X_len X' X_len' s ph : has_ft X -> zlen X_len = zlen X -> has_ft X' -> zlen X_len' = zlen X' -> wf_ushp s ->
  zlen X = zlen X' -> (forall i, 0 <= i < zlen X -> ser_vl X X_len i = ser_vl X' X_len' i) ->
  U_VL_apply N X X_len s ph = U_VL_apply N X' X_len' s ph.
Proof.
  intros HX HL HX' HL' HW E Hs.
  destruct (U_VL_iff N X X_len s ph HX HL HW) as [[Hf E1]|[(i & Hi & Hnf) E1]]; rewrite E1.
  - rewrite (U_VL_ok N X' X_len' s ph); auto.
    + f_equal. unfold u_result. rewrite <- E. apply map_ext_in. intros i Hi. apply in_zrange in Hi. rewrite Hs by exact Hi. reflexivity.
    + intros i Hi. rewrite <- Hs by lia. apply Hf. lia.
  - symmetry. apply (U_VL_err N X' X_len' s ph); auto. exists i. split; [lia|]. rewrite <- Hs by exact Hi. exact Hnf.
Qed.

Lemma mreal_points_all (X : dataset F) X_len i : zlen X_len = zlen X -> 0 <= i < zlen X ->
  mreal_points X X_len i (nthd 0 X_len i) (mser_vl X X_len i).
Proof.
  intros HL Hi. destruct (nthZ_some X i Hi) as (x & Ex). destruct (nthZ_some X_len i) as (n & En); [lia|].
  exists x. unfold mser_vl. rewrite (nthd_some [] X i x Ex), (nthd_some 0 X_len i n En). auto.
Qed.

Lemma M_VL_as_SL X X_len nf n s L ph T i ni sr : mdata nf n X -> vl_ok n X X_len -> packed s L -> chan_ok L nf ->
  M_VL_apply N X X_len s ph = Ok T -> mreal_points X X_len i ni sr ->
  exists row, nthZ T i = Some row /\ M_SL_apply N [sr] s ph = Ok [row].
Proof.
  intros HX HV HP HC HT Hr. apply mreal_points_ser in Hr as (Es & En & Hi).
  destruct (M_VL_iff N X X_len nf n s L ph HX HV HP HC) as [[Hf E]|[_ E]]; rewrite E in HT; [|discriminate].
  injection HT as <-. exists (m_row N ph s L ni sr). split.
  - rewrite nthZ_m_result by exact Hi. rewrite Es, En. reflexivity.
  - destruct (mser_vl_at nf n X X_len i HX HV Hi) as (A1 & A2 & A3 & A4 & A5). rewrite Es, En in *.
    rewrite (M_SL_ok N [sr] nf ni s L ph); auto.
    + destruct HX as (H1 & _). split; [exact H1|]. split; [exact A5|]. intros x [<-|[]]. split; assumption.
    + rewrite <- En. apply Hf. exact Hi.
Qed.

Lemma M_VL_ext X X_len n X' X_len' n' nf s L ph : mdata nf n X -> vl_ok n X X_len -> mdata nf n' X' -> vl_ok n' X' X_len' ->
  packed s L -> chan_ok L nf -> zlen X = zlen X' ->
  (forall i, 0 <= i < zlen X -> mser_vl X X_len i = mser_vl X' X_len' i /\ nthd 0 X_len i = nthd 0 X_len' i) ->
  M_VL_apply N X X_len s ph = M_VL_apply N X' X_len' s ph.
Proof.
  intros HX HV HX' HV' HP HC E Hs.
  destruct (M_VL_iff N X X_len nf n s L ph HX HV HP HC) as [[Hf E1]|[(i & Hi & Hnf) E1]]; rewrite E1.
  - rewrite (M_VL_ok N X' X_len' nf n' s L ph); auto.
    + f_equal. unfold m_result. rewrite <- E. apply map_ext_in. intros i Hi. apply in_zrange in Hi.
      destruct (Hs i Hi) as [-> ->]. reflexivity.
    + intros i Hi. destruct (Hs i ltac:(lia)) as [_ <-]. apply Hf. lia.
  - symmetry. apply (M_VL_err N X' X_len' nf n' s L ph); auto. exists i. split; [lia|].
    destruct (Hs i Hi) as [_ <-]. exact Hnf.
Qed.

(** ** C13: batches *)

(** [sub] is the selection of [l] at the indices [sel] *)
Definition picked {A} (l : list A) (sel : list Z) (sub : list A) : Prop :=
  Forall2 (fun i x => nthZ l i = Some x) sel sub.

Lemma picked_map {A B} (f : A -> B) l sel sub : picked l sel sub -> picked (map f l) sel (map f sub).
Proof. induction 1; constructor; auto. rewrite nthZ_map, H. reflexivity. Qed.

Lemma picked_In {A} (l : list A) sel sub x : picked l sel sub -> In x sub -> In x l.
Proof. induction 1; intros Hx; [destruct Hx|]. destruct Hx as [<-|Hx]; [eapply nthZ_In; eauto|auto]. Qed.

Lemma picked_nth {A} (l : list A) sel sub j x : picked l sel sub -> nthZ sub j = Some x ->
  exists i, nthZ sel j = Some i /\ nthZ l i = Some x.
Proof.
  intros H. revert j. induction H as [|i y sel' sub' Hy H IH]; intros j Hj.
  - unfold nthZ in Hj. destruct (j <? 0); [discriminate|]. destruct (Z.to_nat j); discriminate.
  - rewrite nthZ_cons in Hj. rewrite nthZ_cons. destruct (Z.eqb_spec j 0).
    + injection Hj as <-. eauto.
    + apply IH. exact Hj.
Qed.

Lemma U_SL_select X s ph T sel X' : has_ft X -> wf_ushp s -> U_SL_apply N X s ph = Ok T -> picked X sel X' ->
  exists T', U_SL_apply N X' s ph = Ok T' /\ picked T sel T'.
Proof.
  intros HX HW HT HP. destruct (U_SL_iff N X s ph HX HW) as [[Hf E]|[_ E]]; rewrite E in HT; [|discriminate].
  injection HT as <-. eexists. split; [apply U_SL_ok; auto|].
  - intros x Hx. apply HX. eapply picked_In; eauto.
  - intros j Hj. destruct (nthZ_some X' j Hj) as (x & Ex). destruct (picked_nth _ _ _ _ _ HP Ex) as (i & Ei & Exi).
    specialize (Hf i (nthZ_range _ _ _ Exi)). unfold ser in *.
    rewrite (nthd_some [] X i x Exi) in Hf. rewrite (nthd_some [] X' j x Ex). exact Hf.
  - apply picked_map. exact HP.
Qed.

Lemma U_VL_select X X_len s ph T sel X' X_len' : has_ft X -> zlen X_len = zlen X -> has_ft X' -> zlen X_len' = zlen X' ->
  wf_ushp s -> U_VL_apply N X X_len s ph = Ok T -> zlen sel = zlen X' ->
  (forall j i, nthZ sel j = Some i -> exists sr, real_points X X_len i sr /\ real_points X' X_len' j sr) ->
  exists T', U_VL_apply N X' X_len' s ph = Ok T' /\ picked T sel T'.
Proof.
  intros HX HL HX' HL' HW HT Hsel Hs.
  destruct (U_VL_iff N X X_len s ph HX HL HW) as [[Hf E]|[_ E]]; rewrite E in HT; [|discriminate].
  injection HT as <-.
  assert (Hs' : forall j i, nthZ sel j = Some i -> ser_vl X X_len i = ser_vl X' X_len' j /\ 0 <= i < zlen X /\ 0 <= j < zlen X').
  { intros j i H. destruct (Hs j i H) as (sr & A & B). apply real_points_ser in A as [A1 A2], B as [B1 B2]. split; [congruence|]. split; assumption. }
  eexists. split; [apply U_VL_ok; auto|].
  - intros j Hj. destruct (nthZ_some sel j) as (i & Ei); [lia|]. destruct (Hs' j i Ei) as (<- & Hi & _). apply Hf. exact Hi.
  - unfold picked, u_result.
    assert (G : forall sel0 j0, (forall j i, nthZ sel0 j = Some i -> ser_vl X X_len i = ser_vl X' X_len' (j0 + j) /\ 0 <= i < zlen X) ->
      Forall2 (fun i x => nthZ (map (fun i => u_row N ph s (ser_vl X X_len i)) (zrange 0 (zlen X))) i = Some x) sel0
        (map (fun i => u_row N ph s (ser_vl X' X_len' i)) (zrange j0 (j0 + zlen sel0)))).
    { induction sel0 as [|i r IH]; intros j0 HH.
      - change (zlen (@nil Z)) with 0. rewrite (zrange_empty j0) by lia. constructor.
      - rewrite zlen_cons. pose proof (zlen_nonneg r). rewrite (zrange_cons j0) by lia. cbn [map]. constructor.
        + destruct (HH 0 i eq_refl) as (E1 & Hi). rewrite nthZ_map, nthZ_zrange by lia. cbn [option_map].
          rewrite Z.add_0_l, E1, Z.add_0_r. reflexivity.
        + replace (j0 + (zlen r + 1)) with (j0 + 1 + zlen r) by lia. apply IH. intros j i' Hj.
          pose proof (nthZ_range _ _ _ Hj).
          replace (j0 + 1 + j) with (j0 + (j + 1)) by lia. apply HH. rewrite nthZ_cons.
          destruct (Z.eqb_spec (j + 1) 0); [lia|]. replace (j + 1 - 1) with j by lia. exact Hj. }
    rewrite <- Hsel. apply (G sel 0). intros j i Hj. destruct (Hs' j i Hj) as (A & B & C). split; assumption.
Qed.

Lemma M_SL_select X nf n s L ph T sel X' : mdata nf n X -> packed s L -> chan_ok L nf -> M_SL_apply N X s ph = Ok T ->
  picked X sel X' -> exists T', M_SL_apply N X' s ph = Ok T' /\ picked T sel T'.
Proof.
  intros HX HP HC HT HS. destruct (M_SL_iff N X nf n s L ph HX HP HC) as [[Hf E]|[_ E]]; rewrite E in HT; [|discriminate].
  injection HT as <-.
  assert (HX' : mdata nf n X').
  { destruct HX as (H1 & H2 & H3). split; [exact H1|]. split; [exact H2|]. intros x Hx. apply H3. eapply picked_In; eauto. }
  destruct (M_SL_iff N X' nf n s L ph HX' HP HC) as [[Hf' E']|[[Hne Hf'] E']].
  - eexists. split; [exact E'|]. apply picked_map. exact HS.
  - exfalso. destruct Hf as [->|Hf]; [|contradiction]. destruct X' as [|x X']; [congruence|]. inversion HS; subst.
    unfold nthZ in *. destruct (x0 <? 0); [discriminate|]. destruct (Z.to_nat x0); discriminate.
Qed.

Lemma M_VL_select X X_len nf n s L ph T sel X' X_len' n' : mdata nf n X -> vl_ok n X X_len -> mdata nf n' X' -> vl_ok n' X' X_len' ->
  packed s L -> chan_ok L nf -> M_VL_apply N X X_len s ph = Ok T -> zlen sel = zlen X' ->
  (forall j i, nthZ sel j = Some i -> exists ni sr, mreal_points X X_len i ni sr /\ mreal_points X' X_len' j ni sr) ->
  exists T', M_VL_apply N X' X_len' s ph = Ok T' /\ picked T sel T'.
Proof.
  intros HX HV HX' HV' HP HC HT Hsel Hs.
  destruct (M_VL_iff N X X_len nf n s L ph HX HV HP HC) as [[Hf E]|[_ E]]; rewrite E in HT; [|discriminate].
  injection HT as <-.
  assert (Hs' : forall j i, nthZ sel j = Some i -> (mser_vl X X_len i = mser_vl X' X_len' j /\ nthd 0 X_len i = nthd 0 X_len' j) /\ 0 <= i < zlen X).
  { intros j i H. destruct (Hs j i H) as (ni & sr & A & B). apply mreal_points_ser in A as (A1 & A2 & A3), B as (B1 & B2 & B3).
    split; [split; congruence|]. exact A3. }
  eexists. split; [apply (M_VL_ok N X' X_len' nf n' s L); auto|].
  - intros j Hj. destruct (nthZ_some sel j) as (i & Ei); [lia|]. destruct (Hs' j i Ei) as ((_ & <-) & Hi). apply Hf. exact Hi.
  - unfold picked, m_result.
    assert (G : forall sel0 j0, (forall j i, nthZ sel0 j = Some i -> (mser_vl X X_len i = mser_vl X' X_len' (j0 + j) /\ nthd 0 X_len i = nthd 0 X_len' (j0 + j)) /\ 0 <= i < zlen X) ->
      Forall2 (fun i x => nthZ (map (fun i => m_row N ph s L (nthd 0 X_len i) (mser_vl X X_len i)) (zrange 0 (zlen X))) i = Some x) sel0
        (map (fun i => m_row N ph s L (nthd 0 X_len' i) (mser_vl X' X_len' i)) (zrange j0 (j0 + zlen sel0)))).
    { induction sel0 as [|i r IH]; intros j0 HH.
      - change (zlen (@nil Z)) with 0. rewrite (zrange_empty j0) by lia. constructor.
      - rewrite zlen_cons. pose proof (zlen_nonneg r). rewrite (zrange_cons j0) by lia. cbn [map]. constructor.
        + destruct (HH 0 i eq_refl) as ((E1 & E2) & Hi). rewrite nthZ_map, nthZ_zrange by lia. cbn [option_map].
          rewrite Z.add_0_l, E1, E2, Z.add_0_r. reflexivity.
        + replace (j0 + (zlen r + 1)) with (j0 + 1 + zlen r) by lia. apply IH. intros j i' Hj.
          pose proof (nthZ_range _ _ _ Hj).
          replace (j0 + 1 + j) with (j0 + (j + 1)) by lia. apply HH. rewrite nthZ_cons.
          destruct (Z.eqb_spec (j + 1) 0); [lia|]. replace (j + 1 - 1) with j by lia. exact Hj. }
    rewrite <- Hsel. apply (G sel 0). intros j i Hj. apply Hs'. exact Hj.
Qed.

(** ** C15 *)

Lemma dist_vector_distances x v l d nm ph : fits ph (zlen x) l d -> l <= zlen v ->
  compute_shapelet_dist_vector N x v l d nm ph = Ok (distances N ph nm x v l d).
Proof. intros H1 H2. rewrite compute_dist_vector_ok by assumption. rewrite dists_distances. reflexivity. Qed.

(** ** C14 *)

Lemma m_tr_u_tr ph s m vals n x k : wf_ushp s ->
  (forall y z, nadd N (n0 N) (l1 N y z) = l1 N y z) ->
  vals = map (fun k => slice (nthd [] (us_values s) k) 0 (nthd 0 (us_len s) k)) (zrange 0 (zlen (us_len s))) ->
  ms_len m = us_len s -> ms_dil m = us_dil s -> ms_thr m = us_thr s -> ms_norm m = us_norm s ->
  zlen (nthd [] x 0) = n -> 0 <= k < zlen (us_len s) ->
  m_tr N ph m (map (fun v => ([0], [v])) vals) n x k = u_tr N ph s (nthd [] x 0) k.
Proof.
  intros HW H0 -> E1 E2 E3 E4 Hn Hk. unfold m_tr, u_tr. rewrite E1, E2, E3, E4.
  assert (E : nthd ([], []) (map (fun v => ([0], [v])) (map (fun k => slice (nthd [] (us_values s) k) 0 (nthd 0 (us_len s) k)) (zrange 0 (zlen (us_len s))))) k
     = ([0], [slice (nthd [] (us_values s) k) 0 (nthd 0 (us_len s) k)])).
  { apply nthd_some. rewrite !nthZ_map, nthZ_zrange by lia. reflexivity. }
  rewrite E. cbn [fst snd]. f_equal. unfold mdistances, distances. rewrite Hn. apply map_ext. intros i.
  cbn [combine map]. unfold sumF. cbn [fold_left fst snd]. apply H0.
Qed.

End G.

Lemma R_add0 y z : nadd RN (n0 RN) (l1 RN y z) = l1 RN y z.
Proof. cbn [nadd n0 RN]. ring. Qed.

(** ** Laws of features over the reals *)

Lemma features_ranges ds thr m a c : (forall x, In x ds -> (0 <= x)%R) -> is_features RN ds thr (m, a, c) -> ds <> [] ->
  (0 <= m)%R /\ (exists k, a = IZR k /\ 0 <= k < zlen ds) /\ (exists n, c = IZR n /\ 0 <= n <= zlen ds) /\
  ((1 <= c)%R <-> (m <= thr)%R).
Proof.
  intros Hnn [(E & _)|(k & H1 & -> & H2 & H3 & ->)] Hne; [congruence|].
  split; [apply Hnn; eapply nthZ_In; eauto|]. split; [exists k; split; [reflexivity|eapply nthZ_range; eauto]|].
  assert (Hle : zlen (filter (fun x => nleb RN x thr) ds) <= zlen ds).
  { clear. induction ds as [|y t IH]; [reflexivity|]. cbn [filter]. destruct (nleb RN y thr); rewrite !zlen_cons; lia. }
  split; [eexists; split; [reflexivity|]; split; [apply zlen_nonneg|exact Hle]|].
  cbn [nofZ RN]. split; intros H.
  - apply le_IZR in H. destruct (filter (fun x => nleb RN x thr) ds) as [|y t] eqn:Ef.
    + change (zlen (@nil R)) with 0 in H. lia.
    + assert (Hy : In y (filter (fun x => nleb RN x thr) ds)) by (rewrite Ef; simpl; auto).
      apply filter_In in Hy as [Hy Hy']. apply Rleb_true in Hy'. destruct (In_nthZ _ _ Hy) as (i & Ei).
      specialize (H2 i y Ei). apply Rleb_true in H2. lra.
  - apply IZR_le. assert (Hm : In m (filter (fun x => nleb RN x thr) ds)).
    { apply filter_In. split; [eapply nthZ_In; eauto|]. apply Rleb_true. exact H. }
    destruct (filter (fun x => nleb RN x thr) ds) as [|y t]; [destruct Hm|]. rewrite zlen_cons. pose proof (zlen_nonneg t). lia.
Qed.

Lemma filter_le_mono ds thr thr' : (thr <= thr')%R ->
  zlen (filter (fun x => nleb RN x thr) ds) <= zlen (filter (fun x => nleb RN x thr') ds).
Proof.
  intros H. induction ds as [|x t IH]; [simpl; lia|]. cbn [filter].
  destruct (nleb RN x thr) eqn:E1, (nleb RN x thr') eqn:E2; rewrite ?zlen_cons; try lia.
  apply Rleb_true in E1. apply Rleb_false in E2. lra.
Qed.

Lemma features_threshold ds thr thr' m a c m' a' c' :
  is_features RN ds thr (m, a, c) -> is_features RN ds thr' (m', a', c') ->
  m = m' /\ a = a' /\ ((thr <= thr')%R -> (c <= c')%R).
Proof.
  intros H H'.
  assert (G : is_features RN ds thr (m', a', nofZ RN (zlen (filter (fun x => nleb RN x thr) ds)))).
  { destruct H' as [(E & -> & -> & ->)|(k & H1 & H2 & H3 & H4 & H5)].
    - left. subst. repeat split; reflexivity.
    - right. exists k. repeat split; assumption. }
  pose proof (is_features_unique _ _ _ _ H G) as E. injection E as -> -> ->. split; [reflexivity|]. split; [reflexivity|].
  intros Hle. destruct H' as [(-> & _ & _ & ->)|(k & _ & _ & _ & _ & ->)].
  - cbn. lra.
  - cbn [nofZ RN]. apply IZR_le. apply filter_le_mono. exact Hle.
Qed.

(** ** C16 *)

Lemma l1_self x : l1 RN x x = 0%R.
Proof. rewrite l1_l1s by lia. apply l1s_zero; reflexivity. Qed.

Lemma features_self ds thr i : (forall x, In x ds -> (0 <= x)%R) -> nthZ ds i = Some 0%R ->
  forall m a c, is_features RN ds thr (m, a, c) -> m = 0%R /\ exists k, a = IZR k /\ 0 <= k <= i.
Proof.
  intros Hnn Hi m a c [(-> & _)|(k & H1 & -> & H2 & H3 & ->)].
  - unfold nthZ in Hi. destruct (i <? 0); [discriminate|]. destruct (Z.to_nat i); discriminate.
  - assert (m = 0%R).
    { specialize (H2 i 0%R Hi). apply Rleb_true in H2. specialize (Hnn m (nthZ_In _ _ _ H1)). lra. }
    subst m. split; [reflexivity|]. exists k. split; [reflexivity|]. pose proof (nthZ_range _ _ _ H1).
    destruct (Z.le_gt_cases k i); [lia|]. specialize (H3 i 0%R Hi ltac:(lia)). apply Rltb_true in H3. lra.
Qed.

(** ** C17: rotation *)

Definition rotated {A} (r : Z) (x x' : list A) : Prop :=
  zlen x' = zlen x /\ forall i, 0 <= i < zlen x -> nthZ x' i = nthZ x ((i + r) mod zlen x).

Lemma pt_rotated {F} (N : NumOps F) r x x' i : rotated r x x' -> 0 <= i < zlen x ->
  pt N x' i = pt N x ((i + r) mod zlen x).
Proof. intros [E H] Hi. unfold pt, nthd. rewrite H by exact Hi. reflexivity. Qed.

Lemma window_rotated {F} (N : NumOps F) r x x' l d i : rotated r x x' -> 0 < zlen x ->
  window N true x' l d i = window N true x l d ((i + r) mod zlen x).
Proof.
  intros H Hn. pose proof H as [E _]. unfold window. apply map_ext. intros j. rewrite E. unfold pos.
  rewrite (pt_rotated N r x x' _ H) by (apply Z.mod_pos_bound; exact Hn). f_equal.
  rewrite !Zplus_mod_idemp_l. f_equal. lia.
Qed.

Lemma distances_rotated {F} (N : NumOps F) r x x' nm v l d : rotated r x x' ->
  rotated r (distances N true nm x v l d) (distances N true nm x' v l d).
Proof.
  intros H. pose proof H as [E _]. pose proof (zlen_nonneg x). unfold rotated, distances, nwin. rewrite !zlen_map, !zlen_zrange, E.
  replace (Z.max 0 (zlen x - 0)) with (zlen x) by lia. split; [reflexivity|]. intros i Hi.
  pose proof (Z.mod_pos_bound (i + r) (zlen x) ltac:(lia)).
  rewrite !nthZ_map, !nthZ_zrange by lia. cbn [option_map]. rewrite !Z.add_0_l.
  rewrite (window_rotated N r x x' l d i H) by lia. reflexivity.
Qed.

Lemma mdistances_rotated {F} (N : NumOps F) r n x x' nm chs vs l d : 0 <= n ->
  (forall c, In c chs -> zlen (nthd [] x c) = n /\ rotated r (nthd [] x c) (nthd [] x' c)) ->
  rotated r (mdistances N true nm n x chs vs l d) (mdistances N true nm n x' chs vs l d).
Proof.
  intros Hn H. unfold rotated, mdistances, nwin. rewrite !zlen_map, !zlen_zrange.
  replace (Z.max 0 (n - 0)) with n by lia. split; [reflexivity|]. intros i Hi.
  pose proof (Z.mod_pos_bound (i + r) n ltac:(lia)).
  rewrite !nthZ_map, !nthZ_zrange by lia. cbn [option_map]. rewrite !Z.add_0_l. do 2 f_equal.
  apply map_ext_in. intros [c v] Hc. apply in_combine_l in Hc. destruct (H c Hc) as [E HR]. cbn [fst snd].
  rewrite (window_rotated N r _ _ l d i HR) by lia. rewrite E. reflexivity.
Qed.

Lemma rotated_perm {A} r (x x' : list A) : rotated r x x' -> Permutation x' x.
Proof.
  intros [E H]. destruct x as [|d t].
  - destruct x' as [|y t']; [constructor|]. rewrite zlen_cons in E. change (zlen (@nil A)) with 0 in E. pose proof (zlen_nonneg t'). lia.
  - set (x := d :: t) in *. assert (Hn : 0 < zlen x) by (unfold x; rewrite zlen_cons; pose proof (zlen_nonneg t); lia).
    set (f := fun i => (i + r) mod zlen x).
    assert (E' : x' = map (nthd d x) (map f (zrange 0 (zlen x)))).
    { apply nthZ_ext.
      - rewrite !zlen_map, zlen_zrange. lia.
      - intros i Hi. rewrite E in Hi. rewrite H by exact Hi. rewrite !nthZ_map, nthZ_zrange by lia. cbn [option_map].
        unfold f. rewrite Z.add_0_l. apply nthZ_nthd. apply Z.mod_pos_bound. exact Hn. }
    rewrite E'. apply (perm_trans (l' := map (nthd d x) (zrange 0 (zlen x)))); [apply Permutation_map|rewrite map_nthd_zrange; apply Permutation_refl]. apply NoDup_Permutation_bis.
    + apply NoDup_nth_error. rewrite map_length, zrange_length, Z.sub_0_r. intros a b Ha Hab.
      assert (Hn' : forall q, (q < Z.to_nat (zlen x))%nat -> nth_error (map f (zrange 0 (zlen x))) q = Some (f (Z.of_nat q))).
      { intros q Hq. pose proof (nthZ_map f (zrange 0 (zlen x)) (Z.of_nat q)) as HH. rewrite nthZ_zrange in HH by lia.
        unfold nthZ in HH. destruct (Z.ltb_spec (Z.of_nat q) 0); [lia|]. rewrite Nat2Z.id in HH. exact HH. }
      destruct (Nat.lt_ge_cases b (Z.to_nat (zlen x))) as [Hb|Hb].
      * rewrite !Hn' in Hab by assumption. injection Hab as Hab. unfold f in Hab.
        assert (Z.of_nat a mod zlen x = Z.of_nat b mod zlen x).
        { replace (Z.of_nat a) with (Z.of_nat a + r - r) by lia. replace (Z.of_nat b) with (Z.of_nat b + r - r) by lia.
          rewrite Zminus_mod, (Zminus_mod (Z.of_nat b + r)), Hab. reflexivity. }
        rewrite !Z.mod_small in H0 by lia. lia.
      * rewrite (Hn' a Ha) in Hab. symmetry in Hab. assert (Hb' : nth_error (map f (zrange 0 (zlen x))) b <> None) by congruence.
        apply nth_error_Some in Hb'. rewrite map_length, zrange_length in Hb'. lia.
    + rewrite map_length. lia.
    + intros y Hy. apply in_map_iff in Hy as (i & <- & _). apply in_zrange. apply Z.mod_pos_bound. exact Hn.
Qed.

Lemma features_rotated r ds ds' thr m a c m' a' c' : rotated r ds ds' ->
  is_features RN ds thr (m, a, c) -> is_features RN ds' thr (m', a', c') -> m' = m /\ c' = c.
Proof.
  intros HR H H'. apply rotated_perm in HR.
  destruct H as [(E & -> & -> & ->)|(k & H1 & _ & H2 & _ & ->)], H' as [(E' & -> & -> & ->)|(k' & H1' & _ & H2' & _ & ->)].
  - auto.
  - exfalso. subst ds. apply Permutation_sym, Permutation_nil in HR. subst ds'.
    unfold nthZ in H1'. destruct (k' <? 0); [discriminate|]. destruct (Z.to_nat k'); discriminate.
  - exfalso. subst ds'. apply Permutation_nil in HR. subst ds.
    unfold nthZ in H1. destruct (k <? 0); [discriminate|]. destruct (Z.to_nat k); discriminate.
  - split.
    + assert (I1 : In m' ds) by (eapply Permutation_in; [exact HR|eapply nthZ_In; eauto]).
      assert (I2 : In m ds') by (eapply Permutation_in; [apply Permutation_sym; exact HR|eapply nthZ_In; eauto]).
      destruct (In_nthZ _ _ I1) as (i & Ei), (In_nthZ _ _ I2) as (j & Ej).
      specialize (H2 i m' Ei). specialize (H2' j m Ej). apply Rleb_true in H2, H2'. lra.
    + f_equal. unfold zlen. f_equal. apply Permutation_length.
      clear -HR. induction HR; cbn; try (destruct (Rleb x thr)); try (destruct (Rleb y thr)); cbn; eauto using Permutation.
Qed.

(** ** C18: offsets *)

Lemma window_shift ph (x : list R) c l d i : fits ph (zlen x) l d -> 0 <= i < nwin ph (zlen x) l d ->
  window RN ph (map (fun v => v + c)%R x) l d i = map (fun v => v + c)%R (window RN ph x l d i).
Proof.
  intros Hf Hi. unfold window. rewrite map_map, zlen_map. apply map_ext_in. intros j Hj. apply in_zrange in Hj.
  unfold pt, nthd. rewrite nthZ_map.
  rewrite (nthZ_nthd 0%R x) by (apply (window_index ph _ l d i j); assumption). reflexivity.
Qed.

Lemma distances_shift ph x c v l d : fits ph (zlen x) l d ->
  distances RN ph true (map (fun v => v + c)%R x) v l d = distances RN ph true x v l d.
Proof.
  intros Hf. unfold distances. rewrite zlen_map. apply map_ext_in. intros i Hi. apply in_zrange in Hi.
  rewrite window_shift by assumption. cbn [seen]. rewrite zscore_shift. reflexivity.
Qed.

Lemma mdistances_shift ph n x x' cs chs vs l d : fits ph n l d -> 
  (forall c, In c chs -> zlen (nthd [] x c) = n /\ nthd [] x' c = map (fun v => v + cs c)%R (nthd [] x c)) ->
  mdistances RN ph true n x' chs vs l d = mdistances RN ph true n x chs vs l d.
Proof.
  intros Hf H. unfold mdistances. apply map_ext_in. intros i Hi. apply in_zrange in Hi. f_equal. apply map_ext_in.
  intros [c v] Hc. apply in_combine_l in Hc. destruct (H c Hc) as [E E']. cbn [fst snd].
  rewrite E', window_shift by (rewrite E; assumption). cbn [seen]. rewrite zscore_shift. reflexivity.
Qed.

(** ** C19 *)

Lemma distances_bound ph x w0 l d y : 0 <= l -> zlen w0 = l ->
  In y (distances RN ph true x (zscore RN w0) l d) -> (0 <= y <= 2 * IZR l)%R.
Proof.
  intros Hl E Hy. split; [eapply distances_nonneg; eauto|]. apply in_map_iff in Hy as (i & <- & _). cbn [seen].
  eapply Rle_trans; [apply zscore_l1_bound; rewrite zlen_window by exact Hl; auto|]. rewrite zlen_window by exact Hl. lra.
Qed.

Lemma mdistances_bound ph n x chs ws l d y : 0 <= l -> (forall w, In w ws -> zlen w = l) -> zlen chs = zlen ws ->
  In y (mdistances RN ph true n x chs (map (zscore RN) ws) l d) -> (0 <= y <= 2 * IZR l * IZR (zlen chs))%R.
Proof.
  intros Hl Hw E Hy. split; [eapply mdistances_nonneg; eauto|]. apply in_map_iff in Hy as (i & <- & _). rewrite sumF_rsum.
  assert (EQ : IZR (zlen chs) = IZR (zlen (combine chs (map (zscore RN) ws)))).
  { f_equal. symmetry. apply zlen_combine. rewrite zlen_map. exact E. }
  rewrite EQ. rewrite <- rsum_map_const. apply rsum_map_le. intros [c v] Hc. cbn [fst snd seen].
  apply in_combine_r in Hc. apply in_map_iff in Hc as (w & <- & Hw'). specialize (Hw w Hw').
  eapply Rle_trans; [apply zscore_l1_bound; rewrite zlen_window by exact Hl; auto|]. rewrite zlen_window by exact Hl. lra.
Qed.
