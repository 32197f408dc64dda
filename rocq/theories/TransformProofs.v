(** Consequences of the exact results of the four transforms, cell by cell. *)
From Coq Require Import ZArith List Bool Reals Lra Lia Permutation.
From Verif Require Import Prelude Num Kernel Spec KernelProofs CombProofs Parallel Apply ApplyProofs ApplyUni ApplyMulti
  RealBase RealProofs.
Import ListNotations.
Open Scope Z_scope.

(** Shapelet [k] of a univariate set has values [v] (its first [l] stored values), length [l],
    dilation [d], threshold [thr] and normalisation flag [nm]. *)
Definition ushp_at {F} (s : ushp F) (k : Z) (v : list F) (l d : Z) (thr : F) (nm : bool) : Prop :=
  (exists v0, nthZ (us_values s) k = Some v0 /\ v = slice v0 0 l) /\ nthZ (us_len s) k = Some l /\
  nthZ (us_dil s) k = Some d /\ nthZ (us_thr s) k = Some thr /\ nthZ (us_norm s) k = Some nm.

(** Shapelet [k] of a multivariate set whose logical content is [L]. *)
Definition mshp_at {F} (s : mshp F) (L : list (lshp F)) (k : Z) (chs : list Z) (vs : list (list F)) (l d : Z)
  (thr : F) (nm : bool) : Prop :=
  nthZ L k = Some (chs, vs) /\ nthZ (ms_len s) k = Some l /\
  nthZ (ms_dil s) k = Some d /\ nthZ (ms_thr s) k = Some thr /\ nthZ (ms_norm s) k = Some nm.

(** Row [i] of the result has the triple [f] in the columns of shapelet [k]. *)
Definition cell3 {F} (T : list (list F)) (i k : Z) (f : F * F * F) : Prop :=
  exists row, nthZ T i = Some row /\ block row k f.

(** shape of the result *)
Definition shape {F} (T : list (list F)) (n m : Z) : Prop := zlen T = n /\ forall row, In row T -> zlen row = m.

Section T.
Context {F : Type} (N : NumOps F).

(** Decision of "fits". *)
Lemma fits_dec ph n l d : {fits ph n l d} + {~ fits ph n l d}.
Proof.
  unfold fits. destruct ph.
  - destruct (Z_le_dec 0 l); [left|right]; assumption.
  - destruct (Z_le_dec 1 l), (Z_le_dec 0 d), (Z_le_dec ((l - 1) * d) n); try (left; tauto); right; tauto.
Qed.

Lemma forall_range_dec (P : Z -> Prop) (dec : forall i, {P i} + {~ P i}) n :
  {forall i, 0 <= i < n -> P i} + {exists i, 0 <= i < n /\ ~ P i}.
Proof.
  destruct (forallb (fun i => if dec i then true else false) (zrange 0 n)) eqn:E.
  - left. intros i Hi. rewrite forallb_forall in E. specialize (E i (proj2 (in_zrange _ _ _) Hi)).
    destruct (dec i); [assumption|discriminate].
  - right. assert (H : exists i, In i (zrange 0 n) /\ (if dec i then true else false) = false).
    { clear -E. induction (zrange 0 n) as [|k r IH]; simpl in E; [discriminate|].
      apply andb_false_iff in E as [E|E]; [exists k; simpl; auto|].
      destruct (IH E) as (k' & H1 & H2). exists k'. simpl; auto. }
    destruct H as (i & Hi & Ei). exists i. split; [apply in_zrange; exact Hi|]. destruct (dec i); [discriminate|assumption].
Qed.

Lemma fits_list_dec ph (ls ds : list Z) n :
  {forall k l d, nthZ ls k = Some l -> nthZ ds k = Some d -> fits ph n l d} +
  {~ forall k l d, nthZ ls k = Some l -> nthZ ds k = Some d -> fits ph n l d}.
Proof.
  assert (D : forall k, {forall l d, nthZ ls k = Some l -> nthZ ds k = Some d -> fits ph n l d} +
     {~ forall l d, nthZ ls k = Some l -> nthZ ds k = Some d -> fits ph n l d}).
  { intros k. destruct (nthZ ls k) as [l|]; [|left; intros; discriminate].
    destruct (nthZ ds k) as [d|]; [|left; intros; discriminate].
    destruct (fits_dec ph n l d) as [H|H].
    - left. intros l' d' E E'. injection E as <-. injection E' as <-. exact H.
    - right. intros C. apply H. apply C; reflexivity. }
  destruct (forall_range_dec _ D (zlen ls)) as [H|H].
  - left. intros k l d Hl Hd. apply (H k); auto. eapply nthZ_range; eauto.
  - right. intros C. destruct H as (k & _ & Hk). apply Hk. intros l d. apply C.
Qed.

Lemma not_fits_lists ph (ls ds : list Z) n : (forall k l, nthZ ls k = Some l -> 1 <= l) -> (forall k d, nthZ ds k = Some d -> 1 <= d) ->
  ~ (forall k l d, nthZ ls k = Some l -> nthZ ds k = Some d -> fits ph n l d) ->
  exists k l d, nthZ ls k = Some l /\ nthZ ds k = Some d /\ ph = false /\ n < (l - 1) * d.
Proof.
  intros Hl Hd HN.
  set (P := fun k => forall l d, nthZ ls k = Some l -> nthZ ds k = Some d -> fits ph n l d).
  assert (D : forall k, {P k} + {~ P k}).
  { intros k. unfold P. destruct (nthZ ls k) as [l|]; [|left; intros; discriminate].
    destruct (nthZ ds k) as [d|]; [|left; intros; discriminate].
    destruct (fits_dec ph n l d) as [H|H].
    - left. intros l' d' E E'. injection E as <-. injection E' as <-. exact H.
    - right. intros C. apply H. apply C; reflexivity. }
  destruct (forall_range_dec P D (zlen ls)) as [H|(k & Hk & H)].
  - exfalso. apply HN. intros k l d H1 H2. apply (H k); auto. eapply nthZ_range; eauto.
  - destruct (nthZ ls k) as [l|] eqn:E1; [|exfalso; apply H; intros l d C _; congruence].
    destruct (nthZ ds k) as [d|] eqn:E2; [|exfalso; apply H; intros l' d C1 C2; congruence].
    exists k, l, d. repeat (split; [assumption|]).
    assert (Hf : ~ fits ph n l d) by (intros C; apply H; intros l' d' C1 C2; congruence).
    specialize (Hl k l E1). specialize (Hd k d E2). unfold fits in Hf. destruct ph; [lia|]. split; [reflexivity|]. lia.
Qed.

(** ** Totality: the transform succeeds exactly when every series is long enough *)

Lemma U_SL_iff X s ph : has_ft X -> wf_ushp s ->
  ((forall i, 0 <= i < zlen X -> fits_all ph s (zlen (ser X i))) /\
     U_SL_apply N X s ph = Ok (map (fun x => u_row N ph s (nthd [] x 0)) X)) \/
  ((exists i, 0 <= i < zlen X /\ ~ fits_all ph s (zlen (ser X i))) /\ U_SL_apply N X s ph = Err ValueError).
Proof.
  intros HX HW. destruct (forall_range_dec (fun i => fits_all ph s (zlen (ser X i)))
    (fun i => fits_list_dec ph (us_len s) (us_dil s) _) (zlen X)) as [H|H].
  - left. split; [exact H|]. apply U_SL_ok; assumption.
  - right. split; [exact H|]. apply U_SL_err; assumption.
Qed.

Lemma U_VL_iff X X_len s ph : has_ft X -> zlen X_len = zlen X -> wf_ushp s ->
  ((forall i, 0 <= i < zlen X -> fits_all ph s (zlen (ser_vl X X_len i))) /\
     U_VL_apply N X X_len s ph = Ok (u_result N (ser_vl X X_len) ph s (zlen X))) \/
  ((exists i, 0 <= i < zlen X /\ ~ fits_all ph s (zlen (ser_vl X X_len i))) /\ U_VL_apply N X X_len s ph = Err ValueError).
Proof.
  intros HX HL HW. destruct (forall_range_dec (fun i => fits_all ph s (zlen (ser_vl X X_len i)))
    (fun i => fits_list_dec ph (us_len s) (us_dil s) _) (zlen X)) as [H|H].
  - left. split; [exact H|]. apply U_VL_ok; assumption.
  - right. split; [exact H|]. apply U_VL_err; assumption.
Qed.

Lemma M_SL_iff X nf n s L ph : mdata nf n X -> packed s L -> chan_ok L nf ->
  ((X = [] \/ mfits_all ph s n) /\ M_SL_apply N X s ph = Ok (map (m_row N ph s L n) X)) \/
  ((X <> [] /\ ~ mfits_all ph s n) /\ M_SL_apply N X s ph = Err ValueError).
Proof.
  intros HX HP HC. destruct (fits_list_dec ph (ms_len s) (ms_dil s) n) as [H|H].
  - left. split; [right; exact H|]. apply (M_SL_ok N X nf); assumption.
  - destruct X as [|x X'].
    + left. split; [left; reflexivity|].
      pose proof (mtasks_ok N (fun _ => []) (fun _ => n) (get []) ph s L 0) as HH. unfold mtasks in HH.
      destruct HH as (ts & E & _ & R); auto; try lia.
      unfold M_SL_apply, M_SL_tasks. change (zlen (@nil (list (list F)))) with 0. rewrite E. cbn [bind].
      rewrite R by apply interleave_seq. reflexivity.
    + right. split; [split; [discriminate|exact H]|]. apply (M_SL_err N _ nf n s L); auto. discriminate.
Qed.

Lemma M_VL_iff X X_len nf n s L ph : mdata nf n X -> vl_ok n X X_len -> packed s L -> chan_ok L nf ->
  ((forall i, 0 <= i < zlen X -> mfits_all ph s (nthd 0 X_len i)) /\
      M_VL_apply N X X_len s ph = Ok (m_result N (mser_vl X X_len) (nthd 0 X_len) ph s L (zlen X))) \/
  ((exists i, 0 <= i < zlen X /\ ~ mfits_all ph s (nthd 0 X_len i)) /\ M_VL_apply N X X_len s ph = Err ValueError).
Proof.
  intros HX HV HP HC. destruct (forall_range_dec (fun i => mfits_all ph s (nthd 0 X_len i))
    (fun i => fits_list_dec ph (ms_len s) (ms_dil s) _) (zlen X)) as [H|H].
  - left. split; [exact H|]. apply (M_VL_ok N X X_len nf n); assumption.
  - right. split; [exact H|]. apply (M_VL_err N X X_len nf n s L); assumption.
Qed.

(** ** Cells *)

Lemma nthd_some {A} (d : A) l i x : nthZ l i = Some x -> nthd d l i = x.
Proof. intros H. unfold nthd. rewrite H. reflexivity. Qed.

Lemma u_tr_at ph s x k v l d thr nm : ushp_at s k v l d thr nm ->
  u_tr N ph s x k = feats N (distances N ph nm x v l d) thr.
Proof. intros ((v0 & H0 & ->) & H1 & H2 & H3 & H4). apply u_tr_eq; assumption. Qed.

Lemma ushp_at_range s k v l d thr nm : ushp_at (F := F) s k v l d thr nm -> 0 <= k < zlen (us_len s).
Proof. intros (_ & H & _). eapply nthZ_range; eauto. Qed.

Lemma wf_values s k v l d thr nm : wf_ushp s -> ushp_at (F := F) s k v l d thr nm ->
  zlen v = l /\ 1 <= l /\ 1 <= d.
Proof.
  intros (W1 & W2 & W3 & W4 & W5 & W6) ((v0 & H0 & ->) & H1 & H2 & H3 & H4).
  specialize (W5 k v0 l H0 H1). specialize (W6 k d H2). rewrite zlen_slice0 by lia. lia.
Qed.

Lemma U_SL_shape X s ph T : has_ft X -> wf_ushp s -> U_SL_apply N X s ph = Ok T ->
  shape T (zlen X) (3 * zlen (us_len s)).
Proof.
  intros HX HW HT. destruct (U_SL_iff X s ph HX HW) as [[_ E]|[_ E]]; rewrite E in HT; [|discriminate].
  injection HT as <-. split; [apply zlen_map|]. intros row Hr. apply in_map_iff in Hr as (x & <- & _). apply zlen_u_row.
Qed.

Lemma U_SL_cell X s ph T i x sr k v l d thr nm : has_ft X -> wf_ushp s -> U_SL_apply N X s ph = Ok T ->
  nthZ X i = Some x -> nthZ x 0 = Some sr -> ushp_at s k v l d thr nm ->
  fits ph (zlen sr) l d /\ cell3 T i k (feats N (distances N ph nm sr v l d) thr).
Proof.
  intros HX HW HT Hx Hsr Hk. destruct (U_SL_iff X s ph HX HW) as [[Hf E]|[_ E]]; rewrite E in HT; [|discriminate].
  injection HT as <-. pose proof (nthZ_range _ _ _ Hx) as Hi. split.
  - specialize (Hf i Hi). unfold ser in Hf. rewrite (nthd_some [] X i x Hx), (nthd_some [] x 0 sr Hsr) in Hf.
    destruct Hk as (_ & H1 & H2 & _). apply (Hf k); assumption.
  - exists (u_row N ph s sr). split.
    + rewrite nthZ_map, Hx. cbn [option_map]. rewrite (nthd_some [] x 0 sr Hsr). reflexivity.
    + rewrite <- (u_tr_at ph s sr k v l d thr nm Hk). apply u_row_block. eapply ushp_at_range; eauto.
Qed.

(** the real points of sample [i] in variable-length mode *)
Definition real_points (X : dataset F) (X_len : list Z) (i : Z) (sr : list F) : Prop :=
  exists x r n, nthZ X i = Some x /\ nthZ x 0 = Some r /\ nthZ X_len i = Some n /\ sr = slice r 0 n.

Lemma real_points_ser X X_len i sr : real_points X X_len i sr -> ser_vl X X_len i = sr /\ 0 <= i < zlen X.
Proof.
  intros (x & r & n & H1 & H2 & H3 & ->). split; [|eapply nthZ_range; eauto].
  unfold ser_vl. rewrite (nthd_some [] X i x H1), (nthd_some [] x 0 r H2), (nthd_some 0 X_len i n H3). reflexivity.
Qed.

Lemma nthZ_u_result srs ph s n i : 0 <= i < n ->
  nthZ (u_result N srs ph s n) i = Some (u_row N ph s (srs i)).
Proof. intros H. unfold u_result. rewrite nthZ_map, nthZ_zrange by lia. reflexivity. Qed.

Lemma U_VL_shape X X_len s ph T : has_ft X -> zlen X_len = zlen X -> wf_ushp s -> U_VL_apply N X X_len s ph = Ok T ->
  shape T (zlen X) (3 * zlen (us_len s)).
Proof.
  intros HX HL HW HT. destruct (U_VL_iff X X_len s ph HX HL HW) as [[_ E]|[_ E]]; rewrite E in HT; [|discriminate].
  injection HT as <-. pose proof (zlen_nonneg X). split.
  - unfold u_result. rewrite zlen_map, zlen_zrange. lia.
  - intros row Hr. apply in_map_iff in Hr as (x & <- & _). apply zlen_u_row.
Qed.

Lemma U_VL_cell X X_len s ph T i sr k v l d thr nm : has_ft X -> zlen X_len = zlen X -> wf_ushp s ->
  U_VL_apply N X X_len s ph = Ok T -> real_points X X_len i sr -> ushp_at s k v l d thr nm ->
  fits ph (zlen sr) l d /\ cell3 T i k (feats N (distances N ph nm sr v l d) thr).
Proof.
  intros HX HL HW HT Hr Hk. apply real_points_ser in Hr as [Es Hi].
  destruct (U_VL_iff X X_len s ph HX HL HW) as [[Hf E]|[_ E]]; rewrite E in HT; [|discriminate].
  injection HT as <-. split.
  - specialize (Hf i Hi). rewrite Es in Hf. destruct Hk as (_ & H1 & H2 & _). apply (Hf k); assumption.
  - exists (u_row N ph s sr). split.
    + rewrite nthZ_u_result by exact Hi. rewrite Es. reflexivity.
    + rewrite <- (u_tr_at ph s sr k v l d thr nm Hk). apply u_row_block. eapply ushp_at_range; eauto.
Qed.

Lemma m_tr_at ph s L n x k chs vs l d thr nm : mshp_at s L k chs vs l d thr nm ->
  m_tr N ph s L n x k = feats N (mdistances N ph nm n x chs vs l d) thr.
Proof. intros (H1 & H2 & H3 & H4 & H5). apply m_tr_eq; assumption. Qed.

Lemma M_SL_shape X nf n s L ph T : mdata nf n X -> packed s L -> chan_ok L nf -> M_SL_apply N X s ph = Ok T ->
  shape T (zlen X) (3 * zlen (ms_len s)).
Proof.
  intros HX HP HC HT. destruct (M_SL_iff X nf n s L ph HX HP HC) as [[_ E]|[_ E]]; rewrite E in HT; [|discriminate].
  injection HT as <-. split; [apply zlen_map|]. intros row Hr. apply in_map_iff in Hr as (x & <- & _). apply zlen_m_row.
Qed.

Lemma M_SL_cell X nf n s L ph T i x k chs vs l d thr nm : mdata nf n X -> packed s L -> chan_ok L nf ->
  M_SL_apply N X s ph = Ok T -> nthZ X i = Some x -> mshp_at s L k chs vs l d thr nm ->
  fits ph n l d /\ cell3 T i k (feats N (mdistances N ph nm n x chs vs l d) thr).
Proof.
  intros HX HP HC HT Hx Hk. destruct (M_SL_iff X nf n s L ph HX HP HC) as [[Hf E]|[_ E]]; rewrite E in HT; [|discriminate].
  injection HT as <-. pose proof Hk as (K1 & K2 & K3 & K4 & K5). split.
  - destruct Hf as [->|Hf]; [|apply (Hf k); assumption].
    unfold nthZ in Hx. destruct (i <? 0); [discriminate|]. destruct (Z.to_nat i); discriminate.
  - exists (m_row N ph s L n x). split; [rewrite nthZ_map, Hx; reflexivity|].
    rewrite <- (m_tr_at ph s L n x k chs vs l d thr nm Hk). apply m_row_block. eapply nthZ_range; eauto.
Qed.

(** the real points of all channels of sample [i] *)
Definition mreal_points (X : dataset F) (X_len : list Z) (i : Z) (n : Z) (sr : list (list F)) : Prop :=
  exists x, nthZ X i = Some x /\ nthZ X_len i = Some n /\ sr = map (fun r => slice r 0 n) x.

Lemma mreal_points_ser X X_len i n sr : mreal_points X X_len i n sr ->
  mser_vl X X_len i = sr /\ nthd 0 X_len i = n /\ 0 <= i < zlen X.
Proof.
  intros (x & H1 & H2 & ->). split; [|split]; [|apply nthd_some; assumption|eapply nthZ_range; eauto].
  unfold mser_vl. rewrite (nthd_some [] X i x H1), (nthd_some 0 X_len i n H2). reflexivity.
Qed.

Lemma nthZ_m_result srs len ph s L n i : 0 <= i < n ->
  nthZ (m_result N srs len ph s L n) i = Some (m_row N ph s L (len i) (srs i)).
Proof. intros H. unfold m_result. rewrite nthZ_map, nthZ_zrange by lia. reflexivity. Qed.

Lemma M_VL_shape X X_len nf n s L ph T : mdata nf n X -> vl_ok n X X_len -> packed s L -> chan_ok L nf ->
  M_VL_apply N X X_len s ph = Ok T -> shape T (zlen X) (3 * zlen (ms_len s)).
Proof.
  intros HX HV HP HC HT. destruct (M_VL_iff X X_len nf n s L ph HX HV HP HC) as [[_ E]|[_ E]]; rewrite E in HT; [|discriminate].
  injection HT as <-. pose proof (zlen_nonneg X). split.
  - unfold m_result. rewrite zlen_map, zlen_zrange. lia.
  - intros row Hr. apply in_map_iff in Hr as (x & <- & _). apply zlen_m_row.
Qed.

Lemma M_VL_cell X X_len nf n s L ph T i ni sr k chs vs l d thr nm : mdata nf n X -> vl_ok n X X_len -> packed s L -> chan_ok L nf ->
  M_VL_apply N X X_len s ph = Ok T -> mreal_points X X_len i ni sr -> mshp_at s L k chs vs l d thr nm ->
  fits ph ni l d /\ cell3 T i k (feats N (mdistances N ph nm ni sr chs vs l d) thr).
Proof.
  intros HX HV HP HC HT Hr Hk. apply mreal_points_ser in Hr as (Es & En & Hi). pose proof Hk as (K1 & K2 & K3 & K4 & K5).
  destruct (M_VL_iff X X_len nf n s L ph HX HV HP HC) as [[Hf E]|[_ E]]; rewrite E in HT; [|discriminate].
  injection HT as <-. split.
  - specialize (Hf i Hi). rewrite En in Hf. apply (Hf k); assumption.
  - exists (m_row N ph s L ni sr). split.
    + rewrite nthZ_m_result by exact Hi. rewrite Es, En. reflexivity.
    + rewrite <- (m_tr_at ph s L ni sr k chs vs l d thr nm Hk). apply m_row_block. eapply nthZ_range; eauto.
Qed.

End T.

Lemma cell3_unique {F} (T : list (list F)) i k f g : cell3 T i k f -> cell3 T i k g -> f = g.
Proof.
  intros (r & H1 & B1) (r' & H1' & B2). rewrite H1 in H1'. injection H1' as <-.
  destruct f as [[m a] c], g as [[m' a'] c']. destruct B1 as (E1 & E2 & E3), B2 as (E4 & E5 & E6). congruence.
Qed.
