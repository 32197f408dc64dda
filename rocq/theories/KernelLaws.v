(** Laws of the kernel functions, in the form the property theorems need. *)
From Coq Require Import ZArith List Bool Reals Lra Lia Permutation Znumtheory.
From Verif Require Import Prelude Num Kernel Spec KernelProofs CombProofs RealBase PrimeProofs RealProofs ChoiceProofs.
Import ListNotations.
Open Scope Z_scope.

Section G.
Context {F : Type} (N : NumOps F).

(** [S] is exactly the array of windows of [X]. *)
Definition is_strides (X : list F) (w d : Z) (ph : bool) (S : list (list F)) : Prop :=
  zlen S = (if ph then zlen X else zlen X - (w - 1) * d) /\
  forall i row, nthZ S i = Some row -> zlen row = w /\
    forall j, 0 <= j < w -> exists p, p = (if ph then (i + j * d) mod zlen X else i + j * d) /\
      0 <= p < zlen X /\ nthZ row j = nthZ X p.

Lemma windows_is_strides X w d ph : fits ph (zlen X) w d -> is_strides X w d ph (windows N ph X w d).
Proof.
  intros H. pose proof (nwin_nonneg ph (zlen X) w d (zlen_nonneg X) H) as Hn.
  split; [rewrite zlen_windows by exact Hn; destruct ph; reflexivity|].
  intros i row Hr. pose proof (nthZ_range _ _ _ Hr) as Hi. rewrite zlen_windows in Hi by exact Hn.
  rewrite nthZ_windows in Hr by exact Hi. injection Hr as <-.
  assert (0 <= w) by (destruct ph; cbn in H; lia).
  split; [apply zlen_window; assumption|]. intros j Hj. exists (pos ph (zlen X) (i + j * d)).
  split; [destruct ph; reflexivity|]. split; [apply (window_index ph _ w d i j); assumption|].
  apply nthZ_window; assumption.
Qed.

Lemma strides_1D_spec X w d ph : fits ph (zlen X) w d ->
  exists S, generate_strides_1D X w d ph = Ok S /\ is_strides X w d ph S.
Proof. intros H. eexists. split; [apply (generate_strides_1D_ok N); exact H|]. apply windows_is_strides. exact H. Qed.

Lemma strides_2D_spec (X : list (list F)) n w d ph : X <> [] -> (forall r, In r X -> zlen r = n) -> fits ph n w d ->
  exists S, generate_strides_2D X w d ph = Ok S /\ Forall2 (fun r s => is_strides r w d ph s) X S.
Proof.
  intros H1 H2 H3. eexists. split; [apply (generate_strides_2D_ok N X w d ph n); assumption|].
  clear H1. induction X as [|r t IH]; [constructor|]. cbn [map]. constructor.
  - apply windows_is_strides. rewrite (H2 r) by (left; reflexivity). exact H3.
  - apply IH. intros r' Hr'. apply H2. right. exact Hr'.
Qed.

Lemma strides_1D_cases (X : list F) w d : 1 <= w -> 0 <= d ->
  (zlen X < (w - 1) * d -> generate_strides_1D X w d false = Err ValueError) /\
  (zlen X = (w - 1) * d -> generate_strides_1D X w d false = Ok []) /\
  (zlen X > (w - 1) * d -> exists r S, generate_strides_1D X w d false = Ok (r :: S)).
Proof.
  intros Hw Hd. split; [|split]; intros H.
  - cbn. unfold strides_1D. destruct (Z.leb_spec 0 (zlen X - (w - 1) * d)); [lia|]. reflexivity.
  - rewrite (generate_strides_1D_ok N) by (cbn; lia). unfold windows, nwin. rewrite zrange_empty by lia. reflexivity.
  - rewrite (generate_strides_1D_ok N) by (cbn; lia). unfold windows, nwin. rewrite zrange_cons by lia. cbn [map]. eauto.
Qed.

Lemma strides_2D_cases (X : list (list F)) n w d : X <> [] -> (forall r, In r X -> zlen r = n) -> 1 <= w -> 0 <= d ->
  (n < (w - 1) * d -> generate_strides_2D X w d false = Err ValueError) /\
  (n = (w - 1) * d -> exists S, generate_strides_2D X w d false = Ok S /\ forall s, In s S -> s = []) /\
  (n > (w - 1) * d -> exists S, generate_strides_2D X w d false = Ok S /\ forall s, In s S -> s <> []).
Proof.
  intros Hne Hr Hw Hd. split; [|split]; intros H.
  - cbn. unfold strides_2D. rewrite (shape1_regular n) by assumption.
    destruct (Z.leb_spec 0 (n - (w - 1) * d)); [lia|]. reflexivity.
  - eexists. split; [apply (generate_strides_2D_ok N X w d false n); auto; cbn; lia|].
    intros s Hs. apply in_map_iff in Hs as (r & <- & Hin). unfold windows, nwin. rewrite (Hr r Hin), zrange_empty by lia. reflexivity.
  - eexists. split; [apply (generate_strides_2D_ok N X w d false n); auto; cbn; lia|].
    intros s Hs. apply in_map_iff in Hs as (r & <- & Hin). unfold windows, nwin. rewrite (Hr r Hin), zrange_cons by lia. discriminate.
Qed.

Lemma dist_vector_cases X v l d nm : 1 <= l -> 0 <= d -> l <= zlen v ->
  (zlen X < (l - 1) * d -> compute_shapelet_dist_vector N X v l d nm false = Err ValueError) /\
  (zlen X >= (l - 1) * d -> exists ds, compute_shapelet_dist_vector N X v l d nm false = Ok ds /\ zlen ds = zlen X - (l - 1) * d).
Proof.
  intros Hl Hd Hv. split; intros H.
  - destruct (strides_1D_cases X l d Hl Hd) as (E & _). specialize (E H). cbn in E.
    destruct nm; cbn; unfold dist_vector_norm, dist_vector; rewrite E; reflexivity.
  - eexists. split; [apply compute_dist_vector_ok; auto; cbn; lia|]. unfold dists. rewrite zlen_map, zlen_windows; cbn; lia.
Qed.

Lemma znorm_is_zscore w : znorm N w = zscore N w.
Proof. reflexivity. Qed.

Lemma get_subsequence_row X i l d nm ph : fits ph (zlen X) l d -> 0 <= i < (if ph then zlen X else zlen X - (l - 1) * d) ->
  exists S row, generate_strides_1D X l d ph = Ok S /\ nthZ S i = Some row /\
    get_subsequence N X i l d nm ph = Ok (if nm then zscore N row else row).
Proof.
  intros H Hi. exists (windows N ph X l d), (window N ph X l d i). split; [apply generate_strides_1D_ok; exact H|].
  split; [apply nthZ_windows; destruct ph; exact Hi|]. rewrite get_subsequence_ok by (destruct ph; assumption). reflexivity.
Qed.

Lemma apply_one_univariate_spec ok x v thr : OrdLaws N ok ->
  (forall r, In r x -> zlen r <= zlen v) ->
  (forall r, In r x -> ok (l1 N r v) /\ nleb N (n0 N) (l1 N r v) = true) ->
  exists f, apply_one_univariate N x v thr = Ok f /\ is_features N (map (fun r => l1 N r v) x) thr f.
Proof.
  intros HO H1 H2. eexists. split; [apply apply_one_univariate_ok; exact H1|].
  apply (feats_spec N ok); [exact HO|]. intros y Hy. apply in_map_iff in Hy as (r & <- & Hr). apply H2. exact Hr.
Qed.

(** distance of the candidate windows number [i]: sum over features *)
Definition mdist_at (x : list (list (list F))) (v : list (list F)) (i : Z) : F :=
  sumF N (map (fun ft => l1 N (nthd [] (nthd [] x ft) i) (nthd [] v ft)) (zrange 0 (zlen x))).

Lemma apply_one_multivariate_spec ok x v thr n l : OrdLaws N ok ->
  x <> [] -> (forall r, In r x -> zlen r = n /\ forall w, In w r -> zlen w = l) -> zlen v = zlen x ->
  (forall u, In u v -> zlen u = l) ->
  (forall i, 0 <= i < n -> ok (mdist_at x v i) /\ nleb N (n0 N) (mdist_at x v i) = true) ->
  exists f, apply_one_multivariate N x v thr = Ok f /\ is_features N (map (mdist_at x v) (zrange 0 n)) thr f.
Proof.
  intros HO H1 H2 H3 H4 H5. eexists. split; [apply (apply_one_multivariate_ok N x v thr n); auto|].
  - intros r Hr. apply H2. exact Hr.
  - lia.
  - intros ft i r w Hr Hw u Hu. apply nthZ_In in Hr, Hw, Hu. rewrite (H4 u Hu).
    destruct (H2 r Hr) as [_ H]. rewrite (H w Hw). lia.
  - apply (feats_spec N ok); [exact HO|]. intros y Hy. apply in_map_iff in Hy as (r & <- & Hr). apply in_zrange in Hr.
    apply H5. exact Hr.
Qed.

End G.

Lemma mdist_at_nonneg x v i : nleb RN (n0 RN) (mdist_at RN x v i) = true.
Proof.
  apply Rleb_true. cbn [n0 RN]. unfold mdist_at. rewrite sumF_rsum. apply rsum_nonneg. intros y Hy.
  apply in_map_iff in Hy as (ft & <- & _). apply l1_nonneg.
Qed.

Lemma choice_log_spec {S} (rng : Rng R S) n m s ks s' : 0 <= m ->
  (forall s, 0 <= fst (r_unif rng s) < 1)%R -> choice_log RN rng n m s = Ok (ks, s') ->
  zlen ks = m /\ forall k, In k ks -> 0 <= k < Z.max 1 n.
Proof.
  intros Hm HU H. destruct (choice_log_R rng n m s Hm HU) as [H1 H2]. destruct (Z.le_gt_cases n 1) as [Hn|Hn].
  - rewrite H1 in H by exact Hn. injection H as <- _. split; [unfold zlen; rewrite repeat_length; lia|].
    intros k Hk. apply repeat_spec in Hk. lia.
  - destruct (H2 ltac:(lia)) as (ks' & E & HF). rewrite E in H. injection H as <- _.
    assert (HL : forall q s, length (fst (draws rng q s)) = q).
    { clear. induction q; intros s; [reflexivity|]. cbn [draws]. destruct (r_unif rng s) as [u s1]. specialize (IHq s1).
      destruct (draws rng q s1) as [us s2]. cbn in *. congruence. }
    split.
    + pose proof (Forall2_length _ _ _ HF) as E2. rewrite HL in E2. unfold zlen. lia.
    + intros k Hk. clear E H1 H2. revert Hk. induction HF as [|u k' us kk Hk' HF IH]; intros Hk; [destruct Hk|].
      destruct Hk as [<-|Hk]; [destruct Hk' as [? _]; lia|auto].
Qed.

Lemma combinations_spec x y : zlen x = zlen y -> exists l, combinations_1d x y = Ok l /\ NoDup l /\
  (forall p, In p l <-> exists i, nthZ x i = Some (fst p) /\ nthZ y i = Some (snd p)) /\
  (exists idx, incr idx /\ map (nthZ (combine x y)) idx = map Some l /\
     forall i, In i idx -> forall j, 0 <= j < i -> nthZ (combine x y) j <> nthZ (combine x y) i).
Proof.
  intros E. exists (dedup (combine x y)). split; [apply combinations_1d_ok; exact E|]. split; [apply dedup_NoDup|]. split.
  - intros [a b]. rewrite in_dedup. cbn [fst snd].
    assert (G : forall i, nthZ (combine x y) i = Some (a, b) <-> nthZ x i = Some a /\ nthZ y i = Some b).
    { clear. revert y. induction x as [|a0 x IH]; intros [|b0 y] i; cbn [combine].
      - unfold nthZ. destruct (i <? 0); [|destruct (Z.to_nat i)]; split; [| intros [? ?] | | intros [? ?] | | intros [? ?]]; discriminate.
      - unfold nthZ at 1 2. destruct (i <? 0); [|destruct (Z.to_nat i)]; split; [| intros [? ?] | | intros [? ?] | | intros [? ?]]; discriminate.
      - unfold nthZ at 1 3. destruct (i <? 0); [|destruct (Z.to_nat i)]; split; [| intros [? ?] | | intros [? ?] | | intros [? ?]]; discriminate.
      - rewrite !nthZ_cons. destruct (i =? 0); [|apply IH]. split; [intros H; injection H as <- <-; auto|intros [H1 H2]; congruence]. }
    split.
    + intros H. apply In_nthZ in H as (i & Hi). exists i. apply G. exact Hi.
    + intros (i & Hi). apply G in Hi. eapply nthZ_In. exact Hi.
  - destruct (dedup_first (combine x y)) as (idx & H1 & H2 & H3). exists idx. split; [exact H1|]. split; [exact H2|].
    intros i Hi. apply H3. exact Hi.
Qed.

(** ** Metrics *)

Definition is_metric (dist : list R -> list R -> res R) : Prop :=
  (forall x y, zlen x = zlen y -> exists v, dist x y = Ok v /\ (0 <= v)%R /\ (v = 0%R <-> x = y)) /\
  (forall x y, zlen x = zlen y -> dist x y = dist y x) /\
  (forall x y z a b c, zlen x = zlen y -> zlen y = zlen z ->
     dist x z = Ok a -> dist x y = Ok b -> dist y z = Ok c -> (a <= b + c)%R) /\
  (forall ps ps', Permutation ps ps' -> dist (map fst ps) (map snd ps) = dist (map fst ps') (map snd ps')).

Lemma zlen_map_fs {A B} (ps : list (A * B)) : zlen (map fst ps) <= zlen (map snd ps).
Proof. rewrite !zlen_map. lia. Qed.

Lemma manhattan_metric : is_metric (manhattan RN).
Proof.
  split; [|split; [|split]].
  - intros x y E. exists (l1s x y). rewrite manhattan_R by lia. split; [reflexivity|]. split; [apply l1s_nonneg|].
    apply l1s_zero. apply zlen_length. exact E.
  - intros x y E. rewrite !manhattan_R by lia. rewrite l1s_sym. reflexivity.
  - intros x y z a b c E1 E2. rewrite !manhattan_R by lia. intros Ea Eb Ec. injection Ea as <-. injection Eb as <-. injection Ec as <-.
    apply l1s_tri; apply zlen_length; assumption.
  - intros ps ps' HP. rewrite !manhattan_R by apply zlen_map_fs. f_equal. apply l1s_perm. exact HP.
Qed.

Lemma euclidean_metric : is_metric (euclidean RN).
Proof.
  split; [|split; [|split]].
  - intros x y E. exists (R_sqrt.sqrt (sqs x y)). rewrite euclidean_R by lia. split; [reflexivity|]. split; [apply sqrt_pos|].
    rewrite <- (sqs_zero x y) by (apply zlen_length; exact E). pose proof (sqs_nonneg x y). split; intros H0.
    + apply sqrt_eq_0; assumption.
    + rewrite H0. apply sqrt_0.
  - intros x y E. rewrite !euclidean_R by lia. rewrite sqs_sym. reflexivity.
  - intros x y z a b c E1 E2. rewrite !euclidean_R by lia. intros Ea Eb Ec. injection Ea as <-. injection Eb as <-. injection Ec as <-.
    apply euc_tri; apply zlen_length; assumption.
  - intros ps ps' HP. rewrite !euclidean_R by apply zlen_map_fs. f_equal. rewrite (sqs_perm ps ps' HP). reflexivity.
Qed.

Lemma squared_is_square x y a b : zlen x = zlen y -> euclidean RN x y = Ok a -> squared_euclidean RN x y = Ok b ->
  b = (a * a)%R.
Proof.
  intros E. rewrite euclidean_R by lia. unfold squared_euclidean. rewrite sq_loop_ok by lia. intros Ea Eb.
  injection Ea as <-. injection Eb as <-. symmetry. apply sqrt_sqrt. apply sqs_nonneg.
Qed.

Lemma manhattan_length {F} (N : NumOps F) x y : (exists v, manhattan N x y = Ok v) <-> zlen x <= zlen y.
Proof.
  split; intros H.
  - destruct H as (v & H). destruct (Z.le_gt_cases (zlen x) (zlen y)); [assumption|].
    rewrite manhattan_oob in H by lia. discriminate.
  - eexists. apply manhattan_ok. exact H.
Qed.
