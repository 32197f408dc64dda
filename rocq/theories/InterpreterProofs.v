(** Lemmas about the interpreters. *)
From Coq Require Import ZArith List Bool Lia Permutation Sorted.
From Verif Require Import Prelude Num Kernel Spec KernelProofs KernelLaws Parallel Apply ApplyProofs ApplyUni TransformProofs TransformLaws Gen GenBase GenSched GenMRun
  Checks Estimator EstimatorLaws Preproc PreprocProofs NumbaUtilsProofs Classifiers VoteProofs Interpreter.
Import ListNotations.
Open Scope Z_scope.

(** ** Indexing *)
Lemma pyget_nthZ {A} (l : list A) i x : 0 <= i -> pyget l i = Ok x <-> nthZ l i = Some x.
Proof.
  intros Hi. rewrite <- (get_nthZ l i x Hi). unfold pyget. destruct (get l i); split; intros H; congruence.
Qed.
Lemma pyget_range {A} (l : list A) i x : pyget l i = Ok x -> - zlen l <= i < zlen l.
Proof. unfold pyget. destruct (get l i) eqn:E; [|discriminate]. intros _. eapply get_range; eauto. Qed.
Lemma pyget_err {A} (l : list A) i e : pyget l i = Err e -> e = IndexError.
Proof. unfold pyget. destruct (get l i); congruence. Qed.

(** ** argmin is argmax of the reversed order *)
Section ARGMIN.
Context {F : Type} (N : NumOps F) (ok : F -> Prop) (L : OrderLaws N ok).

Definition flipN : NumOps F :=
  mkNum F (n0 N) (n1 N) (nm1 N) (neps N) (nadd N) (nsub N) (nmul N) (ndiv N) (nabs N) (nsqrt N) (nlog2 N) (nln N) (npow2 N)
    (fun x y => nltb N y x) (nleb N) (neqb N) (nofZ N) (nfloor N) (ntrunc N).

Lemma flip_laws : OrderLaws flipN ok.
Proof.
  constructor; cbn; intros.
  - apply (or_irrefl _ _ L); assumption.
  - apply (or_trans _ _ L z y x); assumption.
  - destruct (or_split _ _ L z y x); auto.
  - rewrite (or_eq _ _ L) by assumption. apply andb_comm.
Qed.

Definition first_min (l : list F) (k : Z) : Prop :=
  exists m, nthZ l k = Some m /\ forall j x, nthZ l j = Some x -> nltb N x m = false /\ (j < k -> nltb N m x = true).

Lemma argmin_spec l : l <> [] -> Forall ok l -> exists k, argmin N l = Ok k /\ first_min l k.
Proof.
  intros H1 H2. destruct (argmax_spec flipN ok flip_laws l H1 H2) as (c & E & H). exists c. split; [|exact H].
  rewrite <- E. reflexivity.
Qed.

Lemma first_min_unique l j k : first_min l j -> first_min l k -> j = k.
Proof.
  intros (m & Hm & HJ) (m' & Hm' & HK). destruct (Z.lt_trichotomy j k) as [H|[H|H]]; [|exact H|].
  - destruct (HJ k m' Hm') as (A & _). destruct (HK j m Hm) as (_ & B). rewrite (B H) in A. discriminate.
  - destruct (HK j m Hm) as (A & _). destruct (HJ k m' Hm') as (_ & B). rewrite (B H) in A. discriminate.
Qed.
End ARGMIN.

(** ** Drawing a shapelet on a series *)
Section PLOT.
Context {F : Type} (N : NumOps F) (ok : F -> Prop) (L : OrderLaws N ok).

Lemma zlen_distances ph nm (X v : list F) l d : zlen (distances N ph nm X v l d) = Z.max 0 (nwin ph (zlen X) l d).
Proof. unfold distances. rewrite zlen_map, zlen_zrange. lia. Qed.

Lemma pos_mod ph n l d a i : 1 <= l -> 0 <= d -> 0 <= a < nwin ph n l d -> 0 <= i < l -> (a + i * d) mod n = pos ph n (a + i * d).
Proof.
  intros Hl Hd Ha Hi. unfold pos, nwin in *. destruct ph; [reflexivity|]. apply Z.mod_small. nia.
Qed.

Lemma shp_plot_ok (s : shapelet) X a : let ph := sp_phase s in let l := sp_length s in let d := sp_dilation s in
  1 <= l -> 0 <= d -> zlen (sp_values s) = l -> fits ph (zlen X) l d ->
  0 <= a < nwin ph (zlen X) l d -> argmin N (distances N ph (sp_norm s) X (sp_values s) l d) = Ok a ->
  shp_plot_on_X N s X = Ok (mkDrawing X (map (fun i => pos ph (zlen X) (a + i * d)) (zrange 0 l))
     (if sp_norm s then let w := window N ph X l d a in map (fun v => nadd N (nmul N v (sdev N w)) (avg N w)) (sp_values s) else sp_values s)).
Proof.
  intros ph l d Hl Hd Hv HF Ha HA. unfold shp_plot_on_X. fold ph l d.
  rewrite (dist_vector_distances N X (sp_values s) l d (sp_norm s) ph HF) by lia. cbn [bind]. rewrite HA.
  assert (Hpos : forall i, In i (zrange 0 l) -> 0 <= pos ph (zlen X) (a + i * d) < zlen X).
  { intros i Hi. apply in_zrange in Hi. unfold pos, nwin in *. destruct ph; [apply Z.mod_pos_bound; lia|nia]. }
  rewrite (mapM_ok _ (fun i => pos ph (zlen X) (a + i * d))).
  2:{ intros i Hi. cbn [bind]. f_equal. apply in_zrange in Hi. apply (pos_mod ph (zlen X) l d); lia. }
  cbn [bind]. destruct (sp_norm s).
  - assert (E : mapM (pyget X) (map (fun i => pos ph (zlen X) (a + i * d)) (zrange 0 l)) = Ok (window N ph X l d a)).
    { rewrite (mapM_ok _ (pt N X)).
      - rewrite map_map. reflexivity.
      - intros j Hj. apply in_map_iff in Hj as (i & <- & Hi). apply Hpos in Hi. unfold pyget. rewrite (get_nthd (n0 N)) by exact Hi. reflexivity. }
    rewrite E. cbn [bind]. rewrite !zlen_map, zlen_zrange. destruct (Z.eqb_spec (Z.max 0 (l - 0)) (zlen (sp_values s))); [reflexivity|lia].
  - cbn [bind]. rewrite !zlen_map, zlen_zrange. destruct (Z.eqb_spec (Z.max 0 (l - 0)) (zlen (sp_values s))); [reflexivity|lia].
Qed.

Lemma shp_plot_err (s : shapelet) X : let ph := sp_phase s in let l := sp_length s in let d := sp_dilation s in
  1 <= l -> 0 <= d -> zlen (sp_values s) = l -> nwin ph (zlen X) l d <= 0 -> shp_plot_on_X N s X = Err ValueError.
Proof.
  intros ph l d Hl Hd Hv HF. unfold shp_plot_on_X. fold ph l d.
  assert (HC : fits ph (zlen X) l d -> distances N ph (sp_norm s) X (sp_values s) l d = []).
  { intros _. unfold distances. rewrite zrange_empty by lia. reflexivity. }
  assert (Fin : fits ph (zlen X) l d -> (let* c := compute_shapelet_dist_vector N X (sp_values s) l d (sp_norm s) ph in
     let* idx_match := mapM (fun i => let* a := argmin N c in Ok ((a + i * d) mod zlen X)) (zrange 0 l) in
     let* _values := if sp_norm s then let* w := mapM (pyget X) idx_match in Ok (map (fun v => nadd N (nmul N v (std N w)) (mean N w)) (sp_values s))
                     else Ok (sp_values s) in
     let* _ := guard (zlen idx_match =? zlen _values) ValueError in Ok (mkDrawing X idx_match _values)) = Err ValueError).
  { intros Hf. rewrite (dist_vector_distances N X (sp_values s) l d (sp_norm s) ph Hf) by lia. rewrite (HC Hf). cbn [bind].
    rewrite (zrange_cons 0 l) by lia. reflexivity. }
  destruct ph eqn:Eph; [apply Fin; cbn; lia|].
  destruct (Z_lt_le_dec (zlen X) ((l - 1) * d)) as [Hlt|Hge]; [|apply Fin; cbn; lia].
  destruct (dist_vector_cases N X (sp_values s) l d (sp_norm s) Hl Hd) as (E & _); [lia|]. rewrite E by lia. reflexivity.
Qed.

(** The shapelet of a fitted univariate model *)
Definition univariate_type (t : @est F) : Prop := match e_type t with TKind KM | TKind KMV => False | _ => True end.

Lemma get_params_ok (t : @est F) s k v l d thr nm : e_shapelets t = Some (FU s) -> univariate_type t -> ushp_at s k v l d thr nm ->
  get_params t k = Ok (mkShp v l d nm thr (e_phase t)).
Proof.
  intros Es Ht ((v0 & Hv & ->) & Hl & Hd & Hthr & Hn). unfold get_params. rewrite Es.
  pose proof (nthZ_range _ _ _ Hl) as Hk.
  apply pyget_nthZ in Hv, Hl, Hd, Hthr, Hn; try lia. rewrite Hl, Hv, Hd, Hn, Hthr. cbn [bind].
  unfold univariate_type in Ht. destruct (e_type t) as [|[]|]; try reflexivity; contradiction.
Qed.
End PLOT.

(** ** The selection loop *)
Lemma existsb_eqb i l : existsb (Z.eqb i) l = true <-> In i l.
Proof.
  rewrite existsb_exists. split; [intros (x & H & E); apply Z.eqb_eq in E; subst; exact H|intros H; exists i; split; [exact H|apply Z.eqb_refl]].
Qed.

Lemma NoDup_snoc {A} (l : list A) x : NoDup l -> ~ In x l -> NoDup (l ++ [x]).
Proof.
  intros H1 H2. apply NoDup_rev in H1. rewrite <- (rev_involutive (l ++ [x])). apply NoDup_rev. rewrite rev_app_distr. cbn.
  constructor; [rewrite <- in_rev; exact H2|exact H1].
Qed.

(** The loop reads a prefix of the candidates and keeps each number once; it stops at the end or when it has enough. *)
Lemma pick_best_spec n : forall idx acc, NoDup acc -> zlen acc <= Z.max 0 n ->
  exists pre post, idx = pre ++ post /\ NoDup (pick_best n idx acc) /\ zlen (pick_best n idx acc) <= Z.max 0 n /\
    (forall x, In x (pick_best n idx acc) <-> In x acc \/ In x pre) /\ (post = [] \/ n <= zlen (pick_best n idx acc)).
Proof.
  induction idx as [|i t IH]; intros acc HN HL; cbn [pick_best].
  - exists [], []. split; [reflexivity|]. split; [exact HN|]. split; [lia|]. split; [|auto]. intros x; cbn; tauto.
  - destruct (Z.ltb_spec (zlen acc) n).
    2:{ exists [], (i :: t). split; [reflexivity|]. split; [exact HN|]. split; [lia|]. split; [|auto]. intros x; cbn; tauto. }
    destruct (existsb (Z.eqb i) acc) eqn:E.
    + apply existsb_eqb in E. destruct (IH acc HN HL) as (pre & post & -> & H1 & H2 & H3 & H4). exists (i :: pre), post.
      split; [reflexivity|]. split; [exact H1|]. split; [exact H2|]. split; [|exact H4].
      intros x. rewrite H3. cbn. split; [tauto|]. intros [Hx|[<-|Hx]]; auto.
    + assert (Hi : ~ In i acc) by (rewrite <- existsb_eqb, E; discriminate).
      destruct (IH (acc ++ [i])) as (pre & post & -> & H1 & H2 & H3 & H4).
      { apply NoDup_snoc; assumption. } { rewrite zlen_app. change (zlen [i]) with 1. lia. }
      exists (i :: pre), post. split; [reflexivity|]. split; [exact H1|]. split; [exact H2|]. split; [|exact H4].
      intros x. rewrite H3, in_app_iff. cbn. tauto.
Qed.

Lemma pick_best_acc n : forall idx acc, exists new, pick_best n idx acc = acc ++ new.
Proof.
  induction idx as [|i t IH]; intros acc; cbn [pick_best]; [exists []; rewrite app_nil_r; reflexivity|].
  destruct (zlen acc <? n); [|exists []; rewrite app_nil_r; reflexivity].
  destruct (existsb (Z.eqb i) acc); [apply IH|]. destruct (IH (acc ++ [i])) as (new & ->). exists (i :: new). rewrite <- app_assoc. reflexivity.
Qed.

(** Asking for fewer shapelets gives the first of them *)
Lemma pick_best_prefix n k : 0 <= k <= n -> forall idx acc, zlen acc <= k ->
  firstn (Z.to_nat k) (pick_best n idx acc) = pick_best k idx acc.
Proof.
  intros Hk. induction idx as [|i t IH]; intros acc HL; cbn [pick_best].
  - apply firstn_all2. unfold zlen in HL. lia.
  - destruct (Z.ltb_spec (zlen acc) k).
    + destruct (Z.ltb_spec (zlen acc) n); [|lia]. apply IH. destruct (existsb (Z.eqb i) acc); [lia|]. rewrite zlen_app. change (zlen [i]) with 1. lia.
    + assert (E : Z.to_nat k = length acc) by (unfold zlen in *; lia). rewrite E.
      assert (K : exists new, (if zlen acc <? n then pick_best n t (if existsb (Z.eqb i) acc then acc else acc ++ [i]) else acc) = acc ++ new).
      { destruct (zlen acc <? n); [|exists []; rewrite app_nil_r; reflexivity].
        destruct (existsb (Z.eqb i) acc); [apply pick_best_acc|]. destruct (pick_best_acc n t (acc ++ [i])) as (new & ->).
        exists (i :: new). rewrite <- app_assoc. reflexivity. }
      destruct K as (new & ->). rewrite firstn_app, Nat.sub_diag, firstn_all. cbn. apply app_nil_r.
Qed.

Section SELECTION.
Context {F : Type} (N : NumOps F).

(** What numpy's argsort guarantees: the positions, in an order of non-decreasing values *)
Definition sorts_by (c : list F) (p : list Z) : Prop :=
  Permutation p (zrange 0 (zlen c)) /\
  forall i j a b x y, i < j -> nthZ p i = Some a -> nthZ p j = Some b -> nthZ c a = Some x -> nthZ c b = Some y -> nltb N y x = false.

Lemma nthZ_rev {A} (l : list A) i : 0 <= i < zlen l -> nthZ (rev l) i = nthZ l (zlen l - 1 - i).
Proof.
  intros H. unfold nthZ, zlen in *. destruct (Z.ltb_spec i 0); [lia|]. destruct (Z.ltb_spec (Z.of_nat (length l) - 1 - i) 0); [lia|].
  destruct l as [|d l0] eqn:El; [cbn in H; lia|]. rewrite <- El in *.
  rewrite (nth_error_nth' _ d) by (rewrite rev_length; lia). rewrite rev_nth by lia.
  rewrite (nth_error_nth' _ d) by lia. do 2 f_equal. lia.
Qed.

Lemma In_nthZ {A} (l : list A) x : In x l -> exists i, 0 <= i < zlen l /\ nthZ l i = Some x.
Proof.
  intros H. apply In_nth_error in H as (n & H). exists (Z.of_nat n).
  assert (Hn : (n < length l)%nat) by (apply nth_error_Some; congruence).
  unfold nthZ, zlen. destruct (Z.ltb_spec (Z.of_nat n) 0); [lia|]. rewrite Nat2Z.id. split; [lia|exact H].
Qed.

Lemma nthZ_app1 {A} (a b : list A) i : i < zlen a -> nthZ (a ++ b) i = nthZ a i.
Proof. intros H. unfold nthZ. destruct (Z.ltb_spec i 0); [reflexivity|]. apply nth_error_app1. unfold zlen in H. lia. Qed.

Lemma selection c p n_shp n : 0 <= n -> zlen c = 3 * n -> sorts_by c p ->
  let ids := pick_best n_shp (rev (map (fun j => j / 3) p)) [] in
  NoDup ids /\ zlen ids = Z.max 0 (Z.min n_shp n) /\ (forall s, In s ids -> 0 <= s < n) /\
  forall s t g y, In s ids -> 0 <= t < n -> ~ In t ids -> 0 <= g < 3 -> nthZ c (3 * t + g) = Some y ->
    exists f x, 0 <= f < 3 /\ nthZ c (3 * s + f) = Some x /\ nltb N x y = false.
Proof.
  intros Hn Hc (HP & HS) ids. set (q := rev p).
  assert (Eq : rev (map (fun j => j / 3) p) = map (fun j => j / 3) q) by (unfold q; rewrite map_rev; reflexivity).
  assert (Hq : forall j, In j q <-> 0 <= j < 3 * n).
  { intros j. unfold q. rewrite <- in_rev. split; intros H.
    - apply (Permutation_in _ HP), in_zrange in H. lia.
    - apply (Permutation_in _ (Permutation_sym HP)), in_zrange. lia. }
  assert (Hlen : zlen q = zlen p) by (unfold q, zlen; rewrite rev_length; reflexivity).
  assert (Hdesc : forall i j a b x y, i < j -> nthZ q i = Some a -> nthZ q j = Some b -> nthZ c a = Some x -> nthZ c b = Some y -> nltb N x y = false).
  { intros i j a b x y Hij Ha Hb Hx Hy. pose proof (nthZ_range _ _ _ Ha) as Ri. pose proof (nthZ_range _ _ _ Hb) as Rj. rewrite Hlen in *.
    unfold q in Ha, Hb. rewrite nthZ_rev in Ha, Hb by assumption. refine (HS (zlen p - 1 - j) (zlen p - 1 - i) b a y x _ Hb Ha Hy Hx). lia. }
  destruct (pick_best_spec n_shp (rev (map (fun j => j / 3) p)) []) as (pre & post & E & H1 & H2 & H3 & H4).
  { constructor. } { change (zlen (@nil Z)) with 0. lia. }
  fold ids in H1, H2, H3, H4. rewrite Eq in E.
  assert (Hids : forall s, In s ids -> exists i, 0 <= i < zlen pre /\ nthZ (map (fun j => j / 3) q) i = Some s).
  { intros s Hs. apply H3 in Hs as [[]|Hs]. apply In_nthZ in Hs as (i & Ri & Hi). exists i. split; [exact Ri|]. rewrite E, nthZ_app1 by lia. exact Hi. }
  assert (Hrange : forall s, In s ids -> 0 <= s < n).
  { intros s Hs. apply Hids in Hs as (i & _ & Hi). apply nthZ_In, in_map_iff in Hi as (j & <- & Hj). apply Hq in Hj. lia. }
  split; [exact H1|]. split; [|split; [exact Hrange|]].
  - assert (Hle : zlen ids <= n).
    { assert (I : incl ids (zrange 0 n)) by (intros s Hs; apply in_zrange; apply Hrange; exact Hs).
      apply (NoDup_incl_length H1) in I. pose proof (zlen_zrange 0 n) as Z0. unfold zlen in *. lia. }
    pose proof (zlen_nonneg ids). destruct H4 as [->|H4]; [|lia].
    assert (Hge : n <= zlen ids).
    { assert (I : incl (zrange 0 n) ids).
      { intros s Hs. apply in_zrange in Hs. apply H3. right. rewrite app_nil_r in E. rewrite <- E. apply in_map_iff. exists (3 * s).
        split; [lia|]. apply Hq. lia. }
      apply (NoDup_incl_length (zrange_NoDup 0 n)) in I. pose proof (zlen_zrange 0 n) as Z0. unfold zlen in *. lia. }
    lia.
  - intros s t g y Hs Ht Hnt Hg Hy. destruct (Hids s Hs) as (i & Ri & Hi).
    rewrite nthZ_map in Hi. destruct (nthZ q i) as [a|] eqn:Ea; [|discriminate]. cbn in Hi. injection Hi as Ei.
    assert (Ra : 0 <= a < 3 * n) by (apply Hq; eapply nthZ_In; eauto).
    assert (Hb : In (3 * t + g) q) by (apply (proj2 (Hq (3 * t + g))); clear -Ht Hg; lia). apply In_nthZ in Hb as (j & Rj & Hj).
    assert (Hij : i < j).
    { destruct (Z_lt_le_dec i j) as [|Hji]; [assumption|exfalso]. apply Hnt, H3. right.
      assert (K : nthZ (map (fun j => j / 3) q) j = Some t) by (rewrite nthZ_map, Hj; cbn [option_map]; f_equal; clear -Hg; lia).
      rewrite E, nthZ_app1 in K by lia. eapply nthZ_In; eauto. }
    destruct (nthZ_some c a) as (x & Hx); [lia|]. exists (a - 3 * s), x. split; [lia|].
    replace (3 * s + (a - 3 * s)) with a by lia. split; [exact Hx|]. eapply Hdesc; eauto.
Qed.

(** The k-th of the shapelets is not worse than those not among the first k *)
Lemma selection_order c p n_shp n : 0 <= n -> zlen c = 3 * n -> sorts_by c p ->
  let ids := pick_best n_shp (rev (map (fun j => j / 3) p)) [] in
  forall k s t g y, nthZ ids k = Some s -> 0 <= t < n -> (forall j, j <= k -> nthZ ids j <> Some t) -> 0 <= g < 3 -> nthZ c (3 * t + g) = Some y ->
    exists f x, 0 <= f < 3 /\ nthZ c (3 * s + f) = Some x /\ nltb N x y = false.
Proof.
  intros Hn Hc HS ids k s t g y Hk Ht Hnt Hg Hy. pose proof (nthZ_range _ _ _ Hk) as Rk.
  destruct (selection c p n_shp n Hn Hc HS) as (_ & Hz & _ & _). fold ids in Hz.
  destruct (selection c p (k + 1) n Hn Hc HS) as (_ & _ & _ & H).
  rewrite <- (pick_best_prefix n_shp (k + 1)) in H by (try lia; change (zlen (@nil Z)) with 0; lia).
  fold ids in H. apply (H s t g y); auto.
  - apply (nthZ_In _ k). rewrite <- Hk. rewrite <- (firstn_skipn (Z.to_nat (k + 1)) ids) at 2. symmetry. apply nthZ_app1.
    unfold zlen in *. rewrite firstn_length. lia.
  - intros Hin. apply In_nthZ in Hin as (j & Rj & Hj). assert (Rj' : j <= k) by (unfold zlen in Rj; rewrite firstn_length in Rj; lia).
    apply (Hnt j Rj'). rewrite <- Hj. rewrite <- (firstn_skipn (Z.to_nat (k + 1)) ids) at 1. apply nthZ_app1. lia.
Qed.
End SELECTION.

(** ** The importance vector *)
Section IMPORTANCE.
Context {F : Type} (N : NumOps F).

Lemma run_writes_shape (ws : list (write F)) M M' q : regular q M -> run_writes ws M = Ok M' -> regular q M' /\ zlen M' = zlen M.
Proof.
  intros HR H. unfold run_writes in H.
  refine (foldM_inv _ (fun _ M1 => regular q M1 /\ zlen M1 = zlen M) ws M _ _ M' H); [auto|].
  intros pre [[r c] v] post s s' _ [P1 P2] E. unfold set2 in E.
  apply bind_inv in E as (row & E1 & E). apply bind_inv in E as (row' & E2 & E).
  apply get_wrap in E1 as (_ & E1). apply set_inv in E2 as (j2 & _ & _ & ->). apply set_inv in E as (j & Ej & Rj & ->).
  split; [|rewrite zlen_upd; exact P2]. intros x Hx. apply In_nthZ in Hx as (i & _ & Hx). rewrite nthZ_upd in Hx by exact Rj.
  destruct (i =? j); [|apply P1; eapply nthZ_In; eauto]. injection Hx as <-. rewrite zlen_upd. apply P1. eapply nthZ_In; eauto.
Qed.

Lemma X_new0_regular n m : 0 <= m -> regular (3 * m) (X_new0 N n m).
Proof. intros Hm r Hr. apply repeat_spec in Hr. subst r. rewrite zlen_repeat. lia. Qed.

(** Whatever the fitted shapelets, a transformed row has three cells per shapelet *)
Lemma transform_width t X T f : transform N t X = Ok T -> e_shapelets t = Some f -> forall row, In row T -> zlen row = 3 * n_fitted f.
Proof.
  intros H Ef. unfold transform in H. rewrite Ef in H. cbv beta iota zeta in H.
  destruct (match e_type t with TKind k => kind_vl k | _ => false end).
  - apply bind_inv in H as ([[D sh] lens] & _ & H). apply bind_inv in H as (u & _ & H). destruct (e_kind t) as [[]|], f; try discriminate H;
      apply bind_inv in H as (ts & _ & H); refine (proj1 (run_writes_shape _ _ _ _ _ H)); apply X_new0_regular; apply zlen_nonneg.
  - apply bind_inv in H as (A & _ & H). apply bind_inv in H as (D & _ & H). destruct (e_kind t) as [[]|], f; try discriminate H;
      apply bind_inv in H as (ts & _ & H); refine (proj1 (run_writes_shape _ _ _ _ _ H)); apply X_new0_regular; apply zlen_nonneg.
Qed.

Lemma scatter_ok (c : list F) atts row : NoDup atts -> (forall j, In j atts -> 0 <= j < zlen c) -> zlen row = zlen atts ->
  exists c', scatter c atts row = Ok c' /\ zlen c' = zlen c /\
    (forall q j, nthZ atts q = Some j -> nthZ c' j = nthZ row q) /\ (forall j, ~ In j atts -> nthZ c' j = nthZ c j).
Proof.
  intros HN HR HL.
  assert (E0 : scatter c atts row = foldM (fun c p => pyset c (fst p) (snd p)) (combine atts row) c).
  { unfold scatter. destruct row as [|v [|w t]].
    - rewrite HL, Z.eqb_refl. reflexivity.
    - destruct atts as [|a [|b u]]; unfold zlen in HL; cbn in HL; try lia. reflexivity.
    - rewrite HL, Z.eqb_refl. reflexivity. }
  rewrite E0. clear E0. revert c row HN HR HL. induction atts as [|a atts IH]; intros c row HN HR HL.
  - exists c. split; [reflexivity|]. split; [reflexivity|]. split; [|auto]. intros q j Hq. apply nthZ_range in Hq. change (zlen (@nil Z)) with 0 in Hq. lia.
  - destruct row as [|v row]; [rewrite zlen_cons in HL; pose proof (zlen_nonneg atts); change (zlen (@nil F)) with 0 in HL; lia|].
    inversion HN as [|? ? Ha HN']; subst. cbn [combine foldM fst snd].
    pose proof (HR a (or_introl eq_refl)) as Ra.
    assert (E : pyset c a v = Ok (upd c (Z.to_nat a) v)).
    { unfold pyset, set, wrap. destruct (Z.ltb_spec a 0); [lia|]. destruct (Z.leb_spec 0 a); [|lia]. destruct (Z.ltb_spec a (zlen c)); [|lia]. reflexivity. }
    rewrite E. cbn [bind]. destruct (IH (upd c (Z.to_nat a) v) row HN') as (c' & E' & Hz & H1 & H2).
    { intros j Hj. rewrite zlen_upd. apply HR. right. exact Hj. } { rewrite !zlen_cons in HL. lia. }
    exists c'. split; [exact E'|]. split; [rewrite Hz, zlen_upd; reflexivity|]. split.
    + intros q j Hq. rewrite nthZ_cons in Hq. rewrite nthZ_cons. destruct (q =? 0).
      * injection Hq as <-. rewrite H2 by exact Ha. rewrite nthZ_upd by exact Ra. rewrite Z.eqb_refl. reflexivity.
      * apply H1. exact Hq.
    + intros j Hj. rewrite H2 by (intros K; apply Hj; right; exact K). rewrite nthZ_upd by exact Ra.
      destruct (Z.eqb_spec j a) as [->|]; [|reflexivity]. exfalso. apply Hj. left. reflexivity.
Qed.
End IMPORTANCE.
