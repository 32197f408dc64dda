(** Multivariate transform: exact result, for every numeric instance. *)
From Coq Require Import ZArith List Bool Lia Permutation.
From Verif Require Import Prelude Num Kernel Spec KernelProofs CombProofs Parallel Apply ApplyProofs ApplyUni.
Import ListNotations.
Open Scope Z_scope.

(** ** Ragged arrays *)

Lemma nthZ_split {A} (l : list A) k x : nthZ l k = Some x ->
  exists pre post, l = pre ++ x :: post /\ zlen pre = k.
Proof.
  intros H. pose proof (nthZ_range _ _ _ H). unfold nthZ in H. destruct (Z.ltb_spec k 0); [lia|].
  apply nth_error_split in H as (pre & post & -> & Hl). exists pre, post. split; [reflexivity|]. unfold zlen. lia.
Qed.

Lemma zsum_zlen {A} (gs : list (list A)) : zsum (map (@zlen A) gs) = zlen (concat gs).
Proof.
  induction gs as [|g gs IH]; [reflexivity|]. simpl. rewrite zsum_cons, IH, zlen_app. reflexivity.
Qed.

Lemma get_offsets {A} (pre post : list (list A)) :
  get (offsets (map (@zlen A) (pre ++ post))) (zlen pre) = Ok (zlen (concat pre)).
Proof.
  assert (E : offsets (map (@zlen A) (pre ++ post)) = cumsum (0 :: map (@zlen A) (pre ++ post))) by reflexivity.
  rewrite E. rewrite get_cumsum.
  2:{ rewrite zlen_cons, zlen_map, zlen_app. pose proof (zlen_nonneg pre). pose proof (zlen_nonneg post). lia. }
  f_equal. replace (Z.to_nat (zlen pre + 1)) with (S (length pre)) by (unfold zlen; lia).
  cbn [firstn]. rewrite zsum_cons, map_app, firstn_app, map_length, Nat.sub_diag.
  rewrite <- (map_length (@zlen A) pre), firstn_all. cbn [firstn]. rewrite app_nil_r, zsum_zlen. lia.
Qed.

Lemma offsets_slice {A} (gs : list (list A)) k g : nthZ gs k = Some g ->
  exists a b, get (offsets (map (@zlen A) gs)) k = Ok a /\ get (offsets (map (@zlen A) gs)) (k + 1) = Ok b /\
    slice (concat gs) a b = g.
Proof.
  intros H. apply nthZ_split in H as (pre & post & -> & <-).
  exists (zlen (concat pre)), (zlen (concat (pre ++ [g]))). split; [|split].
  - apply get_offsets.
  - replace (pre ++ g :: post) with ((pre ++ [g]) ++ post) by (rewrite <- app_assoc; reflexivity).
    replace (zlen pre + 1) with (zlen (pre ++ [g])) by (rewrite zlen_app; reflexivity). apply get_offsets.
  - rewrite !concat_app. cbn [concat]. rewrite app_nil_r, zlen_app. apply slice_app_mid.
Qed.

Lemma concat_regular_len {A} (vs : list (list A)) l : regular l vs -> zlen (concat vs) = zlen vs * l.
Proof.
  induction vs as [|v vs IH]; intros H; [reflexivity|]. cbn [concat]. rewrite zlen_app, zlen_cons, IH.
  - rewrite (H v) by (simpl; auto). lia.
  - intros r Hr. apply H. simpl; auto.
Qed.

Lemma reshape_concat {F} (vs : list (list F)) l : regular l vs -> reshape (concat vs) (zlen vs) l = Ok vs.
Proof.
  intros H. unfold reshape. rewrite (concat_regular_len vs l H), Z.eqb_refl. cbn [guard bind]. f_equal.
  transitivity (map (nthd [] vs) (zrange 0 (zlen vs))); [|apply map_nthd_zrange]. apply map_ext_in. intros c Hc. apply in_zrange in Hc.
  pose proof (nthZ_nthd [] vs c Hc) as Hn. apply nthZ_split in Hn as (pre & post & E & Hp).
  set (v := nthd [] vs c) in *. rewrite E, concat_app. cbn [concat].
  assert (Hpre : zlen (concat pre) = c * l).
  { rewrite (concat_regular_len pre l); [subst c; reflexivity|]. intros r Hr. apply H. rewrite E. apply in_or_app; auto. }
  assert (Hv : zlen v = l) by (apply H; rewrite E; apply in_or_app; simpl; auto).
  replace ((c + 1) * l) with (zlen (concat pre) + zlen v) by lia. rewrite <- Hpre. apply slice_app_mid.
Qed.

(** A logical multivariate shapelet: its channels and the values on each of them. *)
Notation lshp F := (list Z * list (list F))%type.

Section M.
Context {F : Type} (N : NumOps F).

(** [packed s L]: the flat arrays of [s] are the concatenation of the logical shapelets [L]. *)
Definition packed (s : mshp F) (L : list (lshp F)) : Prop :=
  ms_chan s = concat (map fst L) /\
  ms_values s = concat (map (fun p => concat (snd p)) L) /\
  ms_nch s = map (fun p => zlen (fst p)) L /\
  zlen (ms_len s) = zlen L /\ zlen (ms_dil s) = zlen L /\ zlen (ms_thr s) = zlen L /\ zlen (ms_norm s) = zlen L /\
  (forall k p l, nthZ L k = Some p -> nthZ (ms_len s) k = Some l ->
     zlen (snd p) = zlen (fst p) /\ 1 <= zlen (fst p) /\ regular l (snd p) /\ 1 <= l) /\
  (forall k d, nthZ (ms_dil s) k = Some d -> 1 <= d).

(** all channels used exist in data with [nf] features *)
Definition chan_ok (L : list (lshp F)) (nf : Z) : Prop :=
  forall p c, In p L -> In c (fst p) -> 0 <= c < nf.

Lemma packed_a1 s L : packed s L ->
  zmul_list (ms_nch s) (ms_len s) = map (@zlen F) (map (fun p => concat (snd p)) L).
Proof.
  intros (_ & _ & P3 & P4 & _ & _ & _ & P8 & _). unfold zmul_list. rewrite P3.
  assert (Hz : forall k p l, nthZ L k = Some p -> nthZ (ms_len s) k = Some l -> zlen (fst p) * l = zlen (concat (snd p))).
  { intros k p l H1 H2. destruct (P8 k p l H1 H2) as (E & _ & R & _). rewrite (concat_regular_len _ _ R). lia. }
  clear P8 P3. revert P4 Hz. generalize (ms_len s). induction L as [|p L IH]; intros [|l ls] P4 Hz; cbn; auto.
  - rewrite zlen_cons in P4. pose proof (zlen_nonneg L). change (zlen (@nil Z)) with 0 in P4. lia.
  - f_equal; [apply (Hz 0); reflexivity|]. apply IH.
    + rewrite !zlen_cons in P4. lia.
    + intros k q m H1 H2. pose proof (nthZ_range _ _ _ H1). apply (Hz (k + 1)).
      * rewrite nthZ_cons. destruct (Z.eqb_spec (k + 1) 0); [lia|]. replace (k + 1 - 1) with k by lia. exact H1.
      * rewrite nthZ_cons. destruct (Z.eqb_spec (k + 1) 0); [lia|]. replace (k + 1 - 1) with k by lia. exact H2.
Qed.

Lemma m_one_unpack s L st k chs vs l thr : packed s L ->
  nthZ L k = Some (chs, vs) -> nthZ (ms_len s) k = Some l -> nthZ (ms_thr s) k = Some thr ->
  m_one N s st k l = let* sel := mapM (get st) chs in apply_one_multivariate N sel vs thr.
Proof.
  intros HP HL Hl Ht. pose proof HP as (P1 & P2 & P3 & P4 & P5 & P6 & P7 & P8 & P9).
  pose proof (nthZ_range _ _ _ HL) as Hk.
  unfold m_one. rewrite (packed_a1 s L HP).
  assert (E3 : ms_nch s = map (@zlen Z) (map fst L)) by (rewrite P3, map_map; reflexivity).
  rewrite E3.
  destruct (offsets_slice (map fst L) k chs) as (a & b & Ga & Gb & Gs). { rewrite nthZ_map, HL. reflexivity. }
  destruct (offsets_slice (map (fun p => concat (snd p)) L) k (concat vs)) as (a' & b' & Ga' & Gb' & Gs').
  { rewrite nthZ_map, HL. reflexivity. }
  rewrite Ga, Gb. cbn [bind]. rewrite Ga', Gb'. cbn [bind].
  rewrite P1, Gs, P2, Gs'.
  assert (G3 : get (map (@zlen Z) (map fst L)) k = Ok (zlen chs)).
  { apply get_nthZ; [lia|]. rewrite !nthZ_map, HL. reflexivity. }
  rewrite G3. cbn [bind].
  destruct (P8 k _ l HL Hl) as (E1 & E2 & E4 & E5). cbn [fst snd] in *.
  rewrite <- E1, reshape_concat by exact E4. cbn [bind].
  rewrite (proj2 (get_nthZ (ms_thr s) k thr ltac:(lia))) by exact Ht. reflexivity.
Qed.

(** features of shapelet [k] on the multichannel series [x] of [n] points *)
Definition m_tr (ph : bool) (s : mshp F) (L : list (lshp F)) (n : Z) (x : list (list F)) (k : Z) : F * F * F :=
  let p := nthd ([], []) L k in
  feats N (mdistances N ph (nthd false (ms_norm s) k) n x (fst p) (snd p) (nthd 0 (ms_len s) k) (nthd 0 (ms_dil s) k))
        (nthd (n0 N) (ms_thr s) k).

Definition m_row (ph : bool) (s : mshp F) (L : list (lshp F)) (n : Z) (x : list (list F)) : list F :=
  map (fun c => tri (m_tr ph s L n x (c / 3)) (c mod 3)) (zrange 0 (3 * zlen (ms_len s))).

Lemma m_tr_eq ph s L n x k chs vs l d thr b :
  nthZ L k = Some (chs, vs) -> nthZ (ms_len s) k = Some l -> nthZ (ms_dil s) k = Some d ->
  nthZ (ms_thr s) k = Some thr -> nthZ (ms_norm s) k = Some b ->
  m_tr ph s L n x k = feats N (mdistances N ph b n x chs vs l d) thr.
Proof. intros H1 H2 H3 H4 H5. unfold m_tr, nthd. rewrite H1, H2, H3, H4, H5. reflexivity. Qed.

Lemma map_combine_zrange {A B C} (da : A) (db : B) (f : A -> B -> C) a b : zlen a = zlen b ->
  map (fun i => f (nthd da a i) (nthd db b i)) (zrange 0 (zlen a)) = map (fun p => f (fst p) (snd p)) (combine a b).
Proof.
  intros HL. apply nthZ_ext.
  - rewrite !zlen_map, zlen_zrange, zlen_combine by exact HL. pose proof (zlen_nonneg a). lia.
  - rewrite zlen_map, zlen_zrange. intros i Hi. rewrite !nthZ_map, nthZ_zrange by lia. rewrite nthZ_combine.
    cbn [option_map]. rewrite (nthZ_nthd da a i) by lia. rewrite (nthZ_nthd db b i) by lia. reflexivity.
Qed.

Lemma m_one_ok ph s L x n k chs vs l d b : packed s L -> chan_ok L (zlen x) -> regular n x -> 0 <= n ->
  fits ph n l d -> nthZ L k = Some (chs, vs) ->
  nthZ (ms_len s) k = Some l -> nthZ (ms_dil s) k = Some d -> nthZ (ms_norm s) k = Some b ->
  let st := map (fun row => windows N ph row l d) x in
  m_one N s (if b then map (map (znorm N)) st else st) k l = Ok (m_tr ph s L n x k).
Proof.
  intros HP HC HR Hn Hf HL Hl Hd Hb st. pose proof HP as (P1 & P2 & P3 & P4 & P5 & P6 & P7 & P8 & P9).
  pose proof (nthZ_range _ _ _ HL) as Hk.
  destruct (nthZ_some (ms_thr s) k) as (thr & Ht); [lia|].
  destruct (P8 k _ l HL Hl) as (E1 & E2 & E4 & E5). cbn [fst snd] in *.
  rewrite (m_one_unpack s L _ k chs vs l thr) by assumption.
  set (g := fun c => map (seen N b) (windows N ph (nthd [] x c) l d)).
  assert (Hsel : mapM (get (if b then map (map (znorm N)) st else st)) chs = Ok (map g chs)).
  { apply mapM_ok. intros c Hc. assert (Hcr : 0 <= c < zlen x) by (apply (HC (chs, vs)); [eapply nthZ_In; eauto|exact Hc]).
    apply get_nthZ; [lia|]. unfold g, st.
    assert (Hx : nthZ x c = Some (nthd [] x c)) by (apply nthZ_nthd; exact Hcr).
    destruct b; rewrite ?nthZ_map, Hx; cbn [option_map seen]; [reflexivity|]. rewrite map_id. reflexivity. }
  rewrite Hsel. cbn [bind].
  assert (Hrow : forall c, In c chs -> zlen (nthd [] x c) = n).
  { intros c Hc. apply HR. apply (nthZ_In _ c). apply nthZ_nthd. apply (HC (chs, vs)); [eapply nthZ_In; eauto|exact Hc]. }
  assert (Hg : forall c, In c chs -> zlen (g c) = nwin ph n l d).
  { intros c Hc. unfold g. rewrite zlen_map, zlen_windows; rewrite Hrow by exact Hc; [reflexivity|]. apply nwin_nonneg; assumption. }
  rewrite (apply_one_multivariate_ok N _ _ _ (nwin ph n l d)).
  - f_equal. rewrite (m_tr_eq ph s L n x k chs vs l d thr b) by assumption. f_equal. unfold mdistances.
    apply map_ext_in. intros i Hi. apply in_zrange in Hi. unfold mdist. f_equal.
    rewrite zlen_map.
    rewrite <- (map_combine_zrange 0 [] (fun c v => l1 N (seen N b (window N ph (nthd [] x c) l d i)) v) chs vs) by lia.
    apply map_ext_in. intros q Hq. apply in_zrange in Hq. f_equal.
    assert (Hin : In (nthd 0 chs q) chs) by (apply (nthZ_In _ q); apply nthZ_nthd; exact Hq).
    assert (E : nthd [] (map g chs) q = g (nthd 0 chs q)).
    { unfold nthd at 1. rewrite nthZ_map, (nthZ_nthd 0 chs q) by exact Hq. reflexivity. }
    rewrite E. unfold g, nthd at 1. rewrite nthZ_map, nthZ_windows by (rewrite Hrow by exact Hin; exact Hi). reflexivity.
  - destruct chs; [change (zlen (@nil Z)) with 0 in E2; lia|discriminate].
  - intros r Hr. apply in_map_iff in Hr as (c & <- & Hc). apply Hg. exact Hc.
  - rewrite zlen_map. lia.
  - intros ft i r w Hr Hw u Hu. rewrite nthZ_map in Hr. destruct (nthZ chs ft) as [c|] eqn:Ec; [|discriminate].
    cbn in Hr. injection Hr as <-. unfold g in Hw. rewrite nthZ_map in Hw.
    destruct (nthZ (windows N ph (nthd [] x c) l d) i) as [w0|] eqn:Ew; [|discriminate]. cbn in Hw. injection Hw as <-.
    assert (zlen w0 = l) by (eapply in_windows_len; [lia|eapply nthZ_In; exact Ew]).
    assert (zlen (seen N b w0) = zlen w0) by (destruct b; [apply zlen_znorm|reflexivity]).
    rewrite (E4 u) by (eapply nthZ_In; exact Hu). lia.
Qed.

Lemma strides2_cases (x : list (list F)) n l d ph : x <> [] -> regular n x -> 1 <= l -> 1 <= d ->
  (fits ph n l d /\ generate_strides_2D x l d ph = Ok (map (fun row => windows N ph row l d) x)) \/
  (~ fits ph n l d /\ generate_strides_2D x l d ph = Err ValueError).
Proof.
  intros Hx HR Hl Hd. destruct ph.
  - left. assert (fits true n l d) by (unfold fits; lia). split; [assumption|].
    apply (generate_strides_2D_ok N) with (n := n); assumption.
  - destruct (Z.le_gt_cases ((l - 1) * d) n).
    + left. assert (fits false n l d) by (unfold fits; lia). split; [assumption|].
      apply (generate_strides_2D_ok N) with (n := n); assumption.
    + right. split; [unfold fits; lia|]. unfold generate_strides_2D, strides_2D.
      rewrite (shape1_regular n x HR Hx).
      destruct (Z.leb_spec 0 (n - (l - 1) * d)); [lia|]. reflexivity.
Qed.

Definition mfits_all (ph : bool) (s : mshp F) (n : Z) : Prop :=
  forall k l d, nthZ (ms_len s) k = Some l -> nthZ (ms_dil s) k = Some d -> fits ph n l d.

Lemma not_mfits_ex ph s n : zlen (ms_dil s) = zlen (ms_len s) ->
  (forall k l, nthZ (ms_len s) k = Some l -> 1 <= l) -> (forall k d, nthZ (ms_dil s) k = Some d -> 1 <= d) ->
  ~ mfits_all ph s n -> exists k l d, nthZ (ms_len s) k = Some l /\ nthZ (ms_dil s) k = Some d /\ ~ fits ph n l d.
Proof.
  intros HL Hwl Hwd Hnf.
  set (P := fun k => if ph then true else (nthd 0 (ms_len s) k - 1) * nthd 0 (ms_dil s) k <=? n).
  destruct (forallb P (zrange 0 (zlen (ms_len s)))) eqn:E.
  - exfalso. apply Hnf. intros k l d Hl Hd. rewrite forallb_forall in E.
    pose proof (nthZ_range _ _ _ Hl) as Hk. specialize (E k (proj2 (in_zrange _ _ _) Hk)).
    unfold P, nthd in E. rewrite Hl, Hd in E. specialize (Hwl k l Hl). specialize (Hwd k d Hd).
    destruct ph; unfold fits; [lia|]. apply Z.leb_le in E. lia.
  - assert (Hx : exists k, In k (zrange 0 (zlen (ms_len s))) /\ P k = false).
    { clear -E. induction (zrange 0 (zlen (ms_len s))) as [|k r IH]; simpl in E; [discriminate|].
      apply andb_false_iff in E as [E|E]; [exists k; simpl; auto|].
      destruct (IH E) as (k' & H1 & H2). exists k'. simpl; auto. }
    destruct Hx as (k & Hk & Ek). apply in_zrange in Hk.
    exists k, (nthd 0 (ms_len s) k), (nthd 0 (ms_dil s) k). repeat split; try (apply nthZ_nthd; lia).
    unfold P in Ek. destruct ph; [discriminate|]. apply Z.leb_gt in Ek. unfold fits. lia.
Qed.

Section Gen.
Context (srs : Z -> list (list F)) (len : Z -> Z) (srs_m : Z -> res (list (list F))) (ph : bool)
  (s : mshp F) (L : list (lshp F)) (n : Z).
Hypothesis Hn : 0 <= n.
Hypothesis Hs : forall i, 0 <= i < n -> srs_m i = Ok (srs i).
Hypothesis Hne : forall i, 0 <= i < n -> srs i <> [] /\ regular (len i) (srs i) /\ chan_ok L (zlen (srs i)) /\ 0 <= len i.
Hypothesis P : packed s L.

Definition mtasks := apply_tasks (fun i l d => let* x := srs_m i in generate_strides_2D x l d ph)
              (map (map (znorm N))) (m_one N s) (ms_len s) (ms_dil s) (ms_norm s) n.

Definition m_result : list (list F) := map (fun i => m_row ph s L (len i) (srs i)) (zrange 0 n).

Lemma mtasks_ok : (forall i, 0 <= i < n -> mfits_all ph s (len i)) ->
  exists ts, mtasks = Ok ts /\ NoDup (cells (concat ts)) /\
    forall out, interleave ts out -> run_writes out (X_new0 N n (zlen (ms_len s))) = Ok m_result.
Proof.
  intros Hf. pose proof P as (P1 & P2 & P3 & P4 & P5 & P6 & P7 & P8 & P9).
  destruct (apply_par_ok N (fun i l d => let* x := srs_m i in generate_strides_2D x l d ph)
     (map (map (znorm N))) (m_one N s) (ms_len s) (ms_dil s) (ms_norm s) n
     (fun i k => m_tr ph s L (len i) (srs i) k)) as (ts & H1 & H2 & H3); auto; try lia.
  - intros i k l d b Hi Hl Hd Hb. rewrite (Hs i Hi). cbn [bind].
    destruct (Hne i Hi) as (Hx & HR & HC & Hlen).
    specialize (Hf i Hi k l d Hl Hd). rewrite (generate_strides_2D_ok N _ _ _ _ (len i) Hx HR Hf).
    eexists. split; [reflexivity|].
    destruct (nthZ_some L k) as ((chs, vs) & HLk). { apply nthZ_range in Hl. lia. }
    apply (m_one_ok ph s L (srs i) (len i) k chs vs l d b); assumption.
  - exists ts. repeat split; auto.
Qed.

Lemma mtasks_err : (exists i, 0 <= i < n /\ ~ mfits_all ph s (len i)) -> mtasks = Err ValueError.
Proof.
  intros (i & Hi & Hnf). pose proof P as (P1 & P2 & P3 & P4 & P5 & P6 & P7 & P8 & P9).
  assert (Hwl : forall k l, nthZ (ms_len s) k = Some l -> 1 <= l).
  { intros k l Hl. pose proof (nthZ_range _ _ _ Hl). destruct (nthZ_some L k) as (p & Hp); [lia|].
    destruct (P8 k p l Hp Hl) as (_ & _ & _ & H1). exact H1. }
  unfold mtasks. apply (apply_tasks_err) with (tr := fun i k => m_tr ph s L (len i) (srs i) k); auto; try lia.
  - intros i' k l d Hi' Hl Hd. rewrite (Hs i' Hi'). cbn [bind]. destruct (Hne i' Hi') as (Hx & HR & HC & Hlen).
    destruct (strides2_cases (srs i') (len i') l d ph Hx HR (Hwl k l Hl) (P9 k d Hd)) as [[Hf E]|[Hf E]].
    + right. rewrite E. eexists. split; [reflexivity|]. intros k' b H1 H2 H3.
      destruct (nthZ_some L k') as ((chs, vs) & HLk). { apply nthZ_range in H1. lia. }
      apply (m_one_ok ph s L (srs i') (len i') k' chs vs l d b); assumption.
    + left. exact E.
  - destruct (not_mfits_ex ph s (len i)) as (k & l & d & Hl & Hd & Hnfk); auto; try lia.
    exists i, k, l, d. repeat split; auto; try lia.
    rewrite (Hs i Hi). cbn [bind]. destruct (Hne i Hi) as (Hx & HR & HC & Hlen).
    destruct (strides2_cases (srs i) (len i) l d ph Hx HR (Hwl k l Hl) (P9 k d Hd)) as [[Hf E]|[Hf E]]; [contradiction|exact E].
Qed.
End Gen.

(** ** Same length: all samples have [nf] channels of [n] points *)

Definition mdata (nf n : Z) (X : dataset F) : Prop :=
  1 <= nf /\ 0 <= n /\ forall x, In x X -> zlen x = nf /\ regular n x.

Lemma mdata_at nf n X i : mdata nf n X -> 0 <= i < zlen X ->
  zlen (nthd [] X i) = nf /\ regular n (nthd [] X i) /\ nthd [] X i <> [].
Proof.
  intros (H1 & H2 & H3) Hi. destruct (H3 (nthd [] X i)) as [E R].
  { apply (nthZ_In _ i). apply nthZ_nthd. exact Hi. }
  repeat split; auto. destruct (nthd [] X i); [change (zlen (@nil (list F))) with 0 in E; lia|discriminate].
Qed.

Lemma M_SL_par X nf n s L ph : mdata nf n X -> packed s L -> chan_ok L nf -> mfits_all ph s n ->
  exists ts, M_SL_tasks N X s ph = Ok ts /\ NoDup (cells (concat ts)) /\
    forall out, interleave ts out ->
      run_writes out (X_new0 N (zlen X) (zlen (ms_len s))) = Ok (map (m_row ph s L n) X).
Proof.
  intros HX HP HC Hf.
  assert (E : map (m_row ph s L n) X = m_result (fun i => nthd [] X i) (fun _ => n) ph s L (zlen X)).
  { unfold m_result. rewrite <- (map_nthd_zrange [] X) at 1. rewrite map_map. reflexivity. }
  rewrite E. apply (mtasks_ok (fun i => nthd [] X i) (fun _ => n) (get X)); auto.
  - apply zlen_nonneg.
  - intros i Hi. apply get_nthd. exact Hi.
  - intros i Hi. destruct (mdata_at nf n X i HX Hi) as (E1 & E2 & E3). destruct HX as (H1 & H2 & H3).
    split; [|split; [|split]]; auto. rewrite E1. exact HC.
Qed.

Lemma M_SL_ok X nf n s L ph : mdata nf n X -> packed s L -> chan_ok L nf -> mfits_all ph s n ->
  M_SL_apply N X s ph = Ok (map (m_row ph s L n) X).
Proof.
  intros HX HP HC Hf. destruct (M_SL_par X nf n s L ph HX HP HC Hf) as (ts & Hts & _ & H).
  unfold M_SL_apply. rewrite Hts. cbn [bind]. apply H. apply interleave_seq.
Qed.

Lemma M_SL_err X nf n s L ph : mdata nf n X -> packed s L -> chan_ok L nf -> X <> [] -> ~ mfits_all ph s n ->
  M_SL_apply N X s ph = Err ValueError.
Proof.
  intros HX HP HC Hne Hf. unfold M_SL_apply, M_SL_tasks.
  pose proof (mtasks_err (fun i => nthd [] X i) (fun _ => n) (get X) ph s L (zlen X)) as HH. unfold mtasks in HH.
  rewrite HH; auto.
  - intros i Hi. apply get_nthd. exact Hi.
  - intros i Hi. destruct (mdata_at nf n X i HX Hi) as (E1 & E2 & E3). destruct HX as (H1 & H2 & H3).
    split; [|split; [|split]]; auto. rewrite E1. exact HC.
  - exists 0. split; [|exact Hf]. destruct X; [congruence|]. rewrite zlen_cons. pose proof (zlen_nonneg X). lia.
Qed.

(** ** Variable length: [n] is the padded width *)

Definition mser_vl (X : dataset F) (X_len : list Z) (i : Z) : list (list F) :=
  map (fun r => slice r 0 (nthd 0 X_len i)) (nthd [] X i).

Definition vl_ok (n : Z) (X : dataset F) (X_len : list Z) : Prop :=
  zlen X_len = zlen X /\ forall i l, nthZ X_len i = Some l -> 0 <= l <= n.

Lemma mser_vl_at nf n X X_len i : mdata nf n X -> vl_ok n X X_len -> 0 <= i < zlen X ->
  m_series_vl X X_len i = Ok (mser_vl X X_len i) /\ zlen (mser_vl X X_len i) = nf /\
  regular (nthd 0 X_len i) (mser_vl X X_len i) /\ mser_vl X X_len i <> [] /\ 0 <= nthd 0 X_len i.
Proof.
  intros HX [HL HV] Hi. destruct (mdata_at nf n X i HX Hi) as (E1 & E2 & E3).
  assert (Hl : 0 <= nthd 0 X_len i <= n) by (apply (HV i); apply nthZ_nthd; lia).
  unfold m_series_vl, mser_vl. rewrite (get_nthd [] X) by exact Hi. cbn [bind]. rewrite (get_nthd 0 X_len) by lia.
  cbn [bind]. repeat split.
  - rewrite zlen_map. exact E1.
  - intros r Hr. apply in_map_iff in Hr as (r0 & <- & Hr0). apply zlen_slice0. rewrite (E2 r0 Hr0). exact Hl.
  - destruct (nthd [] X i); [congruence|discriminate].
  - lia.
Qed.

Lemma M_VL_par X X_len nf n s L ph : mdata nf n X -> vl_ok n X X_len -> packed s L -> chan_ok L nf ->
  (forall i, 0 <= i < zlen X -> mfits_all ph s (nthd 0 X_len i)) ->
  exists ts, M_VL_tasks N X X_len s ph = Ok ts /\ NoDup (cells (concat ts)) /\
    forall out, interleave ts out ->
      run_writes out (X_new0 N (zlen X) (zlen (ms_len s)))
      = Ok (m_result (mser_vl X X_len) (nthd 0 X_len) ph s L (zlen X)).
Proof.
  intros HX HV HP HC Hf. apply (mtasks_ok (mser_vl X X_len) (nthd 0 X_len) (m_series_vl X X_len)); auto.
  - apply zlen_nonneg.
  - intros i Hi. apply (mser_vl_at nf n); assumption.
  - intros i Hi. destruct (mser_vl_at nf n X X_len i HX HV Hi) as (E1 & E2 & E3 & E4 & E5).
    split; [|split; [|split]]; auto. rewrite E2. exact HC.
Qed.

Lemma M_VL_ok X X_len nf n s L ph : mdata nf n X -> vl_ok n X X_len -> packed s L -> chan_ok L nf ->
  (forall i, 0 <= i < zlen X -> mfits_all ph s (nthd 0 X_len i)) ->
  M_VL_apply N X X_len s ph = Ok (m_result (mser_vl X X_len) (nthd 0 X_len) ph s L (zlen X)).
Proof.
  intros HX HV HP HC Hf. destruct (M_VL_par X X_len nf n s L ph HX HV HP HC Hf) as (ts & Hts & _ & H).
  unfold M_VL_apply. rewrite Hts. cbn [bind]. apply H. apply interleave_seq.
Qed.

Lemma M_VL_err X X_len nf n s L ph : mdata nf n X -> vl_ok n X X_len -> packed s L -> chan_ok L nf ->
  (exists i, 0 <= i < zlen X /\ ~ mfits_all ph s (nthd 0 X_len i)) ->
  M_VL_apply N X X_len s ph = Err ValueError.
Proof.
  intros HX HV HP HC Hf. unfold M_VL_apply, M_VL_tasks.
  pose proof (mtasks_err (mser_vl X X_len) (nthd 0 X_len) (m_series_vl X X_len) ph s L (zlen X)) as HH.
  unfold mtasks in HH. rewrite HH; auto.
  - intros i Hi. apply (mser_vl_at nf n); assumption.
  - intros i Hi. destruct (mser_vl_at nf n X X_len i HX HV Hi) as (E1 & E2 & E3 & E4 & E5).
    split; [|split; [|split]]; auto. rewrite E2. exact HC.
Qed.

Lemma m_row_block ph s L n x k : 0 <= k < zlen (ms_len s) -> block (m_row ph s L n x) k (m_tr ph s L n x k).
Proof.
  intros Hk. unfold block. destruct (m_tr ph s L n x k) as [[m a] c] eqn:E.
  assert (G : forall q, 0 <= q < 3 -> nthZ (m_row ph s L n x) (3 * k + q) = Some (tri (m, a, c) q)).
  { intros q Hq. unfold m_row. rewrite nthZ_map, nthZ_zrange by lia. cbn [option_map]. f_equal.
    replace ((0 + (3 * k + q)) / 3) with k by lia. replace ((0 + (3 * k + q)) mod 3) with q by lia.
    rewrite E. reflexivity. }
  repeat split.
  - rewrite <- (Z.add_0_r (3 * k)). apply (G 0). lia.
  - apply (G 1). lia.
  - apply (G 2). lia.
Qed.

Lemma zlen_m_row ph s L n x : zlen (m_row ph s L n x) = 3 * zlen (ms_len s).
Proof. unfold m_row. rewrite zlen_map, zlen_zrange. pose proof (zlen_nonneg (ms_len s)). lia. Qed.

End M.
