(** Multivariate shapelet generation: what one iteration does. *)
From Coq Require Import ZArith List Bool Lia Permutation.
From Verif Require Import Prelude Num Kernel Spec KernelProofs Apply ApplyUni ApplyMulti TransformProofs TransformLaws Gen GenSched GenBase GenUni GenULoop GenMulti.
Import ListNotations.
Open Scope Z_scope.

(** a cell of the mask of one (normalisation, dilation) *)
Definition m3cell (m : list (list (list bool))) (s c t : Z) : bool := mcell (nthd [] m s) c t.
Definition mask_ok3 (nsamp nf wd : Z) (m : list (list (list bool))) : Prop :=
  zlen m = nsamp /\ forall s m2, nthZ m s = Some m2 -> mask_ok nf wd m2.

Lemma mask_sample nsamp nf wd m s : mask_ok3 nsamp nf wd m -> 0 <= s < nsamp -> exists m2, nthZ m s = Some m2 /\ get m s = Ok m2 /\ mask_ok nf wd m2 /\ nthd [] m s = m2.
Proof.
  intros [H1 H2] Hs. destruct (get_ok m s ltac:(lia)) as (r & A & B). exists r. split; [exact B|]. split; [exact A|]. split; [eapply H2; eauto|apply nthd_some; exact B].
Qed.

Lemma clear3_fold_ok nsamp nf wd id ch ts m : mask_ok3 nsamp nf wd m -> 0 <= id < nsamp -> 0 <= ch < nf -> (forall t, In t ts -> 0 <= t < wd) ->
  exists m', foldM (fun m t => clear3 m id ch t) ts m = Ok m' /\ mask_ok3 nsamp nf wd m' /\
    forall s c u, m3cell m' s c u = m3cell m s c u && negb ((s =? id) && ((c =? ch) && existsb (Z.eqb u) ts)).
Proof.
  intros HM Hid Hch Hts. destruct (mask_sample _ _ _ m id HM Hid) as (m2 & Hn & Hg & HM2 & Hd).
  assert (E : foldM (fun m t => clear3 m id ch t) ts m = upd_at m id (fun m3 => foldM (fun r t => clear2 r ch t) ts m3)).
  { apply (foldM_upd_at (fun m3 t => clear2 m3 ch t) ts m id m2 Hg). }
  rewrite E. unfold upd_at. rewrite Hg. cbn [bind]. destruct (clear_fold_ok nf wd ch ts Hch Hts m2 HM2) as (m2' & E2 & HM2' & C2). rewrite E2. cbn [bind].
  destruct HM as [M1 M2]. rewrite set_ok by lia. eexists. split; [reflexivity|].
  assert (HN : forall s, nthZ (upd m (Z.to_nat id) m2') s = if s =? id then Some m2' else nthZ m s) by (intros s; apply nthZ_upd; lia).
  split.
  - split; [rewrite zlen_upd; exact M1|]. intros s r Hr. rewrite HN in Hr. destruct (s =? id); [|eapply M2; eauto]. assert (r = m2') by congruence. subst r. exact HM2'.
  - intros s c u. unfold m3cell, nthd at 1. rewrite HN. destruct (Z.eqb_spec s id) as [->|Hs]; cbn [andb negb].
    + rewrite C2, Hd. reflexivity.
    + rewrite andb_true_r. reflexivity.
Qed.

(** number of channels of [chs] unmasked at (s, t) *)
Definition count (m : list (list (list bool))) (s : Z) (chs : list Z) (t : Z) : Z := zlen (filter (fun c => m3cell m s c t) chs).

Lemma counts_ok nf wd m s chs b m2 : mask_ok nf wd m2 -> nthd [] m s = m2 -> chs <> [] -> (forall c, In c chs -> 0 <= c < nf) -> 0 <= b <= wd ->
  channel_counts m2 chs b = Ok (map (count m s chs) (zrange 0 b)).
Proof.
  intros HM Hd Hne Hch Hb. unfold channel_counts. rewrite (mapM_ok _ (fun c => nthd [] m2 c)).
  2:{ intros c Hc. apply get_nthd. destruct HM as [M1 _]. specialize (Hch c Hc). lia. }
  cbn [bind]. f_equal. rewrite map_map.
  assert (HR : forall c, In c chs -> zlen (nthd [] m2 c) = wd).
  { intros c Hc. destruct (mask_row _ _ m2 c HM (Hch c Hc)) as (r & Hr & _ & HL). rewrite (nthd_some [] _ _ _ Hr). exact HL. }
  assert (HS : shape1 (map (fun x => slice (nthd [] m2 x) 0 b) chs) = b).
  { destruct chs as [|c chs]; [congruence|]. cbn. rewrite slice_length; [lia|lia|]. rewrite HR by (left; reflexivity). lia. }
  rewrite HS. apply map_ext_in. intros t Ht. apply in_zrange in Ht. unfold count. rewrite map_map.
  clear HS Hne. induction chs as [|c chs IH]; [reflexivity|]. cbn [map filter].
  assert (E : nthd false (slice (nthd [] m2 c) 0 b) t = m3cell m s c t).
  { unfold m3cell, mcell. rewrite Hd. unfold nthd at 1. rewrite nthZ_slice; [rewrite Z.add_0_l; reflexivity|lia|rewrite HR by (left; reflexivity); lia|lia]. }
  rewrite E.
  assert (IH' := IH (fun c Hc => Hch c (or_intror Hc)) (fun c Hc => HR c (or_intror Hc))).
  destruct (m3cell m s c t); rewrite ?zlen_cons, zsum_cons, IH'; cbn [b2z]; lia.
Qed.

Lemma sumF_snoc {F} (N : NumOps F) l x : sumF N (l ++ [x]) = nadd N (sumF N l) x.
Proof. unfold sumF. rewrite fold_left_app. reflexivity. Qed.

Lemma firstn_S_nth {A} (l : list A) k x : nth_error l k = Some x -> firstn (S k) l = firstn k l ++ [x].
Proof.
  revert l. induction k as [|k IH]; intros [|a l] H; cbn in H; try discriminate.
  - cbn. congruence.
  - cbn [firstn app]. f_equal. apply (IH l H).
Qed.

Lemma nthZ_nat {A} (l : list A) k : nthZ l (Z.of_nat k) = nth_error l k.
Proof. unfold nthZ. destruct (Z.ltb_spec (Z.of_nat k) 0); [lia|]. rewrite Nat2Z.id. reflexivity. Qed.

Section L.
Context {F : Type} (N : NumOps F) {S : Type} (rng : Rng F S) (L : RngLaws N rng).
Context (nsamp nf wd : Z) (nlen : Z -> Z) (srs : Z -> list (list F)) (srs_m : Z -> Z -> res (list F)) (y : list Z) (P : gparams F) (dr : drawn) (nch : list Z).
Notation ph := (g_phase P).
Notation nw s i := (nwin ph (nlen s) (dlen dr i) (ddil dr i)).
Hypothesis Hser : forall s c, 0 <= s < nsamp -> 0 <= c < nf -> srs_m s c = Ok (nthd [] (srs s) c) /\ zlen (nthd [] (srs s) c) = nlen s.
Hypothesis Hlen : forall s, 0 <= s < nsamp -> 0 < nlen s <= wd.
Hypothesis Hy : zlen y = nsamp.

(** the channels drawn for shapelet [i] *)
Definition channels_ok (i : Z) (chs : list Z) : Prop := zlen chs = dnch nch i /\ NoDup chs /\ forall c, In c chs -> 0 <= c < nf.

(** admissible starts for shapelet [i] with channels [chs] under mask [m]: at least the fraction alpha of the channels is unmasked *)
Definition madmissible (i : Z) (m : list (list (list bool))) (chs : list Z) (s t : Z) : Prop :=
  0 <= s < nsamp /\ 0 <= t < nw s i /\ nleb N (nmul N (nofZ N (dnch nch i)) (g_alpha P)) (nofZ N (count m s chs t)) = true.

Definition ch_val (i s t c : Z) : list F := seen N (dnorm dr i) (window N ph (nthd [] (srs s) c) (dlen dr i) (ddil dr i) t).

Definition mpick_ok (i : Z) (m : list (list (list bool))) (pk : mpick F) : Prop :=
  channels_ok i (mp_chs pk) /\ madmissible i m (mp_chs pk) (mp_sample pk) (mp_index pk) /\
  mp_v pk = concat (map (ch_val i (mp_sample pk) (mp_index pk)) (mp_chs pk)) /\
  0 <= mp_test pk < nsamp /\ nthZ y (mp_test pk) = nthZ y (mp_sample pk) /\
  (mp_test pk = mp_sample pk -> forall j, 0 <= j < nsamp -> nthZ y j = nthZ y (mp_sample pk) -> j = mp_sample pk) /\
  mp_dist pk = mdistances N ph (dnorm dr i) (nlen (mp_test pk)) (srs (mp_test pk)) (mp_chs pk) (map (ch_val i (mp_sample pk) (mp_index pk)) (mp_chs pk)) (dlen dr i) (ddil dr i) /\
  threshold_of N rng (mp_dist pk) (g_pmin P) (g_pmax P) (mp_thr pk).

Definition mblocked (g i s c t : Z) (pk : mpick F) : Prop :=
  s = mp_sample pk /\ In c (mp_chs pk) /\ masked_at (mp_index pk) (ddil dr i) (nlen s) (alpha_size N (g_alpha P) (dlen dr i) (gmin dr g)) t.

Definition miter_ok (e : Z * Z) (m m' : list (list (list bool))) (w : option (mpick F)) : Prop :=
  mask_ok3 nsamp nf wd m' /\
  match w with
  | None => m' = m /\ exists chs, channels_ok (snd e) chs /\ forall s t, ~ madmissible (snd e) m chs s t
  | Some pk => mpick_ok (snd e) m pk /\ forall s c t, m3cell m' s c t = true <-> m3cell m s c t = true /\ ~ mblocked (fst e) (snd e) s c t pk
  end.

Lemma ch_val_len i s t c : 1 <= dlen dr i -> zlen (ch_val i s t c) = dlen dr i.
Proof. intros H. unfold ch_val. rewrite zlen_seen. apply zlen_window. exact (Z.le_trans _ _ _ Z.le_0_1 H). Qed.

Lemma zlen_concat_val i s t chs : 1 <= dlen dr i -> zlen (concat (map (ch_val i s t) chs)) = zlen chs * dlen dr i.
Proof.
  intros H. induction chs as [|c chs IH]; cbn [map concat]; [reflexivity|]. rewrite zlen_app, zlen_cons, IH, ch_val_len by exact H. ring.
Qed.

Definition part_dist (i id tst t : Z) (chs : list Z) : list F :=
  map (fun j => sumF N (map (fun c => l1 N (seen N (dnorm dr i) (window N ph (nthd [] (srs tst) c) (dlen dr i) (ddil dr i) j)) (ch_val i id t c)) chs)) (zrange 0 (nw tst i)).

Lemma part_dist_all i id tst t chs : part_dist i id tst t chs =
  mdistances N ph (dnorm dr i) (nlen tst) (srs tst) chs (map (ch_val i id t) chs) (dlen dr i) (ddil dr i).
Proof.
  unfold part_dist, mdistances. apply map_ext. intros j. f_equal. induction chs as [|c chs IH]; [reflexivity|]. cbn [map combine fst snd]. f_equal. exact IH.
Qed.

Lemma repeat_map_const {A B} (x : B) (l : list A) : map (fun _ => x) l = repeat x (length l).
Proof. induction l; cbn; congruence. Qed.

Lemma ch_loop_ok g i m id tst t chs : channels_ok i chs -> draw_fits nsamp nlen dr i -> mask_ok3 nsamp nf wd m -> 0 <= id < nsamp -> 0 <= tst < nsamp -> 0 <= t < nw id i ->
  exists m', ch_loop N P srs_m id tst t (dlen dr i) (ddil dr i) (nlen id) (alpha_size N (g_alpha P) (dlen dr i) (gmin dr g)) (dnorm dr i) chs
      (m, repeat (n0 N) (Z.to_nat (nw tst i)), repeat (n0 N) (Z.to_nat (dnch nch i * dlen dr i))) =
    Ok (m', part_dist i id tst t chs, concat (map (ch_val i id t) chs)) /\ mask_ok3 nsamp nf wd m' /\
    forall s c u, m3cell m' s c u = true <-> m3cell m s c u = true /\
      ~ (s = id /\ In c chs /\ masked_at t (ddil dr i) (nlen s) (alpha_size N (g_alpha P) (dlen dr i) (gmin dr g)) u).
Proof.
  intros (HZ & HND & HC) HD HM Hid Htst Ht. pose proof HD as (D1 & D2 & _).
  set (l := dlen dr i) in *. set (d := ddil dr i) in *. set (asz := alpha_size N (g_alpha P) l (gmin dr g)).
  assert (G : forall k, (k <= length chs)%nat -> exists m',
    foldM (ch_step N P srs_m id tst t l d (nlen id) asz (dnorm dr i) chs) (zrange 0 (Z.of_nat k)) (m, repeat (n0 N) (Z.to_nat (nw tst i)), repeat (n0 N) (Z.to_nat (dnch nch i * l))) =
    Ok (m', part_dist i id tst t (firstn k chs), concat (map (ch_val i id t) (firstn k chs)) ++ repeat (n0 N) (Z.to_nat ((dnch nch i - Z.of_nat k) * l))) /\ mask_ok3 nsamp nf wd m' /\
    forall s c u, m3cell m' s c u = true <-> m3cell m s c u = true /\ ~ (s = id /\ In c (firstn k chs) /\ masked_at t d (nlen s) asz u)).
  { induction k as [|k IH]; intros Hk.
    - exists m. split; [|split; [exact HM|]].
      + cbn [foldM zrange Z.of_nat]. change (zrange 0 0) with (@nil Z). cbn [foldM firstn map concat app]. f_equal. f_equal; [|f_equal; f_equal; lia]. f_equal.
        unfold part_dist. cbn [map]. change (sumF N []) with (n0 N). rewrite repeat_map_const. f_equal. pose proof (zlen_zrange 0 (nw tst i)) as Z0. unfold zlen in Z0. lia.
      + intros s c u. cbn [firstn In]. tauto.
    - destruct (IH ltac:(lia)) as (mk & Ek & HMk & Ck). destruct (nth_error chs k) as [c|] eqn:Ec; [|apply nth_error_None in Ec; lia].
      assert (Hc : 0 <= c < nf) by (apply HC; eapply nth_error_In; eauto).
      destruct (Hser id c Hid Hc) as [Sm Sl]. destruct (Hser tst c Htst Hc) as [Tm Tl].
      destruct (draw_fits_fits nsamp wd nlen P dr Hlen i id HD Hid) as [Fid _]. destruct (draw_fits_fits nsamp wd nlen P dr Hlen i tst HD Htst) as [Ftst Wtst]. fold l d in Fid, Ftst, Wtst.
      destruct (clear3_fold_ok nsamp nf wd id c (positions t d (nlen id) asz) mk HMk Hid Hc) as (m' & Em' & HM' & C').
      { intros u Hu. apply positions_range in Hu; [|apply Hlen; exact Hid]. pose proof (Hlen id Hid). lia. }
      exists m'. replace (Z.of_nat (Datatypes.S k)) with (Z.of_nat k + 1) by lia. rewrite zrange_snoc by lia. rewrite foldM_app, Ek. cbn [bind foldM].
      unfold ch_step. rewrite (proj2 (get_nthZ chs (Z.of_nat k) c ltac:(lia))) by (rewrite nthZ_nat; exact Ec). cbn [bind]. rewrite Em'. cbn [bind]. rewrite Sm. cbn [bind].
      rewrite get_subsequence_ok; [|rewrite Sl; exact Fid|rewrite Sl; exact Ht]. cbn [bind].
      assert (EV : (if dnorm dr i then znorm N (window N ph (nthd [] (srs id) c) l d t) else window N ph (nthd [] (srs id) c) l d t) = ch_val i id t c).
      { unfold ch_val, seen. rewrite znorm_zscore. reflexivity. }
      rewrite EV. rewrite Tm. cbn [bind]. rewrite dist_vector_distances; [|rewrite Tl; exact Ftst|rewrite ch_val_len by exact D1; lia]. cbn [bind].
      rewrite (firstn_S_nth chs k c Ec).
      assert (EA : vadd N (part_dist i id tst t (firstn k chs)) (distances N ph (dnorm dr i) (nthd [] (srs tst) c) (ch_val i id t c) l d) = Ok (part_dist i id tst t (firstn k chs ++ [c]))).
      { unfold vadd, part_dist, distances. rewrite Tl. fold l d. rewrite !zlen_map, Z.eqb_refl. cbn [guard bind]. f_equal.
        generalize (zrange 0 (nwin ph (nlen tst) l d)). intros zs. induction zs as [|z zs IHz]; [reflexivity|]. cbn [map combine fst snd]. f_equal; [|exact IHz].
        rewrite map_app. cbn [map]. rewrite sumF_snoc. reflexivity. }
      rewrite EA. cbn [bind].
      assert (Hkz : Z.of_nat k + 1 <= dnch nch i) by (unfold zlen in HZ; lia).
      pose proof (zlen_concat_val i id t (firstn k chs) D1) as ZK. fold l in ZK.
      assert (ZF : zlen (firstn k chs) = Z.of_nat k) by (unfold zlen; rewrite firstn_length; lia). rewrite ZF in ZK.
      assert (ES : set_slice (concat (map (ch_val i id t) (firstn k chs)) ++ repeat (n0 N) (Z.to_nat ((dnch nch i - Z.of_nat k) * l))) (Z.of_nat k * l) ((Z.of_nat k + 1) * l) (ch_val i id t c)
         = Ok (concat (map (ch_val i id t) (firstn k chs ++ [c])) ++ repeat (n0 N) (Z.to_nat ((dnch nch i - (Z.of_nat k + 1)) * l)))).
      { replace (Z.to_nat ((dnch nch i - Z.of_nat k) * l)) with (Z.to_nat l + Z.to_nat ((dnch nch i - (Z.of_nat k + 1)) * l))%nat by nia.
        rewrite repeat_app.
        assert (ZR : zlen (repeat (n0 N) (Z.to_nat l)) = l) by (unfold zlen; rewrite repeat_length; lia).
        replace ((Z.of_nat k + 1) * l) with (zlen (concat (map (ch_val i id t) (firstn k chs))) + zlen (repeat (n0 N) (Z.to_nat l))) by (rewrite ZK, ZR; lia).
        rewrite <- ZK at 1. rewrite set_slice_mid. rewrite ZR, ch_val_len by exact D1. fold l. rewrite Z.eqb_refl.
        rewrite map_app, concat_app. cbn [map concat]. rewrite app_nil_r, <- app_assoc. reflexivity. }
      rewrite ES. cbn [bind]. split; [reflexivity|]. split; [exact HM'|].
      intros s c' u. rewrite C', andb_true_iff, Ck, negb_true_iff, in_app_iff. cbn [In]. split.
      + intros [[A B] E]. split; [exact A|]. intros (-> & [HI|[<-|[]]] & HMk'); [apply B; auto|].
        apply positions_existsb in HMk'. rewrite !Z.eqb_refl, HMk' in E. discriminate.
      + intros [A B]. split; [split; [exact A|]|].
        * intros (E1 & E2 & E3). apply B. auto.
        * apply not_true_is_false. intros HT. apply andb_true_iff in HT as [H1 H2]. apply andb_true_iff in H2 as [H2 H3]. apply Z.eqb_eq in H1, H2. subst s c'.
          apply B. split; [reflexivity|]. split; [right; left; reflexivity|]. apply positions_existsb. exact H3. }
  destruct (G (length chs) (le_n _)) as (m' & E & HM' & C). exists m'. rewrite firstn_all in *. split; [|split; [exact HM'|exact C]].
  etransitivity; [exact E|]. f_equal. f_equal.
  replace ((dnch nch i - Z.of_nat (length chs)) * l) with 0 by (unfold zlen in HZ; nia). cbn [repeat Z.to_nat]. apply app_nil_r.
Qed.

Lemma m_rest_inv g i m chs id tst index s r : mask_ok3 nsamp nf wd m -> draw_fits nsamp nlen dr i -> channels_ok i chs -> madmissible i m chs id index ->
  0 <= tst < nsamp -> nthZ y tst = nthZ y id -> (tst = id -> forall j, 0 <= j < nsamp -> nthZ y j = nthZ y id -> j = id) ->
  m_rest N rng srs_m P (dlen dr i) (ddil dr i) (dnorm dr i) (alpha_size N (g_alpha P) (dlen dr i) (gmin dr g)) (nlen id) id tst index chs m
    (repeat (n0 N) (Z.to_nat (nw tst i))) (repeat (n0 N) (Z.to_nat (dnch nch i * dlen dr i))) s = Ok r ->
  miter_ok (g, i) m (fst (fst r)) (snd (fst r)).
Proof.
  intros HM HD HC HA T1 T2 T3 H. pose proof HA as (Hid & Hix & _).
  destruct (ch_loop_ok g i m id tst index chs HC HD HM Hid T1 Hix) as (m' & E & HM' & C).
  unfold m_rest in H. rewrite (liftG_ok _ _ _ _ E) in H. cbn [fst snd] in H. apply bindG_inv in H as (th & s1 & Ht & H). apply draw_threshold_inv in Ht. unfold retG in H.
  assert (Er : r = (m', Some (mkMPick id index tst chs (concat (map (ch_val i id index) chs)) (part_dist i id tst index chs) th), s1)) by congruence. subst r. cbn [fst snd].
  split; [exact HM'|]. split.
  - unfold mpick_ok. cbn [mp_sample mp_index mp_test mp_chs mp_v mp_dist mp_thr snd fst]. split; [exact HC|]. split; [exact HA|]. split; [reflexivity|]. split; [exact T1|].
    split; [exact T2|]. split; [exact T3|]. split; [apply part_dist_all|exact Ht].
  - intros s0 c u. unfold mblocked. cbn [mp_sample mp_index mp_chs fst snd]. apply C.
Qed.

Lemma m_rest_total (HP : forall a, zlen a <= wd -> exists p, percentiles N a (g_pmin P) (g_pmax P) = Ok p) g i m chs id tst index s : mask_ok3 nsamp nf wd m -> draw_fits nsamp nlen dr i -> channels_ok i chs ->
  madmissible i m chs id index -> 0 <= tst < nsamp -> exists r,
  m_rest N rng srs_m P (dlen dr i) (ddil dr i) (dnorm dr i) (alpha_size N (g_alpha P) (dlen dr i) (gmin dr g)) (nlen id) id tst index chs m
    (repeat (n0 N) (Z.to_nat (nw tst i))) (repeat (n0 N) (Z.to_nat (dnch nch i * dlen dr i))) s = Ok r.
Proof.
  intros HM HD HC HA T1. pose proof HA as (Hid & Hix & _).
  destruct (ch_loop_ok g i m id tst index chs HC HD HM Hid T1 Hix) as (m' & E & _). unfold m_rest. rewrite (liftG_ok _ _ _ _ E). cbn [fst snd].
  assert (Hxd : zlen (part_dist i id tst index chs) <= wd).
  { unfold part_dist. rewrite zlen_map, zlen_zrange. destruct (draw_fits_fits nsamp wd nlen P dr Hlen i tst HD T1) as [_ Hw]. pose proof (Hlen tst T1). lia. }
  destruct (HP (part_dist i id tst index chs) Hxd) as (p & Hp). destruct (draw_threshold_total N rng _ _ _ s p Hp) as (th & s2 & Et).
  unfold bindG. rewrite Et. cbn [bind fst snd]. unfold retG. eauto.
Qed.

End L.

Lemma draw_channels {F} (N : NumOps F) {S} (rng : Rng F S) (L : RngLaws N rng) nf nch i s chs s' :
  choice_norep rng (zrange 0 nf) (dnch nch i) s = Ok (chs, s') -> channels_ok nf nch i chs.
Proof.
  intros H. apply (choice_norep_inv N rng L) in H as (_ & A & B & C); [|apply zrange_NoDup]. split; [exact A|]. split; [exact B|]. intros c Hc. apply C, in_zrange in Hc. lia.
Qed.

Lemma draw_channels_total {F} (N : NumOps F) {S} (rng : Rng F S) (L : RngLaws N rng) nf nch i s :
  1 <= dnch nch i <= nf -> exists chs s', choice_norep rng (zrange 0 nf) (dnch nch i) s = Ok (chs, s').
Proof.
  intros Hn. destruct (choice_norep_ok N rng L (zrange 0 nf) (dnch nch i) s) as (c & s' & E & _); [rewrite zlen_zrange; lia|rewrite zlen_zrange; lia|apply zrange_NoDup|eauto].
Qed.

Lemma channels_ne nf nch i chs : 1 <= dnch nch i -> channels_ok nf nch i chs -> chs <> [].
Proof. intros Hn (A & _) ->. change (zlen (@nil Z)) with 0 in A. lia. Qed.

Lemma nthZ_enough {F} (N : NumOps F) nc a (f : Z -> Z) b t : nthZ (enough N nc a (map f (zrange 0 b))) t = Some true <->
  0 <= t < b /\ nleb N (nmul N (nofZ N nc) a) (nofZ N (f t)) = true.
Proof.
  unfold enough. rewrite map_map, nthZ_map. split.
  - destruct (nthZ (zrange 0 b) t) as [t'|] eqn:E; [|discriminate]. cbn [option_map]. intros H. pose proof (nthZ_range _ _ _ E) as R. rewrite zlen_zrange in R.
    rewrite nthZ_zrange in E by lia. assert (t' = t) by (assert (E' : 0 + t = t') by congruence; lia). subst t'. split; [lia|congruence].
  - intros [Ht H]. rewrite nthZ_zrange by lia. cbn [option_map]. rewrite Z.add_0_l, H. reflexivity.
Qed.

Lemma full_nonneg {A} (x : A) n : 0 <= n -> full n x = Ok (repeat x (Z.to_nat n)).
Proof. intros H. unfold full. destruct (Z.ltb_spec n 0); [lia|reflexivity]. Qed.

(** ** Same length *)
Section SL.
Context {F : Type} (N : NumOps F) {S : Type} (rng : Rng F S) (L : RngLaws N rng).
Context (X : dataset F) (y : list Z) (nf n : Z) (P : gparams F) (dr : drawn) (nch : list Z).
Hypothesis HX : mdata nf n X.
Hypothesis Hn : 0 < n.
Hypothesis Hy : zlen y = zlen X.

Let nlen := fun _ : Z => n.
Notation fitsd i := (draw_fits (zlen X) nlen dr i).
Notation srs := (nthd [] X).
Notation nw i := (nwin (g_phase P) n (dlen dr i) (ddil dr i)).

Lemma MSL_ser : forall s c, 0 <= s < zlen X -> 0 <= c < nf -> ch_series X s c = Ok (nthd [] (srs s) c) /\ zlen (nthd [] (srs s) c) = nlen s.
Proof.
  intros s c Hs Hc. destruct (mdata_at nf n X s HX Hs) as (A & B & _). unfold ch_series. rewrite (get_nthd [] X) by exact Hs. cbn [bind]. rewrite (get_nthd [] (srs s)) by lia.
  split; [reflexivity|]. apply B. apply (nthZ_In _ c). apply nthZ_nthd. lia.
Qed.
Lemma MSL_len : forall s, 0 <= s < zlen X -> 0 < nlen s <= n.
Proof. unfold nlen. intros. lia. Qed.

Definition MSL_ok := miter_ok N rng (zlen X) nf n nlen srs y P dr nch.
Notation madm := (madmissible N (zlen X) nlen P dr nch).

Lemma MSL_counts i m chs : mask_ok3 (zlen X) nf n m -> fitsd i -> chs <> [] -> channels_ok nf nch i chs -> 0 < zlen X ->
  mapM (fun sm => channel_counts sm chs (nw i)) m = Ok (map (fun s => map (count m s chs) (zrange 0 (nw i))) (zrange 0 (zlen X))).
Proof.
  intros HM HD Hne (_ & _ & HC) Hp. pose proof HM as [M1 M2]. destruct (draw_fits_fits _ n nlen P dr MSL_len i 0 HD ltac:(lia)) as [_ Hw]. unfold nlen in Hw.
  rewrite <- (map_nthd_zrange [] m) at 1. rewrite M1.
  assert (EM : forall l, (forall s, In s l -> 0 <= s < zlen X) -> mapM (fun sm => channel_counts sm chs (nw i)) (map (nthd [] m) l) = Ok (map (fun s => map (count m s chs) (zrange 0 (nw i))) l)).
  { induction l as [|s l IH]; intros Hl; [reflexivity|]. cbn [map mapM]. destruct (mask_sample _ _ _ m s HM (Hl s (or_introl eq_refl))) as (m2 & _ & _ & HM2 & Hd).
    rewrite Hd. rewrite (counts_ok nf n m s chs (nw i) m2 HM2 Hd Hne HC) by lia. cbn [bind]. rewrite IH by (intros s' Hs'; apply Hl; right; exact Hs'). reflexivity. }
  apply EM. intros s Hs. apply in_zrange in Hs. exact Hs.
Qed.

Lemma MSL_imask i m chs s t : fitsd i ->
  In (s, t) (where2 (map (enough N (dnch nch i) (g_alpha P)) (map (fun s => map (count m s chs) (zrange 0 (nw i))) (zrange 0 (zlen X))))) <-> madm i m chs s t.
Proof.
  intros HD. rewrite in_where2. unfold madmissible. split.
  - intros (r & Hr & Ht). rewrite map_map, nthZ_map in Hr. destruct (nthZ (zrange 0 (zlen X)) s) as [s'|] eqn:E; [|discriminate].
    pose proof (nthZ_range _ _ _ E) as R. rewrite zlen_zrange in R. rewrite nthZ_zrange in E by lia. assert (s' = s) by (assert (E' : 0 + s = s') by congruence; lia). subst s'.
    cbn [option_map] in Hr. assert (r = enough N (dnch nch i) (g_alpha P) (map (count m s chs) (zrange 0 (nw i)))) by congruence. subst r.
    apply nthZ_enough in Ht as [A B]. unfold nlen. split; [lia|]. split; [exact A|exact B].
  - intros (A & B & C). exists (enough N (dnch nch i) (g_alpha P) (map (count m s chs) (zrange 0 (nw i)))). split.
    + rewrite map_map, nthZ_map, nthZ_zrange by lia. cbn [option_map]. rewrite Z.add_0_l. reflexivity.
    + apply nthZ_enough. auto.
Qed.

Lemma MSL_local_inv g i m s r : 0 < zlen X -> 1 <= dnch nch i -> mask_ok3 (zlen X) nf n m -> fitsd i -> M_SL_localG N rng X y nf n P dr nch (g, i) m s = Ok r ->
  MSL_ok (g, i) m (fst (fst r)) (snd (fst r)).
Proof.
  intros Hp Hc1 HM HD H. unfold M_SL_localG in H. cbn [fst snd] in H. pose proof HD as (D1 & D2 & _).
  rewrite (liftG_ok _ _ _ _ (full_nonneg (n0 N) (dnch nch i * dlen dr i) ltac:(nia))) in H.
  apply bindG_inv in H as (chs & s1 & H1 & H). apply (draw_channels N rng L nf nch) in H1.
  pose proof (channels_ne nf nch i chs Hc1 H1) as Hne.
  rewrite (liftG_ok _ _ _ _ (MSL_counts i m chs HM HD Hne H1 Hp)) in H.
  pose proof (fun s t => MSL_imask i m chs s t HD) as HI. set (im := where2 _) in *. destruct (0 <? zlen im) eqn:E.
  - destruct (draw_fits_fits _ n nlen P dr MSL_len i 0 HD ltac:(lia)) as [_ Hw]. unfold nlen in Hw.
    rewrite (liftG_ok _ _ _ _ (full_nonneg (n0 N) (nw i) ltac:(lia))) in H.
    apply bindG_inv in H as (id & s2 & H2 & H). apply choice_In in H2.
    apply bindG_inv in H as (index & s3 & H3 & H). apply choice_In in H3. apply in_map_iff in H3 as ([a t] & E2 & H3). cbn in E2. subst t.
    apply filter_In in H3 as [H3 H4]. cbn in H4. apply Z.eqb_eq in H4. subst a. apply HI in H3. pose proof H3 as (Hid & _).
    apply bindG_inv in H as (tst & s4 & Ht & H). destruct (pick_test_inv rng y id _ tst _ ltac:(lia) Ht) as (T1 & T2 & T3). rewrite Hy in T1, T3.
    eapply (m_rest_inv N rng (zlen X) nf n nlen srs (ch_series X) y P dr nch MSL_ser MSL_len); eauto.
  - unfold retG in H. assert (Er : r = (m, None, s1)) by congruence. subst r. cbn [fst snd]. split; [exact HM|]. split; [reflexivity|].
    exists chs. split; [exact H1|]. intros a t HA. apply HI in HA. apply zlen_pos in HA. apply Z.ltb_ge in E. lia.
Qed.

Lemma MSL_local_total (HP : forall a, zlen a <= n -> exists p, percentiles N a (g_pmin P) (g_pmax P) = Ok p) g i m s : 0 < zlen X -> 1 <= dnch nch i <= nf ->
  mask_ok3 (zlen X) nf n m -> fitsd i -> exists r, M_SL_localG N rng X y nf n P dr nch (g, i) m s = Ok r.
Proof.
  intros Hp Hc1 HM HD. unfold M_SL_localG. cbn [fst snd]. pose proof HD as (D1 & D2 & _).
  rewrite (liftG_ok _ _ _ _ (full_nonneg (n0 N) (dnch nch i * dlen dr i) ltac:(nia))).
  destruct (draw_channels_total N rng L nf nch i s Hc1) as (chs & s1 & E1). unfold bindG at 1. rewrite E1. cbn [bind fst snd].
  apply (draw_channels N rng L nf nch) in E1. pose proof (channels_ne nf nch i chs ltac:(lia) E1) as Hne.
  rewrite (liftG_ok _ _ _ _ (MSL_counts i m chs HM HD Hne E1 Hp)).
  pose proof (fun s t => MSL_imask i m chs s t HD) as HI. set (im := where2 _) in *. destruct (0 <? zlen im) eqn:E; [|eexists; reflexivity].
  destruct (draw_fits_fits _ n nlen P dr MSL_len i 0 HD ltac:(lia)) as [_ Hw]. unfold nlen in Hw.
  rewrite (liftG_ok _ _ _ _ (full_nonneg (n0 N) (nw i) ltac:(lia))).
  apply Z.ltb_lt in E. destruct (choice_total N rng L (map fst im) s1) as (id & s2 & E2 & I1).
  { intros Hz. destruct im; [cbv in E; discriminate|discriminate]. }
  unfold bindG at 1. rewrite E2. cbn [bind fst snd]. apply in_map_iff in I1 as ([a t] & Ea & I1). cbn in Ea. subst a.
  destruct (choice_total N rng L (map snd (filter (fun p => fst p =? id) im)) s2) as (index & s3 & E3 & I2).
  { intros Hz. apply map_eq_nil in Hz. assert (Hf : In (id, t) (filter (fun p => fst p =? id) im)) by (apply filter_In; split; [exact I1|apply Z.eqb_refl]).
    rewrite Hz in Hf. destruct Hf. }
  unfold bindG at 1. rewrite E3. cbn [bind fst snd]. apply in_map_iff in I2 as ([a t'] & Ea & I2). cbn in Ea. subst t'.
  apply filter_In in I2 as [I2 I3]. cbn in I3. apply Z.eqb_eq in I3. subst a. apply HI in I2. pose proof I2 as (Hid & _).
  destruct (pick_test_total N rng L y id s3 ltac:(lia)) as (tst & s4 & Ht). unfold bindG at 1. rewrite Ht. cbn [bind fst snd].
  destruct (pick_test_inv rng y id _ tst _ ltac:(lia) Ht) as (T1 & _). rewrite Hy in T1.
  eapply (m_rest_total N rng (zlen X) nf n nlen srs (ch_series X) P dr nch MSL_ser MSL_len HP); eauto.
Qed.
End SL.

(** ** Variable length *)
Section VL.
Context {F : Type} (N : NumOps F) {S : Type} (rng : Rng F S) (L : RngLaws N rng).
Context (X : dataset F) (X_len : list Z) (y : list Z) (nf pd wd : Z) (P : gparams F) (dr : drawn) (nch : list Z).
Hypothesis HX : mdata nf pd X.
Hypothesis HL : zlen X_len = zlen X.
Hypothesis Hy : zlen y = zlen X.
Let nlen := nthd 0 X_len.
Hypothesis MVL_len : forall s, 0 <= s < zlen X -> 0 < nlen s <= wd.
Hypothesis Hwd : wd <= pd.
Notation fitsd i := (draw_fits (zlen X) nlen dr i).
Notation srs := (mser_vl X X_len).
Notation nw s i := (nwin (g_phase P) (nlen s) (dlen dr i) (ddil dr i)).

Lemma MVL_ser : forall s c, 0 <= s < zlen X -> 0 <= c < nf -> ch_series_vl X X_len s c = Ok (nthd [] (srs s) c) /\ zlen (nthd [] (srs s) c) = nlen s.
Proof.
  intros s c Hs Hc. destruct (mdata_at nf pd X s HX Hs) as (A & B & _). unfold ch_series_vl. rewrite (get_nthd [] X) by exact Hs. cbn [bind]. rewrite (get_nthd [] (nthd [] X s)) by lia.
  cbn [bind]. rewrite (get_nthd 0 X_len) by lia. cbn [bind].
  assert (E : nthd [] (srs s) c = slice (nthd [] (nthd [] X s) c) 0 (nlen s)).
  { unfold mser_vl, nthd at 1. rewrite nthZ_map. rewrite (nthZ_nthd [] (nthd [] X s) c) by lia. reflexivity. }
  rewrite E. split; [reflexivity|]. pose proof (MVL_len s Hs). rewrite slice_length; [lia|lia|].
  rewrite (B (nthd [] (nthd [] X s) c)); [lia|]. apply (nthZ_In _ c). apply nthZ_nthd. lia.
Qed.

Definition MVL_ok := miter_ok N rng (zlen X) nf wd nlen srs y P dr nch.
Notation madm := (madmissible N (zlen X) nlen P dr nch).

Lemma MVL_count i m chs s : mask_ok3 (zlen X) nf wd m -> fitsd i -> chs <> [] -> channels_ok nf nch i chs -> 0 <= s < zlen X ->
  exists m2, get m s = Ok m2 /\ channel_counts m2 chs (nw s i) = Ok (map (count m s chs) (zrange 0 (nw s i))).
Proof.
  intros HM HD Hne (_ & _ & HC) Hs. destruct (draw_fits_fits _ wd nlen P dr MVL_len i s HD Hs) as [_ Hw].
  destruct (mask_sample _ _ _ m s HM Hs) as (m2 & _ & Hg & HM2 & Hd). exists m2. split; [exact Hg|]. apply (counts_ok nf wd m s chs (nw s i) m2 HM2 Hd Hne HC). lia.
Qed.

Lemma MVL_rows i m chs : mask_ok3 (zlen X) nf wd m -> fitsd i -> chs <> [] -> channels_ok nf nch i chs ->
  mapM (fun i_x => let* sm := get m i_x in let* n := get X_len i_x in
                   let* c := channel_counts sm chs (nwin (g_phase P) n (dlen dr i) (ddil dr i)) in
                   Ok (existsb (fun b : bool => b) (enough N (dnch nch i) (g_alpha P) c))) (zrange 0 (zlen X)) =
  Ok (map (fun s => existsb (fun b : bool => b) (enough N (dnch nch i) (g_alpha P) (map (count m s chs) (zrange 0 (nw s i))))) (zrange 0 (zlen X))).
Proof.
  intros HM HD Hne HC. apply mapM_ok. intros s Hs. apply in_zrange in Hs. destruct (MVL_count i m chs s HM HD Hne HC ltac:(lia)) as (m2 & E1 & E2).
  rewrite E1. cbn [bind]. rewrite (get_nthd 0 X_len) by lia. cbn [bind]. fold (nlen s). rewrite E2. reflexivity.
Qed.

Lemma MVL_imask i m chs s :
  In s (where_ (map (fun s => existsb (fun b : bool => b) (enough N (dnch nch i) (g_alpha P) (map (count m s chs) (zrange 0 (nw s i))))) (zrange 0 (zlen X)))) <->
  exists t, madm i m chs s t.
Proof.
  rewrite in_where, nthZ_map. split.
  - destruct (nthZ (zrange 0 (zlen X)) s) as [s'|] eqn:E; [|discriminate]. cbn [option_map]. intros H.
    pose proof (nthZ_range _ _ _ E) as R. rewrite zlen_zrange in R. rewrite nthZ_zrange in E by lia. assert (s' = s) by (assert (E' : 0 + s = s') by congruence; lia). subst s'.
    assert (H' : existsb (fun b : bool => b) (enough N (dnch nch i) (g_alpha P) (map (count m s chs) (zrange 0 (nw s i)))) = true) by congruence.
    apply existsb_exists in H' as (b & Hb & ->). apply In_nthZ in Hb as (t & Ht). apply nthZ_enough in Ht as [A B]. exists t. split; [lia|]. auto.
  - intros (t & A & B & C). rewrite nthZ_zrange by lia. cbn [option_map]. rewrite Z.add_0_l. f_equal. apply existsb_exists. exists true. split; [|reflexivity].
    apply (nthZ_In _ t). apply nthZ_enough. auto.
Qed.

Lemma MVL_local_inv g i m s r : 1 <= dnch nch i -> mask_ok3 (zlen X) nf wd m -> fitsd i -> M_VL_localG N rng X X_len y nf P dr nch (g, i) m s = Ok r ->
  MVL_ok (g, i) m (fst (fst r)) (snd (fst r)).
Proof.
  intros Hc1 HM HD H. unfold M_VL_localG in H. cbn [fst snd] in H. pose proof HD as (D1 & D2 & _).
  apply bindG_inv in H as (chs & s1 & H1 & H). apply (draw_channels N rng L nf nch) in H1.
  rewrite (liftG_ok _ _ _ _ (full_nonneg (n0 N) (dnch nch i * dlen dr i) ltac:(nia))) in H.
  pose proof (channels_ne nf nch i chs Hc1 H1) as Hne. rewrite (liftG_ok _ _ _ _ (MVL_rows i m chs HM HD Hne H1)) in H.
  pose proof (fun s => MVL_imask i m chs s) as HI. set (im0 := map _ _) in *. destruct (0 <? zlen (where_ im0)) eqn:E.
  - apply bindG_inv in H as (id & s2 & H2 & H). apply choice_In in H2. apply HI in H2 as (t0 & HA0). pose proof HA0 as (Hid & _).
    apply bindG_inv in H as (tst & s3 & Ht & H). destruct (pick_test_inv rng y id _ tst _ ltac:(lia) Ht) as (T1 & T2 & T3). rewrite Hy in T1, T3.
    rewrite (liftG_ok _ _ _ (nlen tst)) in H by (apply get_nthd; lia).
    destruct (draw_fits_fits _ wd nlen P dr MVL_len i tst HD T1) as [_ Hw].
    rewrite (liftG_ok _ _ _ _ (full_nonneg (n0 N) (nw tst i) ltac:(lia))) in H.
    rewrite (liftG_ok _ _ _ (nlen id)) in H by (apply get_nthd; lia).
    destruct (MVL_count i m chs id HM HD Hne H1 Hid) as (m2 & G1 & G2). rewrite (liftG_ok _ _ _ _ G1), (liftG_ok _ _ _ _ G2) in H.
    apply bindG_inv in H as (index & s4 & H4 & H). apply choice_In in H4. apply in_where in H4. apply nthZ_enough in H4 as [A B].
    assert (HA : madm i m chs id index) by (split; [exact Hid|]; auto).
    eapply (m_rest_inv N rng (zlen X) nf wd nlen srs (ch_series_vl X X_len) y P dr nch MVL_ser MVL_len); eauto.
  - unfold retG in H. assert (Er : r = (m, None, s1)) by congruence. subst r. cbn [fst snd]. split; [exact HM|]. split; [reflexivity|].
    exists chs. split; [exact H1|]. intros a t HA. assert (Hin : In a (where_ im0)) by (apply HI; exists t; exact HA). apply zlen_pos in Hin. apply Z.ltb_ge in E. lia.
Qed.

Lemma MVL_local_total (HP : forall a, zlen a <= wd -> exists p, percentiles N a (g_pmin P) (g_pmax P) = Ok p) g i m s : 1 <= dnch nch i <= nf ->
  mask_ok3 (zlen X) nf wd m -> fitsd i -> exists r, M_VL_localG N rng X X_len y nf P dr nch (g, i) m s = Ok r.
Proof.
  intros Hc1 HM HD. unfold M_VL_localG. cbn [fst snd]. pose proof HD as (D1 & D2 & _).
  destruct (draw_channels_total N rng L nf nch i s Hc1) as (chs & s1 & E1). unfold bindG at 1. rewrite E1. cbn [bind fst snd].
  apply (draw_channels N rng L nf nch) in E1. pose proof (channels_ne nf nch i chs ltac:(lia) E1) as Hne.
  rewrite (liftG_ok _ _ _ _ (full_nonneg (n0 N) (dnch nch i * dlen dr i) ltac:(nia))).
  rewrite (liftG_ok _ _ _ _ (MVL_rows i m chs HM HD Hne E1)).
  pose proof (fun s => MVL_imask i m chs s) as HI. set (im0 := map _ _) in *. destruct (0 <? zlen (where_ im0)) eqn:E; [|eexists; reflexivity].
  apply Z.ltb_lt in E. destruct (choice_total N rng L (where_ im0) s1) as (id & s2 & E2 & I1).
  { intros Hz. rewrite Hz in E. cbv in E. discriminate. }
  unfold bindG at 1. rewrite E2. cbn [bind fst snd]. apply HI in I1 as (t0 & HA0). pose proof HA0 as (Hid & A0 & B0).
  destruct (pick_test_total N rng L y id s2 ltac:(lia)) as (tst & s3 & Ht). unfold bindG at 1. rewrite Ht. cbn [bind fst snd].
  destruct (pick_test_inv rng y id _ tst _ ltac:(lia) Ht) as (T1 & _). rewrite Hy in T1.
  rewrite (liftG_ok _ _ _ (nlen tst)) by (apply get_nthd; lia).
  destruct (draw_fits_fits _ wd nlen P dr MVL_len i tst HD T1) as [_ Hw].
  rewrite (liftG_ok _ _ _ _ (full_nonneg (n0 N) (nw tst i) ltac:(lia))).
  rewrite (liftG_ok _ _ _ (nlen id)) by (apply get_nthd; lia).
  destruct (MVL_count i m chs id HM HD Hne E1 Hid) as (m2 & G1 & G2). rewrite (liftG_ok _ _ _ _ G1), (liftG_ok _ _ _ _ G2).
  destruct (choice_total N rng L (where_ (enough N (dnch nch i) (g_alpha P) (map (count m id chs) (zrange 0 (nw id i))))) s3) as (index & s4 & E4 & I4).
  { intros Hz. assert (H0 : In t0 (where_ (enough N (dnch nch i) (g_alpha P) (map (count m id chs) (zrange 0 (nw id i)))))) by (apply in_where; apply nthZ_enough; auto).
    rewrite Hz in H0. destruct H0. }
  unfold bindG at 1. rewrite E4. cbn [bind fst snd]. apply in_where in I4. apply nthZ_enough in I4 as [A B].
  assert (HA : madm i m chs id index) by (split; [exact Hid|]; auto).
  eapply (m_rest_total N rng (zlen X) nf wd nlen srs (ch_series_vl X X_len) P dr nch MVL_ser MVL_len HP); eauto.
Qed.
End VL.
