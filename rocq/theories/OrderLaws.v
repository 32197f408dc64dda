(** All lists of [k] distinct channels come from the same number of sequences of integers. *)
From Coq Require Import ZArith List Bool Lia Permutation.
From Verif Require Import Prelude Num Kernel KernelProofs Gen GenBase TransformProofs PermLaws.
Import ListNotations.
Open Scope Z_scope.

(** all sequences below m + 1, then below m, ... then below 2 *)
Fixpoint sequences (m : nat) : list (list Z) :=
  match m with
  | O => [[]]
  | Datatypes.S m' => concat (map (fun j => map (cons j) (sequences m')) (zrange 0 (Z.of_nat m + 1)))
  end.

Definition ordering (nf : Z) (js : list Z) : list Z := match permutation (tape 0) (zrange 0 nf) js with Ok (p, _) => p | Err _ => [] end.
(** the number of sequences that make [chs] the first channels *)
Definition ways (nf : Z) (chs : list Z) : Z :=
  zlen (filter (fun js => if list_eq_dec Z.eq_dec (slice (ordering nf js) 0 (zlen chs)) chs then true else false) (sequences (Z.to_nat (nf - 1)))).

Lemma in_sequences m : forall js, In js (sequences m) <-> countdown m js.
Proof.
  induction m as [|m IH]; intros js.
  - destruct js; cbn; split; [intros _; exact I|auto|intros [Q|[]]; discriminate|intros []].
  - cbn [sequences]. rewrite in_concat. split.
    + intros (l & Hl & H). apply in_map_iff in Hl as (j & <- & Hj). apply in_map_iff in H as (t & <- & Ht). apply in_zrange in Hj. split; [lia|]. apply IH. exact Ht.
    + destruct js as [|j t]; [intros []|]. intros [Hj Ht]. exists (map (cons j) (sequences m)). split; [apply in_map_iff; exists j; split; [reflexivity|apply in_zrange; lia]|].
      apply in_map. apply IH. exact Ht.
Qed.

Lemma sequences_NoDup m : NoDup (sequences m).
Proof.
  induction m as [|m IH]; [repeat constructor; intros []|]. cbn [sequences]. generalize (zrange_NoDup 0 (Z.of_nat (Datatypes.S m) + 1)). generalize (zrange 0 (Z.of_nat (Datatypes.S m) + 1)) as ks.
  induction ks as [|k ks IHk]; intros HD; [constructor|]. inversion HD as [|? ? Hk HD']; subst. cbn [map concat]. specialize (IHk HD').
  assert (A : NoDup (map (cons k) (sequences m))) by (apply FinFun.Injective_map_NoDup; [intros x z E; congruence|exact IH]).
  assert (B : forall p, In p (map (cons k) (sequences m)) -> ~ In p (concat (map (fun j => map (cons j) (sequences m)) ks))).
  { intros p Hp Hq. apply in_map_iff in Hp as (j & <- & _). apply in_concat in Hq as (l & Hl & Hq). apply in_map_iff in Hl as (k' & <- & Hk'). apply in_map_iff in Hq as (t & E & _). congruence. }
  revert A B. generalize (map (cons k) (sequences m)) as u. induction u as [|p u IHu]; intros A B; cbn [app]; [exact IHk|]. inversion A; subst. constructor.
  - intros Q. apply in_app_or in Q as [Q|Q]; [contradiction|]. apply (B p (or_introl eq_refl) Q).
  - apply IHu; [assumption|]. intros q Hq. apply B. right. exact Hq.
Qed.

Lemma inj_rel_length {A B} (Q : A -> B -> Prop) : forall (l : list A) (m : list B), NoDup l -> (forall a, In a l -> exists b, In b m /\ Q a b) ->
  (forall a a' b, In a l -> In a' l -> Q a b -> Q a' b -> a = a') -> (length l <= length m)%nat.
Proof.
  induction l as [|a l IH]; intros m HD HT HI; [cbn; lia|]. inversion HD; subst. destruct (HT a (or_introl eq_refl)) as (b & Hb & Hab).
  apply in_split in Hb as (m1 & m2 & ->). assert (Q1 : (length l <= length (m1 ++ m2))%nat).
  { apply IH; [assumption| |intros; eapply HI; eauto; right; assumption]. intros a' Ha'. destruct (HT a' (or_intror Ha')) as (b' & Hb' & Hab'). exists b'. split; [|exact Hab'].
    apply in_app_or in Hb' as [Q1|[<-|Q1]]; apply in_or_app; auto. exfalso. assert (a = a') by (eapply HI; eauto; [left; reflexivity|right; exact Ha']). subst. contradiction. }
  rewrite app_length in *. cbn [length]. lia.
Qed.

Lemma orderings_ex (l p : list Z) : l <> [] -> NoDup l -> Permutation l p ->
  exists js, (countdown (length l - 1) js /\ permutation (tape 0) l js = Ok (p, [])) /\ forall js', countdown (length l - 1) js' -> permutation (tape 0) l js' = Ok (p, []) -> js' = js.
Proof.
  intros Hl HD HP. assert (E : zlen l = Z.of_nat (length l - 1) + 1) by (destruct l; [congruence|cbn [length]; unfold zlen; cbn [length]; lia]).
  destruct (FY_bijective 0 (zlen l) (length l - 1) l p eq_refl ltac:(lia) HD HP) as (js & [C1 C2] & U).
  { intros t Ht. destruct (nthZ l t) eqn:Q; [apply nthZ_range in Q; lia|]. destruct (nthZ p t) eqn:Q'; [|reflexivity]. apply nthZ_range in Q'. unfold zlen in *. rewrite (Permutation_length HP) in *. lia. }
  exists js. split; [split; [exact C1|rewrite (permutation_FY _ l (length l - 1)) by exact E; exact C2]|]. intros js' HC H. apply U; [exact HC|]. rewrite <- (permutation_FY _ l (length l - 1)) by exact E. exact H.
Qed.

Lemma FY_tape m : forall n (l : list Z) js, Z.of_nat m < zlen l -> countdown m js -> exists p, FY (tape 0) n m l js = Ok (p, []) /\ Permutation l p.
Proof.
  induction m as [|m IH]; intros n l js Hm HC.
  - destruct js; [|destruct HC]. exists l. rewrite FY_0. auto.
  - destruct js as [|j js]; [destruct HC|]. destruct HC as [Hj HC]. rewrite FY_S. cbn [r_int tape fst snd].
    destruct (swap_ok l (Z.of_nat (Datatypes.S m)) j) as (x & y & l' & _ & _ & Es & EL & EP & _); [lia|lia|]. rewrite Es. cbn [bind].
    destruct (IH n l' js ltac:(lia) HC) as (p & Hp & HP). exists p. split; [exact Hp|]. eapply perm_trans; eauto.
Qed.

Lemma perm_runs nf js : 1 <= nf -> countdown (Z.to_nat (nf - 1)) js -> exists p, permutation (tape 0) (zrange 0 nf) js = Ok (p, []) /\ Permutation (zrange 0 nf) p.
Proof.
  intros Hf HC. assert (E : zlen (zrange 0 nf) = Z.of_nat (Z.to_nat (nf - 1)) + 1) by (rewrite zlen_zrange; lia). rewrite (permutation_FY _ _ _ _ E). apply FY_tape; [lia|exact HC].
Qed.

(** a list of distinct channels completed to an ordering of all *)
Definition completed (nf : Z) (chs : list Z) : list Z := chs ++ filter (fun c => if in_dec Z.eq_dec c chs then false else true) (zrange 0 nf).

Lemma completed_perm nf chs : NoDup chs -> (forall c, In c chs -> 0 <= c < nf) -> Permutation (zrange 0 nf) (completed nf chs).
Proof.
  intros HD HC. apply NoDup_Permutation; [apply zrange_NoDup| |].
  - unfold completed. assert (A : forall p, In p chs -> ~ In p (filter (fun c => if in_dec Z.eq_dec c chs then false else true) (zrange 0 nf))).
    { intros p Hp Hq. apply filter_In in Hq as [_ Hq]. destruct (in_dec Z.eq_dec p chs); [discriminate|contradiction]. }
    revert A. generalize (NoDup_filter (fun c => if in_dec Z.eq_dec c chs then false else true) (zrange_NoDup 0 nf)).
    generalize (filter (fun c => if in_dec Z.eq_dec c chs then false else true) (zrange 0 nf)) as r. clear HC. induction HD as [|c chs Hc HD IH]; intros r Hr A; [exact Hr|]. cbn [app]. constructor.
    + intros Q. apply in_app_or in Q as [Q|Q]; [contradiction|]. apply (A c (or_introl eq_refl) Q).
    + apply IH; [exact Hr|]. intros p Hp. apply A. right. exact Hp.
  - intros x. unfold completed. rewrite in_app_iff, filter_In, in_zrange. split.
    + intros Hx. destruct (in_dec Z.eq_dec x chs); auto.
    + intros [Hx|[Hx _]]; [apply HC; exact Hx|exact Hx].
Qed.

Lemma map_nthd_inj (l : list Z) : NoDup l -> forall u v, (forall x, In x u -> 0 <= x < zlen l) -> (forall x, In x v -> 0 <= x < zlen l) ->
  map (nthd 0 l) u = map (nthd 0 l) v -> u = v.
Proof.
  intros HD. induction u as [|x u IH]; intros [|z v] Hu Hv H; try discriminate; [reflexivity|]. cbn [map] in H. injection H as H1 H2.
  f_equal; [|apply IH; auto; intros; [apply Hu|apply Hv]; right; assumption].
  specialize (Hu x (or_introl eq_refl)). specialize (Hv z (or_introl eq_refl)). destruct (nthZ_some l x Hu) as (a & Ha). destruct (nthZ_some l z Hv) as (b & Hb).
  rewrite (nthd_some 0 _ _ _ Ha), (nthd_some 0 _ _ _ Hb) in H1. subst b. unfold nthZ in Ha, Hb. destruct (Z.ltb_spec x 0), (Z.ltb_spec z 0); try lia.
  assert (Z.to_nat x = Z.to_nat z); [|lia]. apply (NoDup_nth_error l); [exact HD|unfold zlen in Hu; lia|congruence].
Qed.

Lemma slice_map {A B} (f : A -> B) l a b : slice (map f l) a b = map f (slice l a b).
Proof. unfold slice. rewrite zlen_map, skipn_map, firstn_map. reflexivity. Qed.

Lemma slice_prefix {A} (u v : list A) : slice (u ++ v) 0 (zlen u) = u.
Proof.
  apply nthZ_ext.
  - rewrite slice_length by (rewrite ?zlen_app; pose proof (zlen_nonneg u); pose proof (zlen_nonneg v); lia). lia.
  - intros i Hi. rewrite slice_length in Hi by (rewrite ?zlen_app; pose proof (zlen_nonneg u); pose proof (zlen_nonneg v); lia).
    rewrite nthZ_slice by (rewrite ?zlen_app; pose proof (zlen_nonneg u); pose proof (zlen_nonneg v); lia). rewrite Z.add_0_l, nthZ_app. destruct (Z.ltb_spec i (zlen u)); [reflexivity|lia].
Qed.

Lemma ordering_run nf js p : permutation (tape 0) (zrange 0 nf) js = Ok (p, []) -> ordering nf js = p.
Proof. unfold ordering. intros ->. reflexivity. Qed.

Lemma prefix_all nf (P0 sg : list Z) chs : NoDup P0 -> zlen P0 = nf -> slice P0 0 (zlen chs) = chs -> zlen chs <= nf -> Permutation (zrange 0 nf) sg ->
  slice (map (nthd 0 P0) sg) 0 (zlen chs) = chs <-> slice sg 0 (zlen chs) = zrange 0 (zlen chs).
Proof.
  intros HD HL HC Hk HP. pose proof (zlen_nonneg chs) as H0.
  assert (HZ : zlen sg = nf). { apply Permutation_length in HP. pose proof (zlen_zrange 0 nf). unfold zlen in *. lia. }
  assert (E : map (nthd 0 P0) (zrange 0 (zlen chs)) = chs).
  { rewrite <- HC at 2. apply nthZ_ext.
    - rewrite zlen_map, zlen_zrange, slice_length by lia. lia.
    - intros i Hi. rewrite zlen_map, zlen_zrange in Hi. rewrite nthZ_map, nthZ_zrange, nthZ_slice by lia. cbn [option_map]. rewrite Z.add_0_l. destruct (nthZ_some P0 i ltac:(lia)) as (x & Hx).
      rewrite Hx, (nthd_some 0 _ _ _ Hx). reflexivity. }
  assert (HR : forall x, In x sg -> 0 <= x < zlen P0) by (intros x Hx; apply (Permutation_in _ (Permutation_sym HP)), in_zrange in Hx; lia).
  rewrite slice_map. split; intros H; [|rewrite H; exact E]. rewrite <- E in H at 2. apply (map_nthd_inj P0 HD) in H; [exact H| |].
  - intros x Hx. apply HR. apply In_nthZ in Hx as (i & Hi). pose proof (nthZ_range _ _ _ Hi) as Ri. rewrite slice_length in Ri by lia. rewrite nthZ_slice in Hi by lia. eapply nthZ_In; eauto.
  - intros x Hx. apply in_zrange in Hx. lia.
Qed.

Lemma ways_le nf chs chs' : 1 <= nf -> NoDup chs -> (forall c, In c chs -> 0 <= c < nf) -> NoDup chs' -> (forall c, In c chs' -> 0 <= c < nf) -> zlen chs = zlen chs' ->
  ways nf chs <= ways nf chs'.
Proof.
  intros Hf D1 C1 D2 C2 HZ. pose proof (completed_perm nf chs D1 C1) as P1. pose proof (completed_perm nf chs' D2 C2) as P2.
  assert (LZ : length (zrange 0 nf) = Z.to_nat nf) by (pose proof (zlen_zrange 0 nf); unfold zlen in *; lia).
  assert (L1 : zlen (completed nf chs) = nf) by (apply Permutation_length in P1; unfold zlen; lia).
  assert (L2 : zlen (completed nf chs') = nf) by (apply Permutation_length in P2; unfold zlen; lia).
  assert (N1 : NoDup (completed nf chs)) by (eapply Permutation_NoDup; [exact P1|apply zrange_NoDup]).
  assert (N2 : NoDup (completed nf chs')) by (eapply Permutation_NoDup; [exact P2|apply zrange_NoDup]).
  assert (K1 : zlen chs <= nf) by (unfold completed in L1; rewrite zlen_app in L1; pose proof (zlen_nonneg (filter (fun c => if in_dec Z.eq_dec c chs then false else true) (zrange 0 nf))); lia).
  assert (ZE : zrange 0 nf <> []) by (intros Q; apply (f_equal zlen) in Q; rewrite zlen_zrange in Q; change (zlen (@nil Z)) with 0 in Q; lia).
  unfold ways. rewrite <- HZ. unfold zlen at 1 3. apply inj_le. 
  apply (inj_rel_length (fun js js' => exists sg, Permutation (zrange 0 nf) sg /\ permutation (tape 0) (zrange 0 nf) js = Ok (map (nthd 0 (completed nf chs)) sg, []) /\
    permutation (tape 0) (zrange 0 nf) js' = Ok (map (nthd 0 (completed nf chs')) sg, []))).
  - apply NoDup_filter. apply sequences_NoDup.
  - intros js Hjs. apply filter_In in Hjs as [Hjs Hg]. apply in_sequences in Hjs. destruct (list_eq_dec Z.eq_dec _ chs) as [Hg'|]; [|discriminate].
    destruct (perm_runs nf js Hf Hjs) as (p & Hp & HP). rewrite (ordering_run nf js p Hp) in Hg'.
    destruct (Permutation_map_inv (nthd 0 (completed nf chs)) (l1 := p) (zrange 0 nf)) as (sg & Esg & Psg).
    { rewrite <- L1 at 2. rewrite map_nthd_zrange. eapply perm_trans; [apply Permutation_sym; exact HP|exact P1]. }
    destruct (orderings_ex (zrange 0 nf) (map (nthd 0 (completed nf chs')) sg) ZE (zrange_NoDup 0 nf)) as (js' & [J1 J2] & _).
    { eapply perm_trans; [exact P2|]. rewrite <- (map_nthd_zrange 0 (completed nf chs')) at 1. rewrite L2. apply Permutation_map. exact Psg. }
    exists js'. split.
    + apply filter_In. split; [apply in_sequences; replace (Z.to_nat (nf - 1)) with (length (zrange 0 nf) - 1)%nat by lia; exact J1|].
      rewrite (ordering_run nf js' _ J2), HZ. destruct (list_eq_dec Z.eq_dec _ chs') as [_|Q]; [reflexivity|]. exfalso. apply Q.
      apply (prefix_all nf); try assumption; [apply slice_prefix|lia|]. rewrite <- HZ. apply (prefix_all nf (completed nf chs) sg chs); try assumption; [apply slice_prefix|]. rewrite <- Esg. exact Hg'.
    + exists sg. split; [exact Psg|]. split; [rewrite <- Esg; exact Hp|exact J2].
  - intros js1 js2 js' I1 I2 (s1 & A1 & A2 & A3) (s2 & B1 & B2 & B3). apply filter_In in I1 as [I1 _]. apply filter_In in I2 as [I2 _]. apply in_sequences in I1, I2.
    assert (E : map (nthd 0 (completed nf chs')) s1 = map (nthd 0 (completed nf chs')) s2) by congruence.
    apply (map_nthd_inj _ N2) in E; [| |]; [|intros x Hx; apply (Permutation_in _ (Permutation_sym A1)), in_zrange in Hx; lia|intros x Hx; apply (Permutation_in _ (Permutation_sym B1)), in_zrange in Hx; lia].
    subst s2. destruct (orderings_ex (zrange 0 nf) (map (nthd 0 (completed nf chs)) s1) ZE (zrange_NoDup 0 nf)) as (j0 & _ & U).
    { eapply perm_trans; [exact P1|]. rewrite <- (map_nthd_zrange 0 (completed nf chs)) at 1. rewrite L1. apply Permutation_map. exact A1. }
    replace (Z.to_nat (nf - 1)) with (length (zrange 0 nf) - 1)%nat in I1, I2 by lia. rewrite (U js1 I1 A2), (U js2 I2 B2). reflexivity.
Qed.

Lemma ways_eq nf chs chs' : 1 <= nf -> NoDup chs -> (forall c, In c chs -> 0 <= c < nf) -> NoDup chs' -> (forall c, In c chs' -> 0 <= c < nf) -> zlen chs = zlen chs' ->
  ways nf chs = ways nf chs'.
Proof. intros. apply Z.le_antisymm; apply ways_le; auto. Qed.
