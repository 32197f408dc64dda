(** Facts on random draws, on positions of arrays and on percentiles. *)
From Coq Require Import ZArith List Bool Lia Permutation.
From Verif Require Import Prelude Num Kernel Spec KernelProofs Apply Gen GenSched.
Import ListNotations.
Open Scope Z_scope.

Lemma in_where2 M i j : In (i, j) (where2 M) <-> exists r, nthZ M i = Some r /\ nthZ r j = Some true.
Proof.
  unfold where2. rewrite in_concat. split.
  - intros (l & Hl & Hin). apply in_map_iff in Hl as ([k r] & <- & Hk). cbn [fst snd] in Hin.
    apply in_map_iff in Hin as (j' & E & Hj). injection E as -> ->. apply in_where in Hj.
    apply combine_zrange_nth in Hk. eauto.
  - intros (r & Hr & Hj). exists (map (fun j => (i, j)) (where_ r)). split.
    + apply in_map_iff. exists (i, r). split; [reflexivity|]. apply combine_zrange_nth. exact Hr.
    + apply in_map. apply in_where. exact Hj.
Qed.

Lemma zlen_pos {A} (l : list A) x : In x l -> 0 < zlen l.
Proof. destruct l; [intros []|]. intros _. rewrite zlen_cons. pose proof (zlen_nonneg l). lia. Qed.
Lemma zlen_pos_ex {A} (l : list A) : 0 < zlen l -> exists x, In x l.
Proof. destruct l as [|x t]; [intros H; cbv in H; discriminate|]. exists x. left. reflexivity. Qed.
Lemma zlen_0 {A} (l : list A) : zlen l <= 0 -> l = [].
Proof. destruct l; [reflexivity|]. rewrite zlen_cons. pose proof (zlen_nonneg l). lia. Qed.

Section G.
Context {F : Type} (N : NumOps F) {S : Type} (rng : Rng F S).

(** Ranges of the draws. *)
Record RngLaws : Prop := {
  rl_int : forall n s, 0 < n -> 0 <= fst (r_int rng n s) < n;
  rl_unif : forall s, nleb N (n0 N) (fst (r_unif rng s)) = true /\ nltb N (fst (r_unif rng s)) (n1 N) = true }.

Lemma bindG_inv {A B} (m : G S A) (f : A -> G S B) s r : (let! x := m in f x) s = Ok r ->
  exists x s1, m s = Ok (x, s1) /\ f x s1 = Ok r.
Proof. unfold bindG. intros H. apply bind_inv in H as ([x s1] & H1 & H2). eauto. Qed.

Lemma liftG_inv {A} (m : res A) (s : S) x s' : liftG m s = Ok (x, s') -> m = Ok x /\ s' = s.
Proof. unfold liftG. destruct m; cbn [bind]; [|discriminate]. intros H. split; congruence. Qed.

Lemma bind_liftG {A B} (m : res A) (f : A -> G S B) s r : (let! x := liftG m in f x) s = Ok r ->
  exists x, m = Ok x /\ f x s = Ok r.
Proof. intros H. apply bindG_inv in H as (x & s1 & H1 & H2). apply liftG_inv in H1 as [H1 ->]. eauto. Qed.

Lemma liftG_ok {A B} (m : res A) (f : A -> G S B) s x : m = Ok x -> (let! x := liftG m in f x) s = f x s.
Proof. intros ->. reflexivity. Qed.

Lemma choice_In {A} (l : list A) s x s' : choice rng l s = Ok (x, s') -> In x l.
Proof.
  unfold choice. intros H. apply bind_liftG in H as (_ & _ & H). apply bindG_inv in H as (k & s1 & _ & H).
  apply liftG_inv in H as [H _]. unfold get in H. destruct (nthZ l (wrap (zlen l) k)) as [z|] eqn:E; [|discriminate].
  injection H as <-. eapply nthZ_In; eauto.
Qed.

Lemma choice_total (L : RngLaws) {A} (l : list A) s : l <> [] -> exists x s', choice rng l s = Ok (x, s') /\ In x l.
Proof.
  intros Hl. assert (H : 0 < zlen l). { destruct l as [|a t]; [congruence|]. rewrite zlen_cons. pose proof (zlen_nonneg t). lia. }
  unfold choice. erewrite liftG_ok by (apply guard_ok; apply Z.ltb_lt; exact H).
  unfold bindG, draw_int. cbn [bind fst snd]. pose proof (rl_int L (zlen l) s H) as Hr.
  destruct (r_int rng (zlen l) s) as [k s1]. cbn [fst snd] in *. destruct (get_ok l k Hr) as (x & Hx & Hn).
  exists x, s1. unfold liftG. rewrite Hx. split; [reflexivity|]. eapply nthZ_In; eauto.
Qed.

Lemma mapG_inv {A B} (f : A -> G S B) l : forall s ys s', mapG f l s = Ok (ys, s') ->
  Forall2 (fun x y => exists s1 s2, f x s1 = Ok (y, s2)) l ys.
Proof.
  induction l as [|x t IH]; intros s ys s' H; cbn [mapG] in H.
  - unfold retG in H. injection H as <- <-. constructor.
  - apply bindG_inv in H as (y & s1 & H1 & H). apply bindG_inv in H as (ys' & s2 & H2 & H).
    unfold retG in H. assert (ys = y :: ys') by congruence. subst. constructor; eauto.
Qed.

Lemma mapG_total {A B} (f : A -> G S B) l : (forall x s, In x l -> exists y s', f x s = Ok (y, s')) ->
  forall s, exists ys s', mapG f l s = Ok (ys, s').
Proof.
  induction l as [|x t IH]; intros H s; cbn [mapG].
  - eexists _, _. reflexivity.
  - destruct (H x s (or_introl eq_refl)) as (y & s1 & H1). destruct (IH (fun x s Hin => H x s (or_intror Hin)) s1) as (ys & s2 & H2).
    exists (y :: ys), s2. unfold bindG. rewrite H1. cbn [bind fst snd]. rewrite H2. reflexivity.
Qed.

Lemma choice_n_inv {A} (l : list A) n s ys s' : choice_n rng l n s = Ok (ys, s') ->
  0 <= n /\ zlen ys = n /\ Forall (fun x => In x l) ys.
Proof.
  unfold choice_n. intros H. apply bind_liftG in H as (u & Hg & H). destruct u. apply guard_ok in Hg.
  apply andb_true_iff in Hg as [_ Hn]. apply Z.leb_le in Hn. apply mapG_inv in H. split; [exact Hn|]. split.
  - apply Forall2_length in H. unfold zlen. rewrite <- H, zrange_length. lia.
  - remember (zrange 0 n) as zs eqn:Ez. clear Ez. induction H as [|z y zs ys (s1 & s2 & Hy) H IH]; constructor; [|apply IH].
    eapply choice_In; eauto.
Qed.

Lemma choice_n_total (L : RngLaws) {A} (l : list A) n s : l <> [] -> 0 <= n -> exists ys s', choice_n rng l n s = Ok (ys, s').
Proof.
  intros Hl Hn. unfold choice_n. assert (H : 0 < zlen l). { destruct l as [|a t]; [congruence|]. rewrite zlen_cons. pose proof (zlen_nonneg t). lia. }
  erewrite liftG_ok; [|apply guard_ok; apply andb_true_iff; split; [apply Z.ltb_lt; exact H|apply Z.leb_le; exact Hn]].
  apply mapG_total. intros x s0 _. destruct (choice_total L l s0 Hl) as (y & s1 & E & _). eauto.
Qed.

(** ** Permutations *)

Lemma nth_split_Z {A} (l : list A) i x : nthZ l i = Some x -> exists l1 l2, l = l1 ++ x :: l2 /\ zlen l1 = i.
Proof.
  intros H. pose proof (nthZ_range _ _ _ H) as R. unfold nthZ in H. destruct (Z.ltb_spec i 0); [lia|].
  apply nth_error_split in H as (l1 & l2 & E & Hl). exists l1, l2. split; [exact E|]. unfold zlen. lia.
Qed.

Lemma upd_app_mid {A} (l1 : list A) x l2 y : upd (l1 ++ x :: l2) (length l1) y = l1 ++ y :: l2.
Proof. induction l1 as [|a t IH]; [reflexivity|]. cbn. rewrite IH. reflexivity. Qed.

Lemma swap_perm {A} (l : list A) i j l' : 0 <= i -> 0 <= j -> swap l i j = Ok l' -> Permutation l l'.
Proof.
  intros Hi Hj H. unfold swap in H. apply bind_inv in H as (x & Hx & H). apply bind_inv in H as (y & Hy & H).
  apply get_nthZ in Hx; [|exact Hi]. apply get_nthZ in Hy; [|exact Hj].
  pose proof (nthZ_range _ _ _ Hx) as Ri. pose proof (nthZ_range _ _ _ Hy) as Rj.
  rewrite set_ok in H by exact Ri. cbn [bind] in H. rewrite set_ok in H by (rewrite zlen_upd; exact Rj).
  assert (E : l' = upd (upd l (Z.to_nat i) y) (Z.to_nat j) x) by congruence. clear H.
  assert (HN : forall k, nthZ l' k = if k =? j then Some x else if k =? i then Some y else nthZ l k).
  { intros k. rewrite E, nthZ_upd by (rewrite zlen_upd; exact Rj). destruct (Z.eqb_spec k j); [reflexivity|]. apply nthZ_upd. exact Ri. }
  assert (HL : zlen l' = zlen l) by (rewrite E, !zlen_upd; reflexivity). clear E.
  assert (G : forall i j x y (l l' : list A), i < j -> nthZ l i = Some x -> nthZ l j = Some y -> zlen l' = zlen l ->
     (forall k, nthZ l' k = if k =? j then Some x else if k =? i then Some y else nthZ l k) -> Permutation l l').
  { clear. intros i j x y l l' Hij Hx Hy HL HN. destruct (nth_split_Z l i x Hx) as (a & b & -> & Ha).
    rewrite nthZ_app in Hy. destruct (Z.ltb_spec j (zlen a)); [lia|]. rewrite nthZ_cons in Hy.
    destruct (Z.eqb_spec (j - zlen a) 0); [lia|]. destruct (nth_split_Z b _ y Hy) as (b1 & b2 & -> & Hb).
    assert (E : l' = a ++ y :: b1 ++ x :: b2).
    { apply nthZ_ext; [rewrite HL; rewrite !zlen_app, !zlen_cons, !zlen_app, !zlen_cons; reflexivity|].
      intros k _. rewrite HN. rewrite (nthZ_app a (y :: _)), nthZ_cons, (nthZ_app b1 (x :: b2)), nthZ_cons.
      rewrite (nthZ_app a (x :: _)), nthZ_cons, (nthZ_app b1 (y :: b2)), nthZ_cons.
      destruct (Z.eqb_spec k j) as [->|Hkj].
      - destruct (Z.ltb_spec j (zlen a)); [lia|]. destruct (Z.eqb_spec (j - zlen a) 0); [lia|].
        destruct (Z.ltb_spec (j - zlen a - 1) (zlen b1)); [lia|]. destruct (Z.eqb_spec (j - zlen a - 1 - zlen b1) 0); [reflexivity|lia].
      - destruct (Z.eqb_spec k i) as [->|Hki].
        + destruct (Z.ltb_spec i (zlen a)); [lia|]. destruct (Z.eqb_spec (i - zlen a) 0); [reflexivity|lia].
        + destruct (Z.ltb_spec k (zlen a)); [reflexivity|]. destruct (Z.eqb_spec (k - zlen a) 0); [lia|].
          destruct (Z.ltb_spec (k - zlen a - 1) (zlen b1)); [reflexivity|]. destruct (Z.eqb_spec (k - zlen a - 1 - zlen b1) 0); [lia|reflexivity]. }
    rewrite E. apply Permutation_app_head.
    transitivity (x :: y :: b1 ++ b2); [apply perm_skip; symmetry; apply Permutation_middle|].
    transitivity (y :: x :: b1 ++ b2); [apply perm_swap|]. apply perm_skip. apply Permutation_middle. }
  destruct (Z.lt_trichotomy i j) as [Hlt|[->|Hlt]].
  - eapply G; eauto.
  - assert (x = y) by congruence. subst y. assert (l = l') as ->; [|apply Permutation_refl].
    apply nthZ_ext; [congruence|]. intros k _. rewrite HN. destruct (Z.eqb_spec k j); congruence.
  - eapply (G j i y x); eauto. intros k. rewrite HN. destruct (Z.eqb_spec k i), (Z.eqb_spec k j); subst; congruence.
Qed.

Lemma foldG_inv {A B} (f : B -> A -> G S B) (P : B -> Prop) l : (forall b a s b' s', In a l -> P b -> f b a s = Ok (b', s') -> P b') ->
  forall b s b' s', P b -> foldG f l b s = Ok (b', s') -> P b'.
Proof.
  induction l as [|a t IH]; intros HI b s b' s' HP H; cbn [foldG] in H.
  - unfold retG in H. injection H as <- <-. exact HP.
  - apply bindG_inv in H as (b1 & s1 & H1 & H). eapply (IH (fun b a s b' s' Hin => HI b a s b' s' (or_intror Hin)) b1); eauto.
    eapply HI; eauto. left. reflexivity.
Qed.

Lemma foldG_total {A B} (f : B -> A -> G S B) (P : B -> Prop) l :
  (forall b a s, In a l -> P b -> exists b' s', f b a s = Ok (b', s') /\ P b') ->
  forall b s, P b -> exists b' s', foldG f l b s = Ok (b', s') /\ P b'.
Proof.
  induction l as [|a t IH]; intros HI b s HP; cbn [foldG].
  - eexists _, _. split; [reflexivity|exact HP].
  - destruct (HI b a s (or_introl eq_refl) HP) as (b1 & s1 & H1 & HP1).
    destruct (IH (fun b a s Hin => HI b a s (or_intror Hin)) b1 s1 HP1) as (b2 & s2 & H2 & HP2).
    exists b2, s2. split; [|exact HP2]. unfold bindG. rewrite H1. cbn [bind fst snd]. exact H2.
Qed.

(** integer draws are in range (all the soundness facts on [choice replace=False] need it) *)
Hypothesis L : RngLaws.

Lemma permutation_ok {A} (l : list A) s : exists p s', permutation rng l s = Ok (p, s') /\ Permutation l p.
Proof.
  unfold permutation. apply (foldG_total _ (fun p => Permutation l p)); [|apply Permutation_refl].
  intros p k s0 Hk HP. apply in_zrange in Hk. set (i := zlen l - 1 - k). unfold bindG, draw_int. cbn [bind fst snd].
  assert (Hi : 0 <= i < zlen l) by (unfold i; lia).
  pose proof (rl_int L (i + 1) s0 ltac:(lia)) as Hr. destruct (r_int rng (i + 1) s0) as [j s1]. cbn [fst snd] in *.
  assert (Hlen : zlen p = zlen l). { unfold zlen. rewrite (Permutation_length HP). reflexivity. }
  destruct (get_ok p i ltac:(lia)) as (x & Hx & _). destruct (get_ok p j ltac:(lia)) as (y & Hy & _).
  assert (E : exists q, swap p i j = Ok q).
  { unfold swap. rewrite Hx, Hy. cbn [bind]. rewrite set_ok by lia. cbn [bind]. rewrite set_ok by (rewrite zlen_upd; lia). eauto. }
  destruct E as (q & E). exists q, s1. unfold liftG. rewrite E. split; [reflexivity|]. eapply perm_trans; [exact HP|].
  eapply swap_perm; [| |exact E]; lia.
Qed.

Lemma slice_incl {A} (l : list A) n x : 0 <= n <= zlen l -> In x (slice l 0 n) -> In x l.
Proof.
  intros Hn H. rewrite slice_ok in H by lia. cbn [skipn Z.to_nat] in H.
  rewrite <- (firstn_skipn (Z.to_nat (n - 0)) l). apply in_or_app. left. exact H.
Qed.

Lemma choice_norep_ok {A} (l : list A) n s : 0 < zlen l -> 0 <= n <= zlen l -> NoDup l ->
  exists c s', choice_norep rng l n s = Ok (c, s') /\ zlen c = n /\ NoDup c /\ forall x, In x c -> In x l.
Proof.
  intros Hl Hn HD. unfold choice_norep.
  erewrite liftG_ok; [|apply guard_ok; rewrite !andb_true_iff, Z.ltb_lt, !Z.leb_le; lia].
  destruct (permutation_ok l s) as (p & s1 & E & HP). unfold bindG. rewrite E. cbn [bind fst snd]. unfold retG.
  assert (Hlen : zlen p = zlen l). { unfold zlen. rewrite (Permutation_length HP). reflexivity. }
  eexists _, _. split; [reflexivity|]. split; [rewrite slice_length; lia|]. split.
  - rewrite slice_ok by lia. cbn [skipn Z.to_nat].
    assert (HDp : NoDup p) by (eapply Permutation_NoDup; eauto).
    rewrite <- (firstn_skipn (Z.to_nat (n - 0)) p) in HDp. revert HDp.
    generalize (firstn (Z.to_nat (n - 0)) p) (skipn (Z.to_nat (n - 0)) p). intros a b. revert b.
    induction a as [|h t IH]; intros b HDp; [constructor|]. cbn in HDp. inversion HDp; subst. constructor; [|eapply IH; eauto].
    intros Hin. apply H1. apply in_or_app. left. exact Hin.
  - intros x Hx. apply slice_incl in Hx; [|lia]. eapply Permutation_in; [symmetry; exact HP|exact Hx].
Qed.

Lemma choice_norep_inv {A} (l : list A) n s c s' : NoDup l -> choice_norep rng l n s = Ok (c, s') ->
  0 <= n <= zlen l /\ zlen c = n /\ NoDup c /\ forall x, In x c -> In x l.
Proof.
  intros HD H. assert (Hg : 0 < zlen l /\ 0 <= n <= zlen l).
  { unfold choice_norep in H. apply bind_liftG in H as (u & Hg & _). destruct u. apply guard_ok in Hg.
    rewrite !andb_true_iff, Z.ltb_lt, !Z.leb_le in Hg. lia. }
  destruct Hg as [H1 H2]. destruct (choice_norep_ok l n s H1 H2 HD) as (c' & s2 & E & A1 & A2 & A3).
  rewrite E in H. assert (c' = c) by congruence. subst. auto.
Qed.

End G.
Arguments rl_int {F N S rng}. Arguments rl_unif {F N S rng}.

(** a loop which never fails in parallel does not fail sequentially *)
Lemma foldG_par_total {S ST} (iter : ST -> Z * Z -> G S ST) (sched : list (Z * Z)) : NoDup (map snd sched) -> forall st,
  (forall rs, exists st', run_sched iter rs sched st = Ok st') -> forall s, exists r, foldG iter sched st s = Ok r.
Proof.
  induction sched as [|e t IH]; intros HN st H s; cbn [foldG].
  - eexists. reflexivity.
  - cbn [map] in HN. inversion HN as [|? ? Hn HN']; subst. unfold run_sched in H. cbn [foldM] in H.
    destruct (H (fun _ => s)) as (st' & E). apply bind_inv in E as (st1 & E1 & _). apply bind_inv in E1 as ([st1' s1] & E1 & E2).
    cbn [fst] in E2. assert (st1' = st1) by congruence. subst st1'. unfold bindG. rewrite E1. cbn [bind fst snd]. apply IH; [exact HN'|].
    intros rs. destruct (H (fun i => if i =? snd e then s else rs i)) as (st2 & E3). rewrite Z.eqb_refl, E1 in E3. cbn [bind fst] in E3.
    exists st2. unfold run_sched. rewrite <- E3. apply foldM_ext. intros x e' Hin.
    destruct (Z.eqb_spec (snd e') (snd e)) as [E|]; [|reflexivity]. exfalso. apply Hn. rewrite <- E. apply in_map. exact Hin.
Qed.
