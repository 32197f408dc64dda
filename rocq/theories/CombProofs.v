(** Proofs about combinations_1d (distinct (length, dilation) pairs). *)
From Coq Require Import ZArith List Bool Lia.
From Verif Require Import Prelude Num Kernel Spec KernelProofs.
Import ListNotations.
Open Scope Z_scope.

Lemma foldM_pairs {S} (f : S -> Z -> Z -> res S) x y s :
  zlen x = zlen y ->
  foldM (fun st i => let* xi := get x i in let* yi := get y i in f st xi yi) (zrange 0 (zlen x)) s
  = foldM (fun st p => f st (fst p) (snd p)) (combine x y) s.
Proof.
  intros HL.
  assert (L : forall n : nat, forall k s, k + Z.of_nat n = zlen x -> 0 <= k ->
    foldM (fun st i => let* xi := get x i in let* yi := get y i in f st xi yi) (zrange k (zlen x)) s
    = foldM (fun st p => f st (fst p) (snd p)) (combine (skipn (Z.to_nat k) x) (skipn (Z.to_nat k) y)) s).
  { induction n as [|n IH]; intros k s0 Hk Hk0.
    - rewrite zrange_empty by lia. rewrite skipn_all2 by (unfold zlen in *; lia). reflexivity.
    - rewrite zrange_cons by lia.
      destruct (nthZ_some x k) as (a & Ha); [lia|].
      destruct (nthZ_some y k) as (b & Hb); [lia|].
      assert (Ea : skipn (Z.to_nat k) x = a :: skipn (Z.to_nat (k+1)) x).
      { replace (Z.to_nat (k+1)) with (Datatypes.S (Z.to_nat k)) by lia.
        unfold nthZ in Ha. destruct (Z.ltb_spec k 0); [lia|].
        clear -Ha. revert Ha. generalize (Z.to_nat k). induction x as [|h t IHx]; intros [|m]; simpl; try discriminate.
        - intros E. injection E as ->. reflexivity.
        - intros E. apply (IHx _ E). }
      assert (Eb : skipn (Z.to_nat k) y = b :: skipn (Z.to_nat (k+1)) y).
      { replace (Z.to_nat (k+1)) with (Datatypes.S (Z.to_nat k)) by lia.
        unfold nthZ in Hb. destruct (Z.ltb_spec k 0); [lia|].
        clear -Hb. revert Hb. generalize (Z.to_nat k). induction y as [|h t IHx]; intros [|m]; simpl; try discriminate.
        - intros E. injection E as ->. reflexivity.
        - intros E. apply (IHx _ E). }
      rewrite Ea, Eb. cbn [foldM combine].
      rewrite (proj2 (get_nthZ x k a Hk0) Ha), (proj2 (get_nthZ y k b Hk0) Hb). simpl.
      destruct (f s0 a b); simpl; [|reflexivity]. apply IH; lia. }
  apply (L (length x) 0 s); unfold zlen; lia.
Qed.

Lemma in_combine_lr {A B} (l1 : list A) (l2 : list B) p : In p (combine l1 l2) -> In (fst p) l1 /\ In (snd p) l2.
Proof. destruct p as [a b]. intros H. split; [eapply in_combine_l | eapply in_combine_r]; eauto. Qed.

Lemma index_of_ok u v : In v u -> exists k, index_of u v = Ok k /\ nthZ u k = Some v /\ 0 <= k < zlen u.
Proof.
  intros H. unfold index_of.
  assert (Hin : forall k, In k (where_ (map (Z.eqb v) u)) -> nthZ u k = Some v).
  { intros k Hk. apply in_where in Hk. rewrite nthZ_map in Hk.
    destruct (nthZ u k) as [w|]; simpl in Hk; [|discriminate].
    injection Hk as Hk. apply Z.eqb_eq in Hk. subst. reflexivity. }
  destruct (where_ (map (Z.eqb v) u)) as [|k t] eqn:E.
  - exfalso. destruct (In_nthZ u v H) as (i & Hi).
    assert (C : In i (where_ (map (Z.eqb v) u))).
    { apply in_where. rewrite nthZ_map, Hi. simpl. rewrite Z.eqb_refl. reflexivity. }
    rewrite E in C. destruct C.
  - exists k. assert (nthZ u k = Some v) by (apply Hin; simpl; auto).
    repeat split; auto; apply nthZ_range in H0; lia.
Qed.

(** matrices *)
Definition dims {A} (p q : Z) (M : list (list A)) : Prop := zlen M = p /\ regular q M.

Lemma get2_ok {A} p q (M : list (list A)) a b : dims p q M -> 0 <= a < p -> 0 <= b < q ->
  exists v, get2 M a b = Ok v.
Proof.
  intros [Hp Hq] Ha Hb. destruct (get_row M a q Hq) as (r & H1 & _ & H3); [lia|].
  unfold get2. rewrite H1. simpl. destruct (get_ok r b) as (v & Hv & _); [lia|]. eauto.
Qed.

Lemma in_upd {A} (l : list A) n x y : In y (upd l n x) -> y = x \/ In y l.
Proof.
  revert n. induction l as [|h t IH]; intros [|n]; simpl; auto.
  - intros [->|H]; auto.
  - intros [->|H]; auto. destruct (IH _ H); auto.
Qed.

Lemma get_upd {A} (l : list A) i j x : 0 <= i < zlen l -> 0 <= j ->
  get (upd l (Z.to_nat i) x) j = if j =? i then Ok x else get l j.
Proof.
  intros Hi Hj. unfold get, wrap. destruct (Z.ltb_spec j 0); [lia|].
  rewrite nthZ_upd by exact Hi. destruct (j =? i); reflexivity.
Qed.

Lemma set2_ok {A} p q (M : list (list A)) a b v : dims p q M -> 0 <= a < p -> 0 <= b < q ->
  exists r, nthZ M a = Some r /\ zlen r = q /\
  set2 M a b v = Ok (upd M (Z.to_nat a) (upd r (Z.to_nat b) v)).
Proof.
  intros [Hp Hq] Ha Hb. destruct (get_row M a q Hq) as (r & H1 & H2 & H3); [lia|].
  exists r. repeat split; auto. unfold set2. rewrite H1. simpl.
  rewrite set_ok by lia. simpl. apply set_ok. lia.
Qed.

Lemma set2_dims {A} p q (M M' : list (list A)) a b v : dims p q M -> 0 <= a < p -> 0 <= b < q ->
  set2 M a b v = Ok M' -> dims p q M' /\
  forall a' b', 0 <= a' < p -> 0 <= b' < q ->
     get2 M' a' b' = if (a' =? a) && (b' =? b) then Ok v else get2 M a' b'.
Proof.
  intros HD Ha Hb H. destruct (set2_ok p q M a b v HD Ha Hb) as (r & Hr & Hrl & E).
  rewrite E in H. injection H as <-. destruct HD as [Hp Hq]. split.
  - split; [rewrite zlen_upd; exact Hp|]. intros s Hs. apply in_upd in Hs as [->|Hs]; [rewrite zlen_upd; exact Hrl|auto].
  - intros a' b' Ha' Hb'. unfold get2. rewrite get_upd by lia.
    destruct (Z.eqb_spec a' a) as [->|]; simpl.
    + rewrite (proj2 (get_nthZ M a r (proj1 Ha)) Hr). simpl. rewrite get_upd by lia.
      destruct (b' =? b); reflexivity.
    + reflexivity.
Qed.

Definition ctrue (r : list bool) : Z := zlen (filter (fun b : bool => b) r).

Lemma zsum_upd (l : list Z) n x y : nth_error l n = Some y -> zsum (upd l n x) = zsum l - y + x.
Proof.
  revert n. induction l as [|h t IH]; intros [|n]; simpl; try discriminate.
  - intros E. injection E as ->. rewrite !zsum_cons. lia.
  - intros E. rewrite !zsum_cons, (IH _ E). lia.
Qed.

Lemma map_upd {A B} (f : A -> B) l n x : map f (upd l n x) = upd (map f l) n (f x).
Proof. revert n. induction l as [|h t IH]; intros [|n]; simpl; auto. rewrite IH. reflexivity. Qed.

Lemma ctrue_upd r n v b : nth_error r n = Some b ->
  ctrue (upd r n v) = ctrue r - (if b then 1 else 0) + (if v then 1 else 0).
Proof.
  unfold ctrue. revert n. induction r as [|h t IH]; intros [|n]; simpl; try discriminate.
  - intros E. injection E as ->. destruct b, v; rewrite ?zlen_cons; lia.
  - intros E. specialize (IH _ E). destruct h; rewrite ?zlen_cons; lia.
Qed.

Lemma count_true_set2 p q M M' a b v w : dims p q M -> 0 <= a < p -> 0 <= b < q ->
  get2 M a b = Ok w -> set2 M a b v = Ok M' ->
  count_true M' = count_true M - (if w then 1 else 0) + (if v then 1 else 0).
Proof.
  intros HD Ha Hb Hw H. destruct (set2_ok p q M a b v HD Ha Hb) as (r & Hr & Hrl & E).
  rewrite E in H. injection H as <-.
  unfold count_true. fold ctrue. rewrite map_upd.
  assert (Hr' : nth_error M (Z.to_nat a) = Some r).
  { unfold nthZ in Hr. destruct (Z.ltb_spec a 0); [lia|exact Hr]. }
  change (fun r0 : list bool => zlen (filter (fun b0 : bool => b0) r0)) with ctrue.
  rewrite (zsum_upd _ _ _ (ctrue r)).
  - unfold get2 in Hw. rewrite (proj2 (get_nthZ M a r (proj1 Ha)) Hr) in Hw. simpl in Hw.
    apply get_nthZ in Hw; [|lia]. unfold nthZ in Hw. destruct (Z.ltb_spec b 0); [lia|].
    rewrite (ctrue_upd _ _ v w Hw). lia.
  - rewrite nth_error_map, Hr'. reflexivity.
Qed.

Lemma count_true_zero p q M : dims p q M ->
  (forall a b, 0 <= a < p -> 0 <= b < q -> get2 M a b = Ok false) -> count_true M = 0.
Proof.
  intros [Hp Hq] H. unfold count_true.
  assert (G : forall r, In r M -> ctrue r = 0).
  { intros r Hr. destruct (In_nthZ M r Hr) as (a & Ha). pose proof (nthZ_range _ _ _ Ha) as Har.
    assert (forall b, In b r -> b = false).
    { intros b Hb. destruct (In_nthZ r b Hb) as (k & Hk). pose proof (nthZ_range _ _ _ Hk) as Hkr.
      specialize (H a k). rewrite (Hq r Hr) in Hkr. specialize (H ltac:(lia) ltac:(lia)).
      unfold get2 in H. rewrite (proj2 (get_nthZ M a r (proj1 Har)) Ha) in H. simpl in H.
      apply get_nthZ in H; [|lia]. congruence. }
    unfold ctrue. clear -H0. induction r as [|h t IH]; [reflexivity|]. simpl.
    rewrite (H0 h) by (simpl; auto). apply IH. intros; apply H0; simpl; auto. }
  clear -G. induction M as [|r t IH]; [reflexivity|]. simpl. rewrite zsum_cons.
  rewrite IH by (intros; apply G; simpl; auto). change (zlen _) with (ctrue r). rewrite G by (simpl; auto). lia.
Qed.

Definition pair_dec (p q : Z * Z) : {p = q} + {p <> q}.
Proof. decide equality; apply Z.eq_dec. Defined.

(** first occurrences, in order *)
Definition pair_eqb (p q : Z * Z) : bool := (fst p =? fst q) && (snd p =? snd q).
Definition dedup (l : list (Z * Z)) : list (Z * Z) :=
  fold_left (fun acc p => if existsb (pair_eqb p) acc then acc else acc ++ [p]) l [].

Lemma pair_eqb_true p q : pair_eqb p q = true <-> p = q.
Proof.
  destruct p as [a b], q as [c d]. unfold pair_eqb. simpl. rewrite andb_true_iff, !Z.eqb_eq.
  split; [intros [-> ->]; reflexivity | intros E; injection E as -> ->; auto].
Qed.

Lemma existsb_pair_eqb p l : existsb (pair_eqb p) l = true <-> In p l.
Proof.
  rewrite existsb_exists. split.
  - intros (q & Hq & E). apply pair_eqb_true in E. subst. exact Hq.
  - intros H. exists p. split; [exact H|]. apply pair_eqb_true. reflexivity.
Qed.

Lemma dedup_snoc l p : dedup (l ++ [p]) = if existsb (pair_eqb p) (dedup l) then dedup l else dedup l ++ [p].
Proof. unfold dedup. rewrite fold_left_app. reflexivity. Qed.

Lemma in_dedup l p : In p (dedup l) <-> In p l.
Proof.
  induction l as [|q l IH] using rev_ind; [tauto|]. rewrite dedup_snoc.
  destruct (existsb (pair_eqb q) (dedup l)) eqn:E.
  - apply existsb_pair_eqb in E. rewrite in_app_iff, IH. simpl. split; [tauto|]. intros [H|[<-|[]]]; [exact H|]. apply IH. exact E.
  - rewrite !in_app_iff, IH. simpl. tauto.
Qed.

Lemma dedup_NoDup l : NoDup (dedup l).
Proof.
  induction l as [|q l IH] using rev_ind; [constructor|]. rewrite dedup_snoc.
  destruct (existsb (pair_eqb q) (dedup l)) eqn:E; [exact IH|].

  assert (~ In q (dedup l)) by (rewrite <- existsb_pair_eqb, E; discriminate).
  clear E. induction (dedup l) as [|h t IHt]; simpl in *; [constructor; auto; constructor|].
  inversion IH; subst. constructor.
  - rewrite in_app_iff. simpl. intuition.
  - apply IHt; auto.
Qed.

(** each element of [dedup l] comes from its first position in [l], in increasing order *)
Lemma dedup_first l : exists idx, incr idx /\ map (nthZ l) idx = map Some (dedup l) /\
  forall i, In i idx -> 0 <= i < zlen l /\ forall j, 0 <= j < i -> nthZ l j <> nthZ l i.
Proof.
  induction l as [|q l IH] using rev_ind; [exists []; simpl; intuition|].
  destruct IH as (idx & H1 & H2 & H3).
  assert (Hmap : map (nthZ (l ++ [q])) idx = map (nthZ l) idx).
  { apply map_ext_in. intros i Hi. rewrite nthZ_app. destruct (H3 i Hi) as [Hi' _].
    destruct (Z.ltb_spec i (zlen l)); [reflexivity|lia]. }
  assert (Hext : forall i, In i idx -> 0 <= i < zlen (l ++ [q]) /\
      forall j, 0 <= j < i -> nthZ (l ++ [q]) j <> nthZ (l ++ [q]) i).
  { intros i Hi. destruct (H3 i Hi) as [Hi' Hj]. rewrite zlen_app. pose proof (zlen_nonneg [q]).
    split; [lia|]. intros j Hj'. rewrite !nthZ_app.
    destruct (Z.ltb_spec i (zlen l)); [|lia]. destruct (Z.ltb_spec j (zlen l)); [|lia]. auto. }
  rewrite dedup_snoc. destruct (existsb (pair_eqb q) (dedup l)) eqn:E.
  - exists idx. rewrite Hmap. auto.
  - exists (idx ++ [zlen l]). repeat split.
    + clear -H1 H3. induction idx as [|h t IHt]; simpl in *; [intuition|].
      destruct H1 as [H1 H1']. split.
      * intros y Hy. apply in_app_iff in Hy as [Hy|[<-|[]]]; [auto|]. apply H3. auto.
      * apply IHt; auto.
    + rewrite !map_app, Hmap, H2. simpl. rewrite nthZ_app.
      destruct (Z.ltb_spec (zlen l) (zlen l)); [lia|]. rewrite Z.sub_diag. reflexivity.
    + apply in_app_iff in H as [H|[<-|[]]]; [apply Hext; auto|]. apply zlen_nonneg.
    + apply in_app_iff in H as [H|[<-|[]]]; [apply Hext; auto|]. rewrite zlen_app. cbn. lia.
    + apply in_app_iff in H as [H|[<-|[]]]; [apply Hext; auto|].
      intros j Hj. rewrite !nthZ_app. destruct (Z.ltb_spec (zlen l) (zlen l)); [lia|].
      destruct (Z.ltb_spec j (zlen l)); [|lia]. rewrite Z.sub_diag.
      change (nthZ [q] 0) with (Some q). intros C. apply nthZ_In in C.
      assert (Hnq : ~ In q (dedup l)) by (rewrite <- existsb_pair_eqb, E; discriminate).
      apply Hnq. apply in_dedup. exact C.
Qed.

Lemma nthZ_inj_NoDup {A} (l : list A) i j x : NoDup l -> nthZ l i = Some x -> nthZ l j = Some x -> i = j.
Proof.
  intros HN Hi Hj. pose proof (nthZ_range _ _ _ Hi). pose proof (nthZ_range _ _ _ Hj).
  unfold nthZ in *. destruct (Z.ltb_spec i 0); [lia|]. destruct (Z.ltb_spec j 0); [lia|].
  unfold zlen in *. assert (Z.to_nat i = Z.to_nat j); [|lia].
  eapply NoDup_nth_error; eauto; [lia|congruence].
Qed.

Lemma combinations_1d_ok x y : zlen x = zlen y -> combinations_1d x y = Ok (dedup (combine x y)).
Proof.
  intros HL. unfold combinations_1d.
  set (u_x := unique x). set (u_y := unique y).
  set (p := zlen u_x). set (q := zlen u_y).
  set (ps := combine x y).
  assert (Hidx : forall r, In r ps -> exists a b, index_of u_x (fst r) = Ok a /\ index_of u_y (snd r) = Ok b /\
      nthZ u_x a = Some (fst r) /\ nthZ u_y b = Some (snd r) /\ 0 <= a < p /\ 0 <= b < q).
  { intros r Hr. apply in_combine_lr in Hr as [H1 H2].
    destruct (index_of_ok u_x (fst r)) as (a & Ha1 & Ha2 & Ha3); [apply in_unique; exact H1|].
    destruct (index_of_ok u_y (snd r)) as (b & Hb1 & Hb2 & Hb3); [apply in_unique; exact H2|].
    exists a, b. auto 10. }
  (* inverse: entry (a,b) denotes the pair (u_x[a],u_y[b]) *)
  set (M0 := map (fun _ : Z => map (fun _ : Z => false) u_y) u_x).
  assert (HD0 : dims p q M0).
  { split; [unfold M0; rewrite zlen_map; reflexivity|]. intros r Hr. unfold M0 in Hr.
    apply in_map_iff in Hr as (? & <- & _). rewrite zlen_map. reflexivity. }
  assert (HM0 : forall a b, 0 <= a < p -> 0 <= b < q -> get2 M0 a b = Ok false).
  { intros a b Ha Hb. unfold get2, M0.
    destruct (nthZ_some u_x a Ha) as (xa & Exa). destruct (nthZ_some u_y b Hb) as (yb & Eyb).
    assert (E1 : get (map (fun _ : Z => map (fun _ : Z => false) u_y) u_x) a = Ok (map (fun _ : Z => false) u_y)).
    { apply get_nthZ; [lia|]. rewrite nthZ_map, Exa. reflexivity. }
    rewrite E1. simpl. apply get_nthZ; [lia|]. rewrite nthZ_map, Eyb. reflexivity. }
  rewrite foldM_pairs with (f := fun m xi yi =>
     let* a := index_of u_x xi in let* b := index_of u_y yi in set2 m a b true) by exact HL.
  fold ps.
  (* first loop *)
  assert (L1 : exists M, foldM (fun m r => let* a := index_of u_x (fst r) in let* b := index_of u_y (snd r) in set2 m a b true) ps M0 = Ok M
    /\ dims p q M /\ forall a b, 0 <= a < p -> 0 <= b < q ->
       exists v, get2 M a b = Ok v /\ (v = true <-> exists r, In r ps /\ nthZ u_x a = Some (fst r) /\ nthZ u_y b = Some (snd r))).
  { apply (foldM_total _ (fun pre M => dims p q M /\ forall a b, 0 <= a < p -> 0 <= b < q ->
       exists v, get2 M a b = Ok v /\ (v = true <-> exists r, In r pre /\ nthZ u_x a = Some (fst r) /\ nthZ u_y b = Some (snd r)))).
    - split; [exact HD0|]. intros a b Ha Hb. exists false. split; [auto|].
      split; [discriminate|]. intros (r & [] & _).
    - intros pre r post M E [HD HM].
      destruct (Hidx r) as (a & b & E1 & E2 & N1 & N2 & Ra & Rb); [rewrite E; apply in_or_app; simpl; auto|].
      rewrite E1, E2. simpl. destruct (set2_ok p q M a b true HD Ra Rb) as (row & _ & _ & ES).
      destruct (set2_dims p q M _ a b true HD Ra Rb ES) as [HD' HG].
      eexists. split; [exact ES|]. split; [exact HD'|].
      intros a' b' Ha' Hb'. rewrite HG by assumption.
      destruct (Z.eqb_spec a' a) as [->|Na]; simpl.
      2:{ destruct (HM a' b' Ha' Hb') as (v & Hv & Hiff). exists v. split; [exact Hv|]. rewrite Hiff.
          split; intros (r' & Hr' & G1 & G2); exists r'; (split; [|auto]); [apply in_app_iff; auto|].
          apply in_app_iff in Hr' as [Hr'|[<-|[]]]; auto. exfalso. apply Na.
          eapply nthZ_inj_NoDup; [apply unique_NoDup| |]; eauto. }
      destruct (Z.eqb_spec b' b) as [->|Nb].
      + exists true. split; [reflexivity|]. split; [|reflexivity]. intros _. exists r.
        split; [apply in_app_iff; simpl; auto|auto].
      + destruct (HM a b' Ha' Hb') as (v & Hv & Hiff). exists v. split; [exact Hv|]. rewrite Hiff.
        split; intros (r' & Hr' & G1 & G2); exists r'; (split; [|auto]); [apply in_app_iff; auto|].
        apply in_app_iff in Hr' as [Hr'|[<-|[]]]; auto. exfalso. apply Nb.
        eapply nthZ_inj_NoDup; [apply unique_NoDup| |]; eauto. }
  destruct L1 as (M & EM & HDM & HM). rewrite EM. simpl bind.
  set (c0 := count_true M).
  rewrite foldM_ext with (g := fun st i => let* xi := get x i in let* yi := get y i in
     (fun (st : list (list bool) * list (Z*Z) * Z) xi yi =>
      let '(m, comb, i_comb) := st in
      let* a := index_of u_x xi in let* b := index_of u_y yi in
      let* b0 := get2 m a b in
      if (b0 : bool) then
        let* comb' := set comb i_comb (xi, yi) in
        let* m' := set2 m a b false in
        Ok (m', comb', i_comb + 1)
      else Ok st) st xi yi).
  2:{ intros [[m comb] ic] i _. reflexivity. }
  rewrite foldM_pairs by exact HL. fold ps.
  match goal with |- context [foldM ?f ps ?s] => 
    assert (L2 : exists st, foldM f ps s = Ok st /\ 
      (let '(m, comb, ic) := st in dims p q m /\ ic = zlen (dedup ps) /\
        (forall a b, 0 <= a < p -> 0 <= b < q ->
         exists v, get2 m a b = Ok v /\ (v = true <-> exists r, In r ps /\ ~ In r ps /\ nthZ u_x a = Some (fst r) /\ nthZ u_y b = Some (snd r))) /\
        count_true m = c0 - ic /\ comb = dedup ps ++ repeat (0,0) (Z.to_nat (c0 - ic))))
  end.
  { apply (foldM_total _ (fun pre st => let '(m, comb, ic) := st in dims p q m /\ ic = zlen (dedup pre) /\
        (forall a b, 0 <= a < p -> 0 <= b < q ->
         exists v, get2 m a b = Ok v /\ (v = true <-> exists r, In r ps /\ ~ In r pre /\ nthZ u_x a = Some (fst r) /\ nthZ u_y b = Some (snd r))) /\
        count_true m = c0 - ic /\ comb = dedup pre ++ repeat (0,0) (Z.to_nat (c0 - ic)))).
    - split; [exact HDM|]. split; [reflexivity|]. split.
      + intros a b Ha Hb. destruct (HM a b Ha Hb) as (v & Hv & Hiff). exists v. split; [exact Hv|].
        rewrite Hiff. split; intros (r & Hr & G); exists r; simpl; tauto.
      + split; [unfold c0; lia|]. simpl. rewrite Z.sub_0_r. reflexivity.
    - intros pre r post [[m comb] ic] E (HD & Hic & Hm & Hc & Hcomb).
      assert (Hr : In r ps) by (rewrite E; apply in_or_app; simpl; auto).
      destruct (Hidx r Hr) as (a & b & E1 & E2 & N1 & N2 & Ra & Rb).
      rewrite E1, E2. simpl bind. destruct (Hm a b Ra Rb) as (v & Hv & Hiff). rewrite Hv. simpl bind.
      assert (Huniq : forall r', nthZ u_x a = Some (fst r') -> nthZ u_y b = Some (snd r') -> r' = r).
      { intros [r1 r2] G1 G2. destruct r as [s1 s2]. simpl in *. f_equal; congruence. }
      destruct v.
      + destruct (proj1 Hiff eq_refl) as (r' & Hr' & Hnin & G1 & G2).
        assert (r' = r) by (apply Huniq; assumption). subst r'. clear G1 G2.
        destruct (set2_ok p q m a b false HD Ra Rb) as (row & _ & _ & ES).
        pose proof (count_true_set2 p q m _ a b false true HD Ra Rb Hv ES) as HC. cbv iota in HC.
        destruct (set2_dims p q m _ a b false HD Ra Rb ES) as [HD' HG].
        rewrite <- surjective_pairing.
        assert (Hdd : dedup (pre ++ [r]) = dedup pre ++ [r]).
        { rewrite dedup_snoc. destruct (existsb (pair_eqb r) (dedup pre)) eqn:Ex; [|reflexivity].
          apply existsb_pair_eqb in Ex. apply (proj1 (in_dedup _ _)) in Ex. contradiction. }
        assert (Hpos : 0 < c0 - ic).
        { assert (0 <= count_true (upd m (Z.to_nat a) (upd row (Z.to_nat b) false))).
          { unfold count_true. apply zsum_nonneg. intros z Hz. apply in_map_iff in Hz as (? & <- & _). apply zlen_nonneg. }
          lia. }
        assert (Hset : set comb ic r = Ok ((dedup pre ++ [r]) ++ repeat (0,0) (Z.to_nat (c0 - (ic + 1))))).
        { rewrite Hcomb, set_ok; rewrite Hic.
          2:{ rewrite zlen_app, zlen_repeat. pose proof (zlen_nonneg (dedup pre)). lia. }
          f_equal. unfold zlen. rewrite Nat2Z.id.
          replace (Z.to_nat (c0 - Z.of_nat (length (dedup pre)))) with (S (Z.to_nat (c0 - (Z.of_nat (length (dedup pre)) + 1)))).
          2:{ rewrite Hic in Hpos. unfold zlen in Hpos. lia. }
          generalize (Z.to_nat (c0 - (Z.of_nat (length (dedup pre)) + 1))). intros k.
          cbn [repeat]. clear. generalize (repeat (0,0) k). intros rest.
          induction (dedup pre) as [|h t IH]; simpl; [reflexivity|]. f_equal. exact IH. }
        rewrite Hset. simpl bind. rewrite ES. simpl bind.
        eexists. split; [reflexivity|]. split; [exact HD'|]. split.
        { rewrite Hdd, zlen_app, Hic. cbn. lia. }
        split.
        { intros a' b' Ha' Hb'. rewrite HG by assumption.
          destruct ((a' =? a) && (b' =? b)) eqn:Eab.
          - apply andb_true_iff in Eab as [Ea Eb]. apply Z.eqb_eq in Ea, Eb. subst a' b'.
            exists false. split; [reflexivity|]. split; [discriminate|].
            intros (r' & _ & Hn & G1 & G2). exfalso. apply Hn. rewrite (Huniq r' G1 G2).
            apply in_app_iff. simpl. auto.
          - destruct (Hm a' b' Ha' Hb') as (v & Hv' & Hiff'). exists v. split; [exact Hv'|].
            rewrite Hiff'. split; intros (r' & H1 & H2 & G1 & G2); exists r'; (split; [exact H1|]); (split; [|auto]).
            + intros C. apply in_app_iff in C as [C|[<-|[]]]; [contradiction|].
              assert (a' = a) by (eapply nthZ_inj_NoDup; [apply unique_NoDup| |]; eauto).
              assert (b' = b) by (eapply nthZ_inj_NoDup; [apply unique_NoDup| |]; eauto).
              subst. rewrite !Z.eqb_refl in Eab. discriminate.
            + intros C. apply H2. apply in_app_iff. auto. }
        split; [lia|]. rewrite Hdd. reflexivity.
      + eexists. split; [reflexivity|].
        assert (Hin : In r pre).
        { destruct (in_dec pair_dec r pre) as [H|H]; [exact H|].
          exfalso. assert (C : false = true); [|discriminate]. apply Hiff. exists r. auto. }
        assert (Hdd : dedup (pre ++ [r]) = dedup pre).
        { rewrite dedup_snoc. replace (existsb (pair_eqb r) (dedup pre)) with true; [reflexivity|].
          symmetry. apply existsb_pair_eqb. apply in_dedup. exact Hin. }
        split; [exact HD|]. split; [rewrite Hdd; exact Hic|]. split.
        { intros a' b' Ha' Hb'. destruct (Hm a' b' Ha' Hb') as (v & Hv' & Hiff'). exists v. split; [exact Hv'|].
          rewrite Hiff'. split; intros (r' & H1 & H2 & G1 & G2); exists r'; (split; [exact H1|]); (split; [|auto]).
          - intros C. apply in_app_iff in C as [C|[<-|[]]]; contradiction.
          - intros C. apply H2. apply in_app_iff. auto. }
        split; [exact Hc|]. rewrite Hdd. exact Hcomb. }
  destruct L2 as ([[m comb] ic] & EL & HD & Hic & Hm & Hc & Hcomb).
  rewrite EL. simpl bind.
  assert (count_true m = 0).
  { apply (count_true_zero p q m HD). intros a b Ha Hb. destruct (Hm a b Ha Hb) as (v & Hv & Hiff).
    destruct v; [|exact Hv]. destruct (proj1 Hiff eq_refl) as (r & H1 & H2 & _). contradiction. }
  rewrite Hcomb. replace (c0 - ic) with 0 by lia. simpl. rewrite app_nil_r. reflexivity.
Qed.
