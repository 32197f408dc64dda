(** Proofs about the model of numba_utils.py. *)
From Coq Require Import ZArith List Bool Lia Permutation Sorted.
From Verif Require Import Prelude Num Gen GenBase ApplyProofs Sorting NumbaUtils.
Import ListNotations.
Open Scope Z_scope.

(** * np_all *)

Lemma fold_and_l (l : list bool) b : fold_left (fun o v2 => v2 && o) l b = forallb (fun x => x) l && b.
Proof.
  revert b. induction l as [|x t IH]; intros b; simpl; [reflexivity|].
  rewrite IH. destruct x, b, (forallb (fun x => x) t); reflexivity.
Qed.

Lemma slice_tail2 {A} (x y : A) t : slice (x :: y :: t) 2 (zlen (x :: y :: t)) = t.
Proof.
  rewrite slice_ok by (rewrite !zlen_cons; pose proof (zlen_nonneg t); lia).
  change (Z.to_nat 2) with 2%nat. simpl skipn. apply firstn_all2. unfold zlen. simpl length. lia.
Qed.

Lemma np_all_axis1_ok arr : (forall r, In r arr -> 2 <= zlen r) ->
  np_all_axis1 arr = Ok (map (forallb (fun x => x)) arr).
Proof.
  intros H. apply mapM_ok. intros r Hr. specialize (H r Hr).
  destruct r as [|x [|y t]].
  - change (zlen (@nil bool)) with 0 in H. lia.
  - rewrite zlen_cons, zlen_nil in H. lia.
  - assert (E0 : get (x :: y :: t) 0 = Ok x) by (apply get_nthZ; [lia|reflexivity]).
    assert (E : get (x :: y :: t) 1 = Ok y) by (apply get_nthZ; [lia|reflexivity]).
    rewrite E0, bind_Ok, E, bind_Ok. rewrite slice_tail2, fold_and_l. simpl.
    destruct x, y, (forallb (fun x => x) t); reflexivity.
Qed.

(** Columns of equal length: and over the rows. *)
Definition and_rows (r : list bool) (rs : list (list bool)) : list bool :=
  fold_left (fun out v => map2 andb v out) rs r.

Lemma nthZ_map2 {A B C} (f : A -> B -> C) l m i :
  nthZ (map2 f l m) i = match nthZ l i, nthZ m i with Some x, Some y => Some (f x y) | _, _ => None end.
Proof. unfold map2. rewrite nthZ_map, nthZ_combine. destruct (nthZ l i), (nthZ m i); reflexivity. Qed.

Lemma zlen_map2 {A B C} (f : A -> B -> C) l m : zlen l = zlen m -> zlen (map2 f l m) = zlen l.
Proof. intros H. unfold map2. rewrite zlen_map, zlen_combine; auto. Qed.

Lemma and_rows_spec c rs : (forall r, In r rs -> zlen r = c) -> forall r0, zlen r0 = c ->
  zlen (and_rows r0 rs) = c /\
  forall j, 0 <= j < c -> (nthZ (and_rows r0 rs) j = Some true <->
     nthZ r0 j = Some true /\ forall r, In r rs -> nthZ r j = Some true).
Proof.
  induction rs as [|r t IH]; intros H r0 H0; simpl.
  - split; [exact H0|]. intros j Hj. intuition.
  - assert (Hr : zlen r = c) by (apply H; simpl; auto).
    destruct (IH (fun x Hx => H x (or_intror Hx)) (map2 andb r r0)) as [IH1 IH2].
    { rewrite zlen_map2; lia. }
    split; [exact IH1|]. intros j Hj. rewrite (IH2 j Hj). rewrite nthZ_map2.
    destruct (nthZ_some r j) as (x & Ex); [lia|]. destruct (nthZ_some r0 j) as (y & Ey); [lia|].
    rewrite Ex, Ey. split.
    + intros [K1 K2]. injection K1 as K1. apply andb_true_iff in K1 as [-> ->].
      split; [reflexivity|]. intros r' [<-|Hr']; auto.
    + intros [K1 K2]. injection K1 as ->. split; [|intros; apply K2; simpl; auto].
      specialize (K2 r (or_introl eq_refl)). rewrite Ex in K2. injection K2 as ->. reflexivity.
Qed.

Lemma np_all_axis0_ok c arr : 2 <= zlen arr -> (forall r, In r arr -> zlen r = c) ->
  exists out, np_all_axis0 arr = Ok out /\ zlen out = c /\
    forall j, 0 <= j < c -> (nthZ out j = Some true <-> forall r, In r arr -> nthZ r j = Some true).
Proof.
  intros H Hc. destruct arr as [|r0 [|r1 t]].
  - change (zlen (@nil (list bool))) with 0 in H. lia.
  - rewrite zlen_cons, zlen_nil in H. lia.
  - assert (H0 : zlen r0 = c) by (apply Hc; simpl; auto).
    assert (H1 : zlen r1 = c) by (apply Hc; simpl; auto).
    assert (Hm : zlen (map2 andb r0 r1) = c) by (rewrite zlen_map2; lia).
    destruct (and_rows_spec c t (fun r Hr => Hc r (or_intror (or_intror Hr))) _ Hm) as [K1 K2].
    exists (and_rows (map2 andb r0 r1) t). split.
    + unfold np_all_axis0.
      assert (E0 : get (r0 :: r1 :: t) 0 = Ok r0) by (apply get_nthZ; [lia|reflexivity]).
      assert (E : get (r0 :: r1 :: t) 1 = Ok r1) by (apply get_nthZ; [lia|reflexivity]).
      rewrite E0, bind_Ok, E, bind_Ok, slice_tail2. reflexivity.
    + split; [exact K1|]. intros j Hj. rewrite (K2 j Hj), nthZ_map2.
      destruct (nthZ_some r0 j) as (x & Ex); [lia|]. destruct (nthZ_some r1 j) as (y & Ey); [lia|].
      rewrite Ex, Ey. split.
      * intros [J1 J2] r [<-|[<-|Hr]]; [..|auto]; injection J1 as J1; apply andb_true_iff in J1 as [-> ->]; auto.
      * intros J. split; [|intros; apply J; simpl; auto].
        pose proof (J r0 (or_introl eq_refl)) as J1. pose proof (J r1 (or_intror (or_introl eq_refl))) as J2.
        rewrite Ex in J1. rewrite Ey in J2. injection J1 as ->. injection J2 as ->. reflexivity.
Qed.

(** * Orders *)

(** Comparisons form a strict weak order on the values [ok], and [==] is "neither
    is smaller". *)
Record OrderLaws {F} (N : NumOps F) (ok : F -> Prop) : Prop := {
  or_irrefl : forall x, ok x -> nltb N x x = false;
  or_trans : forall x y z, ok x -> ok y -> ok z -> nltb N x y = true -> nltb N y z = true -> nltb N x z = true;
  or_split : forall x y z, ok x -> ok y -> ok z -> nltb N x z = true -> nltb N x y = true \/ nltb N y z = true;
  or_eq : forall x y, ok x -> ok y -> neqb N x y = negb (nltb N x y) && negb (nltb N y x)
}.

Lemma R_order_laws : OrderLaws RN (fun _ => True).
Proof.
  constructor; simpl; intros.
  - apply Rltb_false. apply RIneq.Rle_refl.
  - apply Rltb_true. apply Rltb_true in H2, H3. Lra.lra.
  - apply Rltb_true in H2. destruct (Rltb x y) eqn:E; [auto|]. right. apply Rltb_false in E. apply Rltb_true. Lra.lra.
  - destruct (Rltb x y) eqn:E1; [|destruct (Rltb y x) eqn:E2]; simpl.
    + apply Rltb_true in E1. apply Reqb_false. Lra.lra.
    + apply Rltb_true in E2. apply Reqb_false. Lra.lra.
    + apply Rltb_false in E1, E2. apply Reqb_true. Lra.lra.
Qed.

Lemma Z_order_laws : OrderLaws ZN (fun _ => True).
Proof.
  constructor; simpl; intros.
  - apply Z.ltb_irrefl.
  - rewrite Z.ltb_lt in *. lia.
  - rewrite !Z.ltb_lt in *. lia.
  - destruct (Z.ltb_spec x y), (Z.ltb_spec y x), (Z.eqb_spec x y); auto; lia.
Qed.

Lemma mapM_total_get {A} (l : list A) is : (forall i, In i is -> 0 <= i < zlen l) -> exists xs, mapM (get l) is = Ok xs.
Proof.
  induction is as [|i t IH]; intros H; simpl; [eauto|].
  destruct (get_ok l i) as (x & E & _); [apply H; simpl; auto|]. rewrite E. simpl.
  destruct IH as (xs & E2); [intros; apply H; simpl; auto|]. rewrite E2. simpl. eauto.
Qed.

Lemma Forall2_nthZ {A B} (R : A -> B -> Prop) l m k x y : Forall2 R l m -> nthZ l k = Some x -> nthZ m k = Some y -> R x y.
Proof.
  intros H. revert k. induction H as [|a b l m Hab H IH]; intros k Hx Hy.
  - apply nthZ_range in Hx. change (zlen (@nil A)) with 0 in Hx. lia.
  - rewrite nthZ_cons in Hx. rewrite nthZ_cons in Hy. destruct (k =? 0); [congruence|]. eapply IH; eauto.
Qed.

Lemma Permutation_filter {A} (p : A -> bool) l m : Permutation l m -> Permutation (filter p l) (filter p m).
Proof.
  induction 1; simpl; auto.
  - destruct (p x); auto.
  - destruct (p x), (p y); auto. apply perm_swap.
  - eapply perm_trans; eauto.
Qed.

(** The last element of an increasing list that is at most j. *)
Lemma last_at_most j l : StronglySorted Z.lt l -> (exists x, In x l /\ x <= j) ->
  exists a, In a l /\ a <= j /\ forall x, In x l -> x <= a \/ j < x.
Proof.
  induction 1 as [|y t HS IH HF]; intros (x & Hx & Hxj); [destruct Hx|].
  rewrite Forall_forall in HF.
  destruct t as [|z t'].
  - exists y. destruct Hx as [<-|[]]. split; [left; auto|]. split; [auto|]. intros w [<-|[]]. lia.
  - destruct (Z_le_gt_dec z j) as [K|K].
    + destruct IH as (a & Ha1 & Ha2 & Ha3); [exists z; simpl; auto|].
      exists a. split; [right; auto|]. split; [auto|]. intros w [<-|Hw]; [|auto]. left.
      specialize (HF a Ha1). lia.
    + exists y. split; [left; auto|]. split.
      * destruct Hx as [<-|Hx]; [auto|]. specialize (HF x Hx). lia.
      * intros w [<-|Hw]; [lia|]. right. inversion HS; subst. rewrite Forall_forall in H2.
        destruct Hw as [<-|Hw]; [lia|]. specialize (H2 w Hw). lia.
Qed.

Section UNIQUE.
Context {F : Type} (N : NumOps F) (ok : F -> Prop) (L : OrderLaws N ok).

Notation lt := (nltb N).
Notation eq := (neqb N).

(** Lexicographic order of rows. *)
Fixpoint lexb (r s : list F) : bool :=
  match r, s with
  | x :: r', y :: s' => lt x y || (negb (lt y x) && lexb r' s')
  | _, _ => false
  end.

Fixpoint sameb (r s : list F) : bool :=
  match r, s with
  | x :: r', y :: s' => eq x y && sameb r' s'
  | [], [] => true
  | _, _ => false
  end.

Definition okr (n : nat) (r : list F) : Prop := length r = n /\ Forall ok r.

Lemma okr_cons n r : okr (S n) r -> exists x t, r = x :: t /\ ok x /\ okr n t.
Proof.
  intros [H1 H2]. destruct r as [|x t]; [discriminate|]. inversion H2; subst.
  exists x, t. repeat split; auto.
Qed.

Lemma lt_asym' x y : ok x -> ok y -> lt x y = true -> lt y x = false.
Proof. intros. apply (lt_asym lt ok); auto; apply L. Qed.

Lemma lexb_irrefl n r : okr n r -> lexb r r = false.
Proof.
  revert n. induction r as [|x t IH]; intros n H; simpl; [reflexivity|].
  destruct n; [destruct H; discriminate|]. apply okr_cons in H as (x' & t' & E & Hx & Ht). injection E as <- <-.
  rewrite (or_irrefl N ok L) by assumption. simpl. apply (IH n Ht).
Qed.

Lemma lexb_trans n r s t : okr n r -> okr n s -> okr n t -> lexb r s = true -> lexb s t = true -> lexb r t = true.
Proof.
  revert r s t. induction n as [|n IH]; intros r s t Hr Hs Ht.
  - destruct Hr as [Hr _]. destruct r; [discriminate|discriminate].
  - apply okr_cons in Hr as (a & r' & -> & Ha & Hr). apply okr_cons in Hs as (b & s' & -> & Hb & Hs).
    apply okr_cons in Ht as (e & t' & -> & He & Ht).
    simpl. rewrite !orb_true_iff, !andb_true_iff, !negb_true_iff.
    intros [A|[A1 A2]] [B|[B1 B2]].
    + left. apply (or_trans N ok L _ b); auto.
    + left. destruct (or_split N ok L a e b) as [K|K]; auto. congruence.
    + left. destruct (or_split N ok L b a e) as [K|K]; auto. congruence.
    + right. split; [|eapply IH with (s := s'); eauto].
      destruct (lt e a) eqn:E; [|reflexivity]. destruct (or_split N ok L e b a) as [K|K]; auto; congruence.
Qed.

Lemma lexb_split n r s t : okr n r -> okr n s -> okr n t -> lexb r t = true -> lexb r s = true \/ lexb s t = true.
Proof.
  revert r s t. induction n as [|n IH]; intros r s t Hr Hs Ht.
  - destruct Hr as [Hr _]. destruct r; [discriminate|discriminate].
  - apply okr_cons in Hr as (a & r' & -> & Ha & Hr). apply okr_cons in Hs as (b & s' & -> & Hb & Hs).
    apply okr_cons in Ht as (e & t' & -> & He & Ht).
    simpl. rewrite !orb_true_iff, !andb_true_iff, !negb_true_iff.
    intros [A|[A1 A2]].
    + destruct (or_split N ok L a b e) as [K|K]; auto.
    + destruct (lt a b) eqn:E1; [auto|]. destruct (lt b e) eqn:E2; [auto|].
      destruct (lt b a) eqn:E3.
      { destruct (or_split N ok L b e a) as [K|K]; auto; congruence. }
      destruct (lt e b) eqn:E4.
      { destruct (or_split N ok L e a b) as [K|K]; auto; congruence. }
      destruct (IH r' s' t') as [K|K]; auto.
Qed.

Lemma sameb_spec n r s : okr n r -> okr n s -> sameb r s = negb (lexb r s) && negb (lexb s r).
Proof.
  revert r s. induction n as [|n IH]; intros r s Hr Hs.
  - destruct Hr as [Hr _], Hs as [Hs _]. destruct r, s; try discriminate. reflexivity.
  - apply okr_cons in Hr as (a & r' & -> & Ha & Hr). apply okr_cons in Hs as (b & s' & -> & Hb & Hs).
    simpl. rewrite (or_eq N ok L) by assumption. rewrite IH by assumption.
    destruct (lt a b) eqn:E1, (lt b a) eqn:E2; simpl; auto.
Qed.

Lemma sameb_refl n r : okr n r -> sameb r r = true.
Proof. intros H. rewrite (sameb_spec n) by auto. rewrite (lexb_irrefl n) by auto. reflexivity. Qed.

Lemma sameb_sym n r s : okr n r -> okr n s -> sameb r s = sameb s r.
Proof. intros. rewrite !(sameb_spec n) by auto. apply andb_comm. Qed.

Lemma sameb_trans n r s t : okr n r -> okr n s -> okr n t -> sameb r s = true -> sameb s t = true -> sameb r t = true.
Proof.
  intros Hr Hs Ht. rewrite !(sameb_spec n) by auto. rewrite !andb_true_iff, !negb_true_iff.
  intros [A1 A2] [B1 B2]. split.
  - destruct (lexb r t) eqn:E; [|reflexivity]. destruct (lexb_split n r s t) as [K|K]; auto; congruence.
  - destruct (lexb t r) eqn:E; [|reflexivity]. destruct (lexb_split n t s r) as [K|K]; auto; congruence.
Qed.

(** * The sorting passes *)

Variables (c : nat) (rows : list (list F)).
Hypothesis Hrows : forall r, In r rows -> okr c r.
Notation n := (zlen rows).
Definition row (k : Z) : list F := nthd [] rows k.

Lemma row_ok k : 0 <= k < n -> okr c (row k).
Proof.
  intros H. apply Hrows. destruct (nthZ_some rows k H) as (r & E). unfold row, nthd. rewrite E. eapply nthZ_In; eauto.
Qed.

(** order of the indices once the columns from i on are sorted *)
Definition bef (i : nat) (k k' : Z) : Prop :=
  lexb (skipn i (row k)) (skipn i (row k')) = true \/
  (lexb (skipn i (row k)) (skipn i (row k')) = false /\ lexb (skipn i (row k')) (skipn i (row k)) = false /\ k < k').

Definition state_ok (i : nat) (st : list (list F) * list Z) : Prop :=
  Permutation (zrange 0 n) (snd st) /\ fst st = map row (snd st) /\ StronglySorted (bef i) (snd st).

Lemma get_map {A B} (f : A -> B) l i : get (map f l) i = match get l i with Ok x => Ok (f x) | Err e => Err e end.
Proof. unfold get. rewrite zlen_map, nthZ_map. destruct (nthZ l _); reflexivity. Qed.

Lemma mapM_get_map {A B} (f : A -> B) l is :
  mapM (get (map f l)) is = match mapM (get l) is with Ok xs => Ok (map f xs) | Err e => Err e end.
Proof.
  induction is as [|i t IH]; simpl; [reflexivity|]. rewrite get_map.
  destruct (get l i); simpl; [|reflexivity]. rewrite IH. destruct (mapM (get l) t); reflexivity.
Qed.

Lemma skipn_cell i k d : (i < c)%nat -> 0 <= k < n ->
  skipn i (row k) = nthd d (row k) (Z.of_nat i) :: skipn (S i) (row k).
Proof.
  intros Hi Hk. destruct (row_ok k Hk) as [Hl _]. revert Hl. generalize (row k). intros l Hl.
  assert (H : (i < length l)%nat) by lia. clear Hl Hi.
  revert l H. induction i as [|i IH]; intros l H.
  - destruct l; [simpl in H; lia|]. reflexivity.
  - destruct l as [|x t]; [simpl in H; lia|]. simpl skipn at 1. rewrite IH by (simpl in H; lia).
    f_equal. unfold nthd. rewrite nthZ_cons. destruct (Z.eqb_spec (Z.of_nat (S i)) 0); [lia|].
    replace (Z.of_nat (S i) - 1) with (Z.of_nat i) by lia. reflexivity.
Qed.

Lemma in_idx orig k : Permutation (zrange 0 n) orig -> In k orig -> 0 <= k < n.
Proof. intros HP H. apply (Permutation_in _ (Permutation_sym HP)) in H. apply in_zrange in H. lia. Qed.

Lemma unique_pass_ok i st : (i < c)%nat -> state_ok (S i) st ->
  exists st', unique_pass N st (Z.of_nat i) = Ok st' /\ state_ok i st'.
Proof.
  intros Hi (HP & HD & HS). destruct st as [data orig]. simpl in *.
  destruct rows as [|r0 rt] eqn:Erows.
  - change (zlen (@nil (list F))) with 0 in HP. rewrite zrange_empty in HP by lia.
    apply Permutation_nil in HP. subst orig data. simpl. exists ([], []). split; [reflexivity|].
    unfold state_ok; simpl. rewrite Erows. repeat split; auto. constructor.
  - rewrite <- Erows in *.
    assert (Hd : exists d : F, True).
    { assert (H : okr c r0) by (apply Hrows; rewrite Erows; left; auto). destruct H as [H _].
      destruct r0 as [|d ?]; [simpl in H; lia|]. exists d; auto. }
    destruct Hd as (d & _).
    set (cell := fun k => nthd d (row k) (Z.of_nat i)).
    assert (Hcol : mapM (fun r => get r (Z.of_nat i)) data = Ok (map cell orig)).
    { rewrite HD, mapM_map. apply mapM_ok. intros k Hk. apply get_nthd.
      pose proof (row_ok k (in_idx _ _ HP Hk)) as [Hl _]. unfold zlen. lia. }
    unfold unique_pass. rewrite Hcol, bind_Ok. rewrite HD, mapM_get_map.
    rewrite (take_argsort cell lt orig). rewrite !bind_Ok.
    set (orig' := ssort (fun x y => lt (cell x) (cell y)) orig).
    assert (Hok : forall k, 0 <= k < n -> ok (cell k)).
    { intros k Hk. destruct (row_ok k Hk) as [Hl Ha]. rewrite Forall_forall in Ha. apply Ha. unfold cell, nthd.
      destruct (nthZ_some (row k) (Z.of_nat i)) as (x & E); [unfold zlen; lia|]. rewrite E. eapply nthZ_In; eauto. }
    exists (map row orig', orig'). split; [reflexivity|]. unfold state_ok; simpl. repeat split; auto.
    + eapply perm_trans; [exact HP | apply ssort_perm].
    + assert (K : StronglySorted (keyed (fun x y => lt (cell x) (cell y)) (bef (S i))) orig').
      { apply ssort_keyed with (P := fun k => 0 <= k < n); auto.
        - intros x y z Hx Hy Hz. apply (or_trans N ok L); auto.
        - intros x y z Hx Hy Hz. apply (or_split N ok L); auto.
        - apply Forall_forall. intros k Hk. eapply in_idx; eauto. }
      assert (Hin : forall k, In k orig' -> 0 <= k < n).
      { intros k Hk. apply (in_idx orig); auto. apply (Permutation_in _ (Permutation_sym (ssort_perm _ _)) Hk). }
      clearbody orig'. induction K as [|a t K IH HF]; constructor.
      * apply IH. intros; apply Hin; right; auto.
      * rewrite Forall_forall in HF |- *. intros b Hb. specialize (HF b Hb).
        assert (Ha' : 0 <= a < n) by (apply Hin; left; auto).
        assert (Hb' : 0 <= b < n) by (apply Hin; right; auto).
        unfold bef. rewrite (skipn_cell i a d), (skipn_cell i b d) by auto. fold (cell a). fold (cell b).
        simpl. destruct HF as [E|(E1 & E2 & E3)].
        -- left. rewrite E. reflexivity.
        -- rewrite E1, E2. simpl. destruct E3 as [E3|(E3 & E4 & E5)]; [left; exact E3|].
           right. auto.
Qed.

Lemma rev_range m : rev (zrange 0 (Z.of_nat (S m))) = Z.of_nat m :: rev (zrange 0 (Z.of_nat m)).
Proof.
  replace (Z.of_nat (S m)) with (Z.of_nat m + 1) by lia. rewrite zrange_snoc by lia. rewrite rev_app_distr. reflexivity.
Qed.

Lemma passes_ok m st : (m <= c)%nat -> state_ok m st ->
  exists st', foldM (unique_pass N) (rev (zrange 0 (Z.of_nat m))) st = Ok st' /\ state_ok 0 st'.
Proof.
  revert st. induction m as [|m IH]; intros st Hm Hst.
  - simpl. exists st. auto.
  - rewrite rev_range. simpl. destruct (unique_pass_ok m st) as (st1 & E1 & H1); auto. rewrite E1, bind_Ok.
    apply IH; auto. lia.
Qed.

Lemma incr_zrange a b : incr (zrange a b).
Proof.
  destruct (Z.le_gt_cases b a) as [H|H]; [rewrite zrange_empty by lia; exact I|].
  remember (Z.to_nat (b - a)) as m eqn:E. assert (b = a + Z.of_nat m) by lia. clear E H. subst b.
  revert a. induction m as [|m IH]; intros a.
  - rewrite zrange_empty by lia. exact I.
  - rewrite zrange_cons by lia. cbn [incr]. split.
    + intros y Hy. apply in_zrange in Hy. lia.
    + replace (a + Z.of_nat (S m)) with (a + 1 + Z.of_nat m) by lia. apply IH.
Qed.

Lemma incr_sorted l : incr l -> StronglySorted Z.lt l.
Proof.
  induction l as [|x t IH]; simpl; intros H; constructor; [apply IH; tauto|].
  apply Forall_forall. apply H.
Qed.

Lemma init_ok : state_ok c (rows, zrange 0 n).
Proof.
  unfold state_ok; simpl. repeat split; auto.
  - unfold row. symmetry. apply map_nthd_zrange.
  - pose proof (incr_sorted _ (incr_zrange 0 n)) as K.
    assert (Hin : forall k, In k (zrange 0 n) -> 0 <= k < n) by (intros k Hk; apply in_zrange in Hk; lia).
    revert K Hin. generalize (zrange 0 n). intros l K Hin.
    induction K as [|a t K IH HF]; constructor.
    + apply IH. intros; apply Hin; right; auto.
    + rewrite Forall_forall in HF |- *. intros b Hb. right.
      destruct (row_ok a) as [La _]; [apply Hin; left; auto|]. destruct (row_ok b) as [Lb _]; [apply Hin; right; auto|].
      rewrite !skipn_all2 by lia. repeat split; auto.
Qed.

(** * Runs of equal rows *)

Lemma zlen_filter_interval {A} (p : A -> bool) l a b : 0 <= a <= b -> b <= zlen l ->
  (forall j x, nthZ l j = Some x -> (p x = true <-> a <= j < b)) -> zlen (filter p l) = b - a.
Proof.
  intros Hab Hb H.
  assert (E : where_ (map p l) = zrange a b).
  { apply incr_ext.
    - destruct l as [|d t]; [exact I|]. rewrite (where_sorted_filter d). apply incr_filter, incr_zrange.
    - apply incr_zrange.
    - intros j. rewrite in_where, in_zrange, nthZ_map. split.
      + destruct (nthZ l j) as [x|] eqn:E; simpl; [|discriminate]. intros K. injection K as K. apply (H j x); auto.
      + intros K. destruct (nthZ_some l j) as (x & E); [lia|]. rewrite E. simpl. f_equal. apply (H j x); auto. }
  assert (E2 : zlen (where_ (map p l)) = zlen (filter p l)).
  { rewrite where_map, zlen_map.
    transitivity (zlen (map snd (filter (fun q : Z * A => p (snd q)) (combine (zrange 0 (zlen l)) l)))).
    - rewrite zlen_map. reflexivity.
    - f_equal. rewrite <- (map_snd_combine (zrange 0 (zlen l)) l) at 3.
      + generalize (combine (zrange 0 (zlen l)) l). intros m. induction m as [|[q x] m IH]; simpl; [reflexivity|].
        destruct (p x); simpl; rewrite IH; reflexivity.
      + rewrite zrange_length. unfold zlen. lia. }
  rewrite <- E2, E, zlen_zrange. lia.
Qed.

(** An increasing list from 0 cuts [0, n) into consecutive intervals. *)
Lemma nthZ_next idx k a : StronglySorted Z.lt idx -> nthZ idx k = Some a ->
  forall n, (forall x, In x idx -> x < n) ->
  exists b, nthZ (slice idx 1 (zlen idx) ++ [n]) k = Some b /\ a < b <= n /\ (forall x, In x idx -> x <= a \/ b <= x) /\
    (b < n -> In b idx).
Proof.
  intros HS Hk m Hm. pose proof (nthZ_range _ _ _ Hk) as Hr.
  assert (Hlen : zlen (slice idx 1 (zlen idx)) = zlen idx - 1) by (rewrite slice_length; lia).
  assert (Hle : forall x i, nthZ idx i = Some x -> i <= k -> x <= a).
  { intros x i Hx Hi. destruct (Z.eq_dec i k) as [->|Hne].
    - rewrite Hk in Hx. injection Hx as <-. lia.
    - pose proof (sorted_nthZ _ _ HS i k x a) as K. assert (x < a) by (apply K; auto; lia). lia. }
  rewrite nthZ_app, Hlen. destruct (Z.ltb_spec k (zlen idx - 1)) as [H|H].
  - rewrite nthZ_slice by lia. destruct (nthZ_some idx (1 + k)) as (b & Eb); [lia|].
    exists b. split; [exact Eb|].
    assert (a < b) by (apply (sorted_nthZ _ _ HS k (1 + k)); auto; lia).
    assert (b < m) by (apply Hm; eapply nthZ_In; eauto).
    split; [lia|]. split; [|intros; eapply nthZ_In; eauto].
    intros x Hx. apply In_nthZ in Hx as (i & Hx). destruct (Z.le_gt_cases i k); [left; eauto|].
    right. destruct (Z.eq_dec i (1 + k)) as [->|]; [rewrite Eb in Hx; injection Hx as <-; lia|].
    assert (b < x) by (apply (sorted_nthZ _ _ HS (1 + k) i); auto; lia). lia.
  - exists m. replace (k - (zlen idx - 1)) with 0 by lia. split; [reflexivity|].
    assert (a < m) by (apply Hm; eapply nthZ_In; eauto). split; [lia|]. split; [|lia].
    intros x Hx. left. apply In_nthZ in Hx as (i & Hx). apply (Hle x i Hx). apply nthZ_range in Hx. lia.
Qed.

Definition heads (data : list (list F)) : list Z :=
  0 :: map (fun j => j + 1) (where_ (map negb (map2 sameb (slice data 0 (-1)) (slice data 1 (zlen data))))).

Lemma map2_sameb_rows (d1 d2 : list (list F)) : (forall r, In r d1 -> okr c r) -> (forall r, In r d2 -> okr c r) ->
  map (forallb (fun x => x)) (map2 (map2 eq) d1 d2) = map2 sameb d1 d2.
Proof.
  intros H1 H2. unfold map2. rewrite map_map. apply map_ext_in. intros [r s] Hin. simpl.
  pose proof (in_combine_l _ _ _ _ Hin) as Hr. pose proof (in_combine_r _ _ _ _ Hin) as Hs.
  apply H1 in Hr. apply H2 in Hs. destruct Hr as [Hr _], Hs as [Hs _]. clear Hin.
  assert (HL : length r = length s) by lia. clear Hr Hs.
  revert s HL. induction r as [|x r IH]; intros [|y s] HL; try discriminate; simpl; auto.
  rewrite IH by (simpl in HL; lia). reflexivity.
Qed.

Lemma where2_single (M : list (list bool)) : (forall r, In r M -> (length r <= 1)%nat) ->
  map fst (where2 M) = where_ (map (existsb (fun x => x)) M).
Proof.
  intros H. unfold where2. rewrite where_map. revert H. generalize (zrange 0 (zlen M)).
  induction M as [|r t IH]; intros z H.
  - rewrite combine_nil. reflexivity.
  - destruct z as [|k z]; [reflexivity|]. simpl. rewrite map_app, (IH z) by (intros; apply H; simpl; auto).
    assert (Hr : (length r <= 1)%nat) by (apply H; simpl; auto).
    destruct r as [|b [|? ?]]; [|destruct b|simpl in Hr; lia]; reflexivity.
Qed.

Lemma map2_one (d1 d2 : list (list F)) : (c <= 1)%nat -> (forall r, In r d1 -> okr c r) -> (forall r, In r d2 -> okr c r) ->
  map (existsb (fun x => x)) (map (map negb) (map2 (map2 eq) d1 d2)) = map negb (map2 sameb d1 d2).
Proof.
  intros Hc H1 H2. unfold map2. rewrite !map_map. apply map_ext_in. intros [r s] Hin. simpl.
  pose proof (in_combine_l _ _ _ _ Hin) as Hr. pose proof (in_combine_r _ _ _ _ Hin) as Hs.
  apply H1 in Hr. apply H2 in Hs. destruct Hr as [Hr _], Hs as [Hs _].
  destruct r as [|x [|? ?]], s as [|y [|? ?]]; simpl in *; try lia; auto.
  rewrite andb_true_r. apply orb_false_r.
Qed.

Lemma In_slice {A} (l : list A) a b x : In x (slice l a b) -> In x l.
Proof.
  unfold slice. intros H. rewrite <- (firstn_skipn (Z.to_nat (clip (zlen l) a)) l). apply in_or_app. right.
  rewrite <- (firstn_skipn (Z.to_nat (clip (zlen l) b - clip (zlen l) a)) (skipn (Z.to_nat (clip (zlen l) a)) l)).
  apply in_or_app. left. exact H.
Qed.

Lemma slice_butlast {A} (l : list A) : slice l 0 (-1) = firstn (Z.to_nat (zlen l - 1)) l.
Proof.
  pose proof (zlen_nonneg l). unfold slice.
  assert (E : clip (zlen l) 0 = 0) by (unfold clip, wrap; simpl; lia).
  assert (E2 : clip (zlen l) (-1) = Z.max 0 (zlen l - 1)).
  { unfold clip, wrap. destruct (Z.ltb_spec (-1) 0); lia. }
  rewrite E, E2. simpl skipn. f_equal. lia.
Qed.

Lemma nthZ_butlast {A} (l : list A) j : 0 <= j < zlen l - 1 -> nthZ (slice l 0 (-1)) j = nthZ l j.
Proof. intros H. rewrite slice_butlast. apply nthZ_firstn. lia. Qed.

Lemma zlen_butlast {A} (l : list A) : 0 < zlen l -> zlen (slice l 0 (-1)) = zlen l - 1.
Proof. intros H. rewrite slice_butlast. unfold zlen in *. rewrite firstn_length. lia. Qed.

Lemma in_heads data : 0 < zlen data -> forall j, In j (heads data) <->
  j = 0 \/ exists r s, nthZ data (j - 1) = Some r /\ nthZ data j = Some s /\ sameb r s = false.
Proof.
  intros Hn j. unfold heads. simpl. rewrite in_map_iff. split.
  - intros [<-|(i & <- & Hi)]; [auto|]. right. rewrite in_where, nthZ_map, nthZ_map2 in Hi.
    destruct (nthZ (slice data 0 (-1)) i) as [r|] eqn:E1; [|discriminate].
    destruct (nthZ (slice data 1 (zlen data)) i) as [s|] eqn:E2; [|discriminate].
    pose proof (nthZ_range _ _ _ E1) as R1. rewrite zlen_butlast in R1 by lia.
    rewrite nthZ_butlast in E1 by lia. rewrite nthZ_slice in E2 by lia.
    exists r, s. replace (i + 1 - 1) with i by lia. replace (i + 1) with (1 + i) by lia. repeat split; auto.
    simpl in Hi. injection Hi as Hi. destruct (sameb r s); [discriminate|reflexivity].
  - intros [->|(r & s & E1 & E2 & E)]; [auto|]. right. exists (j - 1). split; [lia|].
    pose proof (nthZ_range _ _ _ E1). pose proof (nthZ_range _ _ _ E2).
    rewrite in_where, nthZ_map, nthZ_map2, nthZ_butlast by lia. rewrite E1.
    rewrite nthZ_slice by lia. replace (1 + (j - 1)) with j by lia. rewrite E2. simpl. rewrite E. reflexivity.
Qed.

Lemma heads_sorted data : StronglySorted Z.lt (heads data).
Proof.
  unfold heads. constructor.
  - apply incr_sorted. set (bs := map negb _).
    assert (K : incr (where_ bs)).
    { rewrite <- (map_id bs). destruct bs as [|b t]; [exact I|]. rewrite (where_sorted_filter b). apply incr_filter, incr_zrange. }
    revert K. generalize (where_ bs). intros l. induction l as [|x t IH]; simpl; [auto|].
    intros [K1 K2]. split; [|auto]. intros y Hy. apply in_map_iff in Hy as (z & <- & Hz). specialize (K1 z Hz). lia.
  - apply Forall_forall. intros y Hy. apply in_map_iff in Hy as (z & <- & Hz). apply in_where, nthZ_range in Hz. lia.
Qed.

(** What nb_unique returns for a non-empty array. *)
Theorem nb_unique_spec : 0 < n -> exists us fs cs,
  nb_unique N (mkArr2 (Z.of_nat c) rows) 0 = Ok (us, fs, cs) /\
  zlen fs = zlen us /\ zlen cs = zlen us /\
  (forall r, In r rows -> exists u, In u us /\ sameb r u = true) /\
  (forall k k' u u', k < k' -> nthZ us k = Some u -> nthZ us k' = Some u' -> lexb u u' = true) /\
  (forall k u f m, nthZ us k = Some u -> nthZ fs k = Some f -> nthZ cs k = Some m ->
     nthZ rows f = Some u /\ (forall j r, j < f -> nthZ rows j = Some r -> sameb u r = false) /\
     m = zlen (filter (sameb u) rows)).
Proof.
  intros Hn. destruct (passes_ok c _ (le_n c) init_ok) as ([data orig] & EP & HP & HD & HS). simpl in HP, HD, HS.
  assert (Hlo : zlen orig = n).
  { unfold zlen. rewrite <- (Permutation_length HP), zrange_length. unfold zlen. lia. }
  assert (Hld : zlen data = n) by (rewrite HD, zlen_map; exact Hlo).
  assert (Hdok : forall r, In r data -> okr c r).
  { intros r Hr. rewrite HD in Hr. apply in_map_iff in Hr as (k & <- & Hk). apply row_ok. eapply in_idx; eauto. }
  assert (Hdr : Permutation rows data).
  { rewrite HD. rewrite <- (map_nthd_zrange [] rows) at 1. apply Permutation_map. exact HP. }
  pose proof (heads_sorted data) as HHS. assert (Hn' : 0 < zlen data) by lia.
  pose proof (in_heads data Hn') as HH.
  assert (Hhb : forall x, In x (heads data) -> 0 <= x < n).
  { intros x Hx. apply HH in Hx as [->|(r & s & E1 & E2 & _)]; [lia|]. apply nthZ_range in E2. lia. }
  (* the program computes [heads data] *)
  assert (EI : (let* additional := if Z.of_nat c >? 1
       then let* al := np_all_2d (map2 (map2 (neqb N)) (slice data 0 (-1)) (slice data 1 n)) 1 in
            Ok (map (fun j => j + 1) (where_ (map negb al)))
       else Ok (map (fun p => fst p + 1) (where2 (map (map negb) (map2 (map2 (neqb N)) (slice data 0 (-1)) (slice data 1 n))))) in
       Ok (0 :: additional)) = Ok (heads data)).
  { assert (H1 : forall r, In r (slice data 0 (-1)) -> okr c r) by (intros r Hr; apply In_slice in Hr; auto).
    assert (H2 : forall r, In r (slice data 1 n) -> okr c r) by (intros r Hr; apply In_slice in Hr; auto).
    destruct (Z.gtb_spec (Z.of_nat c) 1) as [G|G].
    - unfold np_all_2d. simpl (1 =? 0). cbv iota. rewrite np_all_axis1_ok.
      + rewrite !bind_Ok, map2_sameb_rows by auto. unfold heads. rewrite Hld. reflexivity.
      + intros r Hr. unfold map2 in Hr. apply in_map_iff in Hr as ([r1 r2] & <- & Hr). simpl.
        pose proof (H1 _ (in_combine_l _ _ _ _ Hr)) as [K1 _]. pose proof (H2 _ (in_combine_r _ _ _ _ Hr)) as [K2 _].
        rewrite zlen_map. unfold zlen. rewrite combine_length. lia.
    - rewrite bind_Ok. rewrite <- (map_map fst (fun j => j + 1)). rewrite where2_single.
      + rewrite map2_one by (auto; lia). unfold heads. rewrite Hld. reflexivity.
      + intros r Hr. apply in_map_iff in Hr as (r' & <- & Hr). unfold map2 in Hr.
        apply in_map_iff in Hr as ([r1 r2] & <- & Hr). simpl.
        pose proof (H1 _ (in_combine_l _ _ _ _ Hr)) as [K1 _].
        rewrite !map_length, combine_length. lia. }
  destruct (mapM_total_get data (heads data)) as (us & Eus).
  { intros x Hx. rewrite Hld. auto. }
  destruct (mapM_total_get orig (heads data)) as (fs & Efs).
  { intros x Hx. rewrite Hlo. auto. }
  set (cs := map2 Z.sub (slice (heads data) 1 (zlen (heads data)) ++ [n]) (heads data)).
  exists us, fs, cs.
  assert (Hlh : zlen (slice (heads data) 1 (zlen (heads data)) ++ [n]) = zlen (heads data)).
  { rewrite zlen_app, slice_length; [|unfold heads; rewrite zlen_cons; pose proof (zlen_nonneg (map (fun j : Z => j + 1)
      (where_ (map negb (map2 sameb (slice data 0 (-1)) (slice data 1 (zlen data))))))); lia | lia].
    rewrite zlen_cons, zlen_nil. lia. }
  assert (Hus : zlen us = zlen (heads data)) by (unfold zlen; f_equal; apply (mapM_length _ _ _ Eus)).
  assert (Hfs : zlen fs = zlen (heads data)) by (unfold zlen; f_equal; apply (mapM_length _ _ _ Efs)).
  assert (Hcs : zlen cs = zlen (heads data)) by (unfold cs; rewrite zlen_map2; lia).
  assert (Hsel : forall {A} (l : list A) xs k x, mapM (get l) (heads data) = Ok xs -> nthZ xs k = Some x ->
     exists a, nthZ (heads data) k = Some a /\ nthZ l a = Some x).
  { intros A l xs k x E Ek. apply mapM_Forall2 in E.
    pose proof (Forall2_length _ _ _ E) as EL. pose proof (nthZ_range _ _ _ Ek) as R.
    destruct (nthZ_some (heads data) k) as (a & Ea); [unfold zlen in *; lia|]. exists a. split; [exact Ea|].
    assert (G : get l a = Ok x) by exact (Forall2_nthZ _ _ _ k a x E Ea Ek).
    apply get_nthZ in G; [exact G|]. apply nthZ_In in Ea. apply Hhb in Ea. lia. }
  assert (Hcmp : forall i j r s, i <= j -> nthZ data i = Some r -> nthZ data j = Some s -> lexb s r = false).
  { intros i j r s Hij Er Es. rewrite HD, nthZ_map in Er, Es.
    destruct (nthZ orig i) as [k|] eqn:Ek; [|discriminate]. destruct (nthZ orig j) as [k'|] eqn:Ek'; [|discriminate].
    simpl in Er, Es. injection Er as <-. injection Es as <-.
    assert (Hk : 0 <= k < n) by (apply (in_idx orig); auto; eapply nthZ_In; eauto).
    assert (Hk' : 0 <= k' < n) by (apply (in_idx orig); auto; eapply nthZ_In; eauto).
    destruct (Z.eq_dec i j) as [->|Hne].
    - rewrite Ek in Ek'. injection Ek' as <-. apply (lexb_irrefl c). apply row_ok; auto.
    - assert (B : bef 0 k k') by (apply (sorted_nthZ _ _ HS i j); auto; lia).
      destruct B as [B|(_ & B & _)]; [|exact B]. simpl in B.
      destruct (lexb (row k') (row k)) eqn:E; [|reflexivity].
      rewrite <- (lexb_irrefl c (row k)) by (apply row_ok; auto). symmetry.
      apply (lexb_trans c (row k) (row k') (row k)); auto; apply row_ok; auto. }
  (* rows between a head and the next are the same *)
  assert (Hrun : forall a b r, nthZ data a = Some r -> (forall x, In x (heads data) -> x <= a \/ b <= x) ->
     forall j s, a <= j < b -> nthZ data j = Some s -> sameb r s = true).
  { intros a b r Er Hno j. pose proof (nthZ_range _ _ _ Er) as Ra.
    assert (G : forall m : nat, forall s, a + Z.of_nat m < b -> nthZ data (a + Z.of_nat m) = Some s -> sameb r s = true).
    { induction m as [|m IH]; intros s Hm Es.
      - replace (a + Z.of_nat 0) with a in Es by lia. rewrite Er in Es. injection Es as <-.
        apply (sameb_refl c). apply Hdok. eapply nthZ_In; eauto.
      - pose proof (nthZ_range _ _ _ Es) as Rs.
        destruct (nthZ_some data (a + Z.of_nat m)) as (t & Et); [lia|].
        assert (K : sameb r t = true) by (apply IH; [lia|exact Et]).
        destruct (sameb t s) eqn:E.
        + eapply (sameb_trans c) with (s := t); auto; apply Hdok; eapply nthZ_In; eauto.
        + exfalso. destruct (Hno (a + Z.of_nat (S m))) as [Hx|Hx]; [|lia..].
          apply HH. right. exists t, s. replace (a + Z.of_nat (S m) - 1) with (a + Z.of_nat m) by lia. auto. }
    intros s Hj Es. apply (G (Z.to_nat (j - a))); replace (a + Z.of_nat (Z.to_nat (j - a))) with j by lia; auto; lia. }
  (* different runs have different rows *)
  assert (Hdiff : forall i a r s, In a (heads data) -> i < a -> nthZ data i = Some r -> nthZ data a = Some s -> lexb r s = true).
  { intros i a r s Ha Hia Er Es. apply HH in Ha as [->|(r' & s' & E1 & E2 & E)].
    - apply nthZ_range in Er. lia.
    - rewrite Es in E2. injection E2 as <-.
      assert (Or' : okr c r') by (apply Hdok; eapply nthZ_In; eauto).
      assert (Os : okr c s) by (apply Hdok; eapply nthZ_In; eauto).
      assert (Or : okr c r) by (apply Hdok; eapply nthZ_In; eauto).
      rewrite (sameb_spec c) in E by auto.
      rewrite (Hcmp (a - 1) a r' s) in E by (auto; lia). rewrite andb_true_r in E. apply negb_false_iff in E.
      destruct (lexb_split c r' r s) as [K|K]; auto.
      rewrite (Hcmp i (a - 1) r r') in K by (auto; lia). discriminate. }
  assert (Hsorted : forall k k' u u', k < k' -> nthZ us k = Some u -> nthZ us k' = Some u' -> lexb u u' = true).
  { intros k k' u u' Hkk Eu Eu'.
    destruct (Hsel _ data us k u Eus Eu) as (a & Ea & Eda). destruct (Hsel _ data us k' u' Eus Eu') as (a' & Ea' & Eda').
    apply (Hdiff a a'); auto; [eapply nthZ_In; eauto|]. apply (sorted_nthZ _ _ HHS k k'); auto. }
  split; [|split; [|split; [|split; [|split]]]].
  - unfold nb_unique. simpl (0 =? 1). cbv iota. rewrite bind_Ok. simpl a_rows. simpl a_cols.
    rewrite EP, bind_Ok.
    revert EI. match goal with |- bind ?m _ = _ -> _ => destruct m as [ad|e] end; [|discriminate].
    rewrite !bind_Ok. intros EI. cbv zeta.
    assert (E0 : 0 :: ad = heads data) by (apply (f_equal (fun r => match r with Ok v => v | Err _ => [] end)) in EI; exact EI).
    rewrite E0, Eus, bind_Ok, Efs, bind_Ok. reflexivity.
  - lia.
  - lia.
  - intros r Hr. apply (Permutation_in _ Hdr) in Hr. apply In_nthZ in Hr as (j & Ej).
    pose proof (nthZ_range _ _ _ Ej) as Rj.
    destruct (last_at_most j (heads data) HHS) as (a & Ha & Haj & Hno).
    { exists 0. split; [left; auto|lia]. }
    pose proof Ha as Ha0. apply In_nthZ in Ha as (k & Ek).
    destruct (nthZ_some us k) as (u & Eu); [rewrite Hus; eapply nthZ_range; eauto|].
    destruct (Hsel _ data us k u Eus Eu) as (a' & Ea' & Eda). rewrite Ek in Ea'. injection Ea' as <-.
    exists u. split; [eapply nthZ_In; eauto|].
    rewrite (sameb_sym c) by (apply Hdok; eapply nthZ_In; eauto).
    apply (Hrun a (j + 1) u Eda) with (j := j); auto; [|lia].
    intros x Hx. destruct (Hno x Hx); lia.
  - exact Hsorted.
  - intros k u f m Eu Ef Em.
    destruct (Hsel _ data us k u Eus Eu) as (a & Ea & Eda). destruct (Hsel _ orig fs k f Efs Ef) as (a' & Ea' & Eoa).
    rewrite Ea in Ea'. injection Ea' as <-.
    assert (Hf : 0 <= f < n) by (apply (in_idx orig); auto; eapply nthZ_In; eauto).
    assert (Euf : u = row f).
    { rewrite HD, nthZ_map, Eoa in Eda. simpl in Eda. congruence. }
    assert (Ou : okr c u) by (rewrite Euf; apply row_ok; auto).
    split; [|split].
    + rewrite Euf. unfold row. apply nthZ_nthd. exact Hf.
    + intros j r Hj Er. destruct (sameb u r) eqn:E; [|reflexivity]. exfalso.
      pose proof (nthZ_range _ _ _ Er) as Rj.
      (* position of j in orig *)
      assert (Hin : In j orig) by (apply (Permutation_in _ HP), in_zrange; lia).
      apply In_nthZ in Hin as (p & Ep).
      assert (Edp : nthZ data p = Some r).
      { rewrite HD, nthZ_map, Ep. simpl. f_equal. unfold row, nthd. rewrite Er. reflexivity. }
      assert (Or : okr c r) by (apply Hrows; eapply nthZ_In; eauto).
      rewrite (sameb_spec c) in E by auto. apply andb_true_iff in E as [E1 E2]. rewrite negb_true_iff in E1, E2.
      destruct (Z.lt_trichotomy p a) as [Hpa|[Hpa|Hpa]].
      * rewrite (Hdiff p a r u) in E2; auto; [discriminate | eapply nthZ_In; eauto].
      * subst p. rewrite Eoa in Ep. injection Ep as <-. lia.
      * assert (B : bef 0 f j) by (apply (sorted_nthZ _ _ HS a p); auto).
        destruct B as [B|(_ & _ & B)]; [|lia]. simpl in B.
        rewrite <- Euf in B. unfold row, nthd in B. rewrite Er in B. congruence.
    + destruct (nthZ_next (heads data) k a HHS Ea n) as (b & Eb & Hab & Hno & Hbin).
      { intros x Hx. apply Hhb in Hx. lia. }
      unfold cs in Em. rewrite nthZ_map2, Eb, Ea in Em. injection Em as <-.
      assert (Hz : zlen (filter (sameb u) rows) = zlen (filter (sameb u) data)).
      { unfold zlen. f_equal. apply Permutation_length. apply Permutation_filter. exact Hdr. }
      rewrite Hz. symmetry. apply Hhb in Ea as Ha0 || (pose proof (Hhb a (nthZ_In _ _ _ Ea)) as Ha0).
      apply zlen_filter_interval; [lia|lia|].
      intros j s Es. split.
      * intros Hs. assert (Os : okr c s) by (apply Hdok; eapply nthZ_In; eauto).
        rewrite (sameb_spec c) in Hs by auto. apply andb_true_iff in Hs as [E1 E2]. rewrite negb_true_iff in E1, E2.
        destruct (Z.lt_ge_cases j a) as [Hj|Hj].
        { rewrite (Hdiff j a s u) in E2; auto; [discriminate | eapply nthZ_In; eauto]. }
        split; [exact Hj|]. destruct (Z.lt_ge_cases j b) as [Hj2|Hj2]; [exact Hj2|]. exfalso.
        pose proof (nthZ_range _ _ _ Es) as Rs.
        assert (Hb : In b (heads data)) by (apply Hbin; lia).
        destruct (nthZ_some data b) as (t & Et); [lia|].
        assert (Ot : okr c t) by (apply Hdok; eapply nthZ_In; eauto).
        assert (K : lexb u t = true) by (apply (Hdiff a b); auto; lia).
        destruct (lexb_split c u s t) as [K1|K1]; auto; [congruence|].
        rewrite (Hcmp b j t s) in K1 by (auto; lia). discriminate.
      * intros Hj. apply (Hrun a b u Eda Hno j s Hj Es).
Qed.
End UNIQUE.

(** * Bridges to the statements *)

Lemma sameb_same {F} (N : NumOps F) r s : sameb N r s = true <-> Forall2 (fun x y => neqb N x y = true) r s.
Proof.
  revert s. induction r as [|x r IH]; intros [|y s]; simpl; split; intros H; try discriminate; try (inversion H; fail); auto.
  - apply andb_true_iff in H as [H1 H2]. constructor; [exact H1|]. apply IH. exact H2.
  - inversion H; subst. apply andb_true_iff. split; [assumption|]. apply IH. assumption.
Qed.

Lemma lexb_lex {F} (N : NumOps F) ok (L : OrderLaws N ok) n r s : okr ok n r -> okr ok n s -> lexb N r s = true ->
  exists p x r' q y s', r = p ++ x :: r' /\ s = q ++ y :: s' /\ Forall2 (fun x y => neqb N x y = true) p q /\ nltb N x y = true.
Proof.
  revert r s. induction n as [|n IH]; intros r s Hr Hs H.
  - destruct Hr as [Hr _]. destruct r; discriminate.
  - apply okr_cons in Hr as (a & r' & -> & Ha & Hr). apply okr_cons in Hs as (b & s' & -> & Hb & Hs). simpl in H.
    destruct (nltb N a b) eqn:E1.
    + exists [], a, r', [], b, s'. repeat split; auto.
    + simpl in H. apply andb_true_iff in H as [H1 H2]. destruct (IH r' s' Hr Hs H2) as (p & x & r2 & q & y & s2 & -> & -> & HF & Hlt).
      exists (a :: p), x, r2, (b :: q), y, s2. repeat split; auto. constructor; [|exact HF].
      rewrite (or_eq N ok L) by assumption. rewrite E1, H1. reflexivity.
Qed.

Lemma where_map_length {A} (f : A -> bool) l : zlen (where_ (map f l)) = zlen (filter f l).
Proof.
  rewrite where_map, zlen_map.
  assert (G : forall r : list Z, length r = length l -> zlen (filter (fun p : Z * A => f (snd p)) (combine r l)) = zlen (filter f l)).
  { induction l as [|x l IH]; intros [|k r] E; try discriminate; simpl; [reflexivity|]. injection E as E.
    destruct (f x); rewrite ?zlen_cons, IH by exact E; reflexivity. }
  apply G. rewrite zrange_length. unfold zlen. lia.
Qed.

Lemma transpose_ok {F} (A : arr2 F) : 0 <= a_cols A -> (forall r, In r (a_rows A) -> zlen r = a_cols A) ->
  exists cols, transpose A = Ok (mkArr2 (zlen (a_rows A)) cols) /\ zlen cols = a_cols A /\
    forall j col, nthZ cols j = Some col -> zlen col = zlen (a_rows A) /\
      forall i r, nthZ (a_rows A) i = Some r -> nthZ col i = nthZ r j.
Proof.
  intros Hc HA. unfold transpose.
  destruct (mapM_exists (fun j => mapM (fun r => get r j) (a_rows A)) (fun j col => mapM (fun r => get r j) (a_rows A) = Ok col)
    (zrange 0 (a_cols A))) as (cols & E & HF).
  { intros j Hj. apply in_zrange in Hj. destruct (mapM_exists (fun r => get r j) (fun _ _ => True) (a_rows A)) as (c & E & _); [|exists c; split; exact E].
    intros r Hr. destruct (nthZ_some r j) as (v & Ev); [rewrite (HA r Hr); auto|]. exists v. split; [|exact I]. apply get_nthZ; [lia|exact Ev]. }
  exists cols. rewrite E. split; [reflexivity|].
  assert (Hl : zlen cols = a_cols A).
  { unfold zlen. rewrite <- (Forall2_length _ _ _ HF), zrange_length. lia. }
  split; [exact Hl|]. intros j col Hj. pose proof (nthZ_range _ _ _ Hj) as Hr.
  assert (Ej : nthZ (zrange 0 (a_cols A)) j = Some j) by (rewrite nthZ_zrange by lia; f_equal; lia).
  pose proof (Forall2_nthZ _ _ _ j j col HF Ej Hj) as HM. simpl in HM.
  split; [unfold zlen; rewrite (mapM_length _ _ _ HM); reflexivity|].
  intros i r Hi. apply mapM_Forall2 in HM. destruct (nthZ_some col i) as (v & Ev).
  { pose proof (nthZ_range _ _ _ Hi). unfold zlen in *. rewrite <- (Forall2_length _ _ _ HM). lia. }
  pose proof (Forall2_nthZ _ _ _ i r v HM Hi Ev) as HG. simpl in HG. apply get_nthZ in HG; [|lia]. congruence.
Qed.

Lemma NoDup_nthZ {A} (l : list A) : (forall k k' u, k < k' -> nthZ l k = Some u -> nthZ l k' = Some u -> False) -> NoDup l.
Proof.
  induction l as [|x l IH]; intros H; constructor.
  - intros Hin. apply In_nthZ in Hin as (k & Hk). pose proof (nthZ_range _ _ _ Hk). apply (H 0 (k + 1) x); [lia|reflexivity|].
    rewrite nthZ_cons. destruct (Z.eqb_spec (k + 1) 0); [lia|]. replace (k + 1 - 1) with k by lia. exact Hk.
  - apply IH. intros k k' u Hk H1 H2. pose proof (nthZ_range _ _ _ H1). pose proof (nthZ_range _ _ _ H2).
    apply (H (k + 1) (k' + 1) u); [lia| |]; rewrite nthZ_cons.
    + destruct (Z.eqb_spec (k + 1) 0); [lia|]. replace (k + 1 - 1) with k by lia. exact H1.
    + destruct (Z.eqb_spec (k' + 1) 0); [lia|]. replace (k' + 1 - 1) with k' by lia. exact H2.
Qed.

Lemma positions_count {A} (dec : forall x y : A, {x = y} + {x <> y}) (l : list A) u ps :
  NoDup ps -> (forall i, In i ps <-> nthZ l i = Some u) -> zlen ps = Z.of_nat (count_occ dec l u).
Proof.
  intros Hnd Hin.
  set (f := fun x => if dec u x then true else false).
  assert (E : zlen ps = zlen (where_ (map f l))).
  { unfold zlen. f_equal. apply Permutation.Permutation_length, NoDup_Permutation; [exact Hnd|apply where_NoDup|].
    intros i. rewrite Hin, in_where, nthZ_map. destruct (nthZ l i) as [x|]; simpl; [|split; discriminate].
    unfold f. destruct (dec u x) as [H1|H1]; split; intros K; try congruence. }
  rewrite E, where_map_length. unfold zlen. f_equal. subst f. clear. induction l as [|x l IH]; [reflexivity|]. simpl.
  destruct (dec u x) as [H1|H1], (dec x u) as [H2|H2]; simpl; try (rewrite IH); congruence.
Qed.
