(** Property C52: convst/utils/numba_utils.py. *)
From Coq Require Import ZArith List Bool Lia Reals Lra Floats.
From Verif Require Import Prelude Num Spec RealBase NumbaUtils NumbaUtilsProofs.
Import ListNotations.
Open Scope Z_scope.

(** ** C52.  Row-wise unique *)

(** Two rows with pairwise equal cells. *)
Definition same {F} (N : NumOps F) : list F -> list F -> Prop := Forall2 (fun x y => neqb N x y = true).

(** Lexicographic order: the rows agree up to some cell, and there the first is smaller. *)
Definition lex {F} (N : NumOps F) (r s : list F) : Prop :=
  exists p x r' q y s', r = p ++ x :: r' /\ s = q ++ y :: s' /\ same N p q /\ nltb N x y = true.

(** [us] lists the distinct rows in increasing order, [fs] where each first occurs, [cs] how often it occurs. *)
Definition distinct_rows {F} (N : NumOps F) (rows us : list (list F)) (fs cs : list Z) : Prop :=
  zlen fs = zlen us /\ zlen cs = zlen us /\
  (forall r, In r rows -> exists u, In u us /\ same N r u) /\
  (forall k k' u u', k < k' -> nthZ us k = Some u -> nthZ us k' = Some u' -> lex N u u') /\
  (forall k u f m, nthZ us k = Some u -> nthZ fs k = Some f -> nthZ cs k = Some m ->
     nthZ rows f = Some u /\
     (forall j r, j < f -> nthZ rows j = Some r -> ~ same N u r) /\
     (exists at_, NoDup at_ /\ zlen at_ = m /\ forall i, In i at_ <-> exists r, nthZ rows i = Some r /\ same N u r)).

(** A 2D array: every row has [a_cols] cells. *)
Definition rectangular {F} (A : arr2 F) : Prop := 0 <= a_cols A /\ forall r, In r (a_rows A) -> zlen r = a_cols A.
(** Every cell is comparable (not a NaN). *)
Definition cells {F} (ok : F -> Prop) (A : arr2 F) : Prop := forall r x, In r (a_rows A) -> In x r -> ok x.

Theorem C52_rows : forall (F : Type) (N : NumOps F) (ok : F -> Prop) (A : arr2 F),
  OrderLaws N ok -> rectangular A -> cells ok A -> a_rows A <> [] ->
  exists us fs cs, nb_unique N A 0 = Ok (us, fs, cs) /\ distinct_rows N (a_rows A) us fs cs.
Proof.
  intros F N ok [c rows] L [Hc HA] Hok Hne. simpl in *.
  assert (Hrows : forall r, In r rows -> okr ok (Z.to_nat c) r).
  { intros r Hr. split; [specialize (HA r Hr); unfold zlen in HA; lia|]. apply Forall_forall. intros x Hx. exact (Hok r x Hr Hx). }
  assert (Hn : 0 < zlen rows) by (destruct rows; [contradiction|rewrite zlen_cons; pose proof (zlen_nonneg rows); lia]).
  destruct (nb_unique_spec N ok L (Z.to_nat c) rows Hrows Hn) as (us & fs & cs & E & H1 & H2 & H3 & H4 & H5).
  rewrite Z2Nat.id in E by lia. exists us, fs, cs. split; [exact E|]. split; [exact H1|]. split; [exact H2|]. split; [|split].
  - intros r Hr. destruct (H3 r Hr) as (u & Hu & Hs). exists u. split; [exact Hu|]. apply sameb_same. exact Hs.
  - intros k k' u u' Hk Hu Hu'. apply lexb_lex with (ok := ok) (n := Z.to_nat c); auto; [| |eapply H4; eauto].
    + assert (Hf : exists f m, nthZ fs k = Some f /\ nthZ cs k = Some m).
      { pose proof (nthZ_range _ _ _ Hu). destruct (nthZ_some fs k) as (f & Ef); [lia|]. destruct (nthZ_some cs k) as (m & Em); [lia|]. eauto. }
      destruct Hf as (f & m & Ef & Em). destruct (H5 k u f m Hu Ef Em) as (Ei & _). apply Hrows. eapply nthZ_In; eauto.
    + assert (Hf : exists f m, nthZ fs k' = Some f /\ nthZ cs k' = Some m).
      { pose proof (nthZ_range _ _ _ Hu'). destruct (nthZ_some fs k') as (f & Ef); [lia|]. destruct (nthZ_some cs k') as (m & Em); [lia|]. eauto. }
      destruct Hf as (f & m & Ef & Em). destruct (H5 k' u' f m Hu' Ef Em) as (Ei & _). apply Hrows. eapply nthZ_In; eauto.
  - intros k u f m Hu Hf Hm. destruct (H5 k u f m Hu Hf Hm) as (K1 & K2 & K3). split; [exact K1|]. split.
    + intros j r Hj Hr Hs. specialize (K2 j r Hj Hr). apply sameb_same in Hs. congruence.
    + exists (where_ (map (sameb N u) rows)). split; [apply where_NoDup|]. split.
      * rewrite K3. apply where_map_length.
      * intros i. rewrite in_where, nthZ_map. split.
        -- destruct (nthZ rows i) as [r|]; simpl; intros Hi; [|discriminate]. injection Hi as Hi. exists r. split; [auto|]. apply sameb_same; auto.
        -- intros (r & -> & Hs). simpl. f_equal. apply sameb_same. exact Hs.
Qed.
Print Assumptions C52_rows.

(** With axis=1 the columns are treated like rows. *)
Definition columns_of {F} (A : arr2 F) (cols : list (list F)) : Prop :=
  zlen cols = a_cols A /\
  forall j col, nthZ cols j = Some col -> zlen col = zlen (a_rows A) /\
    forall i r, nthZ (a_rows A) i = Some r -> nthZ col i = nthZ r j.

Theorem C52_columns : forall (F : Type) (N : NumOps F) (ok : F -> Prop) (A : arr2 F),
  OrderLaws N ok -> rectangular A -> cells ok A -> 0 < a_cols A ->
  exists cols us fs cs, columns_of A cols /\ nb_unique N A 1 = Ok (us, fs, cs) /\ distinct_rows N cols us fs cs.
Proof.
  intros F N ok A L HA Hok Hc. destruct (transpose_ok A) as (cols & E & Hl & Hcol); [apply HA|apply HA|].
  destruct (C52_rows F N ok (mkArr2 (zlen (a_rows A)) cols) L) as (us & fs & cs & EU & HU).
  - split; [apply zlen_nonneg|]. simpl. intros r Hr. apply In_nthZ in Hr as (j & Hj). apply (Hcol j r Hj).
  - intros r x Hr Hx. simpl in Hr. apply In_nthZ in Hr as (j & Hj). destruct (Hcol j r Hj) as [Hlr Hv].
    apply In_nthZ in Hx as (i & Hi). destruct (nthZ_some (a_rows A) i) as (w & Ew).
    { apply nthZ_range in Hi. lia. }
    rewrite (Hv i w Ew) in Hi. apply (Hok w); eapply nthZ_In; eauto.
  - simpl. intros ->. change (zlen (@nil (list F))) with 0 in Hl. lia.
  - exists cols, us, fs, cs. split; [split; auto|]. split; [|exact HU].
    unfold nb_unique. change (1 =? 1) with true. cbv iota. rewrite E, bind_Ok. exact EU.
Qed.
Print Assumptions C52_columns.

(** For real numbers "same" is equality, and no cell is excluded. *)
Theorem C52_rows_real : forall (A : arr2 R), rectangular A -> a_rows A <> [] ->
  exists us fs cs, nb_unique RN A 0 = Ok (us, fs, cs) /\
    NoDup us /\ (forall r, In r us <-> In r (a_rows A)) /\
    (forall k k' u u', k < k' -> nthZ us k = Some u -> nthZ us k' = Some u' ->
       exists p x y r' s', u = p ++ x :: r' /\ u' = p ++ y :: s' /\ (x < y)%R) /\
    zlen fs = zlen us /\ zlen cs = zlen us /\
    (forall k u f m, nthZ us k = Some u -> nthZ fs k = Some f -> nthZ cs k = Some m ->
       nthZ (a_rows A) f = Some u /\ (forall j, j < f -> nthZ (a_rows A) j <> Some u) /\
       m = Z.of_nat (count_occ (list_eq_dec Req_EM_T) (a_rows A) u)).
Proof.
  intros A HA Hne. destruct (C52_rows R RN (fun _ => True) A R_order_laws HA) as (us & fs & cs & E & H1 & H2 & H3 & H4 & H5);
    [intros r x _ _; exact I|exact Hne|].
  assert (SE : forall r s, same RN r s <-> r = s).
  { intros r s. split.
    - intros H. induction H as [|x y r s Hxy H IH]; [reflexivity|]. apply Reqb_true in Hxy. subst. reflexivity.
    - intros ->. induction s as [|x s IH]; constructor; [apply Reqb_true; reflexivity|exact IH]. }
  assert (LX : forall k k' u u', k < k' -> nthZ us k = Some u -> nthZ us k' = Some u' ->
       exists p x y r' s', u = p ++ x :: r' /\ u' = p ++ y :: s' /\ (x < y)%R).
  { intros k k' u u' Hk Hu Hu'. destruct (H4 k k' u u' Hk Hu Hu') as (p & x & r' & q & y & s' & -> & -> & Hs & Hlt).
    apply SE in Hs as <-. exists p, x, y, r', s'. repeat split; auto. apply Rltb_true. exact Hlt. }
  exists us, fs, cs. split; [exact E|]. split; [|split; [|split; [exact LX|split; [exact H1|split; [exact H2|]]]]].
  - apply NoDup_nthZ. intros k k' u Hk Hu Hu'. destruct (LX k k' u u Hk Hu Hu') as (p & x & y & r' & s' & -> & E2 & Hlt).
    apply app_inv_head in E2. injection E2 as -> _. lra.
  - intros r. split.
    + intros Hr. apply In_nthZ in Hr as (k & Hk). pose proof (nthZ_range _ _ _ Hk).
      destruct (nthZ_some fs k) as (f & Ef); [lia|]. destruct (nthZ_some cs k) as (m & Em); [lia|].
      destruct (H5 k r f m Hk Ef Em) as (K & _). eapply nthZ_In; eauto.
    + intros Hr. destruct (H3 r Hr) as (u & Hu & Hs). apply SE in Hs as ->. exact Hu.
  - intros k u f m Hu Hf Hm. destruct (H5 k u f m Hu Hf Hm) as (K1 & K2 & at_ & Hnd & Hz & Hin). split; [exact K1|]. split.
    + intros j Hj Ej. apply (K2 j u Hj Ej). apply SE. reflexivity.
    + rewrite <- Hz. apply positions_count; [exact Hnd|]. intros i. rewrite Hin. split.
      * intros (r & Er & Hs). apply SE in Hs as <-. exact Er.
      * intros Er. exists u. split; [exact Er|]. apply SE. reflexivity.
Qed.
Print Assumptions C52_rows_real.

(** An array without rows is not handled: the element at position 0 is read. *)
Theorem C52_empty_refuted : forall (F : Type) (N : NumOps F) c, 0 <= c -> nb_unique N (mkArr2 c []) 0 = Err OutOfBounds.
Proof.
  intros F N c Hc. unfold nb_unique. change (0 =? 1) with false. cbv iota. rewrite bind_Ok.
  cbn [a_rows a_cols]. change (zlen (@nil (list F))) with 0. change (zrange 0 0) with (@nil Z).
  assert (G : forall l, foldM (unique_pass N) l ([], []) = Ok ([], [])).
  { induction l as [|i l IH]; [reflexivity|]. cbn [foldM]. change (unique_pass N ([], []) i) with (@Ok (list (list F) * list Z) ([], [])).
    rewrite bind_Ok. exact IH. }
  rewrite G, bind_Ok. cbv beta iota zeta. change (map2 (map2 (neqb N)) (slice [] 0 (-1)) (slice [] 1 0)) with (@nil (list bool)).
  destruct (c >? 1); reflexivity.
Qed.
Print Assumptions C52_empty_refuted.

(** numpy.all along an axis, as overloaded for numba: correct from two rows (columns) on. *)
Theorem C52_all : forall c arr, (forall r, In r arr -> zlen r = c) ->
  (2 <= zlen arr -> exists out, np_all_2d arr 0 = Ok out /\ zlen out = c /\
     forall j, 0 <= j < c -> (nthZ out j = Some true <-> forall r, In r arr -> nthZ r j = Some true)) /\
  (2 <= c -> exists out, np_all_2d arr 1 = Ok out /\ zlen out = zlen arr /\
     forall i r, nthZ arr i = Some r -> (nthZ out i = Some true <-> forall b, In b r -> b = true)).
Proof.
  intros c arr Hc. split.
  - intros H. exact (np_all_axis0_ok c arr H Hc).
  - intros H. exists (map (forallb (fun x => x)) arr). split; [|split].
    + unfold np_all_2d. change (1 =? 0) with false. cbv iota. apply np_all_axis1_ok. intros r Hr. rewrite (Hc r Hr). exact H.
    + apply zlen_map.
    + intros i r Hr. rewrite nthZ_map, Hr. simpl. split.
      * intros K b Hb. injection K as K. rewrite forallb_forall in K. exact (K b Hb).
      * intros K. f_equal. apply forallb_forall. exact K.
Qed.
Print Assumptions C52_all.

(** It reads out of bounds with a single row (axis 0) or a single column (axis 1), where numpy is well defined. *)
Theorem C52_all_single_refuted : forall r b, np_all_2d [r] 0 = Err OutOfBounds /\ np_all_2d [[b]] 1 = Err OutOfBounds.
Proof. split; reflexivity. Qed.
Print Assumptions C52_all_single_refuted.

Example C52_case : nb_unique ZN (mkArr2 2 [[3; 1]; [2; 5]; [3; 0]; [2; 5]; [3; 1]; [2; 5]]) 0
    = Ok ([[2; 5]; [3; 0]; [3; 1]], [1; 2; 0], [3; 1; 2]) /\
  nb_unique ZN (mkArr2 3 [[4; 2; 4]; [7; 7; 7]]) 1 = Ok ([[2; 7]; [4; 7]], [1; 0], [1; 2]) /\
  np_all_2d [[true; false]; [true; true]; [true; true]] 0 = Ok [true; false].
Proof. repeat split; vm_compute; reflexivity. Qed.
