(** Common base of the model: Python exceptions as values, numpy-like arrays as
    lists indexed by [Z], loops as monadic folds.  Nothing here is specific to
    convst; it states how Python/numpy/numba constructs are read. *)
From Coq Require Import ZArith List Bool Lia Permutation.
Import ListNotations.
Open Scope Z_scope.

Ltac Zify.zify_post_hook ::= Z.div_mod_to_equations.

(** Exceptions.  [OutOfBounds] is an array access outside the array: numba code
    is compiled without bounds checks, so it stands for undefined behaviour;
    in interpreted numpy code it is an IndexError. *)
Inductive err : Type :=
| ValueError | TypeError | ZeroDivisionError | AssertionError | IndexError
| AttributeError | NotFittedError | NotImplementedErr | OutOfBounds.

Inductive res (A : Type) : Type :=
| Ok (a : A)
| Err (e : err).
Arguments Ok {A} a.
Arguments Err {A} e.

Definition bind {A B} (m : res A) (f : A -> res B) : res B :=
  match m with Ok a => f a | Err e => Err e end.

Notation "'let*' x := m 'in' k" := (bind m (fun x => k))
  (at level 200, x pattern, m at level 100, k at level 200).

Definition guard (b : bool) (e : err) : res unit := if b then Ok tt else Err e.

(** [for x in l: ...] building a list / threading a state, stopping at the
    first exception. *)
Fixpoint mapM {A B} (f : A -> res B) (l : list A) : res (list B) :=
  match l with
  | [] => Ok []
  | x :: t => let* y := f x in let* ys := mapM f t in Ok (y :: ys)
  end.

Fixpoint foldM {A S} (f : S -> A -> res S) (l : list A) (s : S) : res S :=
  match l with
  | [] => Ok s
  | x :: t => let* s' := f s x in foldM f t s'
  end.

(** * Arrays *)

Definition zlen {A} (l : list A) : Z := Z.of_nat (length l).

(** Python [range(a,b)]. *)
Definition zrange (a b : Z) : list Z :=
  map (fun k => a + Z.of_nat k) (seq 0 (Z.to_nat (b - a))).

(** [l[i]] with a non-negative index, as an option (specification side). *)
Definition nthZ {A} (l : list A) (i : Z) : option A :=
  if i <? 0 then None else nth_error l (Z.to_nat i).

(** [l[i]] as in Python/numba: negative indices count from the end. *)
Definition wrap (n i : Z) : Z := if i <? 0 then i + n else i.

Definition get {A} (l : list A) (i : Z) : res A :=
  match nthZ l (wrap (zlen l) i) with
  | Some x => Ok x
  | None => Err OutOfBounds
  end.

Fixpoint upd {A} (l : list A) (n : nat) (x : A) : list A :=
  match l, n with
  | [], _ => []
  | _ :: t, O => x :: t
  | h :: t, S n' => h :: upd t n' x
  end.

(** [l[i] = x]. *)
Definition set {A} (l : list A) (i : Z) (x : A) : res (list A) :=
  let j := wrap (zlen l) i in
  if (0 <=? j) && (j <? zlen l) then Ok (upd l (Z.to_nat j) x) else Err OutOfBounds.

(** Clipping of slice bounds. *)
Definition clip (n i : Z) : Z := Z.max 0 (Z.min n (wrap n i)).

(** [l[a:b]]: bounds wrap once when negative, then are clipped. *)
Definition slice {A} (l : list A) (a b : Z) : list A :=
  let n := zlen l in
  let a' := clip n a in
  let b' := clip n b in
  firstn (Z.to_nat (b' - a')) (skipn (Z.to_nat a') l).

(** [l[a:b] = vs]: numpy raises ValueError when the sizes differ. *)
Definition set_slice {A} (l : list A) (a b : Z) (vs : list A) : res (list A) :=
  let n := zlen l in
  let a' := clip n a in
  let b' := Z.max a' (clip n b) in
  if b' - a' =? zlen vs
  then Ok (firstn (Z.to_nat a') l ++ vs ++ skipn (Z.to_nat b') l)
  else Err ValueError.

(** [numpy.zeros(n)]: negative dimensions raise ValueError. *)
Definition full {A} (n : Z) (x : A) : res (list A) :=
  if n <? 0 then Err ValueError else Ok (repeat x (Z.to_nat n)).

(** [numpy.where(b)[0]] *)
Definition where_ (bs : list bool) : list Z :=
  map fst (filter (fun p : Z * bool => snd p) (combine (zrange 0 (zlen bs)) bs)).

(** [a[mask]] *)
Definition mask_select {A} (mask : list bool) (l : list A) : list A :=
  map snd (filter (fun p : bool * A => fst p) (combine mask l)).

(** [min]/[max] of an array; an empty array raises ValueError. *)
Definition min_list (l : list Z) : res Z :=
  match l with [] => Err ValueError | x :: t => Ok (fold_left Z.min t x) end.
Definition max_list (l : list Z) : res Z :=
  match l with [] => Err ValueError | x :: t => Ok (fold_left Z.max t x) end.

Definition zsum (l : list Z) : Z := fold_left Z.add l 0.

(** [numpy.cumsum] *)
Fixpoint cumsum_from (s : Z) (l : list Z) : list Z :=
  match l with [] => [] | x :: t => (s + x) :: cumsum_from (s + x) t end.
Definition cumsum (l : list Z) : list Z := cumsum_from 0 l.

(** [numpy.unique] on integers: sorted, without repetition. *)
Fixpoint insert_uniq (x : Z) (l : list Z) : list Z :=
  match l with
  | [] => [x]
  | y :: t => if x <? y then x :: l else if x =? y then l else y :: insert_uniq x t
  end.
Definition unique (l : list Z) : list Z := fold_right insert_uniq [] l.

(** * Basic lemmas *)

Lemma bind_Ok {A B} (a : A) (f : A -> res B) : bind (Ok a) f = f a.
Proof. reflexivity. Qed.

Lemma bind_inv {A B} (m : res A) (f : A -> res B) b :
  bind m f = Ok b -> exists a, m = Ok a /\ f a = Ok b.
Proof. destruct m; simpl; intros H; [eauto | discriminate]. Qed.

Lemma guard_ok b e : guard b e = Ok tt <-> b = true.
Proof. destruct b; simpl; split; congruence. Qed.

Lemma mapM_ok {A B} (f : A -> res B) (g : A -> B) l :
  (forall x, In x l -> f x = Ok (g x)) -> mapM f l = Ok (map g l).
Proof.
  induction l as [|x t IH]; simpl; intros H; [reflexivity|].
  rewrite H by auto. simpl. rewrite IH by (intros; apply H; auto). reflexivity.
Qed.

Lemma mapM_Forall2 {A B} (f : A -> res B) l ys :
  mapM f l = Ok ys <-> Forall2 (fun x y => f x = Ok y) l ys.
Proof.
  revert ys. induction l as [|x t IH]; simpl; intros ys; split; intros H.
  - injection H as <-. constructor.
  - inversion H; subst. reflexivity.
  - apply bind_inv in H as (y & Hy & H). apply bind_inv in H as (zs & Hz & H).
    injection H as <-. constructor; [assumption|]. apply IH. assumption.
  - inversion H as [|? ? ? ? Hy Ht]; subst. rewrite Hy. simpl.
    apply IH in Ht. rewrite Ht. reflexivity.
Qed.

Lemma mapM_ext {A B} (f g : A -> res B) l :
  (forall x, In x l -> f x = g x) -> mapM f l = mapM g l.
Proof.
  induction l as [|x t IH]; simpl; intros H; [reflexivity|].
  rewrite (H x) by auto. destruct (g x); simpl; [|reflexivity].
  rewrite IH by (intros; apply H; auto). reflexivity.
Qed.

Lemma mapM_app {A B} (f : A -> res B) l1 l2 :
  mapM f (l1 ++ l2) =
  let* a := mapM f l1 in let* b := mapM f l2 in Ok (a ++ b).
Proof.
  induction l1 as [|x t IH]; simpl.
  - destruct (mapM f l2); reflexivity.
  - rewrite IH. destruct (f x); simpl; [|reflexivity].
    destruct (mapM f t); simpl; [|reflexivity].
    destruct (mapM f l2); reflexivity.
Qed.

Lemma Forall2_length {A B} (R : A -> B -> Prop) l1 l2 : Forall2 R l1 l2 -> length l1 = length l2.
Proof. induction 1; simpl; congruence. Qed.

Lemma mapM_length {A B} (f : A -> res B) l ys : mapM f l = Ok ys -> length ys = length l.
Proof.
  intros H. apply mapM_Forall2 in H. symmetry. eapply Forall2_length; eauto.
Qed.

Lemma mapM_map {A B C} (g : A -> B) (f : B -> res C) l :
  mapM f (map g l) = mapM (fun x => f (g x)) l.
Proof. induction l as [|x t IH]; simpl; [reflexivity|]. rewrite IH. reflexivity. Qed.

Lemma foldM_app {A S} (f : S -> A -> res S) l1 l2 s :
  foldM f (l1 ++ l2) s = let* s' := foldM f l1 s in foldM f l2 s'.
Proof.
  revert s. induction l1 as [|x t IH]; intros s; simpl; [reflexivity|].
  destruct (f s x); simpl; [apply IH | reflexivity].
Qed.

Lemma foldM_ok {A S} (f : S -> A -> res S) (g : S -> A -> S) l s :
  (forall s x, In x l -> f s x = Ok (g s x)) -> foldM f l s = Ok (fold_left g l s).
Proof.
  revert s. induction l as [|x t IH]; intros s H; simpl; [reflexivity|].
  rewrite H by (simpl; auto). simpl. apply IH. intros; apply H; simpl; auto.
Qed.

Lemma foldM_ext {A S} (f g : S -> A -> res S) l s :
  (forall s x, In x l -> f s x = g s x) -> foldM f l s = foldM g l s.
Proof.
  revert s. induction l as [|x t IH]; intros s H; simpl; [reflexivity|].
  rewrite H by (simpl; auto). destruct (g s x); simpl; [|reflexivity].
  apply IH. intros; apply H; simpl; auto.
Qed.

(** Invariant rule: the invariant may mention the processed prefix. *)
Lemma foldM_inv {A S} (f : S -> A -> res S) (P : list A -> S -> Prop) l s :
  P [] s ->
  (forall pre x post s s', l = pre ++ x :: post -> P pre s -> f s x = Ok s' -> P (pre ++ [x]) s') ->
  forall s', foldM f l s = Ok s' -> P l s'.
Proof.
  intros H0 Hstep.
  assert (G : forall post pre s0 s', l = pre ++ post -> P pre s0 -> foldM f post s0 = Ok s' -> P l s').
  { induction post as [|x t IH]; intros pre s0 s' E HP HF; simpl in HF.
    - injection HF as <-. rewrite app_nil_r in E. subst. exact HP.
    - apply bind_inv in HF as (s1 & H1 & H2).
      apply (IH (pre ++ [x]) s1).
      + rewrite <- app_assoc. exact E.
      + eapply Hstep; eauto.
      + exact H2. }
  intros s' HF. eapply (G l [] s); auto.
Qed.

(** Totality rule. *)
Lemma foldM_total {A S} (f : S -> A -> res S) (P : list A -> S -> Prop) l s :
  P [] s ->
  (forall pre x post s, l = pre ++ x :: post -> P pre s ->
      exists s', f s x = Ok s' /\ P (pre ++ [x]) s') ->
  exists s', foldM f l s = Ok s' /\ P l s'.
Proof.
  intros H0 Hstep.
  assert (G : forall post pre s0, l = pre ++ post -> P pre s0 ->
     exists s', foldM f post s0 = Ok s' /\ P l s').
  { induction post as [|x t IH]; intros pre s0 E HP.
    - exists s0. split; [reflexivity|]. rewrite app_nil_r in E. subst. exact HP.
    - destruct (Hstep pre x t s0 E HP) as (s1 & H1 & HP1).
      destruct (IH (pre ++ [x]) s1) as (s2 & H2 & HP2).
      + rewrite <- app_assoc. exact E.
      + exact HP1.
      + exists s2. split; [|exact HP2]. simpl. rewrite H1. exact H2. }
  apply (G l []); auto.
Qed.

Lemma zlen_nonneg {A} (l : list A) : 0 <= zlen l.
Proof. unfold zlen. lia. Qed.

Lemma zlen_nil {A} : zlen (@nil A) = 0. Proof. reflexivity. Qed.
Lemma zlen_cons {A} (x : A) l : zlen (x :: l) = zlen l + 1.
Proof. unfold zlen. simpl length. lia. Qed.
Lemma zlen_app {A} (l1 l2 : list A) : zlen (l1 ++ l2) = zlen l1 + zlen l2.
Proof. unfold zlen. rewrite app_length. lia. Qed.
Lemma zlen_map {A B} (f : A -> B) l : zlen (map f l) = zlen l.
Proof. unfold zlen. rewrite map_length. reflexivity. Qed.
Lemma zlen_repeat {A} (x : A) n : zlen (repeat x n) = Z.of_nat n.
Proof. unfold zlen. rewrite repeat_length. reflexivity. Qed.

Lemma zrange_length a b : length (zrange a b) = Z.to_nat (b - a).
Proof. unfold zrange. rewrite map_length, seq_length. reflexivity. Qed.

Lemma zlen_zrange a b : zlen (zrange a b) = Z.max 0 (b - a).
Proof. unfold zlen. rewrite zrange_length. lia. Qed.

Lemma in_zrange a b x : In x (zrange a b) <-> a <= x < b.
Proof.
  unfold zrange. rewrite in_map_iff. split.
  - intros (k & <- & Hk). apply in_seq in Hk. lia.
  - intros H. exists (Z.to_nat (x - a)). split; [lia|]. apply in_seq. lia.
Qed.

Lemma zrange_NoDup a b : NoDup (zrange a b).
Proof.
  unfold zrange. apply FinFun.Injective_map_NoDup.
  - intros x y H. lia.
  - apply seq_NoDup.
Qed.

Lemma zrange_empty a b : b <= a -> zrange a b = [].
Proof. intros H. unfold zrange. replace (Z.to_nat (b - a)) with O by lia. reflexivity. Qed.

Lemma zrange_cons a b : a < b -> zrange a b = a :: zrange (a + 1) b.
Proof.
  intros H. unfold zrange.
  replace (Z.to_nat (b - a)) with (S (Z.to_nat (b - (a + 1)))) by lia.
  cbn [seq map]. f_equal; [lia|].
  rewrite <- seq_shift, map_map. apply map_ext. intros k. lia.
Qed.

Lemma zrange_snoc a b : a <= b -> zrange a (b + 1) = zrange a b ++ [b].
Proof.
  intros H. unfold zrange.
  replace (Z.to_nat (b + 1 - a)) with (Z.to_nat (b - a) + 1)%nat by lia.
  rewrite seq_app, map_app. simpl. f_equal. f_equal. lia.
Qed.

Lemma zrange_app a m b : a <= m <= b -> zrange a b = zrange a m ++ zrange m b.
Proof.
  intros H. unfold zrange.
  replace (Z.to_nat (b - a)) with (Z.to_nat (m - a) + Z.to_nat (b - m))%nat by lia.
  rewrite seq_app, map_app. f_equal. cbn [Nat.add].
  assert (G : forall q p o, seq (p + o) q = map (fun k => (p + k)%nat) (seq o q)).
  { induction q; intros p o; cbn [seq map]; [reflexivity|]. f_equal.
    rewrite <- IHq. f_equal. lia. }
  rewrite <- (Nat.add_0_r (Z.to_nat (m - a))), G, map_map. apply map_ext. intros k. lia.
Qed.

Lemma zrange_shift a b c : zrange (a + c) (b + c) = map (fun x => x + c) (zrange a b).
Proof.
  unfold zrange. rewrite map_map. replace (b + c - (a + c)) with (b - a) by lia.
  apply map_ext. intros. lia.
Qed.

Lemma nthZ_range {A} (l : list A) i x : nthZ l i = Some x -> 0 <= i < zlen l.
Proof.
  unfold nthZ, zlen. destruct (Z.ltb_spec i 0); [discriminate|].
  intros H1. assert (Z.to_nat i < length l)%nat by (apply nth_error_Some; congruence). lia.
Qed.

Lemma nthZ_some {A} (l : list A) i : 0 <= i < zlen l -> exists x, nthZ l i = Some x.
Proof.
  unfold nthZ, zlen. intros H. destruct (Z.ltb_spec i 0); [lia|].
  destruct (nth_error l (Z.to_nat i)) eqn:E; [eauto|].
  apply nth_error_None in E. lia.
Qed.

Lemma nthZ_none {A} (l : list A) i : nthZ l i = None <-> ~ (0 <= i < zlen l).
Proof.
  unfold nthZ, zlen. destruct (Z.ltb_spec i 0).
  - split; [lia|reflexivity].
  - rewrite nth_error_None. lia.
Qed.

Lemma nthZ_map {A B} (f : A -> B) l i : nthZ (map f l) i = option_map f (nthZ l i).
Proof.
  unfold nthZ. destruct (i <? 0); [reflexivity|].
  rewrite nth_error_map. reflexivity.
Qed.

Lemma nthZ_zrange a b i : 0 <= i < b - a -> nthZ (zrange a b) i = Some (a + i).
Proof.
  intros H. unfold nthZ. destruct (Z.ltb_spec i 0); [lia|].
  unfold zrange. rewrite nth_error_map.
  assert (E : nth_error (seq 0 (Z.to_nat (b - a))) (Z.to_nat i) = Some (Z.to_nat i)).
  { rewrite (nth_error_nth' _ O) by (rewrite seq_length; lia).
    rewrite seq_nth by lia. reflexivity. }
  rewrite E. simpl. f_equal. lia.
Qed.

Lemma nthZ_In {A} (l : list A) i x : nthZ l i = Some x -> In x l.
Proof.
  unfold nthZ. destruct (i <? 0); [discriminate|]. apply nth_error_In.
Qed.

Lemma In_nthZ {A} (l : list A) x : In x l -> exists i, nthZ l i = Some x.
Proof.
  intros H. apply In_nth_error in H as (n & Hn). exists (Z.of_nat n).
  unfold nthZ. destruct (Z.ltb_spec (Z.of_nat n) 0); [lia|].
  rewrite Nat2Z.id. exact Hn.
Qed.

Lemma nthZ_ext {A} (l1 l2 : list A) :
  zlen l1 = zlen l2 -> (forall i, 0 <= i < zlen l1 -> nthZ l1 i = nthZ l2 i) -> l1 = l2.
Proof.
  intros HL H.
  assert (G : forall n, nth_error l1 n = nth_error l2 n).
  { intros n. destruct (Nat.lt_ge_cases n (length l1)) as [Hlt|Hge].
    - specialize (H (Z.of_nat n)). unfold nthZ, zlen in H.
      destruct (Z.ltb_spec (Z.of_nat n) 0); [lia|].
      rewrite Nat2Z.id in H. apply H. lia.
    - unfold zlen in HL. rewrite (proj2 (nth_error_None l1 n)) by lia.
      symmetry. apply nth_error_None. lia. }
  clear H HL. revert l2 G. induction l1 as [|x t IH]; intros [|y u] G.
  - reflexivity.
  - specialize (G O). discriminate.
  - specialize (G O). discriminate.
  - pose proof (G O) as G0. injection G0 as ->. f_equal. apply IH.
    intros n. exact (G (S n)).
Qed.

Lemma nthZ_app {A} (l1 l2 : list A) i :
  nthZ (l1 ++ l2) i = if i <? zlen l1 then nthZ l1 i else nthZ l2 (i - zlen l1).
Proof.
  unfold nthZ, zlen. destruct (Z.ltb_spec i 0).
  - destruct (Z.ltb_spec i (Z.of_nat (length l1))); [reflexivity|lia].
  - destruct (Z.ltb_spec i (Z.of_nat (length l1))).
    + rewrite nth_error_app1 by lia. reflexivity.
    + destruct (Z.ltb_spec (i - Z.of_nat (length l1)) 0); [lia|].
      rewrite nth_error_app2 by lia. f_equal. lia.
Qed.

Lemma nthZ_cons {A} (x : A) l i :
  nthZ (x :: l) i = if i =? 0 then Some x else nthZ l (i - 1).
Proof.
  unfold nthZ. destruct (Z.eqb_spec i 0) as [->|Hn].
  - reflexivity.
  - destruct (Z.ltb_spec i 0).
    + destruct (Z.ltb_spec (i - 1) 0); [reflexivity|lia].
    + destruct (Z.ltb_spec (i - 1) 0); [lia|].
      replace (Z.to_nat i) with (S (Z.to_nat (i - 1))) by lia. reflexivity.
Qed.

Lemma nthZ_repeat {A} (x : A) n i : 0 <= i < Z.of_nat n -> nthZ (repeat x n) i = Some x.
Proof.
  intros H. unfold nthZ. destruct (Z.ltb_spec i 0); [lia|].
  rewrite (nth_error_nth' _ x) by (rewrite repeat_length; lia).
  rewrite nth_repeat. reflexivity.
Qed.

Lemma get_nthZ {A} (l : list A) i x : 0 <= i -> get l i = Ok x <-> nthZ l i = Some x.
Proof.
  intros H. unfold get, wrap. destruct (Z.ltb_spec i 0); [lia|].
  destruct (nthZ l i); split; congruence.
Qed.

Lemma get_ok {A} (l : list A) i : 0 <= i < zlen l -> exists x, get l i = Ok x /\ nthZ l i = Some x.
Proof.
  intros H. destruct (nthZ_some l i H) as (x & Hx). exists x.
  split; [|assumption]. apply get_nthZ; [lia|assumption].
Qed.

Lemma get_range {A} (l : list A) i x : get l i = Ok x -> - zlen l <= i < zlen l.
Proof.
  unfold get, wrap. destruct (Z.ltb_spec i 0).
  - destruct (nthZ l (i + zlen l)) eqn:E; [|discriminate].
    intros _. apply nthZ_range in E. lia.
  - destruct (nthZ l i) eqn:E; [|discriminate]. intros _. apply nthZ_range in E. lia.
Qed.

(** Total lookup used on the specification side, only ever inside bounds. *)
Definition nthd {A} (d : A) (l : list A) (i : Z) : A :=
  match nthZ l i with Some x => x | None => d end.

Lemma get_nthd {A} (d : A) (l : list A) i : 0 <= i < zlen l -> get l i = Ok (nthd d l i).
Proof.
  intros H. destruct (get_ok l i H) as (x & Hg & Hn). unfold nthd. rewrite Hn. exact Hg.
Qed.

Lemma nthZ_nthd {A} (d : A) (l : list A) i : 0 <= i < zlen l -> nthZ l i = Some (nthd d l i).
Proof. intros H. destruct (nthZ_some l i H) as (x & Hx). unfold nthd. rewrite Hx. reflexivity. Qed.

Lemma map_nthd_zrange {A} (d : A) (l : list A) : map (nthd d l) (zrange 0 (zlen l)) = l.
Proof.
  apply nthZ_ext.
  - rewrite zlen_map, zlen_zrange. pose proof (zlen_nonneg l). lia.
  - rewrite zlen_map, zlen_zrange. pose proof (zlen_nonneg l). intros i Hi.
    rewrite nthZ_map, nthZ_zrange by lia. simpl.
    symmetry. apply nthZ_nthd. lia.
Qed.

(** ** upd / set *)

Lemma upd_length {A} (l : list A) n x : length (upd l n x) = length l.
Proof. revert n. induction l as [|h t IH]; intros [|n]; simpl; auto. Qed.

Lemma zlen_upd {A} (l : list A) n x : zlen (upd l n x) = zlen l.
Proof. unfold zlen. rewrite upd_length. reflexivity. Qed.

Lemma nth_error_upd {A} (l : list A) n m x :
  nth_error (upd l n x) m =
  if (n =? m)%nat then (if (n <? length l)%nat then Some x else None) else nth_error l m.
Proof.
  revert n m. induction l as [|h t IH]; intros [|n] [|m]; simpl; auto.
  - destruct (n =? m)%nat; reflexivity.
  - rewrite IH. destruct (n =? m)%nat; [|reflexivity].
    destruct (Nat.ltb_spec n (length t)), (Nat.ltb_spec (S n) (S (length t))); (reflexivity || lia).
Qed.

Lemma nthZ_upd {A} (l : list A) i j x : 0 <= i < zlen l ->
  nthZ (upd l (Z.to_nat i) x) j = if j =? i then Some x else nthZ l j.
Proof.
  unfold zlen. intros H. unfold nthZ. destruct (Z.ltb_spec j 0).
  - destruct (Z.eqb_spec j i); [lia|reflexivity].
  - rewrite nth_error_upd.
    destruct (Nat.eqb_spec (Z.to_nat i) (Z.to_nat j)), (Z.eqb_spec j i); try lia.
    + destruct (Nat.ltb_spec (Z.to_nat i) (length l)); [reflexivity|lia].
    + reflexivity.
Qed.

Lemma set_ok {A} (l : list A) i x : 0 <= i < zlen l -> set l i x = Ok (upd l (Z.to_nat i) x).
Proof.
  intros H. unfold set, wrap. destruct (Z.ltb_spec i 0); [lia|].
  destruct (Z.leb_spec 0 i), (Z.ltb_spec i (zlen l)); simpl; (reflexivity || lia).
Qed.

Lemma set_inv {A} (l : list A) i x l' : set l i x = Ok l' ->
  exists j, j = wrap (zlen l) i /\ 0 <= j < zlen l /\ l' = upd l (Z.to_nat j) x.
Proof.
  unfold set. intros H. eexists. split; [reflexivity|].
  destruct (Z.leb_spec 0 (wrap (zlen l) i)), (Z.ltb_spec (wrap (zlen l) i) (zlen l));
    simpl in H; try discriminate. injection H as <-. auto.
Qed.

(** ** slices *)

Lemma slice_ok {A} (l : list A) a b : 0 <= a <= b -> b <= zlen l ->
  slice l a b = firstn (Z.to_nat (b - a)) (skipn (Z.to_nat a) l).
Proof.
  intros H1 H2. unfold slice, clip, wrap.
  destruct (Z.ltb_spec a 0); [lia|]. destruct (Z.ltb_spec b 0); [lia|].
  f_equal; [|f_equal]; lia.
Qed.

Lemma slice_length {A} (l : list A) a b : 0 <= a <= b -> b <= zlen l -> zlen (slice l a b) = b - a.
Proof.
  intros H1 H2. rewrite slice_ok by assumption. unfold zlen in *.
  rewrite firstn_length, skipn_length. lia.
Qed.

Lemma nthZ_firstn {A} (l : list A) n i : 0 <= i < Z.of_nat n -> nthZ (firstn n l) i = nthZ l i.
Proof.
  intros H. unfold nthZ. destruct (Z.ltb_spec i 0); [lia|].
  assert (Hn : (Z.to_nat i < n)%nat) by lia. clear H H0. revert Hn.
  generalize (Z.to_nat i) as k. intros k. revert n l.
  induction k as [|k IH]; intros [|n] [|x l] Hn; simpl; auto; try lia. apply IH. lia.
Qed.

Lemma nthZ_skipn {A} (l : list A) n i : 0 <= i -> nthZ (skipn n l) i = nthZ l (Z.of_nat n + i).
Proof.
  intros H. unfold nthZ. destruct (Z.ltb_spec i 0); [lia|].
  destruct (Z.ltb_spec (Z.of_nat n + i) 0); [lia|].
  replace (Z.to_nat (Z.of_nat n + i)) with (n + Z.to_nat i)%nat by lia.
  clear. revert l. induction n as [|n IH]; intros [|x l]; simpl; auto.
  - destruct (Z.to_nat i); reflexivity.
Qed.

Lemma nthZ_slice {A} (l : list A) a b i : 0 <= a -> b <= zlen l -> 0 <= i < b - a ->
  nthZ (slice l a b) i = nthZ l (a + i).
Proof.
  intros Ha Hb Hi. rewrite slice_ok by lia.
  rewrite nthZ_firstn by lia. rewrite nthZ_skipn by lia. f_equal. lia.
Qed.

Lemma slice_full {A} (l : list A) : slice l 0 (zlen l) = l.
Proof.
  pose proof (zlen_nonneg l). rewrite slice_ok by lia. simpl.
  apply firstn_all2. unfold zlen. lia.
Qed.

Lemma slice_app_l {A} (l1 l2 : list A) : slice (l1 ++ l2) 0 (zlen l1) = l1.
Proof.
  pose proof (zlen_nonneg l1). pose proof (zlen_nonneg l2).
  rewrite slice_ok by (rewrite ?zlen_app; lia).
  simpl. rewrite Z.sub_0_r. unfold zlen. rewrite Nat2Z.id.
  rewrite firstn_app, Nat.sub_diag, firstn_all, firstn_O, app_nil_r. reflexivity.
Qed.

Lemma slice_app_mid {A} (l1 l2 l3 : list A) :
  slice (l1 ++ l2 ++ l3) (zlen l1) (zlen l1 + zlen l2) = l2.
Proof.
  pose proof (zlen_nonneg l1). pose proof (zlen_nonneg l2). pose proof (zlen_nonneg l3).
  rewrite slice_ok by (rewrite ?zlen_app; lia).
  unfold zlen in *. rewrite Nat2Z.id.
  rewrite skipn_app, skipn_all, Nat.sub_diag. simpl.
  replace (Z.to_nat _) with (length l2) by lia.
  rewrite firstn_app, Nat.sub_diag, firstn_all, firstn_O, app_nil_r. reflexivity.
Qed.

Lemma set_slice_ok {A} (l : list A) a b vs :
  0 <= a -> b <= zlen l -> b - a = zlen vs ->
  set_slice l a b vs = Ok (firstn (Z.to_nat a) l ++ vs ++ skipn (Z.to_nat b) l).
Proof.
  intros Ha Hb Hv. pose proof (zlen_nonneg vs). unfold set_slice, clip, wrap.
  destruct (Z.ltb_spec a 0); [lia|]. destruct (Z.ltb_spec b 0); [lia|].
  replace (Z.max 0 (Z.min (zlen l) a)) with a by lia.
  replace (Z.max a (Z.max 0 (Z.min (zlen l) b))) with b by lia.
  destruct (Z.eqb_spec (b - a) (zlen vs)); [reflexivity|lia].
Qed.

Lemma zlen_set_slice {A} (l : list A) a b vs l' :
  0 <= a -> b <= zlen l -> b - a = zlen vs -> set_slice l a b vs = Ok l' -> zlen l' = zlen l.
Proof.
  intros Ha Hb Hv H. pose proof (zlen_nonneg vs). rewrite set_slice_ok in H by assumption. injection H as <-.
  rewrite !zlen_app. unfold zlen in *. rewrite firstn_length, skipn_length. lia.
Qed.

Lemma nthZ_set_slice {A} (l : list A) a b vs l' i :
  0 <= a -> b <= zlen l -> b - a = zlen vs -> set_slice l a b vs = Ok l' ->
  nthZ l' i = if (a <=? i) && (i <? b) then nthZ vs (i - a) else nthZ l i.
Proof.
  intros Ha Hb Hv H. pose proof (zlen_nonneg vs). rewrite set_slice_ok in H by assumption. injection H as <-.
  assert (HLa : zlen (firstn (Z.to_nat a) l) = a).
  { unfold zlen in *. rewrite firstn_length. lia. }
  rewrite !nthZ_app, HLa, <- Hv.
  destruct (Z.leb_spec a i), (Z.ltb_spec i a), (Z.ltb_spec i b); simpl; try lia.
  - destruct (Z.ltb_spec (i - a) (b - a)); [reflexivity|lia].
  - destruct (Z.ltb_spec (i - a) (b - a)); [lia|].
    rewrite nthZ_skipn by lia. f_equal. lia.
  - destruct (Z.ltb_spec i 0).
    + unfold nthZ. destruct (Z.ltb_spec i 0); [reflexivity|lia].
    + apply nthZ_firstn. lia.
Qed.

(** ** where / mask_select *)

Lemma combine_zrange_nth {A} (l : list A) i x :
  In (i, x) (combine (zrange 0 (zlen l)) l) <-> nthZ l i = Some x.
Proof.
  assert (G : forall a, In (i, x) (combine (zrange a (a + zlen l)) l) <-> nthZ l (i - a) = Some x).
  { induction l as [|y t IH]; intros a.
    - rewrite combine_nil. split; [contradiction|].
      unfold nthZ. destruct (i - a <? 0); [discriminate|]. destruct (Z.to_nat (i - a)); discriminate.
    - rewrite zlen_cons. pose proof (zlen_nonneg t). rewrite zrange_cons by lia.
      cbn [combine In]. rewrite nthZ_cons.
      replace (a + (zlen t + 1)) with ((a + 1) + zlen t) by lia.
      rewrite (IH (a + 1)). destruct (Z.eqb_spec (i - a) 0) as [E|E].
      + replace (i - (a + 1)) with (-1) by lia. split.
        * intros [H1|H1]; [congruence|]. unfold nthZ in H1. simpl in H1. discriminate.
        * intros H1. left. f_equal; [lia|congruence].
      + replace (i - (a + 1)) with (i - a - 1) by lia. split.
        * intros [H1|H1]; [|assumption]. injection H1 as -> ->. lia.
        * auto. }
  specialize (G 0). rewrite Z.sub_0_r in G. exact G.
Qed.

Lemma in_where bs i : In i (where_ bs) <-> nthZ bs i = Some true.
Proof.
  unfold where_. rewrite in_map_iff. split.
  - intros ((j & b) & <- & H). apply filter_In in H as [H E]. simpl in *. subst b.
    apply combine_zrange_nth. exact H.
  - intros H. exists (i, true). split; [reflexivity|]. apply filter_In. split; [|reflexivity].
    apply combine_zrange_nth. exact H.
Qed.

Lemma NoDup_map_fst_filter {A B} (f : A * B -> bool) l : NoDup (map fst l) -> NoDup (map fst (filter f l)).
Proof.
  induction l as [|x t IH]; simpl; intros H; [constructor|].
  inversion H; subst. destruct (f x); simpl; [|auto].
  constructor; [|auto]. intros Hin. apply H2. apply in_map_iff in Hin as (y & E & Hy).
  apply filter_In in Hy as [Hy _]. apply in_map_iff. eauto.
Qed.

Lemma map_fst_combine {A B} (l1 : list A) (l2 : list B) :
  length l1 = length l2 -> map fst (combine l1 l2) = l1.
Proof.
  revert l2. induction l1; intros [|y l2]; simpl; intros H; try discriminate; auto.
  f_equal. apply IHl1. lia.
Qed.

Lemma map_snd_combine {A B} (l1 : list A) (l2 : list B) :
  length l1 = length l2 -> map snd (combine l1 l2) = l2.
Proof.
  revert l2. induction l1; intros [|y l2]; simpl; intros H; try discriminate; auto.
  f_equal. apply IHl1. lia.
Qed.

Lemma where_NoDup bs : NoDup (where_ bs).
Proof.
  unfold where_. apply NoDup_map_fst_filter. rewrite map_fst_combine; [apply zrange_NoDup|].
  rewrite zrange_length. unfold zlen. lia.
Qed.

Lemma where_map {A} (f : A -> bool) l :
  where_ (map f l) = map fst (filter (fun p : Z * A => f (snd p)) (combine (zrange 0 (zlen l)) l)).
Proof.
  unfold where_. rewrite zlen_map. generalize (zrange 0 (zlen l)) as r. intros r. revert r.
  induction l as [|x t IH]; intros [|k r]; simpl; auto.
  destruct (f x); simpl; rewrite IH; reflexivity.
Qed.

Lemma where_sorted_filter {A} (d : A) (f : A -> bool) l :
  where_ (map f l) = filter (fun i => f (nthd d l i)) (zrange 0 (zlen l)).
Proof.
  rewrite where_map.
  assert (G : forall r : list Z, forall t : list A, length r = length t ->
    (forall i x, In (i, x) (combine r t) -> nthd d l i = x) ->
    map fst (filter (fun p : Z * A => f (snd p)) (combine r t)) = filter (fun i => f (nthd d l i)) r).
  { induction r as [|k r IH]; intros [|x t] HL H; simpl; auto; try discriminate.
    assert (E : nthd d l k = x) by (apply H; simpl; auto). rewrite E.
    destruct (f x); simpl; rewrite IH; auto; intros; apply H; simpl; auto. }
  apply G.
  - rewrite zrange_length. unfold zlen. lia.
  - intros i x H. apply combine_zrange_nth in H. unfold nthd. rewrite H. reflexivity.
Qed.

Lemma mask_select_length {A} (m : list bool) (l : list A) :
  length m = length l -> length (mask_select m l) = length (filter (fun b : bool => b) m).
Proof.
  unfold mask_select. revert l. induction m as [|b m IH]; intros [|x l]; simpl; intros H; try discriminate; auto.
  destruct b; simpl; rewrite IH by lia; reflexivity.
Qed.

Lemma mask_select_map {A B} (f : A -> B) m l : mask_select m (map f l) = map f (mask_select m l).
Proof.
  unfold mask_select. revert l. induction m as [|b m IH]; intros [|x l]; simpl; auto.
  destruct b; simpl; rewrite IH; reflexivity.
Qed.

Lemma mask_select_zrange {A} (d : A) m (l : list A) : length m = length l ->
  mask_select m l = map (nthd d l) (mask_select m (zrange 0 (zlen l))).
Proof.
  intros H. rewrite <- mask_select_map, map_nthd_zrange. reflexivity.
Qed.

Lemma mask_select_where m : mask_select m (zrange 0 (zlen m)) = where_ m.
Proof.
  unfold mask_select, where_. generalize (zrange 0 (zlen m)) as r. intros r. revert r.
  induction m as [|b m IH]; intros [|k r]; simpl; auto.
  destruct b; simpl; rewrite IH; reflexivity.
Qed.

Lemma mask_select_nthd {A} (d : A) m (l : list A) : length m = length l ->
  mask_select m l = map (nthd d l) (where_ m).
Proof.
  intros H. rewrite (mask_select_zrange d) by assumption.
  rewrite <- mask_select_where. unfold zlen. rewrite H. reflexivity.
Qed.

(** ** unique *)

Lemma in_insert_uniq x y l : In y (insert_uniq x l) <-> y = x \/ In y l.
Proof.
  induction l as [|z t IH]; simpl; [intuition|].
  destruct (Z.ltb_spec x z); simpl; [intuition|].
  destruct (Z.eqb_spec x z); simpl; [subst; intuition|].
  rewrite IH. intuition.
Qed.

Lemma in_unique x l : In x (unique l) <-> In x l.
Proof.
  induction l as [|y t IH]; simpl; [tauto|].
  rewrite in_insert_uniq, IH. intuition.
Qed.

(** strictly increasing lists *)
Fixpoint incr (l : list Z) : Prop :=
  match l with
  | [] => True
  | x :: t => (forall y, In y t -> x < y) /\ incr t
  end.

Lemma insert_uniq_incr x l : incr l -> incr (insert_uniq x l).
Proof.
  induction l as [|z t IH]; simpl; intros H; [intuition|].
  destruct H as [H1 H2].
  destruct (Z.ltb_spec x z); simpl.
  - split; [|auto]. intros y [<-|Hy]; [lia|]. specialize (H1 y Hy). lia.
  - destruct (Z.eqb_spec x z); simpl; [auto|].
    split; [|auto]. intros y Hy. apply in_insert_uniq in Hy as [->|Hy]; [lia|auto].
Qed.

Lemma unique_incr l : incr (unique l).
Proof. induction l; simpl; [exact I|]. apply insert_uniq_incr. assumption. Qed.

Lemma incr_NoDup l : incr l -> NoDup l.
Proof.
  induction l as [|x t IH]; simpl; intros H; constructor.
  - intros Hin. destruct H as [H _]. specialize (H x Hin). lia.
  - apply IH. tauto.
Qed.

Lemma unique_NoDup l : NoDup (unique l).
Proof. apply incr_NoDup, unique_incr. Qed.

Lemma incr_filter f l : incr l -> incr (filter f l).
Proof.
  induction l as [|x t IH]; simpl; intros H; [exact I|].
  destruct H as [H1 H2]. destruct (f x); simpl; [|auto].
  split; [|auto]. intros y Hy. apply filter_In in Hy as [Hy _]. auto.
Qed.

Lemma incr_ext l1 l2 : incr l1 -> incr l2 -> (forall x, In x l1 <-> In x l2) -> l1 = l2.
Proof.
  revert l2. induction l1 as [|x t IH]; intros [|y u] H1 H2 H.
  - reflexivity.
  - exfalso. destruct (H y) as [_ G]. destruct G. simpl; auto.
  - exfalso. destruct (H x) as [G _]. destruct G. simpl; auto.
  - simpl in H1, H2. destruct H1 as [H1 H1'], H2 as [H2 H2'].
    assert (x = y).
    { destruct (proj1 (H x) (or_introl eq_refl)) as [E|E]; [auto|].
      destruct (proj2 (H y) (or_introl eq_refl)) as [E'|E']; [auto|].
      specialize (H1 y E'). specialize (H2 x E). lia. }
    subst y. f_equal. apply IH; auto. intros z. split; intros Hz.
    + destruct (proj1 (H z) (or_intror Hz)) as [E|E]; [|auto]. subst z. specialize (H1 x Hz). lia.
    + destruct (proj2 (H z) (or_intror Hz)) as [E|E]; [|auto]. subst z. specialize (H2 x Hz). lia.
Qed.

(** ** sums *)

Lemma fold_add_acc l s : fold_left Z.add l s = s + zsum l.
Proof.
  unfold zsum. revert s. induction l as [|x t IH]; intros s; simpl; [lia|].
  rewrite (IH (s + x)), (IH x). lia.
Qed.

Lemma zsum_cons x l : zsum (x :: l) = x + zsum l.
Proof. unfold zsum at 1. simpl. rewrite fold_add_acc. reflexivity. Qed.

Lemma zsum_app l1 l2 : zsum (l1 ++ l2) = zsum l1 + zsum l2.
Proof. induction l1; simpl; [reflexivity|]. rewrite !zsum_cons, IHl1. lia. Qed.

Lemma zsum_nonneg l : (forall x, In x l -> 0 <= x) -> 0 <= zsum l.
Proof.
  induction l as [|x t IH]; intros H; [unfold zsum; simpl; lia|].
  rewrite zsum_cons. specialize (H x (or_introl eq_refl)) as Hx.
  assert (0 <= zsum t) by (apply IH; intros; apply H; simpl; auto). lia.
Qed.

Lemma cumsum_from_length s l : length (cumsum_from s l) = length l.
Proof. revert s. induction l; intros; simpl; auto. Qed.

Lemma nth_cumsum_from s l n : (n < length l)%nat ->
  nth_error (cumsum_from s l) n = Some (s + zsum (firstn (S n) l)).
Proof.
  revert s n. induction l as [|x t IH]; intros s n Hn; simpl in Hn; [lia|].
  cbn [cumsum_from]. destruct n as [|n].
  - cbn [nth_error]. rewrite firstn_cons, firstn_O. unfold zsum. simpl. f_equal.
  - cbn [nth_error]. rewrite IH by lia. rewrite (firstn_cons (S n)), zsum_cons. f_equal. lia.
Qed.

Lemma min_list_spec l m : min_list l = Ok m -> In m l /\ forall x, In x l -> m <= x.
Proof.
  destruct l as [|x t]; simpl; [discriminate|]. intros H. injection H as <-.
  revert x. induction t as [|y t IH]; intros x; simpl.
  - split; [auto|]. intros z [->|[]]. lia.
  - destruct (IH (Z.min x y)) as [H1 H2]. split.
    + destruct H1 as [H1|H1]; [|auto]. destruct (Z.min_spec x y) as [[_ E]|[_ E]]; rewrite E in *; auto.
    + assert (fold_left Z.min t (Z.min x y) <= Z.min x y) by (apply H2; auto).
      intros z [->|[->|Hz]]; [lia|lia|]. apply H2. auto.
Qed.

Lemma max_list_spec l m : max_list l = Ok m -> In m l /\ forall x, In x l -> x <= m.
Proof.
  destruct l as [|x t]; simpl; [discriminate|]. intros H. injection H as <-.
  revert x. induction t as [|y t IH]; intros x; simpl.
  - split; [auto|]. intros z [->|[]]. lia.
  - destruct (IH (Z.max x y)) as [H1 H2]. split.
    + destruct H1 as [H1|H1]; [|auto]. destruct (Z.max_spec x y) as [[_ E]|[_ E]]; rewrite E in *; auto.
    + assert (Z.max x y <= fold_left Z.max t (Z.max x y)) by (apply H2; auto).
      intros z [->|[->|Hz]]; [lia|lia|]. apply H2. auto.
Qed.

Lemma min_list_ok l : l <> [] -> exists m, min_list l = Ok m.
Proof. destruct l; [congruence|]. simpl. eauto. Qed.
Lemma max_list_ok l : l <> [] -> exists m, max_list l = Ok m.
Proof. destruct l; [congruence|]. simpl. eauto. Qed.
