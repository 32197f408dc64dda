(** Parallel loops ([prange]) as tasks emitting memory writes. *)
From Coq Require Import ZArith List Bool Lia Permutation.
From Verif Require Import Prelude Num Kernel KernelProofs CombProofs.
Import ListNotations.
Open Scope Z_scope.

(** A write of a value into cell (row, column) of a shared 2D array. *)
Definition write (F : Type) : Type := (Z * Z * F)%type.

Definition run_writes {F} (ws : list (write F)) (M : list (list F)) : res (list (list F)) :=
  foldM (fun M w => let '(r, c, v) := w in set2 M r c v) ws M.

(** All possible orders in which the writes of concurrently running tasks can reach
    memory: each task's own order is kept, nothing else is fixed. *)
Inductive interleave {W} : list (list W) -> list W -> Prop :=
| il_done ts : (forall t, In t ts -> t = []) -> interleave ts []
| il_step pre w t post out :
    interleave (pre ++ t :: post) out -> interleave (pre ++ (w :: t) :: post) (w :: out).

Lemma concat_all_nil {W} (ts : list (list W)) : (forall t, In t ts -> t = []) -> concat ts = [].
Proof.
  induction ts as [|t ts IH]; simpl; intros H; [reflexivity|].
  rewrite (H t) by auto. apply IH. auto.
Qed.

Lemma interleave_perm {W} (ts : list (list W)) out : interleave ts out -> Permutation (concat ts) out.
Proof.
  induction 1 as [ts H|pre w t post out H IH].
  - rewrite concat_all_nil by assumption. constructor.
  - rewrite concat_app in *. simpl in *.
    etransitivity; [symmetry; apply Permutation_middle|]. constructor. exact IH.
Qed.

Lemma interleave_seq {W} (ts : list (list W)) : interleave ts (concat ts).
Proof.
  assert (G : forall ts done : list (list W), (forall t, In t done -> t = []) -> interleave (done ++ ts) (concat ts)).
  { induction ts0 as [|t ts0 IH]; intros done H; simpl.
    - rewrite app_nil_r. constructor. exact H.
    - induction t as [|w t IHt]; simpl.
      + replace (done ++ [] :: ts0) with ((done ++ [[]]) ++ ts0) by (rewrite <- app_assoc; reflexivity).
        apply IH. intros t Ht. apply in_app_or in Ht as [Ht|[<-|[]]]; auto.
      + constructor. exact IHt. }
  apply (G ts []). simpl. tauto.
Qed.

(** The matrix with entries [f r c]. *)
Definition tab {F} (f : Z -> Z -> F) (n m : Z) : list (list F) :=
  map (fun r => map (f r) (zrange 0 m)) (zrange 0 n).

Lemma tab_dims {F} (f : Z -> Z -> F) n m : 0 <= n -> 0 <= m -> dims n m (tab f n m).
Proof.
  intros Hn Hm. split.
  - unfold tab. rewrite zlen_map, zlen_zrange. lia.
  - intros r Hr. apply in_map_iff in Hr as (i & <- & _). rewrite zlen_map, zlen_zrange. lia.
Qed.

Lemma nthZ_tab {F} (f : Z -> Z -> F) n m r : 0 <= r < n ->
  nthZ (tab f n m) r = Some (map (f r) (zrange 0 m)).
Proof. intros H. unfold tab. rewrite nthZ_map, nthZ_zrange by lia. reflexivity. Qed.

Lemma get2_tab {F} (f : Z -> Z -> F) n m r c : 0 <= r < n -> 0 <= c < m -> get2 (tab f n m) r c = Ok (f r c).
Proof.
  intros Hr Hc. unfold get2.
  assert (E : get (tab f n m) r = Ok (map (f r) (zrange 0 m))).
  { apply get_nthZ; [lia|]. apply nthZ_tab. exact Hr. }
  rewrite E. simpl. apply get_nthZ; [lia|]. rewrite nthZ_map, nthZ_zrange by lia. reflexivity.
Qed.

Lemma mat_ext {F} n m (A B : list (list F)) : dims n m A -> dims n m B ->
  (forall r c, 0 <= r < n -> 0 <= c < m -> get2 A r c = get2 B r c) -> A = B.
Proof.
  intros [HA1 HA2] [HB1 HB2] H. apply nthZ_ext; [lia|]. rewrite HA1. intros r Hr.
  destruct (get_row A r m HA2) as (ra & Ga & Na & La); [lia|].
  destruct (get_row B r m HB2) as (rb & Gb & Nb & Lb); [lia|].
  rewrite Na, Nb. f_equal. apply nthZ_ext; [lia|]. rewrite La. intros c Hc.
  specialize (H r c Hr Hc). unfold get2 in H. rewrite Ga, Gb in H. simpl in H.
  destruct (get_ok ra c) as (x & Gx & Nx); [lia|]. destruct (get_ok rb c) as (y & Gy & Ny); [lia|].
  congruence.
Qed.

Lemma full_dims {F} (x : F) n m : 0 <= n -> 0 <= m ->
  dims n m (repeat (repeat x (Z.to_nat m)) (Z.to_nat n)).
Proof.
  intros Hn Hm. split; [rewrite zlen_repeat; lia|].
  intros r Hr. apply repeat_spec in Hr as ->. rewrite zlen_repeat. lia.
Qed.

Lemma run_writes_ok {F} n m (f : Z -> Z -> F) ws M0 : dims n m M0 -> 0 <= n -> 0 <= m ->
  (forall r c v, In (r, c, v) ws -> 0 <= r < n /\ 0 <= c < m /\ v = f r c) ->
  (forall r c, 0 <= r < n -> 0 <= c < m -> exists v, In (r, c, v) ws) ->
  run_writes ws M0 = Ok (tab f n m).
Proof.
  intros HD Hn Hm Hw Hc. unfold run_writes.
  destruct (foldM_total (fun M w => let '(r, c, v) := w in set2 M r c v)
    (fun pre M => dims n m M /\ forall r c v, In (r, c, v) pre -> get2 M r c = Ok (f r c)) ws M0)
    as (M & HM & HD' & HG).
  - split; [exact HD|]. simpl. tauto.
  - intros pre [[r c] v] post M E [HDM HP].
    assert (Hin : In (r, c, v) ws) by (rewrite E; apply in_or_app; simpl; auto).
    destruct (Hw r c v Hin) as (Hr & Hcc & ->).
    destruct (set2_ok n m M r c (f r c) HDM Hr Hcc) as (row & _ & _ & Es).
    eexists. split; [exact Es|].
    destruct (set2_dims n m M _ r c (f r c) HDM Hr Hcc Es) as (HD2 & HG2).
    split; [exact HD2|]. intros r' c' v' Hin'.
    assert (Hin'' : In (r', c', v') ws).
    { rewrite E. apply in_app_or in Hin' as [H|[H|[]]]; apply in_or_app; simpl; auto. }
    destruct (Hw r' c' v' Hin'') as (Hr' & Hc' & _).
    rewrite HG2 by assumption.
    destruct (Z.eqb_spec r' r); destruct (Z.eqb_spec c' c); simpl; subst; try reflexivity;
      apply in_app_or in Hin' as [H|[H|[]]]; try (eapply HP; eauto; fail); injection H; intros; subst; lia.
  - rewrite HM. f_equal. eapply mat_ext; [exact HD'|apply tab_dims; assumption|].
    intros r c Hr Hcc. destruct (Hc r c Hr Hcc) as (v & Hv). rewrite (HG r c v Hv).
    rewrite get2_tab by assumption. reflexivity.
Qed.

(** A write list is race free when no cell is written twice. *)
Definition cells {F} (ws : list (write F)) : list (Z * Z) := map fst ws.

Lemma run_writes_interleave {F} n m (f : Z -> Z -> F) ts out M0 : dims n m M0 -> 0 <= n -> 0 <= m ->
  (forall r c v, In (r, c, v) (concat ts) -> 0 <= r < n /\ 0 <= c < m /\ v = f r c) ->
  (forall r c, 0 <= r < n -> 0 <= c < m -> exists v, In (r, c, v) (concat ts)) ->
  interleave ts out -> run_writes out M0 = Ok (tab f n m).
Proof.
  intros HD Hn Hm H1 H2 HI. apply interleave_perm in HI.
  apply run_writes_ok; auto.
  - intros r c v Hin. apply H1. eapply Permutation_in; [symmetry; exact HI|exact Hin].
  - intros r c Hr Hc. destruct (H2 r c Hr Hc) as (v & Hv). exists v.
    eapply Permutation_in; [exact HI|exact Hv].
Qed.
