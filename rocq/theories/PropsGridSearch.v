(** C72: what a grid search measures (convst/utils/experiments_utils.py, grid_search_UCR_UEA). *)
From Coq Require Import ZArith List Bool Lia Permutation.
From Verif Require Import Prelude Num Gen Experiments ExperimentsProofs PropsExperiments GridSearch.
Import ListNotations.
Open Scope Z_scope.

(** Collections on which _sklearn_cv finds the right samples (C49): univariate series of one length, no NaN, no two
    equal series, the same classes in both parts, shuffles that permute. *)
Definition clean {F S} (N : NumOps F) (shuf : list Z -> S -> list Z * S) (Xtr : list (list (list F))) (ytr : list Z)
  (Xte : list (list (list F))) (yte : list Z) : Prop :=
  (forall l s, Permutation l (fst (shuf l s))) /\
  (exists t, shaped 1 t (Xtr ++ Xte)) /\
  (forall s x v, In s (Xtr ++ Xte) -> In x s -> In v x -> neqb N v v = true) /\
  (forall k k' x y, k <> k' -> nthZ (Xtr ++ Xte) k = Some [x] -> nthZ (Xtr ++ Xte) k' = Some [y] -> ~ equal_series N x y) /\
  zlen Xtr = zlen ytr /\ zlen Xte = zlen yte /\ (forall c, In c ytr <-> In c yte).

Lemma taken_get {A} (l : list A) is xs : taken l is xs -> mapM (get l) is = Ok xs.
Proof.
  induction 1 as [|i x is xs Hi _ IH]; [reflexivity|]. cbn [mapM].
  assert (E : get l i = Ok x) by (apply get_nthZ; [apply nthZ_range in Hi; lia|exact Hi]).
  rewrite E. cbn [bind]. rewrite IH. reflexivity.
Qed.

(** The cell of candidate c and fold i is the score, on the test part of fold i of C48, of a fresh pipeline with the
    parameters c fitted on the training part of fold i; NaN if that raises. *)
Theorem C72_cells : forall (F S P C V : Type) (N : NumOps F) (shuf : list Z -> S -> list Z * S) seed
  (configure : C -> res P) fit (scorer : P -> _ -> _ -> res V) best n Xtr ytr Xte yte cands table,
  clean N shuf Xtr ytr Xte yte ->
  grid_search N shuf seed configure fit scorer best n Xtr ytr Xte yte cands = Ok table ->
  Forall2 (fun c row => exists p, configure c = Ok p /\
      Forall2 (fun i v => exists X1 y1 X2 y2, fold_data shuf seed Xtr ytr Xte yte i = Ok (X1, y1, X2, y2) /\
          forall r, v = Some r <-> exists q, fit p X1 y1 = Ok q /\ scorer q X2 y2 = Ok r) (zrange 0 n) row) cands table.
Proof.
  intros F S P C V N shuf seed configure fit scorer best n Xtr ytr Xte yte cands table (HS & (t & HX) & Hr & Hd & H1 & H2 & HL) E.
  unfold grid_search in E. apply bind_inv in E as (folds & Ef & E). apply bind_inv in E as (tb & Et & E).
  apply bind_inv in E as (u & G & E). apply bind_inv in E as (c & _ & E). apply bind_inv in E as (p & _ & E).
  apply bind_inv in E as (q & _ & E). assert (tb = table) by congruence. subst tb.
  apply mapM_Forall2 in Ef. apply mapM_Forall2 in Et.
  assert (Hn : cands = [] \/ folds <> []).
  { destruct folds; [|right; discriminate]. left. destruct cands as [|c0 cs]; [reflexivity|]. exfalso.
    assert (Z0 : forall l, Forall2 (fun c row => mapM (grid_cell configure fit scorer (Xtr ++ Xte) (ytr ++ yte) c) [] = Ok row) l table ->
      existsb (existsb (fun v : option V => match v with Some _ => true | None => false end)) table = false).
    { clear. intros l H. induction H as [|c r l tb Hr _ IH]; [reflexivity|]. cbn in Hr. injection Hr as <-. exact IH. }
    rewrite (Z0 _ Et) in G. discriminate. }
  assert (Hc : forall c row, mapM (grid_cell configure fit scorer (Xtr ++ Xte) (ytr ++ yte) c) folds = Ok row -> folds <> [] ->
    exists p, configure c = Ok p /\
      Forall2 (fun i v => exists X1 y1 X2 y2, fold_data shuf seed Xtr ytr Xte yte i = Ok (X1, y1, X2, y2) /\
          forall r, v = Some r <-> exists q, fit p X1 y1 = Ok q /\ scorer q X2 y2 = Ok r) (zrange 0 n) row).
  { intros c' row Er Hf. 
    assert (Hp : exists p, configure c' = Ok p).
    { destruct folds as [|f folds]; [congruence|]. cbn [mapM] in Er. apply bind_inv in Er as (v & Ev & _).
      unfold grid_cell in Ev. destruct f. apply bind_inv in Ev as (p' & Ep & _). eauto. }
    destruct Hp as [p' Ep]. exists p'. split; [exact Ep|]. apply mapM_Forall2 in Er. clear Hf Hn G Et.
    revert row Er. induction Ef as [|i f is fs Hi _ IH]; intros row Er; inversion Er; subst; constructor; [|apply IH; assumption].
    destruct (C49_univariate F S N shuf seed t Xtr ytr Xte yte i HS HX Hr Hd H1 H2 HL) as (tr & te & X1 & y1 & X2 & y2 & Ec & Ed & _ & T1 & T2 & T3 & T4).
    rewrite Ec in Hi. injection Hi as <-. exists X1, y1, X2, y2. split; [exact Ed|]. intros r.
    match goal with H : grid_cell _ _ _ _ _ _ _ = Ok ?v |- _ => rename H into Ev; unfold grid_cell in Ev end.
    rewrite Ep, (taken_get _ _ _ T1), (taken_get _ _ _ T2), (taken_get _ _ _ T3), (taken_get _ _ _ T4) in Ev. cbn [bind] in Ev.
    destruct (fit p' X1 y1) as [q'|] eqn:Eq; cbn [bind] in Ev.
    - destruct (scorer q' X2 y2) as [v'|] eqn:Es; injection Ev as <-.
      + split; [intros E'; injection E' as <-; eauto|]. intros (q2 & E2 & E3). congruence.
      + split; [discriminate|]. intros (q2 & E2 & E3). congruence.
    - injection Ev as <-. split; [discriminate|]. intros (q2 & E2 & E3). congruence. }
  destruct Hn as [-> |Hn]; [inversion Et; constructor|].
  clear G E. induction Et as [|c' row cs tb Er _ IH]; constructor; [apply Hc; assumption|exact IH].
Qed.
Print Assumptions C72_cells.

(** So for accuracy-like scorers a grid search and cross_validate_UCR_UEA agree on every fold, for pipelines whose fit
    forgets earlier fits. *)
Theorem C72_agrees : forall (F S P C V : Type) (N : NumOps F) (shuf : list Z -> S -> list Z * S) seed
  (configure : C -> res P) fit predict (metric : list Z -> list Z -> V) best n Xtr ytr Xte yte cands table k c p rows,
  clean N shuf Xtr ytr Xte yte ->
  (forall p X y X' y' p', fit p X y = Ok p' -> fit p' X' y' = fit p X' y') ->
  let scorer q X y := let* z := predict q X in Ok (metric y z) in
  grid_search N shuf seed configure fit scorer best n Xtr ytr Xte yte cands = Ok table ->
  nthZ cands k = Some c -> configure c = Ok p ->
  score shuf seed fit predict [metric] n Xtr ytr Xte yte p = Ok rows ->
  nthZ table k = Some (map (fun row => match row with v :: _ => Some v | [] => None end) rows).
Proof.
  intros F S P C V N shuf seed configure fit predict metric best n Xtr ytr Xte yte cands table k c p rows Hcl HF scorer E Hk Ep Es.
  pose proof (C72_cells _ _ _ _ _ _ _ _ _ _ _ _ _ _ _ _ _ _ _ Hcl E) as HT.
  destruct (C63_fold_scores _ _ _ _ shuf seed fit predict [metric] n Xtr ytr Xte yte p rows HF Es) as [HL HR].
  assert (Hrow : exists row, nthZ table k = Some row).
  { apply nthZ_some. pose proof (Forall2_length _ _ _ HT) as L. apply nthZ_range in Hk. unfold zlen in *. lia. }
  destruct Hrow as [row Hrow]. rewrite Hrow. f_equal.
  destruct (NumbaUtilsProofs.Forall2_nthZ _ _ _ _ _ _ HT Hk Hrow) as (p' & Ep' & HC). assert (p' = p) by congruence. subst p'.
  pose proof (Forall2_length _ _ _ HC) as L. rewrite zrange_length in L.
  apply nthZ_ext; [rewrite zlen_map, HL; unfold zlen; lia|]. intros i Hi. destruct (nthZ_some row i Hi) as [v Hv]. rewrite Hv.
  assert (Hi' : 0 <= i < n) by (unfold zlen in Hi; lia).
  assert (Hz : nthZ (zrange 0 n) i = Some i) by (rewrite nthZ_zrange by lia; f_equal; lia).
  destruct (NumbaUtilsProofs.Forall2_nthZ _ _ _ _ _ _ HC Hz Hv) as (X1 & y1 & X2 & y2 & Ed & HV).
  destruct (HR i Hi') as (X1' & y1' & X2' & y2' & q & pred & Ed' & Eq & Epr & Hrw).
  rewrite Ed in Ed'. injection Ed' as <- <- <- <-. rewrite nthZ_map, Hrw. cbn. f_equal.
  apply HV. exists q. split; [exact Eq|]. unfold scorer. rewrite Epr. reflexivity.
Qed.
Print Assumptions C72_agrees.

(** With a series present in both parts the grid search does not measure the fold: here the pipeline memorises labels,
    so it is wrong on the test series (another label), and the grid search, which finds both series at position 0, reports success. *)
Theorem C72_duplicates_refuted : forall (F : Type) (N : NumOps F) (a : F), neqb N a a = true ->
  let Xtr := [[[a]]] in let Xte := [[[a]]] in let ytr := [0] in let yte := [1] in
  let fit (p : list Z) (X : list (list (list F))) (y : list Z) := Ok y in
  let predict (p : list Z) (X : list (list (list F))) := Ok p in
  let metric (y z : list Z) := zlist_eqb y z in
  let scorer q X y := let* z := predict q X in Ok (metric y z) in
  score rev_shuf (fun i => i) fit predict [metric] 1 Xtr ytr Xte yte [] = Ok [[false]] /\
  grid_search N rev_shuf (fun i => i) (fun _ : unit => Ok []) fit scorer (fun _ => 0) 1 Xtr ytr Xte yte [tt] = Ok [[Some true]].
Proof.
  intros F N a Ha Xtr Xte ytr yte fit predict metric scorer. split; [vm_compute; reflexivity|].
  unfold grid_search. change (zrange 0 1) with [0]. cbn [mapM]. unfold Xtr, Xte, ytr, yte. cbn [app].
  unfold cv_split, fold_data, find_index, where2. cbn -[where_]. unfold series_eqb. cbn -[where_]. rewrite Ha. reflexivity.
Qed.
Print Assumptions C72_duplicates_refuted.

(** Two candidates on two folds of four series, against the cross-validation of each; the third candidate cannot be fitted. *)
Example C72_case :
  let Xtr := [[[1; 2]]; [[3; 4]]] in let ytr := [0; 1] in let Xte := [[[5; 6]]; [[1; 3]]] in let yte := [1; 0] in
  let fit (p : Z * Z) (X : list (list (list Z))) (y : list Z) :=
    if fst p <? 0 then Err ValueError else let* x := get X 0 in let* c := get x 0 in let* v := get c (fst p) in Ok (fst p, v) in
  let predict (p : Z * Z) (X : list (list (list Z))) :=
    mapM (fun x => let* c := get x 0 in let* v := get c (fst p) in Ok (if v <? 3 then 0 else 1)) X in
  let metric (y z : list Z) := zlen (filter (fun p => fst p =? snd p) (combine y z)) in
  let scorer q X y := let* z := predict q X in Ok (metric y z) in
  clean ZN rev_shuf Xtr ytr Xte yte /\
  grid_search ZN rev_shuf (fun i => i) (fun c => Ok (c, 0)) fit scorer (fun _ => 0) 2 Xtr ytr Xte yte [0; 1; -1] =
    Ok [[Some 2; Some 2]; [Some 1; Some 2]; [None; None]] /\
  score rev_shuf (fun i => i) fit predict [metric] 2 Xtr ytr Xte yte (1, 0) = Ok [[1]; [2]].
Proof.
  intros Xtr ytr Xte yte fit predict metric scorer. split; [|split; vm_compute; reflexivity]. unfold clean.
  split; [intros l s; cbn; apply Permutation_rev|].
  split; [exists 2; intros s Hs; cbn in Hs; destruct Hs as [<-|[<-|[<-|[<-|[]]]]]; (split; [reflexivity|]); intros x [<-|[]]; reflexivity|].
  split; [intros; apply Z.eqb_refl|].
  split; [|split; [reflexivity|split; [reflexivity|]]].
  - intros k k' x y Hk Ex Ey He.
    pose proof (nthZ_range _ _ _ Ex) as R1. pose proof (nthZ_range _ _ _ Ey) as R2. cbn in R1, R2.
    assert (K : (k = 0 \/ k = 1 \/ k = 2 \/ k = 3) /\ (k' = 0 \/ k' = 1 \/ k' = 2 \/ k' = 3)) by (split; clear -R1 R2; lia).
    clear R1 R2. destruct K as [[->|[->|[->| ->]]] [->|[->|[->| ->]]]]; try congruence; vm_compute in Ex, Ey; injection Ex as <-; injection Ey as <-;
      inversion He; subst; try discriminate; match goal with H : Forall2 _ _ _ |- _ => inversion H; subst; discriminate | _ => idtac end.
  - intros c. cbn. tauto.
Qed.
