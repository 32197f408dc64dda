(** Univariate shapelet generation: iterations seen as work on one part of the mask. *)
From Coq Require Import ZArith List Bool Lia Permutation.
From Verif Require Import Prelude Num Kernel Spec KernelProofs Apply ApplyUni ApplyMulti Gen GenSched.
Import ListNotations.
Open Scope Z_scope.

Lemma foldM_concat {A B St} (f : St -> B -> res St) (g : A -> list B) (l : list A) (s : St) :
  foldM (fun s a => foldM f (g a) s) l s = foldM f (concat (map g l)) s.
Proof.
  revert s. induction l as [|a t IH]; intros s; cbn [foldM map concat]; [reflexivity|].
  rewrite foldM_app. destruct (foldM f (g a) s); cbn [bind]; auto.
Qed.

(** [mask_dil[id, t] = False] *)
Definition clear2 (m : list (list bool)) (id t : Z) : res (list (list bool)) := upd_at m id (fun r => set r t false).

Lemma upd_at2_fold {A B} (f : A -> B -> res A) (bs : list B) (M : list (list A)) i j m1 m2 :
  get M i = Ok m1 -> get m1 j = Ok m2 ->
  foldM (fun M b => upd_at M i (fun m1 => upd_at m1 j (fun y => f y b))) bs M =
  let* m' := foldM f bs m2 in upd_at M i (fun m1 => set m1 j m').
Proof.
  intros H1 H2. rewrite (foldM_upd_at (fun m1 b => upd_at m1 j (fun y => f y b)) bs M i m1 H1).
  unfold upd_at at 1. rewrite H1. cbn [bind]. rewrite (foldM_upd_at f bs m1 j m2 H2).
  unfold upd_at at 1. rewrite H2. cbn [bind]. destruct (foldM f bs m2) as [m'|e]; [|reflexivity]. cbn [bind].
  unfold upd_at. rewrite H1. reflexivity.
Qed.

Definition positions (index d n asize : Z) : list Z := concat (map (cleared index d n) (zrange 0 asize)).

Lemma in_positions index d n asize t : In t (positions index d n asize) <->
  exists j, 0 <= j < asize /\ (t = (index - j * d) mod n \/ t = (index + j * d) mod n).
Proof.
  unfold positions, cleared. rewrite in_concat. split.
  - intros (l & Hl & Ht). apply in_map_iff in Hl as (j & <- & Hj). apply in_zrange in Hj. exists j. split; [exact Hj|].
    destruct Ht as [<-|[<-|[]]]; auto.
  - intros (j & Hj & Ht). eexists. split; [apply in_map; apply in_zrange; exact Hj|]. destruct Ht as [->| ->]; cbn; auto.
Qed.

Section U.
Context {F : Type} (N : NumOps F) {S : Type} (rng : Rng F S).

(** What an iteration that found an admissible start chose and computed. *)
Record pick := mkPick {
  pk_sample : Z; pk_index : Z; pk_test : Z; pk_len : Z; pk_v : list F; pk_dist : list F; pk_thr : F }.

Definition u_put (i : Z) (w : option pick) (o : list F * list (list F)) : res (list F * list (list F)) :=
  match w with
  | None => Ok o
  | Some pk => let* thr' := set (fst o) i (pk_thr pk) in
               let* val' := upd_at (snd o) i (fun row => set_slice row 0 (pk_len pk) (pk_v pk)) in
               Ok (thr', val')
  end.

Definition u_enc (st : ust F) : list (list (list (list bool))) * (list F * list (list F)) := (u_mask st, (u_thr st, u_val st)).

Definition dnorm (dr : drawn) (i : Z) : bool := nthd false (dr_norm dr) i.
Definition ddil (dr : drawn) (i : Z) : Z := nthd 0 (dr_dil dr) i.
Definition dlen (dr : drawn) (i : Z) : Z := nthd 0 (dr_len dr) i.
(** smallest length among the shapelets of the same dilation *)
Definition gmin (dr : drawn) (g : Z) : Z := match min_len_of dr g with Ok m => m | Err _ => 0 end.

Definition wf_drawn (dr : drawn) : Prop := zlen (dr_dil dr) = zlen (dr_len dr) /\ zlen (dr_norm dr) = zlen (dr_len dr).

(** The part of the iteration after the choice of (sample, index), same for both variants:
    [srs] gives the series, [n] the modulus of the mask positions. *)
Definition u_rest (srs : Z -> res (list F)) (y : list Z) (P : gparams F) (l d : Z) (nm : bool) (asize n id index : Z)
  (m : list (list bool)) : G S (list (list bool) * option pick) :=
  let! m' := liftG (foldM (fun m t => clear2 m id t) (positions index d n asize) m) in
  let! x := liftG (srs id) in
  let! v := liftG (get_subsequence N x index l d nm (g_phase P)) in
  let! id_test := pick_test rng y id in
  let! xt := liftG (srs id_test) in
  let! x_dist := liftG (compute_shapelet_dist_vector N xt v l d nm (g_phase P)) in
  let! thr := draw_threshold N rng x_dist (g_pmin P) (g_pmax P) in
  retG (m', Some (mkPick id index id_test l v x_dist thr)).

Definition U_SL_localG (X : dataset F) (y : list Z) (n_ts : Z) (P : gparams F) (dr : drawn) (e : Z * Z) (m : list (list bool))
  : G S (list (list bool) * option pick) :=
  let i := snd e in
  let l := dlen dr i in let d := ddil dr i in
  let i_mask := where2 (map (fun r => slice r 0 (nwin (g_phase P) n_ts l d)) m) in
  if 0 <? zlen i_mask then
    let! id := choice rng (map fst i_mask) in
    let! index := choice rng (map snd (filter (fun p => fst p =? id) i_mask)) in
    u_rest (u_series X) y P l d (dnorm dr i) (alpha_size N (g_alpha P) l (gmin dr (fst e))) n_ts id index m
  else retG (m, None).

Definition U_VL_localG (X : dataset F) (X_len : list Z) (y : list Z) (P : gparams F) (dr : drawn) (e : Z * Z) (m : list (list bool))
  : G S (list (list bool) * option pick) :=
  let i := snd e in
  let l := dlen dr i in let d := ddil dr i in
  let bound n := nwin (g_phase P) n l d in
  let! i_mask := liftG (mapM (fun i_x => let* r := get m i_x in let* n := get X_len i_x in
                                         Ok (existsb (fun b : bool => b) (slice r 0 (bound n))))
                             (zrange 0 (zlen X))) in
  if 0 <? zlen (where_ i_mask) then
    let! id := choice rng (where_ i_mask) in
    let! n_s := liftG (get X_len id) in
    let! r := liftG (get m id) in
    let! index := choice rng (where_ (slice r 0 (bound n_s))) in
    u_rest (u_series_vl X X_len) y P l d (dnorm dr i) (alpha_size N (g_alpha P) l (gmin dr (fst e))) n_s id index m
  else retG (m, None).

(** the generator state is that of the thread executing the iteration *)
Definition with_rs {A B} (rs : Z -> S) (localG : Z * Z -> A -> G S B) (e : Z * Z) (m : A) : res B :=
  let* p := localG e m (rs (snd e)) in Ok (fst p).

Lemma min_len_ok dr sched g i : wf_drawn dr -> is_schedule (dr_dil dr) sched -> In (g, i) sched -> min_len_of dr g = Ok (gmin dr g).
Proof.
  intros [W1 W2] HS Hin. apply (sched_in _ sched g i HS) in Hin. unfold gmin.
  assert (E : exists m, min_len_of dr g = Ok m); [|destruct E as (m & ->); reflexivity].
  unfold min_len_of. destruct (mapM (get (dr_len dr)) (group_ids (dr_dil dr) g)) as [ls|er] eqn:E.
  - cbn [bind]. apply min_list_ok. intros ->. apply mapM_length in E. destruct (group_ids (dr_dil dr) g); [contradiction|discriminate].
  - exfalso. rewrite (mapM_ok _ (nthd 0 (dr_len dr))) in E; [discriminate|].
    intros j Hj. apply group_ids_in in Hj as (d & _ & Hd). apply nthZ_range in Hd. apply get_nthd. lia.
Qed.

Lemma mask_fold M nm g m1 m id index d n asize : get M nm = Ok m1 -> get m1 g = Ok m ->
  foldM (fun m j => foldM (fun m t => clear4 m nm g id t) (cleared index d n j) m) (zrange 0 asize) M =
  let* m' := foldM (fun m t => clear2 m id t) (positions index d n asize) m in upd_at M nm (fun m1 => set m1 g m').
Proof.
  intros H1 H2. rewrite foldM_concat. fold (positions index d n asize). unfold clear4.
  apply (upd_at2_fold (fun m t => clear2 m id t) (positions index d n asize) M nm g m1 m H1 H2).
Qed.

Definition u_step rs (localG : Z * Z -> list (list bool) -> G S (list (list bool) * option pick)) dr :=
  step (dnorm dr) (with_rs rs localG) u_put.


Lemma upd_set_ok (M : list (list (list (list bool)))) nm g m1 m m' : get M nm = Ok m1 -> get m1 g = Ok m ->
  exists M', upd_at M nm (fun m1 => set m1 g m') = Ok M'.
Proof.
  intros H1 H2. unfold upd_at. rewrite H1. cbn [bind]. rewrite (set_of_get m1 g m m' H2). cbn [bind].
  rewrite (set_of_get M nm m1 _ H1). eauto.
Qed.

Lemma U_SL_iter_step X y n_ts P dr rs st e sched : wf_drawn dr -> is_schedule (dr_dil dr) sched -> In e sched ->
  (let* p := U_SL_iter N rng X y n_ts P dr st e (rs (snd e)) in Ok (u_enc (fst p))) =
  u_step rs (U_SL_localG X y n_ts P dr) dr (u_enc st) e.
Proof.
  intros HW HS Hin. destruct e as [g i]. destruct (sched_event _ _ g i HS Hin) as [Hg Hi]. destruct HW as [W1 W2].
  pose proof (min_len_ok dr sched g i (conj W1 W2) HS Hin) as Hml.
  unfold U_SL_iter, u_step, step, with_rs, U_SL_localG, u_enc. cbn [fst snd].
  unfold bindG, liftG. rewrite Hml. cbn [bind fst snd].
  rewrite (get_nthd 0 (dr_dil dr) i) by lia. cbn [bind fst snd].
  rewrite (get_nthd 0 (dr_len dr) i) by lia. cbn [bind fst snd].
  rewrite (get_nthd false (dr_norm dr) i) by lia. cbn [bind fst snd].
  fold (dnorm dr i) (ddil dr i) (dlen dr i).
  destruct (get (u_mask st) (b2z (dnorm dr i))) as [m1|er] eqn:E1; [|reflexivity]. cbn [bind].
  destruct (get m1 g) as [m|er] eqn:E2; [|reflexivity]. cbn [bind fst snd].
  unfold nwin. set (l := dlen dr i). set (d := ddil dr i).
  set (im := where2 (map (fun r => slice r 0 (if g_phase P then n_ts else n_ts - (l - 1) * d)) m)).
  destruct (0 <? zlen im).
  - destruct (choice rng (map fst im) (rs i)) as [[id s1]|er]; [|reflexivity]. cbn [bind fst snd].
    destruct (choice rng (map snd (filter (fun p => fst p =? id) im)) s1) as [[index s2]|er]; [|reflexivity]. cbn [bind fst snd].
    rewrite (mask_fold (u_mask st) _ g m1 m id index d n_ts _ E1 E2).
    unfold u_rest, bindG, liftG, retG.
    destruct (foldM (fun m t => clear2 m id t) (positions index d n_ts (alpha_size N (g_alpha P) l (gmin dr g))) m) as [m'|er]; [|reflexivity].
    cbn [bind fst snd]. destruct (upd_set_ok (u_mask st) _ g m1 m m' E1 E2) as (M' & EM). rewrite EM. cbn [bind fst snd].
    destruct (u_series X id) as [x|er]; [|reflexivity]. cbn [bind fst snd].
    destruct (get_subsequence N x index l d (dnorm dr i) (g_phase P)) as [v|er]; [|reflexivity]. cbn [bind fst snd].
    destruct (pick_test rng y id s2) as [[tst s3]|er]; [|reflexivity]. cbn [bind fst snd].
    destruct (u_series X tst) as [xt|er]; [|reflexivity]. cbn [bind fst snd].
    destruct (compute_shapelet_dist_vector N xt v l d (dnorm dr i) (g_phase P)) as [xd|er]; [|reflexivity]. cbn [bind fst snd].
    destruct (draw_threshold N rng xd (g_pmin P) (g_pmax P) s3) as [[th s4]|er]; [|reflexivity]. cbn [bind fst snd].
    rewrite EM. cbn [bind u_put fst snd pk_thr pk_len pk_v].
    destruct (set (u_thr st) i th) as [thr'|er]; [|reflexivity]. cbn [bind fst snd].
    destruct (upd_at (u_val st) i (fun row => set_slice row 0 l v)) as [val'|er]; reflexivity.
  - unfold retG. cbn [bind fst snd u_put]. unfold upd_at. rewrite E1. cbn [bind]. rewrite (set_same m1 g m E2). cbn [bind].
    rewrite (set_same (u_mask st) _ m1 E1). cbn [bind]. reflexivity.
Qed.

Lemma U_VL_iter_step X X_len y P dr rs st e sched : wf_drawn dr -> is_schedule (dr_dil dr) sched -> In e sched ->
  (let* p := U_VL_iter N rng X X_len y P dr st e (rs (snd e)) in Ok (u_enc (fst p))) =
  u_step rs (U_VL_localG X X_len y P dr) dr (u_enc st) e.
Proof.
  intros HW HS Hin. destruct e as [g i]. destruct (sched_event _ _ g i HS Hin) as [Hg Hi]. destruct HW as [W1 W2].
  pose proof (min_len_ok dr sched g i (conj W1 W2) HS Hin) as Hml.
  unfold U_VL_iter, u_step, step, with_rs, U_VL_localG, u_enc. cbn [fst snd].
  unfold bindG, liftG. rewrite Hml. cbn [bind fst snd].
  rewrite (get_nthd 0 (dr_dil dr) i) by lia. cbn [bind fst snd].
  rewrite (get_nthd 0 (dr_len dr) i) by lia. cbn [bind fst snd].
  rewrite (get_nthd false (dr_norm dr) i) by lia. cbn [bind fst snd].
  fold (dnorm dr i) (ddil dr i) (dlen dr i).
  destruct (get (u_mask st) (b2z (dnorm dr i))) as [m1|er] eqn:E1; [|reflexivity]. cbn [bind].
  destruct (get m1 g) as [m|er] eqn:E2; [|reflexivity]. cbn [bind fst snd].
  unfold nwin. set (l := dlen dr i). set (d := ddil dr i).
  match goal with |- context [mapM ?f (zrange 0 (zlen X))] => destruct (mapM f (zrange 0 (zlen X))) as [im|er]; [|reflexivity] end.
  cbn [bind fst snd]. destruct (0 <? zlen (where_ im)).
  - destruct (choice rng (where_ im) (rs i)) as [[id s1]|er]; [|reflexivity]. cbn [bind fst snd].
    destruct (get X_len id) as [n_s|er]; [|reflexivity]. cbn [bind fst snd].
    destruct (get m id) as [r|er]; [|reflexivity]. cbn [bind fst snd].
    match goal with |- context [choice rng (where_ ?w) s1] => destruct (choice rng (where_ w) s1) as [[index s2]|er]; [|reflexivity] end.
    cbn [bind fst snd].
    rewrite (mask_fold (u_mask st) _ g m1 m id index d n_s _ E1 E2).
    unfold u_rest, bindG, liftG, retG.
    destruct (foldM (fun m t => clear2 m id t) (positions index d n_s (alpha_size N (g_alpha P) l (gmin dr g))) m) as [m'|er]; [|reflexivity].
    cbn [bind fst snd]. destruct (upd_set_ok (u_mask st) _ g m1 m m' E1 E2) as (M' & EM). rewrite EM. cbn [bind fst snd].
    destruct (u_series_vl X X_len id) as [x|er]; [|reflexivity]. cbn [bind fst snd].
    destruct (get_subsequence N x index l d (dnorm dr i) (g_phase P)) as [v|er]; [|reflexivity]. cbn [bind fst snd].
    destruct (pick_test rng y id s2) as [[tst s3]|er]; [|reflexivity]. cbn [bind fst snd].
    destruct (u_series_vl X X_len tst) as [xt|er]; [|reflexivity]. cbn [bind fst snd].
    destruct (compute_shapelet_dist_vector N xt v l d (dnorm dr i) (g_phase P)) as [xd|er]; [|reflexivity]. cbn [bind fst snd].
    destruct (draw_threshold N rng xd (g_pmin P) (g_pmax P) s3) as [[th s4]|er]; [|reflexivity]. cbn [bind fst snd].
    rewrite EM. cbn [bind u_put fst snd pk_thr pk_len pk_v].
    destruct (set (u_thr st) i th) as [thr'|er]; [|reflexivity]. cbn [bind fst snd].
    destruct (upd_at (u_val st) i (fun row => set_slice row 0 l v)) as [val'|er]; reflexivity.
  - unfold retG. cbn [bind fst snd u_put]. unfold upd_at. rewrite E1. cbn [bind]. rewrite (set_same m1 g m E2). cbn [bind].
    rewrite (set_same (u_mask st) _ m1 E1). cbn [bind]. reflexivity.
Qed.

Lemma run_enc {ST EN} (iter : ST -> Z * Z -> G S ST) (enc : ST -> EN) (stp : EN -> Z * Z -> res EN) rs sched :
  (forall st e, In e sched -> (let* p := iter st e (rs (snd e)) in Ok (enc (fst p))) = stp (enc st) e) ->
  forall st, (let* st' := run_sched iter rs sched st in Ok (enc st')) = foldM stp sched (enc st).
Proof.
  unfold run_sched. induction sched as [|e t IH]; intros H st; cbn [foldM]; [reflexivity|].
  specialize (IH (fun st e Hin => H st e (or_intror Hin))). rewrite <- (H st e (or_introl eq_refl)).
  destruct (iter st e (rs (snd e))) as [[st1 s1]|er]; cbn [bind fst]; [apply IH|reflexivity].
Qed.

End U.
Arguments mkPick {F}. Arguments pk_sample {F}. Arguments pk_index {F}. Arguments pk_test {F}. Arguments pk_len {F}.
Arguments pk_v {F}. Arguments pk_dist {F}. Arguments pk_thr {F}. Arguments pick : clear implicits.
