(** Multivariate shapelet generation: iterations seen as work on one part of the mask, flat arrays seen as one chunk
    per shapelet. *)
From Coq Require Import ZArith List Bool Lia Permutation.
From Verif Require Import Prelude Num Kernel Spec KernelProofs Apply ApplyUni ApplyMulti Gen GenSched GenBase GenUni.
Import ListNotations.
Open Scope Z_scope.

(** ** Chunks of flat arrays *)

(** [a[offsets[i]:offsets[i+1]] = v] on the chunks of [a] *)
Definition put_chunk {A} (gs : list (list A)) (i : Z) (v : list A) : res (list (list A)) :=
  upd_at gs i (fun r => let* _ := guard (zlen v =? zlen r) ValueError in Ok v).

Lemma upd_split {A} (l1 l2 : list A) x y : upd (l1 ++ x :: l2) (length l1) y = l1 ++ y :: l2.
Proof. induction l1 as [|a t IH]; cbn; [reflexivity|]. rewrite IH. reflexivity. Qed.

Lemma chunk_split {A} (gs : list (list A)) i : 0 <= i < zlen gs -> exists pre g post, gs = pre ++ g :: post /\ zlen pre = i /\ Z.to_nat i = length pre.
Proof.
  intros Hi. destruct (get_ok gs i Hi) as (g & _ & Hg). destruct (nthZ_split gs i g Hg) as (pre & post & E & Hp).
  exists pre, g, post. split; [exact E|]. split; [exact Hp|]. unfold zlen in Hp. lia.
Qed.

Lemma chunk_bounds {A} (gs : list (list A)) pre g post : gs = pre ++ g :: post ->
  get (offsets (map zlen gs)) (zlen pre) = Ok (zlen (concat pre)) /\
  get (offsets (map zlen gs)) (zlen pre + 1) = Ok (zlen (concat pre) + zlen g).
Proof.
  intros ->. split; [apply get_offsets|].
  replace (zlen pre + 1) with (zlen (pre ++ [g])) by (rewrite zlen_app; reflexivity).
  replace (pre ++ g :: post) with ((pre ++ [g]) ++ post) by (rewrite <- app_assoc; reflexivity).
  rewrite get_offsets, concat_app, zlen_app. cbn [concat]. rewrite app_nil_r. reflexivity.
Qed.

Lemma set_slice_mid {A} (a g b v : list A) : set_slice (a ++ g ++ b) (zlen a) (zlen a + zlen g) v =
  if zlen v =? zlen g then Ok (a ++ v ++ b) else Err ValueError.
Proof.
  pose proof (zlen_nonneg a). pose proof (zlen_nonneg b). pose proof (zlen_nonneg g).
  destruct (Z.eqb_spec (zlen v) (zlen g)) as [E|E].
  - rewrite set_slice_ok by (rewrite ?zlen_app; lia). f_equal.
    replace (Z.to_nat (zlen a)) with (length a) by (unfold zlen; lia).
    replace (Z.to_nat (zlen a + zlen g)) with (length a + length g)%nat by (unfold zlen; lia).
    rewrite firstn_app, Nat.sub_diag, firstn_O, app_nil_r, firstn_all.
    replace (a ++ g ++ b) with ((a ++ g) ++ b) by (rewrite app_assoc; reflexivity).
    rewrite skipn_app, app_length, Nat.sub_diag. rewrite skipn_all2 by (rewrite app_length; lia). reflexivity.
  - unfold set_slice, clip, wrap. rewrite !zlen_app.
    destruct (Z.ltb_spec (zlen a) 0); [lia|]. destruct (Z.ltb_spec (zlen a + zlen g) 0); [lia|].
    replace (Z.max (Z.max 0 (Z.min (zlen a + (zlen g + zlen b)) (zlen a))) (Z.max 0 (Z.min (zlen a + (zlen g + zlen b)) (zlen a + zlen g)))
             - Z.max 0 (Z.min (zlen a + (zlen g + zlen b)) (zlen a))) with (zlen g) by lia.
    destruct (Z.eqb_spec (zlen g) (zlen v)); [lia|reflexivity].
Qed.

(** the flat assignment is the assignment of the chunk *)
Lemma put_chunk_flat {A} (gs : list (list A)) i v : 0 <= i < zlen gs ->
  exists a b, get (offsets (map zlen gs)) i = Ok a /\ get (offsets (map zlen gs)) (i + 1) = Ok b /\
    match put_chunk gs i v with
    | Ok gs' => set_slice (concat gs) a b v = Ok (concat gs') /\ map zlen gs' = map zlen gs
    | Err _ => exists er, set_slice (concat gs) a b v = Err er
    end.
Proof.
  intros Hi. destruct (chunk_split gs i Hi) as (pre & g & post & E & Hp & Hn). destruct (chunk_bounds gs pre g post E) as [H1 H2]. rewrite Hp in *.
  exists (zlen (concat pre)), (zlen (concat pre) + zlen g). split; [exact H1|]. split; [exact H2|].
  assert (EC : concat gs = concat pre ++ g ++ concat post) by (rewrite E, concat_app; reflexivity). rewrite EC, set_slice_mid.
  assert (Hg : get gs i = Ok g). { apply get_nthZ; [lia|]. rewrite E, nthZ_app. rewrite <- Hp. rewrite Z.ltb_irrefl, Z.sub_diag. reflexivity. }
  unfold put_chunk, upd_at. rewrite Hg. cbn [bind]. destruct (zlen v =? zlen g) eqn:Ev; cbn [guard bind]; [|eauto].
  rewrite set_ok by exact Hi. split.
  - f_equal. rewrite Hn, E, upd_split, concat_app. reflexivity.
  - rewrite Hn, E, upd_split, !map_app. cbn [map]. apply Z.eqb_eq in Ev. rewrite Ev. reflexivity.
Qed.

Section M.
Context {F : Type} (N : NumOps F) {S : Type} (rng : Rng F S).

(** What an iteration that found an admissible start chose and computed. *)
Record mpick := mkMPick {
  mp_sample : Z; mp_index : Z; mp_test : Z; mp_chs : list Z; mp_v : list F; mp_dist : list F; mp_thr : F }.

Record mout := mkMout { out_thr : list F; out_val : list (list F); out_chan : list (list Z); out_ret : list bool }.

Definition m_put (i : Z) (w : option mpick) (o : mout) : res mout :=
  match w with
  | None => let* r := set (out_ret o) i false in Ok (mkMout (out_thr o) (out_val o) (out_chan o) r)
  | Some pk => let* t := set (out_thr o) i (mp_thr pk) in
               let* v := put_chunk (out_val o) i (mp_v pk) in
               let* c := put_chunk (out_chan o) i (mp_chs pk) in
               Ok (mkMout t v c (out_ret o))
  end.

Notation mpart := (list (list (list bool))).

Definition clear3 (m : mpart) (id ch t : Z) : res mpart := upd_at m id (fun m3 => upd_at m3 ch (fun r => set r t false)).

(** the loop over the channels on the part of the mask *)
Definition ch_step (P : gparams F) (ser : Z -> Z -> res (list F)) (id_sample id_test index l d n asize : Z) (nm : bool) (chs : list Z)
  (st : mpart * list F * list F) (k : Z) : res (mpart * list F * list F) :=
  let '(mask, x_dist, vals) := st in
  let* ch := get chs k in
  let* mask' := foldM (fun m t => clear3 m id_sample ch t) (positions index d n asize) mask in
  let* x := ser id_sample ch in
  let* v := get_subsequence N x index l d nm (g_phase P) in
  let* xt := ser id_test ch in
  let* dv := compute_shapelet_dist_vector N xt v l d nm (g_phase P) in
  let* x_dist' := vadd N x_dist dv in
  let* vals' := set_slice vals (k * l) ((k + 1) * l) v in
  Ok (mask', x_dist', vals').
Definition ch_loop P ser id_sample id_test index l d n asize nm chs st :=
  foldM (ch_step P ser id_sample id_test index l d n asize nm chs) (zrange 0 (zlen chs)) st.

Lemma lens_set {A} (M : list (list A)) nm g m1 m m' : get M nm = Ok m1 -> get m1 g = Ok m ->
  exists M' m1', upd_at M nm (fun m1 => set m1 g m') = Ok M' /\ get M' nm = Ok m1' /\ get m1' g = Ok m' /\
    forall m2, upd_at M' nm (fun m1 => set m1 g m2) = upd_at M nm (fun m1 => set m1 g m2).
Proof.
  intros H1 H2. unfold upd_at at 1. rewrite H1. cbn [bind]. rewrite (set_of_get m1 g m m' H2). cbn [bind]. rewrite (set_of_get M nm m1 _ H1).
  eexists _, _. split; [reflexivity|]. split; [apply (get_upd_same M nm m1); exact H1|]. split; [apply (get_upd_same m1 g m); exact H2|].
  intros m2. unfold upd_at. rewrite (get_upd_same M nm m1 _ H1), H1. cbn [bind].
  rewrite (set_of_get _ g m' m2 (get_upd_same m1 g m m' H2)), (set_of_get m1 g m m2 H2). cbn [bind].
  rewrite (set_of_get _ nm _ _ (get_upd_same M nm m1 _ H1)), (set_of_get M nm m1 _ H1).
  assert (W : forall B (l : list B) i x y z, get l i = Ok x -> upd (upd l (Z.to_nat (wrap (zlen l) i)) y) (Z.to_nat (wrap (zlen (upd l (Z.to_nat (wrap (zlen l) i)) y)) i)) z
     = upd l (Z.to_nat (wrap (zlen l) i)) z).
  { intros B l i x y z _. rewrite zlen_upd. apply upd_upd. }
  rewrite (W _ m1 g m m' m2 H2). rewrite (W _ M nm m1 _ _ H1). reflexivity.
Qed.

Lemma mask_fold3 (M : list (list mpart)) nm g m1 m id ch index d n asize : get M nm = Ok m1 -> get m1 g = Ok m ->
  foldM (fun m j => foldM (fun m t => clear5 m nm g id ch t) (cleared index d n j) m) (zrange 0 asize) M =
  let* m' := foldM (fun m t => clear3 m id ch t) (positions index d n asize) m in upd_at M nm (fun m1 => set m1 g m').
Proof.
  intros H1 H2. rewrite foldM_concat. fold (positions index d n asize). unfold clear5.
  apply (upd_at2_fold (fun m t => clear3 m id ch t) (positions index d n asize) M nm g m1 m H1 H2).
Qed.

Lemma ch_loop_whole P ser nm g id_sample id_test index l d n asize nmb chs ks : forall (M : list (list mpart)) m1 m xd vals, get M nm = Ok m1 -> get m1 g = Ok m ->
  foldM (fun st k =>
      let '(mask, x_dist, vals) := st in
      let* ch := get chs k in
      let* mask' := foldM (fun m j => foldM (fun m t => clear5 m nm g id_sample ch t) (cleared index d n j) m) (zrange 0 asize) mask in
      let* x := ser id_sample ch in
      let* v := get_subsequence N x index l d nmb (g_phase P) in
      let* xt := ser id_test ch in
      let* dv := compute_shapelet_dist_vector N xt v l d nmb (g_phase P) in
      let* x_dist' := vadd N x_dist dv in
      let* vals' := set_slice vals (k * l) ((k + 1) * l) v in
      Ok (mask', x_dist', vals')) ks (M, xd, vals) =
  let* r := foldM (ch_step P ser id_sample id_test index l d n asize nmb chs) ks (m, xd, vals) in
  let '(m', xd', vals') := r in
  let* M' := upd_at M nm (fun m1 => set m1 g m') in Ok (M', xd', vals').
Proof.
  induction ks as [|k ks IH]; intros M m1 m xd vals H1 H2; cbn [foldM].
  - cbn [bind]. unfold upd_at. rewrite H1. cbn [bind]. rewrite (set_same m1 g m H2). cbn [bind]. rewrite (set_same M nm m1 H1). reflexivity.
  - unfold ch_step at 1. destruct (get chs k) as [ch|er]; [|reflexivity]. cbn [bind].
    rewrite (mask_fold3 M nm g m1 m id_sample ch index d n asize H1 H2).
    destruct (foldM (fun m0 t => clear3 m0 id_sample ch t) (positions index d n asize) m) as [m'|er]; [|reflexivity]. cbn [bind].
    destruct (lens_set M nm g m1 m m' H1 H2) as (M' & m1' & EM & G1 & G2 & EQ). rewrite EM. cbn [bind].
    destruct (ser id_sample ch) as [x|er]; [|reflexivity]. cbn [bind].
    destruct (get_subsequence N x index l d nmb (g_phase P)) as [v|er]; [|reflexivity]. cbn [bind].
    destruct (ser id_test ch) as [xt|er]; [|reflexivity]. cbn [bind].
    destruct (compute_shapelet_dist_vector N xt v l d nmb (g_phase P)) as [dv|er]; [|reflexivity]. cbn [bind].
    destruct (vadd N xd dv) as [xd'|er]; [|reflexivity]. cbn [bind].
    destruct (set_slice vals (k * l) ((k + 1) * l) v) as [vals'|er]; [|reflexivity]. cbn [bind].
    rewrite (IH M' m1' m' xd' vals' G1 G2).
    destruct (foldM (ch_step P ser id_sample id_test index l d n asize nmb chs) ks (m', xd', vals')) as [[[m2 xd2] v2]|er]; [|reflexivity]. cbn [bind].
    rewrite EQ. reflexivity.
Qed.

Lemma M_channels_lens P ser nm g id_sample id_test index l d n asize nmb chs (M : list (list mpart)) m1 m xd vals : get M nm = Ok m1 -> get m1 g = Ok m ->
  M_channels N P ser nm g id_sample id_test index l d n asize nmb chs (M, xd, vals) =
  let* r := ch_loop P ser id_sample id_test index l d n asize nmb chs (m, xd, vals) in
  let '(m', xd', vals') := r in
  let* M' := upd_at M nm (fun m1 => set m1 g m') in Ok (M', xd', vals').
Proof. apply ch_loop_whole. Qed.

(** the part of the iteration after the choice of (sample, test, index), same for both variants *)
Definition m_rest (srs : Z -> Z -> res (list F)) (P : gparams F) (l d : Z) (nm : bool) (asize n id tst index : Z) (chs : list Z)
  (m : mpart) (xd vals : list F) : G S (mpart * option mpick) :=
  let! r := liftG (ch_loop P srs id tst index l d n asize nm chs (m, xd, vals)) in
  let! thr := draw_threshold N rng (snd (fst r)) (g_pmin P) (g_pmax P) in
  retG (fst (fst r), Some (mkMPick id index tst chs (snd r) (snd (fst r)) thr)).

Definition dnch (nch : list Z) (i : Z) : Z := nthd 0 nch i.

Definition M_SL_localG (X : dataset F) (y : list Z) (nf n_ts : Z) (P : gparams F) (dr : drawn) (nch : list Z) (e : Z * Z) (m : mpart)
  : G S (mpart * option mpick) :=
  let i := snd e in
  let l := dlen dr i in let d := ddil dr i in
  let nc := dnch nch i in
  let bound := nwin (g_phase P) n_ts l d in
  let! vals := liftG (full (nc * l) (n0 N)) in
  let! chs := choice_norep rng (zrange 0 nf) nc in
  let! cnts := liftG (mapM (fun sm => channel_counts sm chs bound) m) in
  let i_mask := where2 (map (enough N nc (g_alpha P)) cnts) in
  if 0 <? zlen i_mask then
    let! xd := liftG (full bound (n0 N)) in
    let! id := choice rng (map fst i_mask) in
    let! index := choice rng (map snd (filter (fun p => fst p =? id) i_mask)) in
    let! tst := pick_test rng y id in
    m_rest (ch_series X) P l d (dnorm dr i) (alpha_size N (g_alpha P) l (gmin dr (fst e))) n_ts id tst index chs m xd vals
  else retG (m, None).

Definition M_VL_localG (X : dataset F) (X_len : list Z) (y : list Z) (nf : Z) (P : gparams F) (dr : drawn) (nch : list Z) (e : Z * Z) (m : mpart)
  : G S (mpart * option mpick) :=
  let i := snd e in
  let l := dlen dr i in let d := ddil dr i in
  let nc := dnch nch i in
  let bound n := nwin (g_phase P) n l d in
  let! chs := choice_norep rng (zrange 0 nf) nc in
  let! vals := liftG (full (nc * l) (n0 N)) in
  let! i_mask := liftG (mapM (fun i_x => let* sm := get m i_x in let* n := get X_len i_x in
                                         let* c := channel_counts sm chs (bound n) in
                                         Ok (existsb (fun b : bool => b) (enough N nc (g_alpha P) c)))
                             (zrange 0 (zlen X))) in
  if 0 <? zlen (where_ i_mask) then
    let! id := choice rng (where_ i_mask) in
    let! tst := pick_test rng y id in
    let! n_t := liftG (get X_len tst) in
    let! xd := liftG (full (bound n_t) (n0 N)) in
    let! n_s := liftG (get X_len id) in
    let! sm := liftG (get m id) in
    let! c := liftG (channel_counts sm chs (bound n_s)) in
    let! index := choice rng (where_ (enough N nc (g_alpha P) c)) in
    m_rest (ch_series_vl X X_len) P l d (dnorm dr i) (alpha_size N (g_alpha P) l (gmin dr (fst e))) n_s id tst index chs m xd vals
  else retG (m, None).

(** the state of the run and its reading by chunks *)
Record reads (dr : drawn) (nch : list Z) (st : mst F) (q : list (list mpart) * mout) : Prop := {
  re_mask : m_mask st = fst q;
  re_thr : m_thr st = out_thr (snd q);
  re_ret : m_ret st = out_ret (snd q);
  re_val : m_val st = concat (out_val (snd q));
  re_chan : m_chan st = concat (out_chan (snd q));
  re_vl : map zlen (out_val (snd q)) = zmul_list nch (dr_len dr);
  re_cl : map zlen (out_chan (snd q)) = nch }.

(** both fail or both succeed with related results *)
Definition sim {A B} (Q : A -> B -> Prop) (a : res A) (b : res B) : Prop :=
  match a, b with Ok x, Ok y => Q x y | Err _, Err _ => True | _, _ => False end.

Definition m_step rs (localG : Z * Z -> mpart -> G S (mpart * option mpick)) dr := step (dnorm dr) (with_rs rs localG) m_put.

Definition wf_m (dr : drawn) (nch : list Z) : Prop := wf_drawn dr /\ zlen nch = zlen (dr_len dr).

Lemma zlen_zmul a b : zlen a = zlen b -> zlen (zmul_list a b) = zlen a.
Proof.
  revert b. induction a as [|x a IH]; intros [|z b] H; rewrite ?zlen_cons in H; cbn [zmul_list].
  - reflexivity.
  - change (zlen (@nil Z)) with 0 in H. pose proof (zlen_nonneg b). lia.
  - change (zlen (@nil Z)) with 0 in H. pose proof (zlen_nonneg a). lia.
  - unfold zmul_list in *. cbn [combine map]. rewrite !zlen_cons. rewrite IH; lia.
Qed.

(** the end of an iteration that found a start *)
Lemma store_sim dr nch st q i pk M' : wf_m dr nch -> 0 <= i < zlen (dr_len dr) -> reads dr nch st q ->
  sim (reads dr nch)
    (let* vc := M_store dr nch i (mp_v pk) (mp_chs pk) st in
     let* thr' := set (m_thr st) i (mp_thr pk) in Ok (mkMst M' thr' (fst vc) (snd vc) (m_ret st)))
    (let* o' := m_put i (Some pk) (snd q) in Ok (M', o')).
Proof.
  intros [[W1 W2] W3] Hi [R1 R2 R3 R4 R5 R6 R7].
  assert (ZV : zlen (out_val (snd q)) = zlen (dr_len dr)) by (rewrite <- (zlen_map zlen), R6, zlen_zmul; lia).
  assert (ZC : zlen (out_chan (snd q)) = zlen (dr_len dr)) by (rewrite <- (zlen_map zlen), R7; exact W3).
  destruct (put_chunk_flat (out_val (snd q)) i (mp_v pk) ltac:(lia)) as (a & b & E1 & E2 & E3). rewrite R6 in E1, E2.
  destruct (put_chunk_flat (out_chan (snd q)) i (mp_chs pk) ltac:(lia)) as (c & d & E4 & E5 & E6). rewrite R7 in E4, E5.
  unfold M_store. rewrite E1, E2, E4, E5, R4, R5, R2. cbn [bind m_put].
  destruct (put_chunk (out_val (snd q)) i (mp_v pk)) as [gs'|er].
  - destruct E3 as [E3 L3]. rewrite E3. cbn [bind].
    destruct (put_chunk (out_chan (snd q)) i (mp_chs pk)) as [cs'|er].
    + destruct E6 as [E6 L6]. rewrite E6. cbn [bind fst snd]. destruct (set (out_thr (snd q)) i (mp_thr pk)) as [th|er]; cbn [bind sim]; [|exact I].
      split; cbn [m_mask m_thr m_val m_chan m_ret fst snd out_thr out_val out_chan out_ret]; congruence.
    + destruct E6 as [er' E6]. rewrite E6. cbn [bind]. destruct (set (out_thr (snd q)) i (mp_thr pk)) as [th|er2]; cbn [bind sim]; exact I.
  - destruct E3 as [er' E3]. rewrite E3. cbn [bind]. destruct (set (out_thr (snd q)) i (mp_thr pk)) as [th|er2]; cbn [bind sim]; exact I.
Qed.

Lemma none_sim dr nch st q i : reads dr nch st q ->
  sim (reads dr nch) (let* ret' := set (m_ret st) i false in Ok (mkMst (m_mask st) (m_thr st) (m_val st) (m_chan st) ret'))
    (let* o' := m_put i None (snd q) in Ok (fst q, o')).
Proof.
  intros [R1 R2 R3 R4 R5 R6 R7]. cbn [m_put]. rewrite R3. destruct (set (out_ret (snd q)) i false) as [r|er]; cbn [bind sim]; [|exact I].
  split; cbn [m_mask m_thr m_val m_chan m_ret fst snd out_thr out_val out_chan out_ret]; congruence.
Qed.

(** from the loop over the channels on *)
Lemma rest_sim P ser dr nch st q i g m1 m id tst index l d nmb n asize chs xd vals s :
  wf_m dr nch -> 0 <= i < zlen (dr_len dr) -> reads dr nch st q ->
  get (fst q) (b2z (dnorm dr i)) = Ok m1 -> get m1 g = Ok m ->
  sim (reads dr nch)
    (let* p := (let! r := liftG (M_channels N P ser (b2z (dnorm dr i)) g id tst index l d n asize nmb chs (m_mask st, xd, vals)) in
       let '(mask', x_dist', vals) := r in
       let! vc := liftG (M_store dr nch i vals chs st) in
       let! thr := draw_threshold N rng x_dist' (g_pmin P) (g_pmax P) in
       let! thr' := liftG (set (m_thr st) i thr) in
       retG (mkMst mask' thr' (fst vc) (snd vc) (m_ret st))) s in Ok (fst p))
    (let* p := m_rest ser P l d nmb asize n id tst index chs m xd vals s in
     let* M' := upd_at (fst q) (b2z (dnorm dr i)) (fun m1 => set m1 g (fst (fst p))) in
     let* o' := m_put i (snd (fst p)) (snd q) in Ok (M', o')).
Proof.
  intros HW Hi HR G1 G2. unfold m_rest, bindG, liftG, retG.
  rewrite (re_mask _ _ _ _ HR). rewrite (M_channels_lens P ser _ g id tst index l d n asize nmb chs (fst q) m1 m xd vals G1 G2).
  destruct (ch_loop P ser id tst index l d n asize nmb chs (m, xd, vals)) as [[[m' xd'] vals']|er]; [|exact I]. cbn [bind fst snd].
  destruct (lens_set (fst q) _ g m1 m m' G1 G2) as (M' & m1' & EM & _). rewrite EM. cbn [bind fst snd].
  pose proof (fun th => store_sim dr nch st q i (mkMPick id index tst chs vals' xd' th) M' HW Hi HR) as SS. cbn [mp_v mp_chs mp_thr] in SS.
  destruct (draw_threshold N rng xd' (g_pmin P) (g_pmax P) s) as [[th s2]|er] eqn:ED.
  - cbn [bind fst snd]. specialize (SS th). rewrite EM. cbn [bind].
    destruct (M_store dr nch i vals' chs st) as [vc|er]; cbn [bind fst snd] in *; [|exact SS]. rewrite ED. cbn [bind fst snd].
    destruct (set (m_thr st) i th) as [t'|er]; cbn [bind fst snd] in *; exact SS.
  - cbn [bind fst snd]. destruct (M_store dr nch i vals' chs st) as [vc|er2]; cbn [bind fst snd]; [rewrite ED|]; exact I.
Qed.

Lemma bindG_at {A B} (m : G S A) (f : A -> G S B) s : bindG m f s = let* p := m s in f (fst p) (snd p).
Proof. reflexivity. Qed.
Lemma liftG_at {A} (m : res A) (s : S) : liftG m s = let* a := m in Ok (a, s).
Proof. reflexivity. Qed.
Ltac hd := repeat (progress (rewrite ?bindG_at, ?liftG_at; cbn [bind fst snd])).

Lemma M_SL_iter_sim X y nf n_ts P dr nch rs st q e sched : wf_m dr nch -> is_schedule (dr_dil dr) sched -> In e sched -> reads dr nch st q ->
  sim (reads dr nch) (let* p := M_SL_iter N rng X y nf n_ts P dr nch st e (rs (snd e)) in Ok (fst p))
    (m_step rs (M_SL_localG X y nf n_ts P dr nch) dr q e).
Proof.
  intros HW HS Hin HR. destruct e as [g i]. destruct (sched_event _ _ g i HS Hin) as [Hg Hi]. pose proof HW as [[W1 W2] W3].
  pose proof (min_len_ok dr sched g i (conj W1 W2) HS Hin) as Hml.
  unfold M_SL_iter, m_step, step, with_rs, M_SL_localG. cbn [fst snd].
  hd. rewrite Hml. hd.
  rewrite (get_nthd 0 (dr_dil dr) i) by lia. hd. rewrite (get_nthd 0 (dr_len dr) i) by lia. hd.
  rewrite (get_nthd false (dr_norm dr) i) by lia. hd. rewrite (get_nthd 0 nch i) by lia. hd.
  fold (dnorm dr i) (ddil dr i) (dlen dr i) (dnch nch i).
  assert (EG : get (m_mask st) (b2z (dnorm dr i)) = get (fst q) (b2z (dnorm dr i))) by (rewrite (re_mask _ _ _ _ HR); reflexivity).
  rewrite EG. clear EG.
  destruct (get (fst q) (b2z (dnorm dr i))) as [m1|er] eqn:E1; [|exact I]. cbn [bind].
  destruct (get m1 g) as [m|er] eqn:E2; [|exact I]. hd.
  unfold nwin. set (l := dlen dr i). set (d := ddil dr i). set (nc := dnch nch i).
  destruct (full (nc * l) (n0 N)) as [vals|er]; [|exact I]. hd.
  destruct (choice_norep rng (zrange 0 nf) nc (rs i)) as [[chs s1]|er]; [|exact I]. hd.
  set (bnd := if g_phase P then n_ts else n_ts - (l - 1) * d).
  destruct (mapM (fun sm => channel_counts sm chs bnd) m) as [cnts|er]; [|exact I]. hd.
  set (im := where2 (map (enough N nc (g_alpha P)) cnts)). destruct (0 <? zlen im).
  - hd. destruct (full bnd (n0 N)) as [xd|er]; [|exact I]. hd.
    destruct (choice rng (map fst im) s1) as [[id s2]|er]; [|exact I]. hd.
    destruct (choice rng (map snd (filter (fun p => fst p =? id) im)) s2) as [[index s3]|er]; [|exact I]. hd.
    destruct (pick_test rng y id s3) as [[tst s4]|er]; [|exact I]. cbn [bind fst snd].
    pose proof (rest_sim P (ch_series X) dr nch st q i g m1 m id tst index l d (dnorm dr i) n_ts (alpha_size N (g_alpha P) l (gmin dr g)) chs xd vals s4 HW ltac:(lia) HR E1 E2) as SS.
    match goal with |- sim _ _ (bind (bind ?a _) _) => destruct a as [p|er] end; cbn [bind fst snd] in *; exact SS.
  - pose proof (none_sim dr nch st q i HR) as SS. unfold retG. hd.
    unfold upd_at. rewrite E1. cbn [bind]. rewrite (set_same m1 g m E2). cbn [bind]. rewrite (set_same (fst q) _ m1 E1). cbn [bind].
    destruct (set (m_ret st) i false) as [r|er]; cbn [bind fst snd] in *; exact SS.
Qed.

Lemma M_VL_iter_sim X X_len y nf P dr nch rs st q e sched : wf_m dr nch -> is_schedule (dr_dil dr) sched -> In e sched -> reads dr nch st q ->
  sim (reads dr nch) (let* p := M_VL_iter N rng X X_len y nf P dr nch st e (rs (snd e)) in Ok (fst p))
    (m_step rs (M_VL_localG X X_len y nf P dr nch) dr q e).
Proof.
  intros HW HS Hin HR. destruct e as [g i]. destruct (sched_event _ _ g i HS Hin) as [Hg Hi]. pose proof HW as [[W1 W2] W3].
  pose proof (min_len_ok dr sched g i (conj W1 W2) HS Hin) as Hml.
  unfold M_VL_iter, m_step, step, with_rs, M_VL_localG. cbn [fst snd].
  hd. rewrite Hml. hd.
  rewrite (get_nthd 0 (dr_dil dr) i) by lia. hd. rewrite (get_nthd 0 (dr_len dr) i) by lia. hd.
  rewrite (get_nthd false (dr_norm dr) i) by lia. hd. rewrite (get_nthd 0 nch i) by lia. hd.
  fold (dnorm dr i) (ddil dr i) (dlen dr i) (dnch nch i).
  assert (EG : get (m_mask st) (b2z (dnorm dr i)) = get (fst q) (b2z (dnorm dr i))) by (rewrite (re_mask _ _ _ _ HR); reflexivity).
  unfold nwin. set (l := dlen dr i). set (d := ddil dr i). set (nc := dnch nch i).
  rewrite EG. clear EG.
  destruct (get (fst q) (b2z (dnorm dr i))) as [m1|er] eqn:E1.
  2:{ cbn [bind]. destruct (choice_norep rng (zrange 0 nf) nc (rs i)) as [[chs s1]|er2]; [|exact I]. hd. destruct (full (nc * l) (n0 N)); exact I. }
  cbn [bind]. destruct (get m1 g) as [m|er] eqn:E2.
  2:{ cbn [bind]. destruct (choice_norep rng (zrange 0 nf) nc (rs i)) as [[chs s1]|er2]; [|exact I]. hd. destruct (full (nc * l) (n0 N)); exact I. }
  hd. destruct (choice_norep rng (zrange 0 nf) nc (rs i)) as [[chs s1]|er]; [|exact I]. hd.
  destruct (full (nc * l) (n0 N)) as [vals|er]; [|exact I]. hd.
  match goal with |- context [mapM ?f (zrange 0 (zlen X))] => destruct (mapM f (zrange 0 (zlen X))) as [im|er]; [|exact I] end. hd.
  destruct (0 <? zlen (where_ im)).
  - hd. destruct (choice rng (where_ im) s1) as [[id s2]|er]; [|exact I]. hd.
    destruct (pick_test rng y id s2) as [[tst s3]|er]; [|exact I]. hd.
    destruct (get X_len tst) as [n_t|er]; [|exact I]. hd.
    match goal with |- context [full ?b (n0 N)] => destruct (full b (n0 N)) as [xd|er]; [|exact I] end. hd.
    destruct (get X_len id) as [n_s|er]; [|exact I]. hd.
    destruct (get m id) as [sm|er]; [|exact I]. hd.
    match goal with |- context [channel_counts sm chs ?b] => destruct (channel_counts sm chs b) as [c|er]; [|exact I] end. hd.
    destruct (choice rng (where_ (enough N nc (g_alpha P) c)) s3) as [[index s4]|er]; [|exact I]. cbn [bind fst snd].
    pose proof (rest_sim P (ch_series_vl X X_len) dr nch st q i g m1 m id tst index l d (dnorm dr i) n_s (alpha_size N (g_alpha P) l (gmin dr g)) chs xd vals s4 HW ltac:(lia) HR E1 E2) as SS.
    match goal with |- sim _ _ (bind (bind ?a _) _) => destruct a as [p|er] end; cbn [bind fst snd] in *; exact SS.
  - pose proof (none_sim dr nch st q i HR) as SS. unfold retG. hd.
    unfold upd_at. rewrite E1. cbn [bind]. rewrite (set_same m1 g m E2). cbn [bind]. rewrite (set_same (fst q) _ m1 E1). cbn [bind].
    destruct (set (m_ret st) i false) as [r|er]; cbn [bind fst snd] in *; exact SS.
Qed.

Lemma run_sim {ST EN} (Q : ST -> EN -> Prop) (iter : ST -> Z * Z -> G S ST) (stp : EN -> Z * Z -> res EN) rs sched :
  (forall st q e, In e sched -> Q st q -> sim Q (let* p := iter st e (rs (snd e)) in Ok (fst p)) (stp q e)) ->
  forall st q, Q st q -> sim Q (run_sched iter rs sched st) (foldM stp sched q).
Proof.
  unfold run_sched. induction sched as [|e t IH]; intros H st q HQ; cbn [foldM]; [exact HQ|].
  pose proof (H st q e (or_introl eq_refl) HQ) as H1.
  destruct (iter st e (rs (snd e))) as [[st1 s1]|er], (stp q e) as [q1|er2]; cbn [bind fst sim] in *; try contradiction; [|exact I].
  apply IH; [|exact H1]. intros st' q' e' Hin. apply H. right. exact Hin.
Qed.
End M.
Arguments mkMPick {F}. Arguments mp_sample {F}. Arguments mp_index {F}. Arguments mp_test {F}. Arguments mp_chs {F}.
Arguments mp_v {F}. Arguments mp_dist {F}. Arguments mp_thr {F}. Arguments mpick : clear implicits.
Arguments mkMout {F}. Arguments out_thr {F}. Arguments out_val {F}. Arguments out_chan {F}. Arguments out_ret {F}. Arguments mout : clear implicits.
