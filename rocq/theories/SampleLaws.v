(** Laws relating the rows of two transform calls that use the same shapelets. *)
From Coq Require Import ZArith List Bool Reals Lra Lia Permutation.
From Verif Require Import Prelude Num Kernel Spec KernelProofs CombProofs Parallel Apply ApplyProofs ApplyUni ApplyMulti
  RealBase RealProofs TransformProofs TransformLaws.
Import ListNotations.
Open Scope Z_scope.

(** The channels (real points only) of sample [i] that a call looks at. *)
Inductive sample_at {F} : call F -> Z -> list (list F) -> Prop :=
| sample_US X s i x sr : nthZ X i = Some x -> nthZ x 0 = Some sr -> sample_at (CallUS X s) i [sr]
| sample_UV X X_len s i sr : real_points X X_len i sr -> sample_at (CallUV X X_len s) i [sr]
| sample_MS nf n X s L i x : nthZ X i = Some x -> sample_at (CallMS nf n X s L) i x
| sample_MV nf n X X_len s L i ni x : mreal_points X X_len i ni x -> sample_at (CallMV nf n X X_len s L) i x.

(** The two calls use the same shapelets on data of the same kind. *)
Inductive same_shapelets {F} : call F -> call F -> Prop :=
| same_US X X' s : same_shapelets (CallUS X s) (CallUS X' s)
| same_UV X X_len X' X_len' s : same_shapelets (CallUV X X_len s) (CallUV X' X_len' s)
| same_MS nf n n' X X' s L : same_shapelets (CallMS nf n X s L) (CallMS nf n' X' s L)
| same_MV nf n n' X X_len X' X_len' s L : same_shapelets (CallMV nf n X X_len s L) (CallMV nf n' X' X_len' s L).

(** Shapelet [k] of a call, as channels with values. Univariate shapelets use channel 0. *)
Inductive shapelet_at {F} : call F -> Z -> list Z -> list (list F) -> Z -> Z -> F -> bool -> Prop :=
| shp_US X s k v l d thr nm : ushp_at s k v l d thr nm -> shapelet_at (CallUS X s) k [0] [v] l d thr nm
| shp_UV X X_len s k v l d thr nm : ushp_at s k v l d thr nm -> shapelet_at (CallUV X X_len s) k [0] [v] l d thr nm
| shp_MS nf n X s L k chs vs l d thr nm : mshp_at s L k chs vs l d thr nm -> shapelet_at (CallMS nf n X s L) k chs vs l d thr nm
| shp_MV nf n X X_len s L k chs vs l d thr nm : mshp_at s L k chs vs l d thr nm -> shapelet_at (CallMV nf n X X_len s L) k chs vs l d thr nm.

Lemma same_shapelet_at {F} (c c' : call F) k chs vs l d thr nm : same_shapelets c c' ->
  shapelet_at c k chs vs l d thr nm -> shapelet_at c' k chs vs l d thr nm.
Proof. intros H H'. destruct H; inversion H'; subst; constructor; assumption. Qed.

Lemma real_points_zlen {F} (x : list (list F)) : zlen x = 1 -> exists r, x = [r].
Proof. destruct x as [|r [|r' t]]; rewrite ?zlen_cons; change (zlen (@nil (list F))) with 0; intros; try lia; eauto. pose proof (zlen_nonneg t). lia. Qed.

(** over numbers with 0 + x = x, both kinds of distances are sums over channels *)
Lemma distances_mdistances ph nm (sr v : list R) l d :
  distances RN ph nm sr v l d = mdistances RN ph nm (zlen sr) [sr] [0] [v] l d.
Proof.
  unfold distances, mdistances. apply map_ext. intros i. cbn [combine map]. unfold sumF. cbn [fold_left fst snd].
  change (nthd [] [sr] 0) with sr. symmetry. apply R_add0.
Qed.

(** common shape of the sample *)
Lemma sample_shape {F} (c : call F) i x : wf_call c -> sample_at c i x -> 
  x <> [] /\ exists n, 0 <= n /\ forall r, In r x -> zlen r = n.
Proof.
  intros HW H. destruct H as [X s i x sr H1 H2|X X_len s i sr H|nf n X s L i x H|nf n X X_len s L i ni x H]; cbn in HW.
  - split; [discriminate|]. exists (zlen sr). split; [apply zlen_nonneg|]. intros r [<-|[]]. reflexivity.
  - split; [discriminate|]. exists (zlen sr). split; [apply zlen_nonneg|]. intros r [<-|[]]. reflexivity.
  - destruct HW as ((H1 & H2 & H3) & _). destruct (H3 x (nthZ_In _ _ _ H)) as [E HR].
    split; [intros ->; change (zlen (@nil (list F))) with 0 in E; lia|]. exists n. split; [exact H2|exact HR].
  - destruct HW as (HX & HV & _). pose proof H as H'. apply mreal_points_ser in H' as (<- & <- & Hi).
    destruct (mser_vl_at nf n X X_len i HX HV Hi) as (_ & A & B & C & D). split; [exact C|]. exists (nthd 0 X_len i). auto.
Qed.

(** the distance vector of a (sample, shapelet) pair, whatever the kind of call *)
Lemma dist_of_sample (c : call R) ph i k x chs vs l d thr nm n : wf_call c -> sample_at c i x -> shapelet_at c k chs vs l d thr nm ->
  (forall r, In r x -> zlen r = n) ->
  dist_of RN ph c i k (mdistances RN ph nm n x chs vs l d) thr.
Proof.
  intros HW HS HK Hn.
  destruct HS as [X s i x sr H1 H2|X X_len s i sr H|nf n' X s L i x H|nf n' X X_len s L i ni x H]; inversion HK; subst; try match goal with HM : mshp_at _ _ _ _ _ _ _ _ _ |- _ => rename HM into HMS | HM : ushp_at _ _ _ _ _ _ _ |- _ => rename HM into HMS end.
  - rewrite <- (Hn sr) by (left; reflexivity). rewrite <- distances_mdistances. eapply dist_US; eauto.
  - rewrite <- (Hn sr) by (left; reflexivity). rewrite <- distances_mdistances. eapply dist_UV; [exact H|eassumption].
  - cbn in HW. destruct HW as ((M1 & M2 & M3) & _). destruct (M3 x (nthZ_In _ _ _ H)) as [E HR].
    assert (n = n').
    { destruct x as [|r t]; [change (zlen (@nil (list R))) with 0 in E; lia|]. rewrite <- (Hn r), <- (HR r); auto; left; reflexivity. }
    subst n'. eapply dist_MS; eauto.
  - cbn in HW. destruct HW as (HX & HV & _). pose proof H as H'. apply mreal_points_ser in H' as (E1 & E2 & Hi).
    destruct (mser_vl_at nf n' X X_len i HX HV Hi) as (_ & A & B & C & D). rewrite E1, E2 in *.
    assert (Hnn : n = ni). { destruct x as [|r t]; [congruence|]. rewrite <- (Hn r), <- (B r); auto; left; reflexivity. }
    rewrite Hnn. eapply dist_MV; [exact H|eassumption].
Qed.

Lemma sample_zlen {F} (c : call F) i x k chs vs l d thr nm ch : wf_call c -> sample_at c i x -> shapelet_at c k chs vs l d thr nm ->
  In ch chs -> 0 <= ch < zlen x.
Proof.
  intros HW HS HK Hc.
  destruct HS as [X s i x sr H1 H2|X X_len s i sr H|nf n' X s L i x H|nf n' X X_len s L i ni x H]; inversion HK; subst; try match goal with HM : mshp_at _ _ _ _ _ _ _ _ _ |- _ => rename HM into HMS | HM : ushp_at _ _ _ _ _ _ _ |- _ => rename HM into HMS end.
  - destruct Hc as [<-|[]]. change (zlen [sr]) with 1. lia.
  - destruct Hc as [<-|[]]. change (zlen [sr]) with 1. lia.
  - destruct HW as ((M1 & M2 & M3) & HP & HC). destruct (M3 x (nthZ_In _ _ _ H)) as [-> HR].
    destruct HMS as (K & _). apply (HC (chs, vs)); [eapply nthZ_In; eauto|exact Hc].
  - destruct HW as (HX & HV & HP & HC). apply mreal_points_ser in H as (E1 & E2 & Hi).
    destruct (mser_vl_at nf n' X X_len i HX HV Hi) as (_ & A & B & C & D). rewrite E1, E2 in *. rewrite A.
    destruct HMS as (K & _). apply (HC (chs, vs)); [eapply nthZ_In; eauto|exact Hc].
Qed.

(** If the call succeeded the shapelets fit the samples. *)
Lemma run_fits {F} (N : NumOps F) (c : call F) ph T i x k chs vs l d thr nm n : wf_call c -> run N c ph = Ok T -> sample_at c i x ->
  shapelet_at c k chs vs l d thr nm -> (forall r, In r x -> zlen r = n) -> fits ph n l d.
Proof.
  intros HW HT HS HK Hn.
  destruct HS as [X s i x sr H1 H2|X X_len s i sr H|nf n' X s L i x H|nf n' X X_len s L i ni x H]; inversion HK; subst; try match goal with HM : mshp_at _ _ _ _ _ _ _ _ _ |- _ => rename HM into HMS | HM : ushp_at _ _ _ _ _ _ _ |- _ => rename HM into HMS end; cbn in HW, HT.
  - destruct HW. edestruct (U_SL_cell N X s ph T) as [HF _]; [eassumption|eassumption|exact HT|exact H1|exact H2|exact HMS|].
    rewrite (Hn sr) in HF by (left; reflexivity). exact HF.
  - destruct HW as (A & B & C). edestruct (U_VL_cell N X X_len s ph T) as [HF _]; [exact A|exact B|exact C|exact HT|exact H|exact HMS|].
    rewrite (Hn sr) in HF by (left; reflexivity). exact HF.
  - destruct HW as (A & B & C). edestruct (M_SL_cell N X nf n' s L ph T) as [HF _]; [exact A|exact B|exact C|exact HT|exact H|exact HMS|].
    destruct A as (M1 & M2 & M3). destruct (M3 x (nthZ_In _ _ _ H)) as [E HR].
    destruct x as [|r t]; [change (zlen (@nil (list F))) with 0 in E; lia|]. rewrite <- (Hn r), (HR r) by (left; reflexivity). exact HF.
  - destruct HW as (A & B & C & D). edestruct (M_VL_cell N X X_len nf n' s L ph T) as [HF _]; [exact A|exact B|exact C|exact D|exact HT|exact H|exact HMS|].
    apply mreal_points_ser in H as (E1 & E2 & Hi).
    destruct (mser_vl_at nf n' X X_len i A B Hi) as (_ & A1 & A2 & A3 & A4). rewrite E1, E2 in *.
    destruct x as [|r t]; [congruence|]. rewrite <- (Hn r), (A2 r) by (left; reflexivity). exact HF.
Qed.

(** A feature triple of a result is the features of the distance vector. *)
Lemma cell_features (c : call R) ph T i k x chs vs l d thr nm n f : wf_call c -> run RN c ph = Ok T -> sample_at c i x ->
  shapelet_at c k chs vs l d thr nm -> (forall r, In r x -> zlen r = n) -> cell3 T i k f ->
  is_features RN (mdistances RN ph nm n x chs vs l d) thr f.
Proof.
  intros HW HT HS HK Hn HC. pose proof (dist_of_sample c ph i k x chs vs l d thr nm n HW HS HK Hn) as HD.
  pose proof (call_cell RN c ph T i k _ _ HW HT HD) as HC'. rewrite (cell3_unique T i k _ _ HC HC'). apply feats_R.
  intros y Hy. eapply mdistances_nonneg; eauto.
Qed.

Lemma cell_exists (c : call R) ph T i k x chs vs l d thr nm n : wf_call c -> run RN c ph = Ok T -> sample_at c i x ->
  shapelet_at c k chs vs l d thr nm -> (forall r, In r x -> zlen r = n) ->
  exists f, cell3 T i k f /\ is_features RN (mdistances RN ph nm n x chs vs l d) thr f.
Proof.
  intros HW HT HS HK Hn. pose proof (dist_of_sample c ph i k x chs vs l d thr nm n HW HS HK Hn) as HD.
  pose proof (call_cell RN c ph T i k _ _ HW HT HD) as HC'. eexists. split; [exact HC'|]. apply feats_R.
  intros y Hy. eapply mdistances_nonneg; eauto.
Qed.

(** ** C13: a row depends on its sample only *)

Lemma u_row_sample {F} (N : NumOps F) (c : call F) ph T i x : wf_call c -> run N c ph = Ok T -> sample_at c i x ->
  exists n, (forall r, In r x -> zlen r = n) /\
  nthZ T i = Some (match c with
                   | CallUS _ s => u_row N ph s (nthd [] x 0)
                   | CallUV _ _ s => u_row N ph s (nthd [] x 0)
                   | CallMS _ _ _ s L => m_row N ph s L n x
                   | CallMV _ _ _ _ s L => m_row N ph s L n x end).
Proof.
  intros HW HT HS. destruct HS as [X s i x sr H1 H2|X X_len s i sr H|nf n X s L i x H|nf n X X_len s L i ni x H]; cbn in HW, HT.
  - exists (zlen sr). split; [intros r [<-|[]]; reflexivity|].
    destruct HW as [A B]. destruct (U_SL_iff N X s ph A B) as [[Hf E]|[_ E]]; rewrite E in HT; [|discriminate].
    injection HT as <-. rewrite nthZ_map, H1. cbn. rewrite (nthd_some [] x 0 sr H2). reflexivity.
  - exists (zlen sr). split; [intros r [<-|[]]; reflexivity|].
    destruct HW as (A & B & C). destruct (U_VL_iff N X X_len s ph A B C) as [[Hf E]|[_ E]]; rewrite E in HT; [|discriminate].
    apply real_points_ser in H as [Es Hi].
    injection HT as <-. rewrite nthZ_u_result by exact Hi. rewrite Es. reflexivity.
  - exists n. destruct HW as (A & B & C). split; [intros r Hr; destruct A as (M1 & M2 & M3); destruct (M3 x (nthZ_In _ _ _ H)) as [_ HR]; apply HR; exact Hr|].
    destruct (M_SL_iff N X nf n s L ph A B C) as [[Hf E]|[_ E]]; rewrite E in HT; [|discriminate].
    injection HT as <-. rewrite nthZ_map, H. reflexivity.
  - exists ni. destruct HW as (A & B & C & D). apply mreal_points_ser in H as (E1 & E2 & Hi).
    destruct (mser_vl_at nf n X X_len i A B Hi) as (_ & A1 & A2 & A3 & A4). rewrite E1, E2 in *. split; [exact A2|].
    destruct (M_VL_iff N X X_len nf n s L ph A B C D) as [[Hf E]|[_ E]]; rewrite E in HT; [|discriminate].
    injection HT as <-. rewrite nthZ_m_result by exact Hi. rewrite E1, E2. reflexivity.
Qed.

Lemma row_of_sample {F} (N : NumOps F) (c c' : call F) ph T T' i i' x : wf_call c -> wf_call c' -> same_shapelets c c' ->
  run N c ph = Ok T -> run N c' ph = Ok T' -> sample_at c i x -> sample_at c' i' x ->
  nthZ T i <> None /\ nthZ T' i' = nthZ T i.
Proof.
  intros HW HW' HS HT HT' H H'. destruct (u_row_sample N c ph T i x HW HT H) as (n & Hn & E).
  destruct (u_row_sample N c' ph T' i' x HW' HT' H') as (n' & Hn' & E').
  assert (n = n').
  { destruct (sample_shape c i x HW H) as [Hne _]. destruct x as [|r t]; [congruence|]. rewrite <- (Hn r), <- (Hn' r); auto; left; reflexivity. }
  subst n'. rewrite E, E'. split; [discriminate|]. f_equal. destruct HS; reflexivity.
Qed.

(** ** C16 *)

(** shapelet [k] was taken at start [idx] of the sample with channels [x] *)
Definition taken_from (ph : bool) (x : list (list R)) (n idx : Z) (chs : list Z) (vs : list (list R)) (l d : Z) (nm : bool) : Prop :=
  0 <= idx < nwin ph n l d /\ vs = map (fun c => seen RN nm (window RN ph (nthd [] x c) l d idx)) chs.

Lemma mdistances_self ph x n idx chs vs l d nm : taken_from ph x n idx chs vs l d nm ->
  nthZ (mdistances RN ph nm n x chs vs l d) idx = Some 0%R.
Proof.
  intros [Hi ->]. unfold mdistances. rewrite nthZ_map, nthZ_zrange by lia. cbn [option_map]. f_equal. rewrite Z.add_0_l, sumF_rsum.
  induction chs as [|c t IH]; [reflexivity|]. cbn [map combine rsum fst snd]. rewrite IH, l1_self. ring.
Qed.

(** ** C17 *)

Lemma Forall2_nthd {A B} (P : A -> B -> Prop) l l' da db i : Forall2 P l l' -> 0 <= i < zlen l -> P (nthd da l i) (nthd db l' i).
Proof.
  intros H. revert i. induction H as [|a b l l' Hab H IH]; intros i Hi; [change (zlen (@nil A)) with 0 in Hi; lia|].
  rewrite zlen_cons in Hi. unfold nthd. rewrite !nthZ_cons. destruct (Z.eqb_spec i 0); [exact Hab|].
  apply (IH (i - 1)). lia.
Qed.

Lemma features_rotation (c c' : call R) T T' i i' x x' r k chs vs l d thr nm m a cnt m' a' cnt' :
  wf_call c -> wf_call c' -> same_shapelets c c' -> sample_at c i x -> sample_at c' i' x' ->
  Forall2 (rotated r) x x' -> run RN c true = Ok T -> run RN c' true = Ok T' ->
  shapelet_at c k chs vs l d thr nm -> cell3 T i k (m, a, cnt) -> cell3 T' i' k (m', a', cnt') ->
  m' = m /\ cnt' = cnt.
Proof.
  intros HW HW' HSS HS HS' HR HT HT' HK HC HC'.
  destruct (sample_shape c i x HW HS) as (Hne & n & Hn0 & Hn).
  assert (Hn' : forall q, In q x' -> zlen q = n).
  { clear -HR Hn. induction HR as [|q q' x x' Hq HR IH]; intros y Hy; [destruct Hy|]. destruct Hy as [<-|Hy].
    - destruct Hq as [-> _]. apply Hn. left. reflexivity.
    - apply IH; [|exact Hy]. intros z Hz. apply Hn. right. exact Hz. }
  pose proof (cell_features c true T i k x chs vs l d thr nm n _ HW HT HS HK Hn HC) as F1.
  pose proof (same_shapelet_at c c' k chs vs l d thr nm HSS HK) as HK'.
  pose proof (cell_features c' true T' i' k x' chs vs l d thr nm n _ HW' HT' HS' HK' Hn' HC') as F2.
  eapply features_rotated; [|exact F1|exact F2]. apply mdistances_rotated; [exact Hn0|].
  intros ch Hch. pose proof (sample_zlen c i x k chs vs l d thr nm ch HW HS HK Hch) as Hr. split.
  - apply Hn. apply (nthZ_In _ ch). apply nthZ_nthd. exact Hr.
  - exact (Forall2_nthd (rotated r) x x' [] [] ch HR Hr).
Qed.

(** ** C18 *)

Definition shifted (x x' : list R) : Prop := exists c, x' = map (fun v => v + c)%R x.

Lemma features_shift (c c' : call R) ph T T' i i' x x' k chs vs l d thr f f' :
  wf_call c -> wf_call c' -> same_shapelets c c' -> sample_at c i x -> sample_at c' i' x' ->
  Forall2 shifted x x' -> run RN c ph = Ok T -> run RN c' ph = Ok T' ->
  shapelet_at c k chs vs l d thr true -> cell3 T i k f -> cell3 T' i' k f' -> f' = f.
Proof.
  intros HW HW' HSS HS HS' HR HT HT' HK HC HC'.
  destruct (sample_shape c i x HW HS) as (Hne & n & Hn0 & Hn).
  assert (Hn' : forall q, In q x' -> zlen q = n).
  { clear -HR Hn. induction HR as [|q q' x x' Hq HR IH]; intros y Hy; [destruct Hy|]. destruct Hy as [<-|Hy].
    - destruct Hq as [e ->]. rewrite zlen_map. apply Hn. left. reflexivity.
    - apply IH; [|exact Hy]. intros z Hz. apply Hn. right. exact Hz. }
  pose proof (cell_features c ph T i k x chs vs l d thr true n _ HW HT HS HK Hn HC) as F1.
  pose proof (run_fits RN c ph T i x k chs vs l d thr true n HW HT HS HK Hn) as Hfit.
  pose proof (same_shapelet_at c c' k chs vs l d thr true HSS HK) as HK'.
  pose proof (cell_features c' ph T' i' k x' chs vs l d thr true n _ HW' HT' HS' HK' Hn' HC') as F2.
  apply (is_features_unique (mdistances RN ph true n x chs vs l d) thr); [|exact F1].
  enough (E : mdistances RN ph true n x' chs vs l d = mdistances RN ph true n x chs vs l d) by (rewrite <- E; exact F2).
  (* the shift of each channel *)
  assert (Hsh : forall ch, In ch chs -> zlen (nthd [] x ch) = n /\ shifted (nthd [] x ch) (nthd [] x' ch)).
  { intros ch Hch. pose proof (sample_zlen c i x k chs vs l d thr true ch HW HS HK Hch) as Hr. split.
    - apply Hn. apply (nthZ_In _ ch). apply nthZ_nthd. exact Hr.
    - exact (Forall2_nthd shifted x x' [] [] ch HR Hr). }
  unfold mdistances. apply map_ext_in. intros q Hq. apply in_zrange in Hq. f_equal. apply map_ext_in.
  intros [ch v] Hch. apply in_combine_l in Hch. destruct (Hsh ch Hch) as [E1 [e E2]]. cbn [fst snd].
  rewrite E2, window_shift by (rewrite E1; assumption). cbn [seen]. rewrite zscore_shift. reflexivity.
Qed.

(** ** C14: one channel *)

(** the univariate shapelets as multivariate ones on channel 0 *)
Definition u_slices {F} (s : ushp F) : list (list F) :=
  map (fun k => slice (nthd [] (us_values s) k) 0 (nthd 0 (us_len s) k)) (zrange 0 (zlen (us_len s))).
Definition as_multi {F} (s : ushp F) : mshp F :=
  mkMshp (concat (u_slices s)) (us_len s) (us_dil s) (us_thr s) (us_norm s)
         (map (fun _ => 1) (us_len s)) (map (fun _ => 0) (us_len s)).

Lemma as_multi_packed {F} (s : ushp F) : wf_ushp s -> packed (as_multi s) (map (fun v => ([0], [v])) (u_slices s)).
Proof.
  intros (W1 & W2 & W3 & W4 & W5 & W6).
  assert (EL : zlen (u_slices s) = zlen (us_len s)).
  { unfold u_slices. rewrite zlen_map, zlen_zrange. pose proof (zlen_nonneg (us_len s)). lia. }
  assert (G : forall {A B} (f : A) (l : list Z) (l' : list B), zlen l = zlen l' -> map (fun _ => f) l = map (fun _ => f) l').
  { intros A B f l. induction l as [|a l IH]; intros [|b l']; rewrite ?zlen_cons; try (change (zlen (@nil Z)) with 0); try (change (zlen (@nil B)) with 0); intros H; try reflexivity.
    - pose proof (zlen_nonneg l'). lia.
    - pose proof (zlen_nonneg l). lia.
    - cbn [map]. f_equal. apply IH. lia. }
  split; [|split; [|split; [|split; [|split; [|split; [|split; [|split]]]]]]]; cbn.
  - rewrite map_map. cbn. rewrite (G _ _ 0 (us_len s) (u_slices s)) by lia. clear. induction (u_slices s) as [|a t IH]; [reflexivity|]. cbn. f_equal. exact IH.
  - rewrite map_map. cbn. f_equal. rewrite <- map_id at 1. apply map_ext. intros a. rewrite app_nil_r. reflexivity.
  - rewrite map_map. cbn. apply (G _ _ 1). lia.
  - rewrite zlen_map. lia.
  - rewrite zlen_map. lia.
  - rewrite zlen_map. lia.
  - rewrite zlen_map. lia.
  - intros k p l Hp Hl. rewrite nthZ_map in Hp. destruct (nthZ (u_slices s) k) as [v|] eqn:Ev; [|discriminate]. cbn in Hp. injection Hp as <-. cbn.
    pose proof (nthZ_range _ _ _ Hl) as Hk. unfold u_slices in Ev. rewrite nthZ_map, nthZ_zrange in Ev by lia. cbn in Ev. injection Ev as <-.
    destruct (nthZ_some (us_values s) k) as (v0 & Ev0); [lia|]. specialize (W5 k v0 l Ev0 Hl).
    split; [reflexivity|]. split; [lia|]. split; [|lia]. intros r [<-|[]].
    rewrite (nthd_some [] _ _ _ Ev0), (nthd_some 0 _ _ _ Hl). apply zlen_slice0. lia.
  - exact W6.
Qed.

Lemma as_multi_chan {F} (s : ushp F) : chan_ok (map (fun v => ([0], [v])) (u_slices s)) 1.
Proof. intros p c Hp Hc. apply in_map_iff in Hp as (v & <- & _). destruct Hc as [<-|[]]. lia. Qed.

Lemma m_row_u_row {F} (N : NumOps F) ph s n x : wf_ushp s -> (forall y z, nadd N (n0 N) (l1 N y z) = l1 N y z) ->
  zlen (nthd [] x 0) = n ->
  m_row N ph (as_multi s) (map (fun v => ([0], [v])) (u_slices s)) n x = u_row N ph s (nthd [] x 0).
Proof.
  intros HW H0 Hn. unfold m_row, u_row. change (ms_len (as_multi s)) with (us_len s).
  apply map_ext_in. intros q Hq.
  apply in_zrange in Hq. rewrite (m_tr_u_tr N ph s (as_multi s) (u_slices s) n x (q / 3)); auto; lia.
Qed.

Lemma M_SL_one_channel (X : dataset R) s n ph : wf_ushp s -> 0 <= n -> (forall x, In x X -> exists r, x = [r] /\ zlen r = n) ->
  M_SL_apply RN X (as_multi s) ph = U_SL_apply RN X s ph.
Proof.
  intros HW Hn HX.
  assert (HX1 : has_ft X) by (intros x Hx; destruct (HX x Hx) as (r & -> & _); discriminate).
  assert (HM : mdata 1 n X).
  { split; [lia|]. split; [exact Hn|]. intros x Hx. destruct (HX x Hx) as (r & -> & Hr). split; [reflexivity|]. intros q [<-|[]]. exact Hr. }
  assert (HL : forall i, 0 <= i < zlen X -> zlen (ser X i) = n).
  { intros i Hi. destruct (nthZ_some X i Hi) as (x & Ex). destruct (HX x (nthZ_In _ _ _ Ex)) as (r & -> & Hr).
    unfold ser. rewrite (nthd_some [] X i [r] Ex). exact Hr. }
  destruct (M_SL_iff RN X 1 n (as_multi s) _ ph HM (as_multi_packed s HW) (as_multi_chan s)) as [[Hf E]|[[Hne Hf] E]]; rewrite E.
  - rewrite (U_SL_ok RN X s ph HX1 HW).
    + f_equal. apply map_ext_in. intros x Hx. destruct (HX x Hx) as (r & -> & Hr). apply m_row_u_row; auto. apply R_add0.
    + intros i Hi k l d Hl Hd. rewrite HL by exact Hi. destruct Hf as [->|Hf]; [change (zlen (@nil (list (list R)))) with 0 in Hi; lia|].
      apply (Hf k); assumption.
  - symmetry. apply (U_SL_err RN X s ph); auto. exists 0.
    assert (H0 : 0 <= 0 < zlen X) by (destruct X; [congruence|]; rewrite zlen_cons; pose proof (zlen_nonneg X); lia).
    split; [exact H0|]. rewrite HL by exact H0. exact Hf.
Qed.

Lemma M_VL_one_channel (X : dataset R) X_len s n ph : wf_ushp s -> 0 <= n -> (forall x, In x X -> exists r, x = [r] /\ zlen r = n) ->
  vl_ok n X X_len ->
  M_VL_apply RN X X_len (as_multi s) ph = U_VL_apply RN X X_len s ph.
Proof.
  intros HW Hn HX HV.
  assert (HX1 : has_ft X) by (intros x Hx; destruct (HX x Hx) as (r & -> & _); discriminate).
  assert (HM : mdata 1 n X).
  { split; [lia|]. split; [exact Hn|]. intros x Hx. destruct (HX x Hx) as (r & -> & Hr). split; [reflexivity|]. intros q [<-|[]]. exact Hr. }
  pose proof HV as [HV1 HV2].
  assert (HL : forall i, 0 <= i < zlen X -> zlen (ser_vl X X_len i) = nthd 0 X_len i /\ nthd [] (mser_vl X X_len i) 0 = ser_vl X X_len i).
  { intros i Hi. destruct (nthZ_some X i Hi) as (x & Ex). destruct (HX x (nthZ_In _ _ _ Ex)) as (r & -> & Hr).
    unfold ser_vl, mser_vl. rewrite (nthd_some [] X i [r] Ex). split; [|reflexivity].
    apply zlen_slice0. change (nthd [] [r] 0) with r. rewrite Hr. apply (HV2 i). apply nthZ_nthd. lia. }
  destruct (M_VL_iff RN X X_len 1 n (as_multi s) _ ph HM HV (as_multi_packed s HW) (as_multi_chan s)) as [[Hf E]|[(i & Hi & Hf) E]]; rewrite E.
  - rewrite (U_VL_ok RN X X_len s ph HX1 HV1 HW).
    + f_equal. unfold m_result, u_result. apply map_ext_in. intros i Hi. apply in_zrange in Hi. destruct (HL i Hi) as [A B].
      rewrite m_row_u_row; auto; [rewrite B; reflexivity|apply R_add0|rewrite B; exact A].
    + intros i Hi. destruct (HL i Hi) as [-> _]. intros k l d Hl Hd. apply (Hf i Hi k); assumption.
  - symmetry. apply (U_VL_err RN X X_len s ph); auto. exists i. split; [exact Hi|]. destruct (HL i Hi) as [-> _]. exact Hf.
Qed.
