(** C120: an inverted-file database finds the vectors it stores, even probing one cluster, when the
    clustering uses the metric of the index; not with the default cosine metric, since the
    clustering is Euclidean. *)

From Coq Require Import List Arith ZArith NArith Lia Bool Permutation Sorted ZifyBool ZifyNat Reals Lra.
From Verif Require Import PyBase BaseLemmas Payload StorageModel StorageSpec StorageRun
  StorageThms StorageOk Num ClientModel DbSpec ClientRun ClientProofs ClientExtra FlatProofs IvfModel
  IvfProofs IvfCloseProofs RealNum Demo DemoIndex PropsIvf.
Import ListNotations.
Open Scope nat_scope.

(** Histories where also every training labels each vector with the first of the centres nearest
    to it in the metric [lm]. *)
Notation ivf_close_history lm dim p ops :=
  (all_fit false (dim_ok dim) (kmeans_close lm dim) p fresh_db ops).

(** No distance between vectors of dimension [dim] overflows. *)
Notation finite_distances mt dim :=
  (forall v w, length v = dim -> length w = dim -> nfinite (true_distance mt v w) = true).

Section Props.
  Context {F Mt S : Type} `{Num F} `{!NumOrder F} `{Payload (list F) Mt} `{Unicode}.
  Implicit Types C : storage_class S (list F) Mt.

  Lemma close_is_history lm dim p : forall ops (d : sstate (list F) Mt),
    all_fit false (dim_ok dim) (kmeans_close lm dim) p d ops ->
    all_fit false (dim_ok dim) kmeans_ok p d ops.
  Proof.
    induction ops as [|o ops IH]; simpl; auto. intros d [H1' H2']. split; auto.
    destruct o as [o extra|o fresh arr meta|o q k|ids|o id v m| |extra|]; simpl in *; auto.
    - destruct H1' as [[Ho _] Hr]. auto.
    - destruct arr; auto. destruct H1' as [[Ho _] Hr]. auto.
    - destruct q; simpl in *; auto; try (now destruct H1').
    - destruct H1' as [[Ho _] Hr]. auto.
  Qed.

  Lemma fit_prefix dim p ops n : ivf_history dim p ops ->
    forall C s0 nc (np : Z) mt, library_backend C s0 p -> (1 <= nc)%Z -> mt <> MOther -> 0 < dim ->
    fit_recs (Mt := Mt) (dim_ok dim) (s_recs (db_after p fresh_db (firstn n ops))).
  Proof.
    intros Hfit C s0 nc np mt HB Hn Hmt Hd.
    rewrite <- (firstn_skipn n ops) in Hfit. apply all_fit_app in Hfit as [Hf _].
    destruct (ivf_reach C s0 p nc np mt dim (firstn n ops) HB Hn Hmt Hd Hf)
      as (b & sz & A & HC & _ & _ & HR & _).
    destruct HR as (_ & HF & _). exact HF.
  Qed.

  (** Every live vector of a trained index is in the cluster of the first of the centroids nearest
      to it, whatever insertions, updates and deletions came after training. *)
  Theorem C120_ivf_nearest_cluster C s0 p nc np mt dim ops :
    library_backend C s0 p -> (1 <= nc)%Z -> mt <> MOther -> 0 < dim ->
    finite_distances mt dim -> ivf_close_history mt dim p ops ->
    let c := cl_after C (ivf_class C nc np mt) s0 ops in
    let recs := s_recs (db_after p fresh_db ops) in
    c_init c = true -> i_trained (c_index c) = true ->
    exists cs, i_centroids (c_index c) = Some cs /\ Z.of_nat (length cs) = nc /\
    forall id v m, In (id, (v, m)) recs ->
      exists n members, In (n, members) (i_clusters (c_index c)) /\ In id members /\
        exists ctr, nth_error cs n = Some ctr /\
          (forall j cj, nth_error cs j = Some cj ->
             nleb (true_distance mt v ctr) (true_distance mt v cj) = true) /\
          (forall j cj, j < n -> nth_error cs j = Some cj ->
             nleb (true_distance mt v cj) (true_distance mt v ctr) = false).
  Proof.
    intros HB Hn Hmt Hd Hfin Hfit c recs Hi Ht.
    pose proof (close_is_history mt dim p ops _ Hfit) as Hfit'.
    destruct (library_ok C s0 p HB) as (b & sz & A & HC & HA).
    pose proof (extra_reach C (ivf_class C nc np mt) p b sz A HC (dim_ok dim) (kmeans_close mt dim)
      (ivf_ok mt dim) _ _ (ivf_close_index_ok C nc np mt dim p b sz A HC Hn Hmt Hd)
      _ _ (ivf_keeps C nc np mt dim p b sz A HC Hn Hmt Hd Hfin) s0 ops HA Hfit
      (fun n => fit_prefix dim p ops n Hfit' C s0 nc np mt HB Hn Hmt Hd) Hi) as HE.
    fold c in HE. fold recs in HE.
    destruct (ivf_reach C s0 p nc np mt dim ops HB Hn Hmt Hd Hfit') as (? & ? & ? & ? & _ & _ & _ & Hs).
    destruct (Hs Hi) as (Ho & _ & HF & Hnd). fold c in Ho. fold recs in Ho, Hnd.
    destruct Ho as (_ & _ & _ & _ & Hpt & _).
    destruct (Hpt Ht) as (cs & Ecs & Hl & _ & Hk & Hb & Hp).
    exists cs. split; auto. split; auto. intros id v m Hin.
    assert (In id (concat (dvals (i_clusters (c_index c))))) as Hc.
    { eapply Permutation_in; [symmetry; exact Hp|]. apply (in_map fst) in Hin. exact Hin. }
    apply in_concat in Hc as [l [Hl' Hil]]. unfold dvals in Hl'.
    apply in_map_iff in Hl' as [[n l'] [E Hcl]]. simpl in E. subst l'.
    exists n, l. split; auto. split; auto.
    refine (HE Ht cs Ecs n l id _ Hil v m _).
    - now apply In_dget.
    - now apply sp_find_In.
  Qed.

  (** Searching for a stored vector: it is in the answer, or the answer is full of vectors at least
      as close to the query as the vector itself. *)
  Theorem C120_ivf_finds_stored C s0 p nc np mt dim ops o k id v m :
    library_backend C s0 p -> (1 <= nc)%Z -> (1 <= np)%Z -> mt <> MOther -> 0 < dim ->
    finite_distances mt dim -> ivf_close_history mt dim p ops -> (0 <= k)%Z ->
    let c := cl_after C (ivf_class C nc np mt) s0 ops in
    c_init c = true -> In (id, (v, m)) (s_recs (db_after p fresh_db ops)) ->
    exists hits,
      fst (cl_step C (ivf_class C nc np mt) c (CSearch o (Vec v) k)) = AHits hits /\
      (In (MkHit id (true_distance mt v v) m) hits \/
       Z.of_nat (length hits) = k /\
       forall h, In h hits -> nleb (h_dist h) (true_distance mt v v) = true).
  Proof.
    intros HB Hn Hnp Hmt Hd Hfin Hfit Hk c Hi Hin.
    pose proof (close_is_history mt dim p ops _ Hfit) as Hfit'.
    destruct (ivf_reach C s0 p nc np mt dim ops HB Hn Hmt Hd Hfit') as (? & ? & ? & ? & _ & _ & _ & Hs').
    destruct (Hs' Hi) as (Ho & _ & HF & Hnd).
    set (recs := s_recs (db_after p fresh_db ops)) in *.
    assert (length v = dim) as Hv.
    { unfold fit_recs in HF. rewrite Forall_forall in HF. apply (HF _ Hin). }
    pose proof (ivf_client_search C s0 p nc np mt dim ops o v k HB Hn Hmt Hd Hfit' Hv Hi) as Hs.
    simpl in Hs. fold c in Hs. fold recs in Hs.
    assert (In (id, (v, m)) (looked_at np mt recs (c_index c) v)) as Hla.
    { unfold looked_at. destruct (i_trained (c_index c)) eqn:Ht; auto.
      destruct (C120_ivf_nearest_cluster C s0 p nc np mt dim ops HB Hn Hmt Hd Hfin Hfit Hi Ht)
        as (cs & Ecs & Hl & Hall). fold c in Ecs, Hall. rewrite Ecs.
      destruct (Hall id v m Hin) as (n & l & Hcl & Hil & Hnear).
      apply filter_In. split; auto. apply memb_In. apply probed_In. exists n, l.
      destruct Ho as (_ & _ & _ & _ & Hpt & _). destruct (Hpt Ht) as (cs' & Ecs' & _ & Hcd & Hkk & _).
      fold c in Ecs'. rewrite Ecs in Ecs'. injection Ecs' as <-.
      split; [|split; auto; now apply In_dget].
      assert (map (pd_val mt v) cs = map (true_distance mt v) cs) as ->.
      { apply map_ext_in. intros r Hr. unfold pd_val. rewrite pair_distance_true; auto.
        rewrite Forall_forall in Hcd. rewrite (Hcd _ Hr). exact Hv. }
      now apply first_nearest_probed. }
    set (sub := looked_at np mt recs (c_index c) v) in *.
    destruct Hs as (hits & E & Hnn). exists hits. split; auto.
    assert (incl sub recs) as Hsub by apply looked_at_incl.
    destruct (In_dec (list_eq_dec N.eq_dec) id (map h_id hits)) as [Hi'|Hni].
    - left. apply in_map_iff in Hi' as [[id' d' m'] [Eid Hh]]. simpl in Eid. subst id'.
      destruct (nn_true _ _ _ _ _ Hnn _ Hh) as (w & Hw & Ed). simpl in Hw, Ed.
      apply Hsub in Hw. apply sp_find_In in Hw; auto. apply sp_find_In in Hin; auto.
      rewrite Hin in Hw. injection Hw as <- <-. now subst d'.
    - right. split.
      + rewrite (nn_length _ _ _ _ _ Hnn). unfold want. replace (0 <=? k)%Z with true by lia.
        destruct (Nat.le_gt_cases (length sub) (Z.to_nat k)) as [Hle|]; [|lia].
        exfalso. apply Hni.
        assert (length hits = length sub) as Hlen.
        { rewrite (nn_length _ _ _ _ _ Hnn). unfold want. replace (0 <=? k)%Z with true by lia. lia. }
        assert (incl (map h_id hits) (map fst sub)) as Hincl.
        { intros j Hj. apply in_map_iff in Hj as [h [<- Hh]].
          destruct (nn_true _ _ _ _ _ Hnn _ Hh) as (w & Hw & _). apply (in_map fst) in Hw. exact Hw. }
        assert (incl (map fst sub) (map h_id hits)) as Hback.
        { apply NoDup_length_incl; auto.
          - apply (nn_distinct _ _ _ _ _ Hnn).
          - rewrite !map_length. lia. }
        apply Hback. apply (in_map fst) in Hla. exact Hla.
      + intros h Hh. exact (nn_best _ _ _ _ _ Hnn id v m h Hla Hni Hh).
  Qed.
End Props.

(** With exact real numbers and the Euclidean metric the best hit is the query itself. *)
Theorem C120_ivf_self_first_real {Mt S} `{Payload (list R) Mt} `{Unicode}
    (C : storage_class S (list R) Mt) s0 p nc np dim ops o k id v m :
  library_backend C s0 p -> (1 <= nc)%Z -> (1 <= np)%Z -> 0 < dim ->
  ivf_close_history MEuclidean dim p ops -> (1 <= k)%Z ->
  let c := cl_after C (ivf_class C nc np MEuclidean) s0 ops in
  let recs := s_recs (db_after p fresh_db ops) in
  c_init c = true -> In (id, (v, m)) recs ->
  exists h hits,
    fst (cl_step C (ivf_class C nc np MEuclidean) c (CSearch o (Vec v) k)) = AHits (h :: hits) /\
    h_dist h = 0%R /\ In (h_id h, (v, h_meta h)) recs.
Proof.
  intros HB Hn Hnp Hd Hfit Hk c recs Hi Hin.
  assert (Hm : MEuclidean <> MOther) by discriminate.
  pose proof (close_is_history MEuclidean dim p ops _ Hfit) as Hfit'.
  destruct (ivf_reach C s0 p nc np MEuclidean dim ops HB Hn Hm Hd Hfit') as (? & ? & ? & ? & _ & _ & _ & Hs').
  destruct (Hs' Hi) as (_ & _ & HF & _). fold recs in HF.
  assert (forall i w mw, In (i, (w, mw)) recs -> length w = dim) as Hlen.
  { intros i w mw Hw. unfold fit_recs in HF. rewrite Forall_forall in HF. apply (HF _ Hw). }
  destruct (C120_ivf_finds_stored C s0 p nc np MEuclidean dim ops o k id v m HB Hn Hnp Hm Hd)
    as (hits & E & Hor); auto.
  { lia. }
  fold c in E.
  assert (true_distance MEuclidean v v = 0%R) as Ezero.
  { unfold true_distance. rewrite norm_diff. unfold euclid.
    replace (sq_dist v v) with 0%R; [apply sqrt_0|].
    clear. induction v as [|a v IH]; simpl; auto. rewrite <- IH. ring. }
  rewrite Ezero in Hor.
  pose proof (ivf_client_search C s0 p nc np MEuclidean dim ops o v k HB Hn Hm Hd Hfit' (Hlen _ _ _ Hin) Hi)
    as Hs. simpl in Hs. fold c in Hs. fold recs in Hs.
  destruct Hs as (hits' & E' & Hnn).
  assert (hits' = hits) as -> by (simpl in E; congruence).
  assert (exists h, In h hits /\ (h_dist h <= 0)%R) as (h0 & Hh0 & Hd0).
  { destruct Hor as [Hh|[Hl Hall]].
    - exists (MkHit id 0%R m). split; auto. simpl. lra.
    - destruct hits as [|h hits]; [simpl in Hl; lia|]. exists h. split; [now left|].
      apply nleb_R. apply Hall. now left. }
  destruct hits as [|h hits]; [destruct Hh0|]. exists h, hits. split; auto.
  assert (h_dist h <= 0)%R as Hle.
  { destruct Hh0 as [<-|Hh0]; auto.
    pose proof (nn_sorted _ _ _ _ _ Hnn) as Hso. inversion Hso as [|? ? _ Hall]; subst.
    rewrite Forall_forall in Hall. specialize (Hall _ Hh0). apply nleb_R in Hall. lra. }
  destruct (nn_true _ _ _ _ _ Hnn h (or_introl eq_refl)) as (w & Hw & Ed).
  apply looked_at_incl in Hw. unfold true_distance in Ed. rewrite norm_diff in Ed.
  assert (euclid v w = 0)%R as Ew.
  { pose proof (sqrt_pos (sq_dist v w)) as Hsq. fold (euclid v w) in Hsq. rewrite Ed in Hle. lra. }
  split; [congruence|].
  assert (v = w) as <-; auto.
  unfold euclid in Ew. apply sqrt_eq_0 in Ew; [|apply sq_dist_pos].
  pose proof (Hlen _ _ _ Hin) as L1. rewrite <- (Hlen _ _ _ Hw) in L1.
  clear -L1 Ew. revert w L1 Ew. induction v as [|a v IH]; intros [|b' w]; simpl; intros; auto; try discriminate.
  pose proof (sq_dist_pos v w). pose proof (Rle_0_sqr (a - b')) as Hsq.
  unfold Rsqr in Hsq. rewrite Rmult_1_r in Ew.
  assert ((a - b') * (a - b') = 0)%R as Ez by lra. apply Rmult_integral in Ez.
  f_equal; [lra|]. apply IH; [lia|lra].
Qed.

(** ** Concrete cases *)

(** A clustering: the first rows are the centres, every row goes to the nearest. *)
Definition near_kmeans {F} `{Num F} (lm : metric) : kmeans_fn F := fun n rows =>
  let cs := firstn (Z.to_nat n) rows in
  Ok (cs, map (fun r => match ivf_closest lm r 0 cs None 0 with Ok c => c | Raise _ => 0 end) rows).

Lemma near_kmeans_close {F} `{Num F} `{!NumOrder F} lm dim : lm <> MOther ->
  (forall v w : list F, nfinite (true_distance lm v w) = true) -> kmeans_close lm dim (near_kmeans lm).
Proof.
  intros Hm Hfin.
  assert (Hin : forall n (rows : list (list F)) row d, (1 <= n <= Z.of_nat (length rows))%Z ->
            Forall (fun r => length r = d) rows -> In row rows ->
            exists c, ivf_closest lm row 0 (firstn (Z.to_nat n) rows) None 0 = Ok c /\
                      first_nearest lm row (firstn (Z.to_nat n) rows) c).
  { intros n rows row d Hn HF Hr. rewrite Forall_forall in HF. apply ivf_closest_nearest; auto.
    - destruct rows; [destruct Hr|]. destruct (Z.to_nat n) eqn:En; [lia|]. discriminate.
    - intros r Hr'. apply In_firstn in Hr'. rewrite (HF _ Hr), (HF _ Hr'). reflexivity. }
  split.
  - intros n rows d Hn Hd HF.
    assert (Forall (fun r => length r = d) rows) as HF' by (eapply Forall_impl; [|exact HF]; simpl; tauto).
    eexists _, _. split; [reflexivity|]. split; [|split; [|split]].
    + rewrite firstn_length. lia.
    + rewrite Forall_forall in *. intros c Hc. apply In_firstn in Hc. now apply HF'.
    + now rewrite map_length.
    + rewrite Forall_forall. intros l Hl. apply in_map_iff in Hl as [r [<- Hr]].
      destruct (Hin n rows r d Hn HF' Hr) as (c & -> & ctr & E & _).
      assert (c < length (firstn (Z.to_nat n) rows)) as Hc by (apply nth_error_Some; congruence).
      rewrite firstn_length in Hc. lia.
  - intros n rows cs labels i row c E Hn HF Er El. injection E as <- <-.
    rewrite nth_error_map, Er in El. simpl in El. injection El as <-.
    assert (Forall (fun r => length r = dim) rows) as HF'
      by (eapply Forall_impl; [|exact HF]; simpl; unfold dim_ok; tauto).
    destruct (Hin n rows row dim Hn HF' (nth_error_In _ _ Er)) as (c & -> & Hc). exact Hc.
Qed.

Definition near_ops : list (cop Z Z (kmeans_fn Z)) :=
  let km := near_kmeans MEuclidean in
  [CInit km [];
   CInsert km (demo_ids 97) (Mat [[0; 0]; [30; 40]; [5; 0]; [30; 44]]%Z) (Some [Some 7; None]%Z);
   CInsert km (demo_ids 98) (Mat [[28; 41]; [1; 1]]%Z) None;
   CUpdate km (demo_ids 97 0) [31; 40]%Z (Some 8%Z);
   CDelete [demo_ids 97 2]].

(** Trained on the first insertion, the index has moved the updated vector to the other cluster;
    all vectors but the deleted one are found probing one cluster. *)
Example C120_hypotheses_met :
  ivf_close_history MEuclidean 2 false near_ops /\
  let IC := ivf_class mem_class 2 1 MEuclidean in
  let c := cl_after mem_class IC mem_new near_ops in
  c_init c = true /\ i_trained (c_index c) = true /\
  i_clusters (c_index c) =
    [(0, [demo_ids 98 1]); (1, [demo_ids 97 1; demo_ids 97 3; demo_ids 98 0; demo_ids 97 0])] /\
  In (demo_ids 97 0, ([31; 40]%Z, Some 8%Z)) (s_recs (db_after false fresh_db near_ops)) /\
  fst (cl_step mem_class IC c (CSearch (near_kmeans MEuclidean) (Vec [31; 40]%Z) 1)) =
    AHits [MkHit (demo_ids 97 0) 0%Z (Some 8%Z)].
Proof.
  assert (Hk : kmeans_close MEuclidean 2 (near_kmeans (F := Z) MEuclidean))
    by (apply near_kmeans_close; [discriminate|reflexivity]).
  split; [|vm_compute; auto 10].
  unfold near_ops. remember (near_kmeans MEuclidean) as km. clear Heqkm.
  repeat match goal with
  | |- kmeans_close _ _ _ => exact Hk
  | |- dim_ok _ _ => split; reflexivity
  | _ => progress fit_demo
  end; simpl; auto; try discriminate;
    try (intros Hin; repeat destruct Hin as [Hin|Hin]; try discriminate; auto);
    try (injection H0 as <-; simpl in H1; repeat destruct H1 as [<-|H1]; split; simpl; auto; tauto).
  all: try (now split).
Qed.

(** ** The default metric *)

#[local] Instance close_payload_R : Payload (list R) Z := {|
  nbytes v := (4 * N.of_nat (length v))%N; strbytes m := 5%N;
  copyable m := (0 <=? m)%Z; picklable m := true
|}.

Definition cosine_rows : list (list R) := [[3; 0]; [80; 60]; [3; 4]; [3; -4]]%R.
Definition cosine_ops : list (cop R Z (kmeans_fn R)) :=
  let km := near_kmeans MEuclidean in
  [CInit km []; CInsert km (demo_ids 97) (Mat cosine_rows) None].

(** Training with a given clustering. *)
Lemma cosine_trained (km : kmeans_fn R) r0 r1 r2 r3 cs :
  length r0 = 2 -> length r1 = 2 -> length r2 = 2 -> length r3 = 2 ->
  km 2%Z [r0; r1; r2; r3] = Ok (cs, [0; 1; 0; 0]) ->
  let c := cl_after mem_class (ivf_class mem_class 2 1 MCosine) mem_new
             [CInit km []; CInsert km (demo_ids 97) (Mat [r0; r1; r2; r3]) None] in
  c_init c = true /\ i_trained (c_index c) = true /\ i_centroids (c_index c) = Some cs /\
  i_clusters (c_index c) = [(0, [demo_ids 97 0; demo_ids 97 2; demo_ids 97 3]); (1, [demo_ids 97 1])].
Proof.
  intros L0 L1 L2 L3 E.
  destruct r0 as [|x0 [|y0 [|? ?]]]; try discriminate L0.
  destruct r1 as [|x1 [|y1 [|? ?]]]; try discriminate L1.
  destruct r2 as [|x2 [|y2 [|? ?]]]; try discriminate L2.
  destruct r3 as [|x3 [|y3 [|? ?]]]; try discriminate L3.
  clear L0 L1 L2 L3.
  vm_compute. rewrite E. auto.
Qed.

Lemma cosine_labels :
  near_kmeans MEuclidean 2%Z cosine_rows = Ok ([[3; 0]; [80; 60]]%R, [0; 1; 0; 0]).
Proof.
  assert (Hlab : forall r c, length r = 2 ->
    first_nearest MEuclidean r [[3; 0]; [80; 60]]%R c ->
    match ivf_closest MEuclidean r 0 [[3; 0]; [80; 60]]%R None 0 with Ok c => c | Raise _ => 0 end = c).
  { intros r c Hr Hc.
    destruct (ivf_closest_nearest MEuclidean r [[3; 0]; [80; 60]]%R) as (c' & -> & Hc').
    - discriminate.
    - discriminate.
    - intros r0 [<-|[<-|[]]]; exact Hr.
    - reflexivity.
    - exact (first_nearest_unique _ _ _ _ _ Hc' Hc). }
  assert (Hsq : forall u v w : list R, (sq_dist u v < sq_dist u w)%R ->
            (true_distance MEuclidean u v < true_distance MEuclidean u w)%R).
  { intros u v w Hlt. unfold true_distance. rewrite !norm_diff. unfold euclid.
    apply sqrt_lt_1; auto using sq_dist_pos. }
  assert (H0 : forall r, (sq_dist r [3; 0]%R < sq_dist r [80; 60]%R)%R ->
            first_nearest MEuclidean r [[3; 0]; [80; 60]]%R 0).
  { intros r Hr. apply Hsq in Hr. exists [3; 0]%R. split; auto. split; [|intros; lia].
    intros [|[|j]] cj Ej; try (destruct j; discriminate); injection Ej as <-; apply nleb_R; lra. }
  assert (H1 : forall r, (sq_dist r [80; 60]%R < sq_dist r [3; 0]%R)%R ->
            first_nearest MEuclidean r [[3; 0]; [80; 60]]%R 1).
  { intros r Hr. apply Hsq in Hr. exists [80; 60]%R. split; auto. split.
    - intros [|[|j]] cj Ej; try (destruct j; discriminate); injection Ej as <-; apply nleb_R; lra.
    - intros [|j] cj Hj Ej; [|lia]. injection Ej as <-. apply nleb_R_false. lra. }
  unfold near_kmeans, cosine_rows. cbv zeta. change (Z.to_nat 2) with 2. cbn [firstn map].
  do 2 f_equal. repeat apply f_equal2; auto; apply Hlab; auto; first [apply H0|apply H1]; simpl; lra.
Qed.

(** REFUTED for the default metric: k-means is Euclidean whatever the metric of the index.  Four
    vectors, clustered as [KMeans] would (each centre is the mean of its vectors, each vector is
    with its Euclidean nearest centre).  Searching for one of the four probes the other cluster:
    the answer holds a vector further away, and the stored vector is missing from an answer with
    room for all. *)
Theorem C120_ivf_cosine_refuted :
  exists (ops : list (cop R Z (kmeans_fn R))) id v m o,
    ivf_close_history MEuclidean 2 false ops /\
    let IC := ivf_class mem_class 2 1 MCosine in
    let c := cl_after mem_class IC mem_new ops in
    c_init c = true /\ In (id, (v, m)) (s_recs (db_after false fresh_db ops)) /\
    true_distance MCosine v v = 0%R /\
    exists h, fst (cl_step mem_class IC c (CSearch o (Vec v) 4)) = AHits [h] /\
      h_id h <> id /\ (0 < h_dist h)%R.
Proof.
  exists cosine_ops, (demo_ids 97 2), [3; 4]%R, None, (near_kmeans MEuclidean).
  assert (Hk : kmeans_close MEuclidean 2 (near_kmeans (F := R) MEuclidean))
    by (apply near_kmeans_close; [discriminate|reflexivity]).
  assert (Hfit : ivf_close_history MEuclidean 2 false cosine_ops).
  { unfold cosine_ops, cosine_rows. remember (near_kmeans MEuclidean) as km. clear Heqkm.
    repeat match goal with
    | |- kmeans_close _ _ _ => exact Hk
    | |- dim_ok _ _ => split; reflexivity
    | _ => progress fit_demo
    end; simpl; auto; try discriminate. }
  split; auto. cbv zeta.
  destruct (cosine_trained (near_kmeans MEuclidean) [3; 0]%R [80; 60]%R [3; 4]%R [3; -4]%R
              [[3; 0]; [80; 60]]%R eq_refl eq_refl eq_refl eq_refl cosine_labels) as (Hi & Ht & Hcs & Hcl).
  change [CInit _ []; CInsert _ _ _ _] with cosine_ops in Hi, Ht, Hcs, Hcl.
  assert (Hrecs : s_recs (db_after (Orc := kmeans_fn R) (Mt := Z) false fresh_db cosine_ops) =
     [(demo_ids 97 0, ([3; 0]%R, None)); (demo_ids 97 1, ([80; 60]%R, None));
      (demo_ids 97 2, ([3; 4]%R, None)); (demo_ids 97 3, ([3; -4]%R, None))]) by reflexivity.
  split; auto. split; [rewrite Hrecs; simpl; auto|].
  assert (Hcos : forall (x y : list R) a b', (0 < a)%R -> (0 < b')%R ->
            inner x x = (a * a)%R -> inner y y = (b' * b')%R ->
            true_distance MCosine x y = (1 - inner x y / (a * b'))%R).
  { intros x y a b' Ha Hb Ex Ey. unfold true_distance. rewrite !norm_len, dot_inner. unfold len.
    rewrite Ex, Ey, !sqrt_square by lra.
    replace (neqb a nzero) with false; [replace (neqb b' nzero) with false; [reflexivity|]|];
      symmetry; apply not_true_is_false; rewrite neqb_R; simpl; lra. }
  assert (D0 : true_distance MCosine [3; 4]%R [3; 4]%R = 0%R)
    by (rewrite (Hcos _ _ 5%R 5%R); simpl; lra).
  assert (D1 : true_distance MCosine [3; 4]%R [3; 0]%R = (6 / 15)%R)
    by (rewrite (Hcos _ _ 5%R 3%R); simpl; lra).
  assert (D2 : true_distance MCosine [3; 4]%R [80; 60]%R = (20 / 500)%R)
    by (rewrite (Hcos _ _ 5%R 100%R); simpl; lra).
  split; auto.
  destruct (C26_ivf_probed_best mem_class mem_new false 2 1 MCosine 2 cosine_ops
              (near_kmeans MEuclidean) [3; 4]%R 4)
    as (cs & probes & sub & hits & Ecs & _ & Hnd & Hlen & Hlt & Hclose & Hsub & E & Hnn);
    auto; try lia; try discriminate.
  { constructor. }
  { exact (close_is_history MEuclidean 2 false _ _ Hfit). }
  rewrite Hcs in Ecs. injection Ecs as <-. simpl in Hlen.
  destruct probes as [|n [|? ?]]; try discriminate.
  assert (n = 1) as ->.
  { specialize (Hlt n (or_introl eq_refl)). simpl in Hlt. destruct n as [|[|n]]; auto; [|lia].
    assert (nleb (true_distance MCosine [3; 4]%R [3; 0]%R) (true_distance MCosine [3; 4]%R [80; 60]%R) = true)
      as Hle.
    { apply (Hclose 0 1); simpl; auto. intros [E'|[]]. discriminate. }
    apply nleb_R in Hle. rewrite D1, D2 in Hle. lra. }
  rewrite Hrecs in Hsub. rewrite Hcl in Hsub.
  assert (Hsub' : forall e, In e sub <-> e = (demo_ids 97 1, ([80; 60]%R, None))).
  { intros e. rewrite Hsub. split.
    - intros [He (n & l & [<-|[]] & Hnl & Hil)]. simpl in Hnl.
      destruct Hnl as [E'|[E'|[]]]; [discriminate|]. injection E' as <-.
      destruct Hil as [Hil|[]]. simpl in He.
      destruct He as [<-|[<-|[<-|[<-|[]]]]]; auto; simpl in Hil; apply demo_ids_inj in Hil; lia.
    - intros ->. split; [simpl; auto|]. exists 1, [demo_ids 97 1]. simpl. auto. }
  assert (Hone : exists h, In h hits).
  { destruct hits as [|h hits]; [|exists h; now left]. exfalso.
    pose proof (nn_length _ _ _ _ _ Hnn) as Hl. simpl in Hl.
    destruct sub as [|e sub]; [|simpl in Hl; lia].
    destruct (proj2 (Hsub' _) eq_refl). }
  assert (Hall : forall h, In h hits -> h = MkHit (demo_ids 97 1) (20 / 500)%R None).
  { intros h Hh. destruct (nn_true _ _ _ _ _ Hnn h Hh) as (w & Hw & Ed).
    apply Hsub' in Hw. injection Hw as E1 -> E3. destruct h as [i d mm]. simpl in *. subst. now rewrite D2. }
  destruct Hone as [h0 Hh0].
  assert (hits = [MkHit (demo_ids 97 1) (20 / 500)%R None]) as ->.
  { pose proof (nn_distinct _ _ _ _ _ Hnn) as Hd.
    destruct hits as [|h1 [|h2 hits]]; [destruct Hh0| |].
    - now rewrite (Hall h1 (or_introl eq_refl)).
    - exfalso. rewrite (Hall h1 (or_introl eq_refl)) in Hd.
      rewrite (Hall h2 (or_intror (or_introl eq_refl))) in Hd. simpl in Hd.
      inversion Hd as [|? ? Hx _]; subst. apply Hx. now left. }
  eexists. split; [exact E|]. simpl. split; [|lra].
  intros E'. apply demo_ids_inj in E'. discriminate.
Qed.

Print Assumptions C120_ivf_nearest_cluster.
Print Assumptions C120_ivf_finds_stored.
Print Assumptions C120_ivf_self_first_real.
Print Assumptions C120_ivf_cosine_refuted.
