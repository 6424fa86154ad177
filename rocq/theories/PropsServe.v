(** C39: an initialised database answers searches; flat, inverted-file, graph and LSH indexes.
    (For Annoy, see PropsAnnoy.v.) *)

From Coq Require Import List Arith ZArith NArith Lia Bool.
From Verif Require Import PyBase BaseLemmas PyMore Payload StorageModel StorageSpec StorageRun StorageOk
  Num ClientModel DbSpec ClientRun ClientProofs FlatModel FlatProofs IvfModel IvfProofs HnswModel
  HnswProofs LshModel LshSpec LshProofs PropsFlat PropsIvf PropsHnsw.
Import ListNotations.

Section Serve.
  Context {F Mt S : Type} `{Num F} `{!NumOrder F} `{Payload (list F) Mt} `{Unicode}.
  Implicit Type C : storage_class S (list F) Mt.

  Lemma searchable_dim dim (recs : list (entry (list F) Mt)) q :
    0 < dim -> fit_recs (dim_ok dim) recs -> dim_ok dim q -> searchable recs q = true.
  Proof.
    intros Hd Hr [Hq Hf]. unfold searchable. rewrite Hf, Hq.
    destruct (Nat.eqb_spec dim 0); [lia|]. cbn [negb andb]. apply forallb_forall. intros e He.
    unfold fit_recs in Hr. rewrite Forall_forall in Hr. destruct (Hr e He) as [-> ->].
    now rewrite Nat.eqb_refl.
  Qed.

  (** C39 for the flat index: on any storage of the library, after any history (re-initialising
      included) of vectors of one dimension, an open database answers every search with a query
      of that dimension.  Partial: finite numbers and the two metrics the class supports. *)
  Theorem C39_flat_partial C s0 p mt dim ops argsort q k :
    library_backend C s0 p -> mt = MCosine \/ mt = MEuclidean -> 0 < dim ->
    all_fit true (dim_ok dim) argsort_ok p fresh_db ops -> argsort_ok argsort ->
    let IC := flat_class C mt in
    c_init (cl_after C IC s0 ops) = true -> dim_ok dim q ->
    exists hits, fst (cl_step C IC (cl_after C IC s0 ops) (CSearch argsort (Vec q) k)) = AHits hits.
  Proof.
    intros HB Hmt Hd Hfit Harg IC Hi Hq.
    destruct (library_ok C s0 p HB) as (b & sz & A & HC & HA).
    pose proof (flat_index_ok_fit C mt p b sz A HC true (dim_ok dim)) as HI.
    destruct (client_conforms C _ p b sz A HC true _ argsort_ok (flat_ok mt) _ _ HI s0 ops HA Hfit)
      as [_ HR].
    pose proof (Rcl_step C _ p b sz A HC true _ argsort_ok (flat_ok mt) _ _ HI _ _
                  (CSearch argsort (Vec q) k) HR Harg) as Hst.
    destruct HR as (Ho & Hfr & _). fold IC in Ho, Hst |- *.
    destruct (cl_step C IC (cl_after C IC s0 ops) (CSearch argsort (Vec q) k)) as [r c'].
    destruct Hst as [Ha _]. cbn [db_ans] in Ha. rewrite <- Ho, Hi in Ha. unfold flat_ok in Ha.
    rewrite (searchable_dim dim _ q Hd Hfr Hq) in Ha. cbn [fst].
    destruct (s_recs _); [eauto|]. destruct Hmt as [->| ->]; destruct Ha as (hits & -> & _); eauto.
  Qed.

  (** C39 for the inverted-file index, also when it was never trained. *)
  Theorem C39_ivf_partial C s0 p nc np mt dim ops o q k :
    library_backend C s0 p -> (1 <= nc)%Z -> mt <> MOther -> 0 < dim ->
    ivf_history dim p ops -> kmeans_ok o ->
    let IC := ivf_class C nc np mt in
    c_init (cl_after C IC s0 ops) = true -> length q = dim ->
    exists hits, fst (cl_step C IC (cl_after C IC s0 ops) (CSearch o (Vec q) k)) = AHits hits.
  Proof.
    intros HB Hn Hmt Hd Hfit Hkm IC Hi Hq.
    destruct (ivf_reach C s0 p nc np mt dim ops HB Hn Hmt Hd Hfit) as (b & sz & A & HC & HI & _ & HR & _).
    pose proof (Rcl_step C _ p b sz A HC false _ kmeans_ok (ivf_ok mt dim) _ _ HI _ _
                  (CSearch o (Vec q) k) HR Hkm) as Hst.
    destruct HR as (Ho & Hfr & _). fold IC in Ho, Hst |- *.
    destruct (cl_step C IC (cl_after C IC s0 ops) (CSearch o (Vec q) k)) as [r c'].
    destruct Hst as [Ha _]. cbn [db_ans] in Ha. rewrite <- Ho, Hi in Ha. cbn [fst].
    unfold ivf_ok in Ha. destruct r; try contradiction; eauto. now destruct Ha.
  Qed.

  Lemma pair_distance_dim mt (q v : list F) : mt <> MOther -> length q = length v ->
    exists d, pair_distance mt q v = Ok d.
  Proof.
    intros Hmt El. destruct mt; simpl.
    - rewrite El, Nat.eqb_refl. simpl. destruct (_ || _); eauto.
    - unfold np_sub. rewrite El, Nat.eqb_refl. simpl. eauto.
    - congruence.
  Qed.

  (** C39 for the graph index. *)
  Theorem C39_hnsw_partial C s0 p m ef mt dim ops o q k :
    library_backend C s0 p -> (0 <= m)%Z -> mt <> MOther ->
    hnsw_history (dim_ok dim) p ops -> sample_ok o ->
    let IC := hnsw_class C m ef mt in
    c_init (cl_after C IC s0 ops) = true -> length q = dim ->
    exists hits, fst (cl_step C IC (cl_after C IC s0 ops) (CSearch o (Vec q) k)) = AHits hits.
  Proof.
    intros HB Hm Hmt Hfit Hs IC Hi Hq.
    destruct (hnsw_reach C s0 p m ef mt (dim_ok dim) ops HB Hm Hfit) as (b & sz & A & HC & HI & _ & HR & _).
    pose proof (Rcl_step C _ p b sz A HC false _ sample_ok (hnsw_ok mt) _ _ HI _ _
                  (CSearch o (Vec q) k) HR Hs) as Hst.
    destruct HR as (Ho & Hfr & _). fold IC in Ho, Hst |- *.
    destruct (cl_step C IC (cl_after C IC s0 ops) (CSearch o (Vec q) k)) as [r c'].
    destruct Hst as [Ha _]. cbn [db_ans] in Ha. rewrite <- Ho, Hi in Ha. cbn [fst].
    unfold hnsw_ok in Ha. destruct r; try contradiction; eauto.
    destruct Ha as (_ & id & v & mm & e' & Hin & Hp). unfold fit_recs in Hfr. rewrite Forall_forall in Hfr.
    destruct (Hfr _ Hin) as [Hv _]. simpl in Hv.
    destruct (pair_distance_dim mt q v Hmt) as [d Hd]; congruence.
  Qed.

  (** C39 for the LSH index object: once open, a finite query of the stored dimension is
      answered.  Partial: histories as for C31. *)
  Theorem C39_lsh_partial T hs P lmt (threshold : F) (empty : Mt) ops o q k d :
    1 <= T -> 1 <= hs -> hs <= P -> lmt <> LOther -> copyable empty = true ->
    lhistory P empty no_slots ops -> lsh_orc_ok P o ->
    sl_open (sl_after empty ops) = true -> sl_dim (sl_after empty ops) = Some d ->
    length q = d -> 0 < d -> forallb nfinite q = true ->
    exists hits, fst (lsh_step T hs P lmt threshold empty (LSearch o (Vec q) k)
                        (lsh_after T hs P lmt threshold empty ops)) = LHits hits.
  Proof.
    intros L1 L2 L3 L4 L5 Hh Ho Hop Hd Hq Hd0 Hf.
    pose proof (after_ok T hs P lmt threshold empty L5 L1 L2 L3 L4 ops Hh) as HI.
    destruct (search_answer T hs P lmt threshold empty L5 L1 L2 L3 L4 _ _ o q k d HI Hop Hd Hq) as (f & E & _); auto.
    { lia. }
    cbn [lsh_step fst]. rewrite E. cbn. eauto.
  Qed.
End Serve.

(** ** The hypotheses are met *)

From Verif Require Import Demo DemoIndex PropsLsh.

Example C39_flat_hypotheses_met (p : bool) :
  all_fit true (dim_ok 2) argsort_ok p fresh_db demo_ops /\
  c_init (cl_after mem_class (flat_class mem_class MEuclidean) mem_new demo_ops) = true.
Proof.
  split; [|vm_compute; reflexivity].
  destruct p; unfold demo_ops;
    repeat match goal with
    | |- dim_ok _ _ => split; reflexivity
    | _ => progress fit_demo
    end; simpl; auto; try discriminate;
    try (intros Hin; repeat destruct Hin as [Hin|Hin]; try discriminate; auto);
    try (injection H0 as <-; simpl in H1; repeat destruct H1 as [<-|H1]; split; simpl; auto; tauto).
  all: try (now split).
Qed.

Example C39_ivf_hypotheses_met :
  ivf_history 2 true demo_ivf_ops /\ kmeans_ok demo_kmeans /\
  c_init (cl_after mem_class (ivf_class mem_class 2 1 MEuclidean) mem_new demo_ivf_ops) = true.
Proof. split; [apply demo_ivf_fit|]. split; [apply demo_kmeans_ok|vm_compute; reflexivity]. Qed.

Example C39_hnsw_hypotheses_met :
  hnsw_history (dim_ok 2) true (demo_hnsw_ops high) /\
  c_init (cl_after mem_class (hnsw_class mem_class 16 50 MEuclidean) mem_new (demo_hnsw_ops high)) = true /\
  dim_ok 2 [1; 1]%Z.
Proof. split; [apply demo_hnsw_fit|]. split; [vm_compute; reflexivity|split; reflexivity]. Qed.

Example C39_lsh_hypotheses_met :
  lhistory 3 0%Z no_slots demo_lsh_ops /\ lsh_orc_ok 3 demo_lsh_orc /\
  sl_open (sl_after 0%Z demo_lsh_ops) = true /\ sl_dim (sl_after 0%Z demo_lsh_ops) = Some 2.
Proof. split; [apply demo_lsh_fit|]. split; [apply demo_lsh_orc_ok|]. vm_compute. auto. Qed.

Print Assumptions C39_flat_partial.
Print Assumptions C39_ivf_partial.
Print Assumptions C39_hnsw_partial.
Print Assumptions C39_lsh_partial.
