(** Properties of the database with an inverted-file index: C23 to C26, the IVF parts of C17 to
    C20 and C40, and the IVF part of C80. *)

From Coq Require Import List Arith ZArith NArith Lia Bool Permutation Sorted ZifyBool ZifyNat.
From Coq Require String.
Import (notations) Coq.Strings.String.
From Verif Require Import PyBase BaseLemmas Payload StorageModel StorageSpec StorageRun
  StorageThms StorageOk Num ClientModel DbSpec ClientRun ClientProofs FlatProofs IvfModel IvfProofs
  Demo DemoIndex.
Import ListNotations.

(** A client that was just constructed, with nothing recorded. *)
Notation fresh_db := (MkS false []).

(** Histories an inverted-file database is exercised with: any calls in any order, initialise
    only when not in service, all vectors finite and of dimension [dim], any clustering. *)
Notation ivf_history dim p ops := (all_fit false (dim_ok dim) kmeans_ok p fresh_db ops).

Section Props.
  Context {F Mt S : Type} `{Num F} `{!NumOrder F} `{Payload (list F) Mt} `{Unicode}.
  Implicit Types C : storage_class S (list F) Mt.

  (** In service after a history, the invariant holds. *)
  Lemma ivf_reach C s0 p nc np mt dim ops :
    library_backend C s0 p -> (1 <= nc)%Z -> mt <> MOther -> 0 < dim ->
    ivf_history dim p ops ->
    exists b sz A, exists HC : storage_ok C p b sz A,
      let c := cl_after C (ivf_class C nc np mt) s0 ops in
      let recs := s_recs (db_after p fresh_db ops) in
      index_ok (ivf_class C nc np mt) A false (dim_ok dim) kmeans_ok (ivf_ok mt dim)
        (iopen nc dim) iclosed /\
      A fresh_db s0 /\
      Rcl A (dim_ok dim) (iopen nc dim) iclosed (db_after p fresh_db ops) c /\
      (c_init c = true -> iopen nc dim recs (c_index c) /\ A (MkS true recs) (c_storage c) /\
                          fit_recs (dim_ok dim) recs /\ NoDup (map fst recs)).
  Proof.
    intros HB Hn Hmt Hd Hfit. destruct (library_ok C s0 p HB) as (b & sz & A & HC & HA).
    exists b, sz, A, HC. pose proof (ivf_index_ok C nc np mt dim p b sz A HC Hn Hmt Hd) as HI.
    destruct (client_conforms C _ p b sz A HC false _ kmeans_ok (ivf_ok mt dim) _ _ HI s0 ops HA Hfit)
      as [_ HR].
    split; auto. split; auto. split; auto. intros Hi.
    destruct HR as (Hc & Hf & (op & HA' & Hop) & HX). rewrite <- Hc, Hi in HX, Hop.
    rewrite (Hop eq_refl) in HA'. split; auto. split; auto. split; auto.
    exact (so_nd C p b sz A HC _ _ HA').
  Qed.

  (** The search of a client in service, in terms of the records looked at. *)
  Lemma ivf_client_search C s0 p nc np mt dim ops o q k :
    library_backend C s0 p -> (1 <= nc)%Z -> mt <> MOther -> 0 < dim ->
    ivf_history dim p ops -> length q = dim ->
    let c := cl_after C (ivf_class C nc np mt) s0 ops in
    let recs := s_recs (db_after p fresh_db ops) in
    c_init c = true ->
    let sub := looked_at np mt recs (c_index c) q in
    exists hits,
      fst (cl_step C (ivf_class C nc np mt) c (CSearch o (Vec q) k)) = AHits hits /\
      nearest nleb (true_distance mt q) sub (want k (length sub)) hits.
  Proof.
    intros HB Hn Hmt Hd Hfit Hq c recs Hi sub.
    destruct (ivf_reach C s0 p nc np mt dim ops HB Hn Hmt Hd Hfit)
      as (b & sz & A & HC & _ & _ & _ & Hs).
    destruct (Hs Hi) as (Ho & HA & HF & Hnd). fold c in Ho, HA. fold recs in Ho, HA, HF, Hnd.
    destruct (ivf_search_ok C nc np mt dim p b sz A HC Hmt Hd q k recs (c_index c) (c_storage c) HF Ho HA)
      as (d & s' & r & E & _ & _ & Hr).
    destruct r as [hits|e]; [|destruct Hr as [_ Hr]; congruence].
    destruct Hr as [Hnn HFF]. exists hits. split.
    - simpl. unfold cl_search, guarded, bind, get. rewrite Hi. cbn [negb].
      unfold on_index, zoom. simpl. rewrite E. reflexivity.
    - eapply nearest_ext; [|exact Hnn]. intros id v m Hin.
      apply looked_at_incl in Hin. unfold fit_recs in HF. rewrite Forall_forall in HF.
      destruct (HF _ Hin) as [Hv _]. simpl in Hv.
      unfold pd_val. now rewrite pair_distance_true by congruence.
  Qed.

  (** C23: before training, search is exact. *)
  Theorem C23_ivf_untrained_exact C s0 p nc np mt dim ops o q k :
    library_backend C s0 p -> (1 <= nc)%Z -> mt <> MOther -> 0 < dim ->
    ivf_history dim p ops -> length q = dim -> (0 <= k)%Z ->
    let c := cl_after C (ivf_class C nc np mt) s0 ops in
    let recs := s_recs (db_after p fresh_db ops) in
    c_init c = true -> i_trained (c_index c) = false ->
    exists hits,
      fst (cl_step C (ivf_class C nc np mt) c (CSearch o (Vec q) k)) = AHits hits /\
      nearest nleb (true_distance mt q) recs (Nat.min (Z.to_nat k) (length recs)) hits.
  Proof.
    intros HB Hn Hmt Hd Hfit Hq Hk c recs Hi Ht.
    pose proof (ivf_client_search C s0 p nc np mt dim ops o q k HB Hn Hmt Hd Hfit Hq Hi) as Hs.
    simpl in Hs. fold c in Hs. fold recs in Hs. unfold looked_at in Hs. rewrite Ht in Hs.
    unfold want in Hs. replace (0 <=? k)%Z with true in Hs by lia. exact Hs.
  Qed.

  (** C24: in a trained index the clusters partition the live ids. *)
  Theorem C24_ivf_partition C s0 p nc np mt dim ops :
    library_backend C s0 p -> (1 <= nc)%Z -> mt <> MOther -> 0 < dim ->
    ivf_history dim p ops ->
    let c := cl_after C (ivf_class C nc np mt) s0 ops in
    c_init c = true -> i_trained (c_index c) = true ->
    let cl := i_clusters (c_index c) in
    (forall id, read C (c_storage c) id <> Ok None <->
                exists n members, In (n, members) cl /\ In id members) /\
    (forall id n1 n2 l1 l2, In (n1, l1) cl -> In (n2, l2) cl -> In id l1 -> In id l2 -> n1 = n2) /\
    (forall n l, In (n, l) cl -> NoDup l /\ (Z.of_nat n < nc)%Z) /\
    NoDup (map fst cl).
  Proof.
    intros HB Hn Hmt Hd Hfit c Hi Ht cl.
    destruct (ivf_reach C s0 p nc np mt dim ops HB Hn Hmt Hd Hfit)
      as (b & sz & A & HC & HI & HA0 & HR & Hs).
    destruct (Hs Hi) as (Ho & HA & HF & Hnd). fold c in Ho, HA, HR.
    set (recs := s_recs (db_after p fresh_db ops)) in *.
    destruct Ho as (_ & _ & _ & _ & Hpt & _).
    destruct (Hpt Ht) as (cs & _ & Hl & _ & Hk & Hb & Hp). fold cl in Hk, Hb, Hp.
    assert (NoDup (concat (dvals cl))) as Hcn by (eapply Permutation_NoDup; [symmetry; exact Hp|auto]).
    split; [|split; [|split]].
    - intros id.
      rewrite (Rcl_read C p b sz A HC (dim_ok dim) _ _ _ c id HR
                 (eq_trans (eq_sym (proj1 HR)) Hi)).
      fold recs. split.
      + intros Hne. assert (In id (map fst recs)) as Hin.
        { apply In_keys_find. destruct (sp_find id recs); [eauto|congruence]. }
        apply (Permutation_in _ (Permutation_sym Hp)) in Hin. apply in_concat in Hin as [l [Hl' Hil]].
        unfold dvals in Hl'. apply in_map_iff in Hl' as [[n l'] [E Hin]]. simpl in E. subst l'. eauto.
      + intros (n & l & Hin & Hil) E. injection E as E. apply sp_find_None in E. apply E.
        eapply Permutation_in; [exact Hp|]. apply in_concat. exists l. split; auto.
        unfold dvals. apply (in_map snd) in Hin. exact Hin.
    - intros id n1 n2 l1 l2 G1 G2 G3 G4.
      apply (one_cluster cl Hcn n1 n2 l1 l2 id); auto; apply In_dget; auto.
    - intros n l Hin. split.
      + eapply NoDup_concat_In; eauto. unfold dvals. apply (in_map snd) in Hin. exact Hin.
      + assert (n < length cs) by (apply Hb; unfold dkeys; apply (in_map fst) in Hin; exact Hin). lia.
    - exact Hk.
  Qed.

  (** What probing looks at: the members of the probed clusters. *)
  Lemma probes_spec np (ds : list F) : (0 <= np)%Z ->
    NoDup (ivf_probes np ds) /\
    length (ivf_probes np ds) = Nat.min (Z.to_nat np) (length ds) /\
    (forall i, In i (ivf_probes np ds) -> i < length ds) /\
    (forall i j di dj, In i (ivf_probes np ds) -> ~ In j (ivf_probes np ds) ->
       nth_error ds i = Some di -> nth_error ds j = Some dj -> nleb di dj = true).
  Proof.
    intros Hnp. split; [apply NoDup_probes|]. unfold ivf_probes.
    rewrite slice_to_want. rewrite sort_length.
    assert (Hen : length (enumerate ds) = length ds).
    { unfold enumerate. rewrite combine_length, seq_length. lia. }
    rewrite Hen. unfold want. replace (0 <=? np)%Z with true by lia.
    set (n := Nat.min (Z.to_nat np) (length ds)).
    set (L := sort (fun a b : nat * F => nleb (snd a) (snd b)) (enumerate ds)).
    assert (HinL : forall i d, In (i, d) L <-> nth_error ds i = Some d).
    { intros i d. unfold L. rewrite In_sort. unfold enumerate. rewrite combine_seq_In.
      rewrite Nat.sub_0_r. split; [tauto|]. intros E. split; auto.
      assert (i < length ds) by (apply nth_error_Some; congruence). lia. }
    split; [|split].
    - rewrite map_length, firstn_length. unfold L. rewrite sort_length, Hen. unfold n. lia.
    - intros i Hi. apply in_map_iff in Hi as [[i' d] [<- Hin]]. apply In_firstn in Hin.
      apply HinL in Hin. simpl. apply nth_error_Some. congruence.
    - intros i j di dj Hi Hj Ei Ej.
      assert (StronglySorted (fun a b : nat * F => nleb (snd a) (snd b) = true) L) as Hs.
      { apply sort_sorted with (P := fun _ => True).
        - split; intros; [apply nleb_total | eapply nleb_trans; eauto].
        - rewrite Forall_forall. auto. }
      apply in_map_iff in Hi as [[i' d] [E Hin]]. simpl in E. subst i'.
      assert (d = di) as ->.
      { apply In_firstn in Hin. apply HinL in Hin. congruence. }
      apply HinL in Ej. rewrite <- (firstn_skipn n L) in Ej. apply in_app_or in Ej as [Ej|Ej].
      + exfalso. apply Hj. apply (in_map fst) in Ej. exact Ej.
      + exact (StronglySorted_firstn_skipn _ n L (i, di) (j, dj) Hs Hin Ej).
  Qed.

  (** C25: probing all clusters is exact. *)
  Theorem C25_ivf_full_probe_exact C s0 p nc np mt dim ops o q k :
    library_backend C s0 p -> (1 <= nc)%Z -> mt <> MOther -> 0 < dim ->
    ivf_history dim p ops -> length q = dim -> (0 <= k)%Z -> (nc <= np)%Z ->
    let c := cl_after C (ivf_class C nc np mt) s0 ops in
    let recs := s_recs (db_after p fresh_db ops) in
    c_init c = true ->
    exists hits,
      fst (cl_step C (ivf_class C nc np mt) c (CSearch o (Vec q) k)) = AHits hits /\
      nearest nleb (true_distance mt q) recs (Nat.min (Z.to_nat k) (length recs)) hits.
  Proof.
    intros HB Hn Hmt Hd Hfit Hq Hk Hnp c recs Hi.
    pose proof (ivf_client_search C s0 p nc np mt dim ops o q k HB Hn Hmt Hd Hfit Hq Hi) as Hs.
    simpl in Hs. fold c in Hs. fold recs in Hs.
    assert (looked_at np mt recs (c_index c) q = recs) as E.
    { unfold looked_at. destruct (i_trained (c_index c)) eqn:Ht; auto.
      destruct (ivf_reach C s0 p nc np mt dim ops HB Hn Hmt Hd Hfit)
        as (b & sz & A & HC & _ & _ & _ & Hs').
      destruct (Hs' Hi) as (Ho & HA & HF & Hnd). fold c in Ho. fold recs in Ho, Hnd.
      destruct Ho as (_ & _ & _ & _ & Hpt & _).
      destruct (Hpt Ht) as (cs & Ecs & Hl & _ & Hkk & Hb & Hp). rewrite Ecs.
      apply filter_all. intros e He. apply memb_In.
      apply (probed_all (i_clusters (c_index c))); auto.
      - intros n Hin. apply Hb in Hin.
        destruct (probes_spec np (map (pd_val mt q) cs)) as (Hnd' & Hlen & Hlt & _); [lia|].
        rewrite map_length in Hlen, Hlt.
        assert (Permutation (ivf_probes np (map (pd_val mt q) cs)) (seq 0 (length cs))) as Hperm.
        { apply NoDup_Permutation_bis; auto.
          - rewrite seq_length. lia.
          - intros i Hin'. apply in_seq. specialize (Hlt i Hin'). lia. }
        eapply Permutation_in; [symmetry; exact Hperm|]. apply in_seq. lia.
      - eapply Permutation_in; [symmetry; exact Hp|]. now apply in_map. }
    rewrite E in Hs. unfold want in Hs. replace (0 <=? k)%Z with true in Hs by lia. exact Hs.
  Qed.

  (** C26: a trained search answers the nearest among the members of the [np] clusters whose
      centroids are closest to the query. *)
  Theorem C26_ivf_probed_best C s0 p nc np mt dim ops o q k :
    library_backend C s0 p -> (1 <= nc)%Z -> mt <> MOther -> 0 < dim ->
    ivf_history dim p ops -> length q = dim -> (0 <= k)%Z -> (0 <= np)%Z ->
    let c := cl_after C (ivf_class C nc np mt) s0 ops in
    let recs := s_recs (db_after p fresh_db ops) in
    c_init c = true -> i_trained (c_index c) = true ->
    exists cs probes sub hits,
      i_centroids (c_index c) = Some cs /\ Z.of_nat (length cs) = nc /\
      NoDup probes /\ length probes = Nat.min (Z.to_nat np) (length cs) /\
      (forall i, In i probes -> i < length cs) /\
      (forall i j ci cj, In i probes -> ~ In j probes ->
         nth_error cs i = Some ci -> nth_error cs j = Some cj ->
         nleb (true_distance mt q ci) (true_distance mt q cj) = true) /\
      (forall e, In e sub <-> In e recs /\
         exists n l, In n probes /\ In (n, l) (i_clusters (c_index c)) /\ In (fst e) l) /\
      fst (cl_step C (ivf_class C nc np mt) c (CSearch o (Vec q) k)) = AHits hits /\
      nearest nleb (true_distance mt q) sub (Nat.min (Z.to_nat k) (length sub)) hits.
  Proof.
    intros HB Hn Hmt Hd Hfit Hq Hk Hnp c recs Hi Ht.
    pose proof (ivf_client_search C s0 p nc np mt dim ops o q k HB Hn Hmt Hd Hfit Hq Hi) as Hs.
    simpl in Hs. fold c in Hs. fold recs in Hs.
    destruct (ivf_reach C s0 p nc np mt dim ops HB Hn Hmt Hd Hfit)
      as (b & sz & A & HC & _ & _ & _ & Hs').
    destruct (Hs' Hi) as (Ho & HA & HF & Hnd). fold c in Ho. fold recs in Ho, Hnd, HF.
    destruct Ho as (_ & _ & _ & _ & Hpt & _).
    destruct (Hpt Ht) as (cs & Ecs & Hl & Hcd & Hkk & Hb & Hp).
    unfold looked_at in Hs. rewrite Ht, Ecs in Hs.
    destruct (probes_spec np (map (pd_val mt q) cs) Hnp) as (Hnd' & Hlen & Hlt & Hclose).
    rewrite map_length in Hlen, Hlt.
    set (probes := ivf_probes np (map (pd_val mt q) cs)) in *.
    set (sub := filter _ recs) in *.
    destruct Hs as (hits & E & Hnn). exists cs, probes, sub, hits.
    split; auto. split; auto. split; auto. split; auto. split; auto. split; [|split; [|split]]; auto.
    - intros i j ci cj Hin Hout Ei Ej.
      assert (Hpd : forall i ci, nth_error cs i = Some ci -> pd_val mt q ci = true_distance mt q ci).
      { intros n r Er. unfold pd_val. rewrite pair_distance_true; auto. apply nth_error_In in Er.
        rewrite Forall_forall in Hcd. rewrite (Hcd _ Er). congruence. }
      rewrite <- (Hpd i ci Ei), <- (Hpd j cj Ej).
      apply (Hclose i j); auto; rewrite nth_error_map; [now rewrite Ei|now rewrite Ej].
    - intros e. unfold sub. rewrite filter_In, memb_In, probed_In. split.
      + intros [He (n & l & Hin & Eg & Hil)]. split; auto. exists n, l. split; auto. split; auto.
        now apply dget_Some_In.
      + intros [He (n & l & Hin & Eg & Hil)]. split; auto. exists n, l. split; auto. split; auto.
        now apply In_dget.
    - unfold want in Hnn. replace (0 <=? k)%Z with true in Hnn by lia. exact Hnn.
  Qed.

  (** C26, whole histories: every search answer, trained or not, has distinct live ids with their
      current metadata and distances, sorted, at most [k]; all other answers are exact. *)
  Theorem C26_ivf_history_conforms C s0 p nc np mt dim ops :
    library_backend C s0 p -> (1 <= nc)%Z -> mt <> MOther -> 0 < dim ->
    ivf_history dim p ops ->
    db_conforms p (ivf_ok mt dim) fresh_db ops (cl_answers C (ivf_class C nc np mt) s0 ops).
  Proof.
    intros HB Hn Hmt Hd Hfit. destruct (library_ok C s0 p HB) as (b & sz & A & HC & HA).
    exact (proj1 (client_conforms C _ p b sz A HC false _ kmeans_ok (ivf_ok mt dim) _ _
             (ivf_index_ok C nc np mt dim p b sz A HC Hn Hmt Hd) s0 ops HA Hfit)).
  Qed.

  (** C17 for the inverted-file index. *)
  Theorem C17_ivf_insert C s0 p nc np mt dim ops o fresh rows meta :
    library_backend C s0 p -> (1 <= nc)%Z -> mt <> MOther -> 0 < dim ->
    ivf_history dim p ops ->
    let c := cl_after C (ivf_class C nc np mt) s0 ops in
    c_init c = true -> kmeans_ok o ->
    fresh_ids fresh (length rows) (map fst (s_recs (db_after p fresh_db ops))) ->
    Forall (dim_ok dim) rows ->
    (forall l m, meta = Some l -> In m l -> meta_ok m) ->
    let (r, c') := cl_step C (ivf_class C nc np mt) c (CInsert o fresh (Mat rows) meta) in
    let ids := map fresh (seq 0 (length rows)) in
    r = AIds ids /\ NoDup ids /\
    (forall i, i < length rows -> read C (c_storage c) (fresh i) = Ok None) /\
    (forall i row, nth_error rows i = Some row ->
       read C (c_storage c') (fresh i) = Ok (Some (row, meta_of meta i))) /\
    (forall id, (forall i, i < length rows -> id <> fresh i) ->
       read C (c_storage c') id = read C (c_storage c) id).
  Proof.
    intros HB Hn Hmt Hd Hfit c Hi Ho Hfr HF Hm.
    destruct (ivf_reach C s0 p nc np mt dim ops HB Hn Hmt Hd Hfit)
      as (b & sz & A & HC & HI & _ & HR & _).
    apply (insert_effect C _ p b sz A HC false _ kmeans_ok (ivf_ok mt dim) _ _ HI _ c o fresh rows meta HR);
      auto. now rewrite <- (proj1 HR).
  Qed.

  (** C18 for the inverted-file index. *)
  Theorem C18_ivf_delete C s0 p nc np mt dim ops ids :
    library_backend C s0 p -> (1 <= nc)%Z -> mt <> MOther -> 0 < dim ->
    ivf_history dim p ops ->
    let c := cl_after C (ivf_class C nc np mt) s0 ops in
    c_init c = true ->
    let (r, c') := cl_step C (ivf_class C nc np mt) c (CDelete ids) in
    (exists ok, r = ABool ok /\
       (ok = true <-> NoDup ids /\ forall id, In id ids -> read C (c_storage c) id <> Ok None)) /\
    (forall id, In id ids -> read C (c_storage c') id = Ok None) /\
    (forall id, ~ In id ids -> read C (c_storage c') id = read C (c_storage c) id).
  Proof.
    intros HB Hn Hmt Hd Hfit c Hi.
    destruct (ivf_reach C s0 p nc np mt dim ops HB Hn Hmt Hd Hfit)
      as (b & sz & A & HC & HI & _ & HR & _).
    apply (delete_effect C _ p b sz A HC false _ kmeans_ok (ivf_ok mt dim) _ _ HI _ c ids HR).
    now rewrite <- (proj1 HR).
  Qed.

  Theorem C18_ivf_deleted_never_found C s0 p nc np mt dim ops ids later id :
    library_backend C s0 p -> (1 <= nc)%Z -> mt <> MOther -> 0 < dim ->
    ivf_history dim p (ops ++ CDelete ids :: later) ->
    c_init (cl_after C (ivf_class C nc np mt) s0 ops) = true ->
    In id ids -> Forall (fun o => ~ hands_out id o) later ->
    let c' := cl_after C (ivf_class C nc np mt) s0 (ops ++ [CDelete ids]) in
    Forall (fun r => match r with AHits l => ~ In id (map h_id l) | _ => True end)
           (fst (cl_run C (ivf_class C nc np mt) c' later)).
  Proof.
    intros HB Hn Hmt Hd Hfit Hi Hin Hnh c'. destruct (library_ok C s0 p HB) as (b & sz & A & HC & HA).
    apply (deleted_never_found C _ p b sz A HC false _ kmeans_ok (ivf_ok mt dim) _ _
             (ivf_index_ok C nc np mt dim p b sz A HC Hn Hmt Hd)); auto.
    intros recs q k l h Hok Hh. destruct (sd_true _ _ _ _ _ Hok h Hh) as [v [Hr _]].
    intros Ef. apply sp_find_None in Ef. apply Ef. apply (in_map fst) in Hr. exact Hr.
  Qed.

  (** C19 for the inverted-file index. *)
  Theorem C19_ivf_update C s0 p nc np mt dim ops o id v m :
    library_backend C s0 p -> (1 <= nc)%Z -> mt <> MOther -> 0 < dim ->
    ivf_history dim p ops ->
    let c := cl_after C (ivf_class C nc np mt) s0 ops in
    c_init c = true -> kmeans_ok o -> dim_ok dim v -> meta_ok m ->
    let (r, c') := cl_step C (ivf_class C nc np mt) c (CUpdate o id v m) in
    (exists ok, r = ABool ok /\
       (ok = true <-> read C (c_storage c) id <> Ok None) /\
       read C (c_storage c') id = Ok (if ok then Some (v, m) else None)) /\
    (forall j, j <> id -> read C (c_storage c') j = read C (c_storage c) j).
  Proof.
    intros HB Hn Hmt Hd Hfit c Hi Ho Hv Hm.
    destruct (ivf_reach C s0 p nc np mt dim ops HB Hn Hmt Hd Hfit)
      as (b & sz & A & HC & HI & _ & HR & _).
    apply (update_effect C _ p b sz A HC false _ kmeans_ok (ivf_ok mt dim) _ _ HI _ c o id v m HR); auto.
    now rewrite <- (proj1 HR).
  Qed.

  (** C40 for the inverted-file index. *)
  Theorem C40_ivf_counts_agree C s0 p nc np mt dim ops :
    library_backend C s0 p -> (1 <= nc)%Z -> mt <> MOther -> 0 < dim ->
    ivf_history dim p ops ->
    let c := cl_after C (ivf_class C nc np mt) s0 ops in
    c_init c = true ->
    let n := Z.of_nat (length (s_recs (db_after p fresh_db ops))) in
    fst (cl_step C (ivf_class C nc np mt) c CStats) = ACounts (Some n) (Some n).
  Proof.
    intros HB Hn Hmt Hd Hfit c Hi n. destruct (library_ok C s0 p HB) as (b & sz & A & HC & HA).
    exact (counts_agree C _ p b sz A HC false _ kmeans_ok (ivf_ok mt dim) _ _
             (ivf_index_ok C nc np mt dim p b sz A HC Hn Hmt Hd) s0 ops HA Hfit Hi).
  Qed.
End Props.

(** ** Concrete cases *)

(** A clustering: the first rows are the centres, rows are dealt out in turn. *)
Definition demo_kmeans : kmeans_fn Z := fun n rows =>
  Ok (firstn (Z.to_nat n) rows, map (fun i => Nat.modulo i (Z.to_nat n)) (seq 0 (length rows))).

Lemma demo_kmeans_ok : kmeans_ok demo_kmeans.
Proof.
  intros n rows dim Hn Hd HF. eexists _, _. split; [reflexivity|].
  split; [|split; [|split]].
  - rewrite firstn_length. lia.
  - rewrite Forall_forall in *. intros c Hc. apply In_firstn in Hc. now apply HF.
  - now rewrite map_length, seq_length.
  - rewrite Forall_forall. intros l Hl. apply in_map_iff in Hl as [i [<- _]].
    pose proof (Nat.mod_upper_bound i (Z.to_nat n)). lia.
Qed.

Ltac fit_ivf :=
  repeat match goal with
  | |- kmeans_ok _ => exact demo_kmeans_ok
  | |- dim_ok _ _ => split; reflexivity
  | _ => progress fit_demo
  end.

Definition demo_ivf_ops : list (cop Z Z (kmeans_fn Z)) :=
  [CInit demo_kmeans [];
   CInsert demo_kmeans (demo_ids 97) (Mat [[0; 0]; [3; 4]; [10; 0]]%Z) (Some [Some 7; None]%Z);
   CInsert demo_kmeans (demo_ids 98) (Mat [[6; 8]]%Z) None;
   CUpdate demo_kmeans (demo_ids 97 0) [1; 0]%Z (Some 8%Z);
   CDelete [demo_ids 97 2; py "nobody"]].

Lemma demo_ivf_fit (p : bool) : ivf_history 2 p demo_ivf_ops.
Proof.
  destruct p; unfold demo_ivf_ops; fit_ivf; simpl; auto; try discriminate;
    try (intros Hin; repeat destruct Hin as [Hin|Hin]; try discriminate; auto);
    try (injection H0 as <-; simpl in H1; repeat destruct H1 as [<-|H1]; split; simpl; auto; tauto).
  all: try (now split).
Qed.

(** With two clusters the demonstration history trains the index and leaves three records. *)
Example C24_hypotheses_met :
  let c := cl_after mem_class (ivf_class mem_class 2 1 MEuclidean) mem_new demo_ivf_ops in
  c_init c = true /\ i_trained (c_index c) = true /\
  i_clusters (c_index c) = [(0, [demo_ids 97 0]); (1, [demo_ids 97 1; demo_ids 98 0])].
Proof. vm_compute. auto. Qed.

(** With nine clusters it is not trained. *)
Example C23_hypotheses_met :
  let c := cl_after mem_class (ivf_class mem_class 9 1 MEuclidean) mem_new demo_ivf_ops in
  c_init c = true /\ i_trained (c_index c) = false /\
  fst (cl_step mem_class (ivf_class mem_class 9 1 MEuclidean) c
         (CSearch demo_kmeans (Vec [0; 0]%Z) 2)) =
  AHits [MkHit (demo_ids 97 0) 1%Z (Some 8%Z); MkHit (demo_ids 97 1) 5%Z None].
Proof. vm_compute. auto. Qed.

(** Probing one of two clusters misses the record in the other; probing both finds it. *)
Example C25_C26_example :
  fst (cl_step mem_class (ivf_class mem_class 2 1 MEuclidean)
         (cl_after mem_class (ivf_class mem_class 2 1 MEuclidean) mem_new demo_ivf_ops)
         (CSearch demo_kmeans (Vec [0; 0]%Z) 2)) =
  AHits [MkHit (demo_ids 97 0) 1%Z (Some 8%Z)] /\
  fst (cl_step mem_class (ivf_class mem_class 2 2 MEuclidean)
         (cl_after mem_class (ivf_class mem_class 2 2 MEuclidean) mem_new demo_ivf_ops)
         (CSearch demo_kmeans (Vec [0; 0]%Z) 2)) =
  AHits [MkHit (demo_ids 97 0) 1%Z (Some 8%Z); MkHit (demo_ids 97 1) 5%Z None].
Proof. vm_compute. auto. Qed.

Example C17_ivf_hypotheses_met :
  fresh_ids (demo_ids 99) 2 (map fst (s_recs (db_after true fresh_db demo_ivf_ops))) /\
  Forall (dim_ok 2) [[5; 5]; [6; 6]]%Z.
Proof.
  split; [|fit_ivf]. split.
  - intros i j _ _. apply demo_ids_inj.
  - intros i Hi. split; [apply demo_ids_uuid; lia|].
    vm_compute. intros Hin. repeat destruct Hin as [Hin|Hin]; try discriminate; auto.
Qed.

(** C80 is false for the inverted-file index: initialise again on memory storage, insert, and the
    search raises, because the clusters of the emptied database are still there. *)
Theorem C80_ivf_reinitialise_refuted :
  exists (ops : list (cop Z Z (kmeans_fn Z))) insert q,
    ivf_history 2 false ops /\
    let IC := ivf_class mem_class 2 1 MEuclidean in
    let again := cl_after mem_class IC mem_new (ops ++ [CInit demo_kmeans []; insert]) in
    let new := cl_after mem_class IC mem_new [CInit demo_kmeans []; insert] in
    fst (cl_step mem_class IC again (CSearch demo_kmeans (Vec q) 5)) = AExn EIndex /\
    fst (cl_step mem_class IC new (CSearch demo_kmeans (Vec q) 5)) =
      AHits [MkHit (demo_ids 99 0) 0%Z None].
Proof.
  exists demo_ivf_ops, (CInsert demo_kmeans (demo_ids 99) (Mat [[5; 5]]%Z) None), [5; 5]%Z.
  split; [apply demo_ivf_fit|]. vm_compute. auto.
Qed.

Print Assumptions C23_ivf_untrained_exact.
Print Assumptions C24_ivf_partition.
Print Assumptions C25_ivf_full_probe_exact.
Print Assumptions C26_ivf_probed_best.
Print Assumptions C26_ivf_history_conforms.
Print Assumptions C17_ivf_insert.
Print Assumptions C18_ivf_delete.
Print Assumptions C18_ivf_deleted_never_found.
Print Assumptions C19_ivf_update.
Print Assumptions C40_ivf_counts_agree.
Print Assumptions C80_ivf_reinitialise_refuted.
