(** Properties of the database with a flat index: C16 to C22. *)

From Coq Require Import List Arith ZArith NArith Lia Bool Permutation Sorted.
From Coq Require String.
Import (notations) Coq.Strings.String.
From Verif Require Import PyBase BaseLemmas Payload StorageModel StorageSpec StorageRun
  StorageThms StorageOk Num ClientModel DbSpec ClientRun ClientProofs FlatModel FlatProofs
  Demo DemoIndex.
Import ListNotations.

(** A client that was just constructed, with nothing recorded. *)
Notation fresh_db := (MkS false []).

(** Histories a flat database is exercised with: any calls in any order, with fresh uuids, plain
    dictionaries as metadata and a correct argsort. *)
Notation flat_history p ops := (all_fit true (fun _ => True) argsort_ok p fresh_db ops).

(** Demonstration history: two batches, an update, a deletion, an unknown id. *)
Definition demo_ops : list (cop Z Z (list Z -> list nat)) :=
  [CInit stable_argsort [];
   CInsert stable_argsort (demo_ids 97) (Mat [[0; 0]; [3; 4]; [10; 0]]%Z) (Some [Some 7; None]%Z);
   CInsert stable_argsort (demo_ids 98) (Mat [[6; 8]]%Z) None;
   CUpdate stable_argsort (demo_ids 97 0) [1; 0]%Z (Some 8%Z);
   CDelete [demo_ids 97 2; py "nobody"]].

Lemma demo_ops_fit (p : bool) : flat_history p demo_ops.
Proof.
  destruct p; unfold demo_ops; fit_demo; simpl; auto; try discriminate;
    try (intros Hin; repeat destruct Hin as [Hin|Hin]; try discriminate; auto);
    try (injection H0 as <-; simpl in H1; repeat destruct H1 as [<-|H1]; split; simpl; auto; tauto).
  all: try (now split).
Qed.

Section Props.
  Context {F Mt S : Type} `{Num F} `{!NumOrder F} `{Payload (list F) Mt} `{Unicode}.

  (** C16, whole histories: every answer of every call is what the record list allows, searches
      answering with exact nearest neighbours. *)
  Theorem C16_flat_history_conforms (C : storage_class S (list F) Mt) s0 p mt ops :
    library_backend C s0 p ->
    flat_history p ops ->
    db_conforms p (flat_ok mt) fresh_db ops (cl_answers C (flat_class C mt) s0 ops).
  Proof.
    intros HB Hfit. destruct (library_ok C s0 p HB) as (b & sz & A & HC & HA).
    exact (proj1 (client_conforms C (flat_class C mt) p b sz A HC true _ argsort_ok (flat_ok mt)
             _ _ (flat_index_ok C mt p b sz A HC true) s0 ops HA Hfit)).
  Qed.

  (** C16: flat search is exact k-nearest-neighbour search. *)
  Theorem C16_flat_exact_knn (C : storage_class S (list F) Mt) s0 p mt ops argsort q k :
    library_backend C s0 p ->
    flat_history p ops ->
    let recs := s_recs (db_after p fresh_db ops) in
    c_init (cl_after C (flat_class C mt) s0 ops) = true ->
    argsort_ok argsort -> mt = MCosine \/ mt = MEuclidean ->
    searchable recs q = true -> (0 <= k)%Z ->
    exists hits,
      fst (cl_step C (flat_class C mt) (cl_after C (flat_class C mt) s0 ops)
                   (CSearch argsort (Vec q) k)) = AHits hits /\
      nearest nleb (row_distance mt q) recs (Nat.min (Z.to_nat k) (length recs)) hits.
  Proof.
    intros HB Hfit recs Hi Harg Hmt Hs Hk.
    destruct (library_ok C s0 p HB) as (b & sz & A & HC & HA).
    pose proof (flat_index_ok C mt p b sz A HC true) as HI.
    destruct (client_conforms C _ p b sz A HC true _ argsort_ok (flat_ok mt) _ _ HI s0 ops HA Hfit)
      as [_ HR].
    pose proof (Rcl_step C _ p b sz A HC true _ argsort_ok (flat_ok mt) _ _ HI _ _
                  (CSearch argsort (Vec q) k) HR Harg) as Hst.
    destruct (cl_step C (flat_class C mt) (cl_after C (flat_class C mt) s0 ops)
                (CSearch argsort (Vec q) k)) as [r c'].
    destruct Hst as [Ha _]. simpl in Ha. rewrite <- (proj1 HR), Hi in Ha.
    fold recs in Ha. unfold flat_ok in Ha. simpl.
    assert (want k (length recs) = Nat.min (Z.to_nat k) (length recs)) as Ew.
    { unfold want. now replace (0 <=? k)%Z with true by (symmetry; apply Z.leb_le; lia). }
    rewrite Ew in Ha.
    assert (Hempty : recs = [] ->
              nearest nleb (row_distance mt q) recs (Nat.min (Z.to_nat k) (length recs)) []).
    { intros E. rewrite E. simpl. rewrite Nat.min_0_r.
      constructor; simpl; auto; try constructor; intros; contradiction. }
    rewrite Hs in Ha. destruct recs as [|e recs0] eqn:E; [eauto|].
    destruct Hmt as [-> | ->]; exact Ha.
  Qed.

  (** C17: insert returns one fresh id per row, in order, and exactly those rows are added. *)
  Theorem C17_flat_insert (C : storage_class S (list F) Mt) s0 p mt ops o fresh rows meta :
    library_backend C s0 p ->
    flat_history p ops ->
    let c := cl_after C (flat_class C mt) s0 ops in
    c_init c = true -> argsort_ok o ->
    fresh_ids fresh (length rows) (map fst (s_recs (db_after p fresh_db ops))) ->
    (forall l m, meta = Some l -> In m l -> meta_ok m) ->
    let (r, c') := cl_step C (flat_class C mt) c (CInsert o fresh (Mat rows) meta) in
    let ids := map fresh (seq 0 (length rows)) in
    r = AIds ids /\ NoDup ids /\
    (forall i, i < length rows -> read C (c_storage c) (fresh i) = Ok None) /\
    (forall i row, nth_error rows i = Some row ->
       read C (c_storage c') (fresh i) = Ok (Some (row, meta_of meta i))) /\
    (forall id, (forall i, i < length rows -> id <> fresh i) ->
       read C (c_storage c') id = read C (c_storage c) id).
  Proof.
    intros HB Hfit c Hi Ho Hfr Hm.
    destruct (library_ok C s0 p HB) as (b & sz & A & HC & HA).
    pose proof (flat_index_ok C mt p b sz A HC true) as HI.
    destruct (client_conforms C _ p b sz A HC true _ argsort_ok (flat_ok mt) _ _ HI s0 ops HA Hfit)
      as [_ HR].
    apply (insert_effect C _ p b sz A HC true _ argsort_ok (flat_ok mt) _ _ HI _ c o fresh rows meta HR);
      auto.
    - now rewrite <- (proj1 HR).
    - rewrite Forall_forall. auto.
  Qed.

  (** C18: delete returns True exactly when every listed id was live at its turn (so: all live,
      none listed twice), removes exactly the listed ids. *)
  Theorem C18_flat_delete (C : storage_class S (list F) Mt) s0 p mt ops ids :
    library_backend C s0 p ->
    flat_history p ops ->
    let c := cl_after C (flat_class C mt) s0 ops in
    c_init c = true ->
    let (r, c') := cl_step C (flat_class C mt) c (CDelete ids) in
    (exists ok, r = ABool ok /\
       (ok = true <-> NoDup ids /\ forall id, In id ids -> read C (c_storage c) id <> Ok None)) /\
    (forall id, In id ids -> read C (c_storage c') id = Ok None) /\
    (forall id, ~ In id ids -> read C (c_storage c') id = read C (c_storage c) id).
  Proof.
    intros HB Hfit c Hi.
    destruct (library_ok C s0 p HB) as (b & sz & A & HC & HA).
    pose proof (flat_index_ok C mt p b sz A HC true) as HI.
    destruct (client_conforms C _ p b sz A HC true _ argsort_ok (flat_ok mt) _ _ HI s0 ops HA Hfit)
      as [_ HR].
    apply (delete_effect C _ p b sz A HC true _ argsort_ok (flat_ok mt) _ _ HI _ c ids HR).
    now rewrite <- (proj1 HR).
  Qed.

  (** C18, later searches: once deleted, an id is in no search answer unless an insert hands it
      out again. *)
  Theorem C18_flat_deleted_never_found (C : storage_class S (list F) Mt) s0 p mt ops ids later id :
    library_backend C s0 p ->
    flat_history p (ops ++ CDelete ids :: later) ->
    c_init (cl_after C (flat_class C mt) s0 ops) = true ->
    In id ids -> Forall (fun o => ~ hands_out id o) later ->
    let c' := cl_after C (flat_class C mt) s0 (ops ++ [CDelete ids]) in
    Forall (fun r => match r with AHits l => ~ In id (map h_id l) | _ => True end)
           (fst (cl_run C (flat_class C mt) c' later)).
  Proof.
    intros HB Hfit Hi Hin Hn c'.
    destruct (library_ok C s0 p HB) as (b & sz & A & HC & HA).
    pose proof (flat_index_ok C mt p b sz A HC true) as HI.
    apply (deleted_never_found C _ p b sz A HC true _ argsort_ok (flat_ok mt) _ _ HI); auto.
    intros recs q k l h Hok Hh. unfold flat_ok in Hok. destruct recs as [|e recs].
      + injection Hok as ->. destruct Hh.
      + assert (exists hits, AHits l = AHits hits /\
                  nearest nleb (row_distance mt q) (e :: recs) (want k (length (e :: recs))) hits)
          as (hits & E & Hnn).
        { destruct mt; destruct (searchable (e :: recs) q); try discriminate; exact Hok. }
        injection E as <-. destruct (nn_true _ _ _ _ _ Hnn h Hh) as [v [Hr _]].
        intros Ef. apply sp_find_None in Ef. apply Ef.
        apply (in_map fst) in Hr. exact Hr.
  Qed.

  (** C19: update returns True exactly when the id is live, replaces that record and no other. *)
  Theorem C19_flat_update (C : storage_class S (list F) Mt) s0 p mt ops o id v m :
    library_backend C s0 p ->
    flat_history p ops ->
    let c := cl_after C (flat_class C mt) s0 ops in
    c_init c = true -> argsort_ok o -> meta_ok m ->
    let (r, c') := cl_step C (flat_class C mt) c (CUpdate o id v m) in
    (exists ok, r = ABool ok /\
       (ok = true <-> read C (c_storage c) id <> Ok None) /\
       read C (c_storage c') id = Ok (if ok then Some (v, m) else None)) /\
    (forall j, j <> id -> read C (c_storage c') j = read C (c_storage c) j).
  Proof.
    intros HB Hfit c Hi Ho Hm.
    destruct (library_ok C s0 p HB) as (b & sz & A & HC & HA).
    pose proof (flat_index_ok C mt p b sz A HC true) as HI.
    destruct (client_conforms C _ p b sz A HC true _ argsort_ok (flat_ok mt) _ _ HI s0 ops HA Hfit)
      as [_ HR].
    apply (update_effect C _ p b sz A HC true _ argsort_ok (flat_ok mt) _ _ HI _ c o id v m HR); auto.
    now rewrite <- (proj1 HR).
  Qed.

  (** C20: on a persistent backend, closing (or just dropping) the client and opening a new one
      gives exact nearest neighbours among the same records. *)
  Theorem C20_flat_restart (C : storage_class S (list F) Mt) s0 mt ops shutdown o argsort q k :
    library_backend C s0 true ->
    flat_history true ops ->
    shutdown = [] \/ shutdown = [CClose []] ->
    argsort_ok o -> argsort_ok argsort -> mt = MCosine \/ mt = MEuclidean ->
    let recs := s_recs (db_after true fresh_db ops) in
    searchable recs q = true -> (0 <= k)%Z ->
    exists hits,
      fst (cl_step C (flat_class C mt)
             (cl_after C (flat_class C mt) s0 (ops ++ shutdown ++ [CReopen; CInit o []]))
             (CSearch argsort (Vec q) k)) = AHits hits /\
      nearest nleb (row_distance mt q) recs (Nat.min (Z.to_nat k) (length recs)) hits.
  Proof.
    intros HB Hfit Hsd Ho Harg Hmt recs Hs Hk.
    assert (Hafter : db_after true fresh_db (ops ++ shutdown ++ [CReopen; CInit o []]) = MkS true recs).
    { unfold db_after. rewrite fold_left_app. fold (db_after true fresh_db ops).
      destruct Hsd as [-> | ->]; reflexivity. }
    assert (forall l2 d (l1 : list (cop F Mt (list F -> list nat))),
      all_fit true (fun _ => True) argsort_ok true d l1 ->
      all_fit true (fun _ => True) argsort_ok true (db_after true d l1) l2 ->
      all_fit true (fun _ => True) argsort_ok true d (l1 ++ l2)) as Happ.
    { intros l2 d l1. revert d. induction l1 as [|x l1 IH]; intros d; simpl; auto.
      intros [H2 H3] H4. split; auto. }
    assert (Hfit' : flat_history true (ops ++ shutdown ++ [CReopen; CInit o []])).
    { apply Happ; auto. destruct Hsd as [-> | ->]; simpl; intuition discriminate. }
    destruct (library_ok C s0 true HB) as (b & sz & A & HC & HA).
    pose proof (flat_index_ok C mt true b sz A HC true) as HI.
    destruct (client_conforms C _ true b sz A HC true _ argsort_ok (flat_ok mt) _ _ HI s0 _ HA Hfit')
      as [_ HR].
    rewrite Hafter in HR.
    assert (Hrecs : s_recs (db_after true fresh_db (ops ++ shutdown ++ [CReopen; CInit o []])) = recs)
      by now rewrite Hafter.
    rewrite <- Hrecs in *.
    apply C16_flat_exact_knn with (p := true); auto. rewrite (proj1 HR). reflexivity.
  Qed.

  (** C21 (partial): an insert of an array that is not two-dimensional raises and changes
      nothing, and an insert with plain metadata never raises.  Missing: atomicity when a
      metadata entry is not a dictionary, which fails ([C21_failed_insert_refuted]). *)
  Theorem C21_failed_insert_partial (C : storage_class S (list F) Mt) s0 p mt ops o fresh arr meta :
    library_backend C s0 p ->
    flat_history p ops ->
    let c := cl_after C (flat_class C mt) s0 ops in
    c_init c = true ->
    match arr with
    | Mat rows =>
        argsort_ok o ->
        fresh_ids fresh (length rows) (map fst (s_recs (db_after p fresh_db ops))) ->
        (forall l m, meta = Some l -> In m l -> meta_ok m) ->
        forall e, fst (cl_step C (flat_class C mt) c (CInsert o fresh arr meta)) <> AExn e
    | _ => cl_step C (flat_class C mt) c (CInsert o fresh arr meta) = (AExn EIndex, c)
    end.
  Proof.
    intros HB Hfit c Hi.
    destruct (library_ok C s0 p HB) as (b & sz & A & HC & HA).
    pose proof (flat_index_ok C mt p b sz A HC true) as HI.
    destruct (client_conforms C _ p b sz A HC true _ argsort_ok (flat_ok mt) _ _ HI s0 ops HA Hfit)
      as [_ HR].
    destruct HR as (Hc & _ & _ & HX). fold c in Hc, HX. rewrite <- Hc, Hi in HX.
    destruct HX as (_ & Hx & _). destruct c as [x s ci] eqn:Ec. simpl in Hx, Hi. subst ci.
    destruct arr as [v|rows|].
    - simpl. unfold cl_insert, guarded, on_index, bind, zoom, get. simpl.
      unfold flat_insert, bind, get_ix. simpl. rewrite Hx. reflexivity.
    - intros Ho Hfr Hm e.
      pose proof (C17_flat_insert C s0 p mt ops o fresh rows meta HB Hfit) as H17.
      simpl in H17. fold c in H17. rewrite Ec in H17. specialize (H17 eq_refl Ho Hfr Hm).
      simpl. destruct (cobs AIds _) as [r c']. destruct H17 as [-> _]. discriminate.
    - simpl. unfold cl_insert, guarded, on_index, bind, zoom, get. simpl.
      unfold flat_insert, bind, get_ix. simpl. rewrite Hx. reflexivity.
  Qed.

  (** C22 (partial): if all vectors written are finite and have one dimension, a search with a
      query of that dimension does not raise.  Missing: mixed dimensions, where it does
      ([C22_unsearchable_refuted]). *)
  Theorem C22_searchable_partial (C : storage_class S (list F) Mt) s0 p mt ops argsort q k dim :
    library_backend C s0 p ->
    all_fit true (fun v => length v = dim /\ forallb nfinite v = true) argsort_ok p fresh_db ops ->
    c_init (cl_after C (flat_class C mt) s0 ops) = true ->
    argsort_ok argsort -> mt = MCosine \/ mt = MEuclidean ->
    0 < dim -> length q = dim -> forallb nfinite q = true ->
    exists hits, fst (cl_step C (flat_class C mt) (cl_after C (flat_class C mt) s0 ops)
                              (CSearch argsort (Vec q) k)) = AHits hits.
  Proof.
    intros HB Hfit Hi Harg Hmt Hd Hq Hqf.
    destruct (library_ok C s0 p HB) as (b & sz & A & HC & HA).
    set (P := fun v : list F => length v = dim /\ forallb nfinite v = true) in *.
    assert (HI : index_ok (flat_class C mt) A true P argsort_ok (flat_ok mt) fopen fcoh).
    { destruct (flat_index_ok C mt p b sz A HC true) as [i1 i2 i3 i4 i5 i6 i7 i8 i9 i10].
      assert (HT : forall recs, fit_recs (F := F) (Mt := Mt) (fun _ => True) recs).
      { intros recs. unfold fit_recs. rewrite Forall_forall. auto. }
      constructor; [exact i1|exact i2|exact i3| | | | | |exact i9|exact i10].
      - intros o recs x s Ho _. apply i4; auto.
      - intros o fresh arr meta recs x s _ Ho HA'.
        specialize (i5 o fresh arr meta recs x s (HT recs) Ho HA').
        destruct arr; auto. intros H2 H3 _ H4. apply i5; auto.
        rewrite Forall_forall. auto.
      - intros o q' k' recs x s Ho _. apply i6; auto.
      - intros ids recs x s _. apply i7; auto.
      - intros o id v m recs x s Ho _ Hx HA' _ Hm. apply i8; auto. }
    destruct (client_conforms C _ p b sz A HC true P argsort_ok (flat_ok mt) _ _ HI s0 ops HA Hfit)
      as [_ HR].
    pose proof (Rcl_step C _ p b sz A HC true _ argsort_ok (flat_ok mt) _ _ HI _ _
                  (CSearch argsort (Vec q) k) HR Harg) as Hst.
    destruct (cl_step C (flat_class C mt) (cl_after C (flat_class C mt) s0 ops)
                (CSearch argsort (Vec q) k)) as [r c'].
    destruct Hst as [Ha _]. simpl in Ha. rewrite <- (proj1 HR), Hi in Ha.
    destruct HR as (_ & Hfr & _). set (recs := s_recs (db_after p fresh_db ops)) in *.
    assert (searchable recs q = true) as Hs.
    { unfold searchable. rewrite !andb_true_iff. repeat split; auto.
      - destruct (Nat.eqb_spec (length q) 0); simpl; auto. lia.
      - rewrite forallb_forall. intros e He. unfold fit_recs in Hfr. rewrite Forall_forall in Hfr.
        destruct (Hfr e He) as [E1 E2]. rewrite E1, Hq, Nat.eqb_refl. exact E2. }
    unfold flat_ok in Ha. rewrite Hs in Ha. destruct recs as [|e recs]; [simpl; eauto|].
    destruct Hmt as [-> | ->]; destruct Ha as (hits & -> & _); simpl; eauto.
  Qed.
End Props.

(** Concrete cases.  The demonstration history meets the hypotheses on all three backends. *)
Example C16_example :
  fst (cl_step (disk_class demo_order) (flat_class (disk_class demo_order) MEuclidean)
         (cl_after (disk_class demo_order) (flat_class (disk_class demo_order) MEuclidean)
                   (disk_new [] []) demo_ops)
         (CSearch stable_argsort (Vec [0; 0]%Z) 2)) =
  AHits [MkHit (demo_ids 97 0) 1%Z (Some 8%Z); MkHit (demo_ids 97 1) 5%Z None].
Proof. vm_compute. reflexivity. Qed.

Example C16_hypotheses_met :
  library_backend (disk_class (V := list Z) (Mt := Z) demo_order) (disk_new [] []) true /\
  flat_history true demo_ops /\
  c_init (cl_after (disk_class demo_order) (flat_class (disk_class demo_order) MEuclidean)
                   (disk_new [] []) demo_ops) = true /\
  searchable (s_recs (db_after true fresh_db demo_ops)) [0; 0]%Z = true /\
  length (s_recs (db_after true fresh_db demo_ops)) = 3.
Proof.
  split; [constructor; apply demo_order_perm|]. split; [apply demo_ops_fit|].
  vm_compute. auto.
Qed.

Example C17_hypotheses_met :
  fresh_ids (demo_ids 99) 2 (map fst (s_recs (db_after true fresh_db demo_ops))) /\
  c_init (cl_after mem_class (flat_class mem_class MCosine) mem_new demo_ops) = true.
Proof.
  split; [|vm_compute; reflexivity]. split.
  - intros i j _ _. apply demo_ids_inj.
  - intros i Hi. split; [apply demo_ids_uuid; lia|].
    vm_compute. intros Hin. repeat destruct Hin as [Hin|Hin]; try discriminate; auto.
Qed.

(** The deletion in the demonstration history answered False: one of its ids was unknown. *)
Example C18_example :
  nth 4 (cl_answers mem_class (flat_class mem_class MEuclidean) mem_new demo_ops) AUnit = ABool false /\
  read mem_class (c_storage (cl_after mem_class (flat_class mem_class MEuclidean) mem_new demo_ops))
       (demo_ids 97 2) = Ok None.
Proof. vm_compute. auto. Qed.

Example C19_example :
  fst (cl_step mem_class (flat_class mem_class MEuclidean)
         (cl_after mem_class (flat_class mem_class MEuclidean) mem_new demo_ops)
         (CUpdate stable_argsort (demo_ids 98 0) [2; 2]%Z None)) = ABool true /\
  fst (cl_step mem_class (flat_class mem_class MEuclidean)
         (cl_after mem_class (flat_class mem_class MEuclidean) mem_new demo_ops)
         (CUpdate stable_argsort (py "nobody") [2; 2]%Z None)) = ABool false.
Proof. vm_compute. auto. Qed.

Example C20_example :
  fst (cl_step (hybrid_class demo_order) (flat_class (hybrid_class demo_order) MEuclidean)
         (cl_after (hybrid_class demo_order) (flat_class (hybrid_class demo_order) MEuclidean)
                   (hybrid_new 1 [] []) (demo_ops ++ [CClose []] ++ [CReopen; CInit stable_argsort []]))
         (CSearch stable_argsort (Vec [0; 0]%Z) 2)) =
  AHits [MkHit (demo_ids 97 0) 1%Z (Some 8%Z); MkHit (demo_ids 97 1) 5%Z None].
Proof. vm_compute. reflexivity. Qed.

(** C21 is false: an insert whose second metadata entry has no [copy] method raises, but the
    first row stays stored and searchable. *)
Theorem C21_failed_insert_refuted :
  exists (ops : list (cop Z Z (list Z -> list nat))) insert,
    flat_history false ops /\
    let c := cl_after mem_class (flat_class mem_class MEuclidean) mem_new ops in
    let (r, c') := cl_step mem_class (flat_class mem_class MEuclidean) c insert in
    r = AExn EIndex /\
    fst (cl_step mem_class (flat_class mem_class MEuclidean) c
           (CSearch stable_argsort (Vec [1; 1]%Z) 5)) = AHits [] /\
    fst (cl_step mem_class (flat_class mem_class MEuclidean) c'
           (CSearch stable_argsort (Vec [1; 1]%Z) 5)) = AHits [MkHit (demo_ids 97 0) 0%Z (Some 1%Z)].
Proof.
  exists [CInit stable_argsort []],
    (CInsert stable_argsort (demo_ids 97) (Mat [[1; 1]; [2; 2]]%Z) (Some [Some 1; Some (-1)]%Z)).
  split.
  - fit_demo; discriminate.
  - vm_compute. auto.
Qed.

(** C22 is false: two inserts of different dimensions both succeed, after which a search raises. *)
Theorem C22_unsearchable_refuted :
  exists ops : list (cop Z Z (list Z -> list nat)),
    flat_history false ops /\
    Forall (fun r => forall e, r <> AExn e)
      (cl_answers mem_class (flat_class mem_class MEuclidean) mem_new ops) /\
    fst (cl_step mem_class (flat_class mem_class MEuclidean)
           (cl_after mem_class (flat_class mem_class MEuclidean) mem_new ops)
           (CSearch stable_argsort (Vec [1; 1]%Z) 5)) = AExn EIndex.
Proof.
  exists [CInit stable_argsort [];
          CInsert stable_argsort (demo_ids 97) (Mat [[1; 1]]%Z) None;
          CInsert stable_argsort (demo_ids 98) (Mat [[1; 1; 1]]%Z) None].
  split; [|split].
  - fit_demo; simpl; auto; try discriminate.
    intros Hin; repeat destruct Hin as [Hin|Hin]; try discriminate; auto.
  - repeat constructor; intros; discriminate.
  - vm_compute. reflexivity.
Qed.

Example C22_partial_hypotheses_met :
  all_fit true (fun v : list Z => length v = 2 /\ forallb nfinite v = true) argsort_ok false fresh_db
    [CInit stable_argsort []; CInsert (Mt := Z) stable_argsort (demo_ids 97) (Mat [[1; 1]; [0; 2]]%Z) None].
Proof. fit_demo; simpl; auto; try discriminate. Qed.

Print Assumptions C16_flat_history_conforms.
Print Assumptions C16_flat_exact_knn.
Print Assumptions C17_flat_insert.
Print Assumptions C18_flat_delete.
Print Assumptions C18_flat_deleted_never_found.
Print Assumptions C19_flat_update.
Print Assumptions C20_flat_restart.
Print Assumptions C21_failed_insert_partial.
Print Assumptions C21_failed_insert_refuted.
Print Assumptions C22_searchable_partial.
Print Assumptions C22_unsearchable_refuted.
