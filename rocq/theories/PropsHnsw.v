(** Properties of the database with a graph index: C27 to C30, the HNSW parts of C17 to C20 and
    C40, and the HNSW part of C80. *)

From Coq Require Import List Arith ZArith NArith Lia Bool Permutation Sorted ZifyBool ZifyNat.
From Coq Require String.
Import (notations) Coq.Strings.String.
From Verif Require Import PyBase BaseLemmas Payload StorageModel StorageSpec StorageRun
  StorageThms StorageOk Num ClientModel DbSpec ClientRun ClientProofs FlatProofs IvfProofs
  HnswModel HnswProofs Demo DemoIndex.
Import ListNotations.

(** A client that was just constructed, with nothing recorded. *)
Notation fresh_db := (MkS false []).

(** Histories a graph database is exercised with: any calls in any order, initialise only when
    not in service, rows that satisfy [fit], any random draws. *)
Notation hnsw_history fit p ops := (all_fit false fit sample_ok p fresh_db ops).

(** Rows of any length. *)
Notation any_row := (fun _ => True).

Section Props.
  Context {F Mt S : Type} `{Num F} `{!NumOrder F} `{Payload (list F) Mt} `{Unicode}.
  Implicit Types C : storage_class S (list F) Mt.

  (** In service after a history, the invariant holds. *)
  Lemma hnsw_reach C s0 p m ef mt fit ops :
    library_backend C s0 p -> (0 <= m)%Z -> hnsw_history fit p ops ->
    exists b sz A, exists HC : storage_ok C p b sz A,
      let c := cl_after C (hnsw_class C m ef mt) s0 ops in
      let recs := s_recs (db_after p fresh_db ops) in
      index_ok (hnsw_class C m ef mt) A false fit sample_ok (hnsw_ok mt) hopen hclosed /\
      A fresh_db s0 /\
      Rcl A fit hopen hclosed (db_after p fresh_db ops) c /\
      (c_init c = true -> hopen recs (c_index c) /\ A (MkS true recs) (c_storage c) /\
                          fit_recs fit recs /\ NoDup (map fst recs)).
  Proof.
    intros HB Hm Hfit. destruct (library_ok C s0 p HB) as (b & sz & A & HC & HA).
    exists b, sz, A, HC. pose proof (hnsw_index_ok C m ef mt p b sz A HC Hm fit) as HI.
    destruct (client_conforms C _ p b sz A HC false _ sample_ok (hnsw_ok mt) _ _ HI s0 ops HA Hfit)
      as [_ HR].
    split; auto. split; auto. split; auto. intros Hi.
    destruct HR as (Hc & Hf & (op & HA' & Hop) & HX). rewrite <- Hc, Hi in HX, Hop.
    rewrite (Hop eq_refl) in HA'. split; auto. split; auto. split; auto.
    exact (so_nd C p b sz A HC _ _ HA').
  Qed.

  (** The search of a client in service, in terms of the candidates. *)
  Lemma hnsw_client_search C s0 p m ef mt fit ops o q k :
    library_backend C s0 p -> (0 <= m)%Z -> hnsw_history fit p ops ->
    let c := cl_after C (hnsw_class C m ef mt) s0 ops in
    let recs := s_recs (db_after p fresh_db ops) in
    c_init c = true ->
    match fst (cl_step C (hnsw_class C m ef mt) c (CSearch o (Vec q) k)) with
    | AHits hits => genuine mt recs q k hits /\ (recs = [] -> hits = []) /\
        (recs <> [] -> exists cs, candidates_of ef mt q (c_index c) = Ok cs /\
             map (fun h => (h_id h, h_dist h)) hits =
             slice_to (Z.min k (Z.of_nat (length recs))) (by_distance cs))
    | AExn e => e = EIndex /\ bad mt recs q
    | _ => False
    end.
  Proof.
    intros HB Hm Hfit c recs Hi.
    destruct (hnsw_reach C s0 p m ef mt fit ops HB Hm Hfit) as (b & sz & A & HC & _ & _ & _ & Hs).
    destruct (Hs Hi) as (Ho & HA & HF & Hnd). fold c in Ho, HA. fold recs in Ho, HA.
    destruct (hnsw_search_ok C ef mt p b sz A HC q k recs (c_index c) (c_storage c) Ho HA)
      as (s' & r & E & _ & Hr).
    simpl. unfold cl_search, guarded, bind, get. rewrite Hi. cbn [negb].
    unfold on_index, zoom. simpl. rewrite E. destruct r; simpl; auto.
  Qed.

  (** C27: a search answers live ids with their current metadata and true distance to the query,
      in order, at most [k] of them. *)
  Theorem C27_hnsw_search_sound C s0 p m ef mt dim ops o q k :
    library_backend C s0 p -> (0 <= m)%Z -> mt <> MOther ->
    hnsw_history (dim_ok dim) p ops -> length q = dim -> (0 <= k)%Z ->
    let c := cl_after C (hnsw_class C m ef mt) s0 ops in
    c_init c = true ->
    exists hits,
      fst (cl_step C (hnsw_class C m ef mt) c (CSearch o (Vec q) k)) = AHits hits /\
      (forall h, In h hits -> exists v,
         read C (c_storage c) (h_id h) = Ok (Some (v, h_meta h)) /\
         h_dist h = true_distance mt q v) /\
      StronglySorted (fun a b => nleb (h_dist a) (h_dist b) = true) hits /\
      length hits <= Z.to_nat k.
  Proof.
    intros HB Hm Hmt Hfit Hq Hk c Hi.
    pose proof (hnsw_client_search C s0 p m ef mt (dim_ok dim) ops o q k HB Hm Hfit Hi) as Hs.
    destruct (hnsw_reach C s0 p m ef mt (dim_ok dim) ops HB Hm Hfit)
      as (b & sz & A & HC & _ & _ & HR & Hs').
    destruct (Hs' Hi) as (Ho & HA & HF & Hnd). fold c in Hs, HR.
    set (recs := s_recs (db_after p fresh_db ops)) in *.
    unfold fit_recs in HF. rewrite Forall_forall in HF.
    assert (Hlen : forall id v mm, In (id, (v, mm)) recs -> length v = dim).
    { intros id v mm Hin. apply (HF _ Hin). }
    destruct (fst (cl_step C (hnsw_class C m ef mt) c (CSearch o (Vec q) k))) as [|li|hits|bo|ci cs|e];
      try contradiction.
    - exists hits. split; auto. destruct Hs as [[Ht Hso Hl] _]. split; [|split]; auto.
      intros h Hh. destruct (Ht h Hh) as (v & Hin & Ed). exists v. split.
      + rewrite (Rcl_read C p b sz A HC (dim_ok dim) _ _ _ c (h_id h) HR (eq_trans (eq_sym (proj1 HR)) Hi)).
        fold recs. f_equal. now apply sp_find_In.
      + rewrite pair_distance_true in Ed by (auto; rewrite (Hlen _ _ _ Hin); auto). congruence.
    - exfalso. destruct Hs as [_ (id & v & mm & e' & Ef & Ed)]. apply sp_find_In in Ef; auto.
      rewrite pair_distance_true in Ed by (auto; rewrite (Hlen _ _ _ Ef); auto). discriminate.
  Qed.

  (** C27, whole histories and vectors of any lengths: search answers are genuine, or an index
      error when some stored vector has no distance to the query; all other answers are exact. *)
  Theorem C27_hnsw_history_conforms C s0 p m ef mt ops :
    library_backend C s0 p -> (0 <= m)%Z -> hnsw_history any_row p ops ->
    db_conforms p (hnsw_ok mt) fresh_db ops (cl_answers C (hnsw_class C m ef mt) s0 ops).
  Proof.
    intros HB Hm Hfit. destruct (library_ok C s0 p HB) as (b & sz & A & HC & HA).
    exact (proj1 (client_conforms C _ p b sz A HC false _ sample_ok (hnsw_ok mt) _ _
             (hnsw_index_ok C m ef mt p b sz A HC Hm any_row) s0 ops HA Hfit)).
  Qed.

  (** C28: the graph is well formed. *)
  Theorem C28_hnsw_graph_well_formed C s0 p m ef mt ops :
    library_backend C s0 p -> (0 <= m)%Z -> hnsw_history any_row p ops ->
    let c := cl_after C (hnsw_class C m ef mt) s0 ops in
    c_init c = true ->
    let levels := h_levels (c_index c) in
    (forall l g, nth_error levels l = Some g ->
       NoDup (map fst g) /\
       forall a la, In (a, la) g ->
         NoDup la /\ ~ In a la /\ forall b, In b la -> exists lb, In (b, lb) g /\ In a lb) /\
    (forall l l' g g' id, l <= l' -> nth_error levels l = Some g -> nth_error levels l' = Some g' ->
       In id (map fst g') -> In id (map fst g)) /\
    (exists g0, nth_error levels 0 = Some g0 /\
       forall id, In id (map fst g0) <-> read C (c_storage c) id <> Ok None).
  Proof.
    intros HB Hm Hfit c Hi levels.
    destruct (hnsw_reach C s0 p m ef mt any_row ops HB Hm Hfit) as (b & sz & A & HC & _ & _ & HR & Hs).
    destruct (Hs Hi) as (Ho & HA & HF & Hnd). fold c in Ho, HR.
    destruct Ho as (_ & _ & _ & g0 & ls & El & _ & HW & Hne & Hp). fold levels in El.
    split; [|split].
    - intros l g E. rewrite El in E. apply nth_error_In in E. rewrite Forall_forall in HW.
      destruct (HW g E) as [Hk Hg]. split; auto. intros a la Ha. apply In_dget in Ha; auto.
      destruct (Hg a la Ha) as (G1 & G2 & G3). split; auto. split; auto. intros b' Hb.
      destruct (G3 b' Hb) as (lb & Eb & Hab). exists lb. split; auto. now apply dget_Some_In.
    - intros l l' g g' id Hle E E' Hin. change (In id (dkeys g)).
      apply (nested_nth (map dkeys levels) l l' (dkeys g) (dkeys g')); auto.
      + now rewrite El.
      + now rewrite nth_error_map, E.
      + now rewrite nth_error_map, E'.
    - exists g0. rewrite El. split; auto. intros id.
      rewrite (Rcl_read C p b sz A HC any_row _ _ _ c id HR (eq_trans (eq_sym (proj1 HR)) Hi)).
      split.
      + intros Hin E. injection E as E. apply sp_find_None in E. apply E.
        apply (Permutation_in _ Hp Hin).
      + intros Hne'. apply (Permutation_in _ (Permutation_sym Hp)). apply In_keys_find.
        destruct (sp_find id (s_recs (db_after p fresh_db ops))); [eauto|congruence].
  Qed.

  (** C28: an id that is not live, such as a deleted one, is at no level and linked from no
      node. *)
  Theorem C28_hnsw_no_trace C s0 p m ef mt ops id :
    library_backend C s0 p -> (0 <= m)%Z -> hnsw_history any_row p ops ->
    let c := cl_after C (hnsw_class C m ef mt) s0 ops in
    c_init c = true -> read C (c_storage c) id = Ok None ->
    forall g, In g (h_levels (c_index c)) ->
      ~ In id (map fst g) /\ forall a la, In (a, la) g -> ~ In id la.
  Proof.
    intros HB Hm Hfit c Hi Hr g Hg.
    destruct (C28_hnsw_graph_well_formed C s0 p m ef mt ops HB Hm Hfit Hi) as (G1 & G2 & g0 & E0 & G3).
    fold c in G1, G2, E0, G3.
    assert (Hno : ~ In id (map fst g)).
    { apply In_nth_error in Hg as [l El]. intros Hin. apply (G3 id); auto.
      apply (G2 0 l g0 g); auto. lia. }
    split; auto. intros a la Ha Hin. apply In_nth_error in Hg as [l El].
    destruct (G1 l g El) as [_ Hw]. destruct (Hw a la Ha) as (_ & _ & Hsym).
    destruct (Hsym id Hin) as (lb & Hb & _). apply Hno. apply (in_map fst) in Hb. exact Hb.
  Qed.

  (** C29, part: a non-empty database answers at least one hit when [ef_search >= 1] and every
      level above the lowest has a node and each of its nodes has a neighbour there.  Missing:
      graphs with an isolated node or an emptied level, where it is false. *)
  Theorem C29_hnsw_finds_something_partial C s0 p m ef mt dim ops o q k :
    library_backend C s0 p -> (0 <= m)%Z -> (1 <= ef)%Z -> mt <> MOther ->
    hnsw_history (dim_ok dim) p ops -> length q = dim -> (1 <= k)%Z ->
    let c := cl_after C (hnsw_class C m ef mt) s0 ops in
    c_init c = true ->
    (exists id, read C (c_storage c) id <> Ok None) ->
    (forall l g, 1 <= l -> nth_error (h_levels (c_index c)) l = Some g ->
       g <> [] /\ forall a la, In (a, la) g -> la <> []) ->
    exists h hits,
      fst (cl_step C (hnsw_class C m ef mt) c (CSearch o (Vec q) k)) = AHits (h :: hits).
  Proof.
    intros HB Hm Hef Hmt Hfit Hq Hk c Hi [id Hid] Hup.
    pose proof (hnsw_client_search C s0 p m ef mt (dim_ok dim) ops o q k HB Hm Hfit Hi) as Hs.
    destruct (C27_hnsw_search_sound C s0 p m ef mt dim ops o q k HB Hm Hmt Hfit Hq ltac:(lia) Hi)
      as (hits & E & _). fold c in E, Hs.
    destruct (hnsw_reach C s0 p m ef mt (dim_ok dim) ops HB Hm Hfit)
      as (b & sz & A & HC & _ & _ & HR & Hs').
    destruct (Hs' Hi) as (Ho & HA & HF & Hnd). fold c in Ho, HR.
    rewrite (Rcl_read C p b sz A HC (dim_ok dim) _ _ _ c id HR (eq_trans (eq_sym (proj1 HR)) Hi)) in Hid.
    set (recs := s_recs (db_after p fresh_db ops)) in *.
    assert (Hne : recs <> []) by (intros Er; rewrite Er in Hid; now apply Hid).
    rewrite E in *. destruct Hs as (_ & _ & Hs). destruct (Hs Hne) as (cs & Ec & Em).
    assert (cs <> []).
    { apply (candidates_nonempty ef mt recs q (c_index c) cs); auto. }
    destruct hits as [|h hits]; eauto. exfalso. simpl in Em.
    rewrite slice_to_want in Em. apply (f_equal (@length _)) in Em. rewrite firstn_length in Em.
    unfold by_distance in Em. rewrite sort_length in Em. simpl in Em. unfold want in Em.
    destruct recs; [congruence|]. destruct cs; [congruence|]. simpl length in Em.
    replace (0 <=? Z.min k (Z.of_nat (Datatypes.S (length recs))))%Z with true in Em by lia. lia.
  Qed.

  (** C30, part: the ids of an answer are distinct when no vector is above the lowest level, or
      when [ef_search = 1].  Missing: the other cases, where it is false. *)
  Theorem C30_hnsw_distinct_ids_partial C s0 p m ef mt ops o q k :
    library_backend C s0 p -> (0 <= m)%Z -> hnsw_history any_row p ops ->
    let c := cl_after C (hnsw_class C m ef mt) s0 ops in
    c_init c = true ->
    (length (h_levels (c_index c)) = 1 \/ ef = 1%Z) ->
    forall hits, fst (cl_step C (hnsw_class C m ef mt) c (CSearch o (Vec q) k)) = AHits hits ->
    NoDup (map h_id hits).
  Proof.
    intros HB Hm Hfit c Hi Hor hits E.
    pose proof (hnsw_client_search C s0 p m ef mt any_row ops o q k HB Hm Hfit Hi) as Hs.
    destruct (hnsw_reach C s0 p m ef mt any_row ops HB Hm Hfit) as (b & sz & A & HC & _ & _ & _ & Hs').
    destruct (Hs' Hi) as (Ho & HA & HF & Hnd). fold c in Hs, Ho.
    set (recs := s_recs (db_after p fresh_db ops)) in *. rewrite E in Hs.
    destruct Hs as (_ & He & Hc). destruct recs as [|r0 recs0] eqn:Er.
    - rewrite (He eq_refl). constructor.
    - destruct (Hc ltac:(discriminate)) as (cs & Ec & Em).
      assert (NoDup (map fst cs)) as Hcn by (eapply candidates_distinct; eauto).
      replace (map h_id hits) with (map fst (map (fun h : hit F Mt => (h_id h, h_dist h)) hits))
        by (rewrite map_map; now apply map_ext).
      rewrite Em, slice_to_want, <- firstn_map_comm. apply NoDup_firstn.
      eapply Permutation_NoDup; [|exact Hcn]. apply Permutation_map. symmetry. apply sort_perm.
  Qed.

  (** C17 for the graph index. *)
  Theorem C17_hnsw_insert C s0 p m ef mt ops o fresh rows meta :
    library_backend C s0 p -> (0 <= m)%Z ->
    hnsw_history any_row p ops ->
    let c := cl_after C (hnsw_class C m ef mt) s0 ops in
    c_init c = true -> sample_ok o ->
    fresh_ids fresh (length rows) (map fst (s_recs (db_after p fresh_db ops))) ->
    (forall l mm, meta = Some l -> In mm l -> meta_ok mm) ->
    let (r, c') := cl_step C (hnsw_class C m ef mt) c (CInsert o fresh (Mat rows) meta) in
    let ids := map fresh (seq 0 (length rows)) in
    r = AIds ids /\ NoDup ids /\
    (forall i, i < length rows -> read C (c_storage c) (fresh i) = Ok None) /\
    (forall i row, nth_error rows i = Some row ->
       read C (c_storage c') (fresh i) = Ok (Some (row, meta_of meta i))) /\
    (forall id, (forall i, i < length rows -> id <> fresh i) ->
       read C (c_storage c') id = read C (c_storage c) id).
  Proof.
    intros HB Hm Hfit c Hi Ho Hfr Hmm.
    destruct (hnsw_reach C s0 p m ef mt any_row ops HB Hm Hfit)
      as (b & sz & A & HC & HI & _ & HR & _).
    apply (insert_effect C _ p b sz A HC false _ sample_ok (hnsw_ok mt) _ _ HI _ c o fresh rows meta HR);
      auto.
    - now rewrite <- (proj1 HR).
    - rewrite Forall_forall. auto.
  Qed.

  (** C18 for the graph index. *)
  Theorem C18_hnsw_delete C s0 p m ef mt ops ids :
    library_backend C s0 p -> (0 <= m)%Z ->
    hnsw_history any_row p ops ->
    let c := cl_after C (hnsw_class C m ef mt) s0 ops in
    c_init c = true ->
    let (r, c') := cl_step C (hnsw_class C m ef mt) c (CDelete ids) in
    (exists ok, r = ABool ok /\
       (ok = true <-> NoDup ids /\ forall id, In id ids -> read C (c_storage c) id <> Ok None)) /\
    (forall id, In id ids -> read C (c_storage c') id = Ok None) /\
    (forall id, ~ In id ids -> read C (c_storage c') id = read C (c_storage c) id).
  Proof.
    intros HB Hm Hfit c Hi.
    destruct (hnsw_reach C s0 p m ef mt any_row ops HB Hm Hfit)
      as (b & sz & A & HC & HI & _ & HR & _).
    apply (delete_effect C _ p b sz A HC false _ sample_ok (hnsw_ok mt) _ _ HI _ c ids HR).
    now rewrite <- (proj1 HR).
  Qed.

  Theorem C18_hnsw_deleted_never_found C s0 p m ef mt ops ids later id :
    library_backend C s0 p -> (0 <= m)%Z ->
    hnsw_history any_row p (ops ++ CDelete ids :: later) ->
    c_init (cl_after C (hnsw_class C m ef mt) s0 ops) = true ->
    In id ids -> Forall (fun o => ~ hands_out id o) later ->
    let c' := cl_after C (hnsw_class C m ef mt) s0 (ops ++ [CDelete ids]) in
    Forall (fun r => match r with AHits l => ~ In id (map h_id l) | _ => True end)
           (fst (cl_run C (hnsw_class C m ef mt) c' later)).
  Proof.
    intros HB Hm Hfit Hi Hin Hnh c'. destruct (library_ok C s0 p HB) as (b & sz & A & HC & HA).
    apply (deleted_never_found C _ p b sz A HC false _ sample_ok (hnsw_ok mt) _ _
             (hnsw_index_ok C m ef mt p b sz A HC Hm any_row)); auto.
    intros recs q k l h Hok Hh. destruct (gn_true _ _ _ _ _ Hok h Hh) as [v [Hr _]].
    intros Ef. apply sp_find_None in Ef. apply Ef. apply (in_map fst) in Hr. exact Hr.
  Qed.

  (** C19 for the graph index. *)
  Theorem C19_hnsw_update C s0 p m ef mt ops o id v mm :
    library_backend C s0 p -> (0 <= m)%Z ->
    hnsw_history any_row p ops ->
    let c := cl_after C (hnsw_class C m ef mt) s0 ops in
    c_init c = true -> sample_ok o -> meta_ok mm ->
    let (r, c') := cl_step C (hnsw_class C m ef mt) c (CUpdate o id v mm) in
    (exists ok, r = ABool ok /\
       (ok = true <-> read C (c_storage c) id <> Ok None) /\
       read C (c_storage c') id = Ok (if ok then Some (v, mm) else None)) /\
    (forall j, j <> id -> read C (c_storage c') j = read C (c_storage c) j).
  Proof.
    intros HB Hm Hfit c Hi Ho Hmm.
    destruct (hnsw_reach C s0 p m ef mt any_row ops HB Hm Hfit)
      as (b & sz & A & HC & HI & _ & HR & _).
    apply (update_effect C _ p b sz A HC false _ sample_ok (hnsw_ok mt) _ _ HI _ c o id v mm HR); auto.
    now rewrite <- (proj1 HR).
  Qed.

  (** C40 for the graph index. *)
  Theorem C40_hnsw_counts_agree C s0 p m ef mt ops :
    library_backend C s0 p -> (0 <= m)%Z ->
    hnsw_history any_row p ops ->
    let c := cl_after C (hnsw_class C m ef mt) s0 ops in
    c_init c = true ->
    let n := Z.of_nat (length (s_recs (db_after p fresh_db ops))) in
    fst (cl_step C (hnsw_class C m ef mt) c CStats) = ACounts (Some n) (Some n).
  Proof.
    intros HB Hm Hfit c Hi n. destruct (library_ok C s0 p HB) as (b & sz & A & HC & HA).
    exact (counts_agree C _ p b sz A HC false _ sample_ok (hnsw_ok mt) _ _
             (hnsw_index_ok C m ef mt p b sz A HC Hm any_row) s0 ops HA Hfit Hi).
  Qed.
End Props.

(** ** Concrete cases *)

(** Draws: the first nodes are the sample; a given coin. *)
Definition demo_rand (coin : nat -> nat -> bool) : hnsw_rand :=
  MkRand coin (fun _ _ nodes n => firstn n nodes).

Lemma demo_rand_ok coin : sample_ok (demo_rand coin).
Proof.
  intros i l nodes n Hnd Hl. simpl. split; [now apply NoDup_firstn|]. split.
  - intros a Ha. now apply In_firstn in Ha.
  - rewrite firstn_length. lia.
Qed.

(** Nobody rises; everybody rises to level 1; only the first rises, to level 1. *)
Definition low : hnsw_rand := demo_rand (fun _ _ => false).
Definition high : hnsw_rand := demo_rand (fun _ j => Nat.eqb j 0).
Definition first_high : hnsw_rand := demo_rand (fun i j => Nat.eqb i 0 && Nat.eqb j 0).

Ltac fit_hnsw :=
  repeat match goal with
  | |- sample_ok _ => apply demo_rand_ok
  | |- dim_ok _ _ => split; reflexivity
  | _ => progress fit_demo
  end.

Definition demo_hnsw_ops (rnd : hnsw_rand) : list (cop Z Z hnsw_rand) :=
  [CInit rnd [];
   CInsert rnd (demo_ids 97) (Mat [[0; 0]; [3; 4]; [10; 0]]%Z) (Some [Some 7; None]%Z);
   CInsert rnd (demo_ids 98) (Mat [[6; 8]]%Z) None;
   CUpdate rnd (demo_ids 97 0) [1; 0]%Z (Some 8%Z);
   CDelete [demo_ids 97 2; py "nobody"]].

Lemma demo_hnsw_fit (p : bool) coin :
  hnsw_history (dim_ok 2) p (demo_hnsw_ops (demo_rand coin)).
Proof.
  destruct p; unfold demo_hnsw_ops; fit_hnsw; simpl; auto; try discriminate;
    try (intros Hin; repeat destruct Hin as [Hin|Hin]; try discriminate; auto);
    try (injection H0 as <-; simpl in H1; repeat destruct H1 as [<-|H1]; split; simpl; auto; tauto).
  all: try (now split).
Qed.

(** The demonstration history leaves three linked records, on two levels with [high]. *)
Example C27_C28_hypotheses_met :
  let c := cl_after mem_class (hnsw_class mem_class 16 50 MEuclidean) mem_new (demo_hnsw_ops high) in
  c_init c = true /\
  h_levels (c_index c) =
    (let g := [(demo_ids 97 0, [demo_ids 97 1; demo_ids 98 0]);
               (demo_ids 97 1, [demo_ids 97 0; demo_ids 98 0]);
               (demo_ids 98 0, [demo_ids 97 0; demo_ids 97 1])] in [g; g]) /\
  read mem_class (c_storage c) (demo_ids 97 2) = Ok None.
Proof. vm_compute. auto. Qed.

Example C27_example :
  let IC := hnsw_class mem_class 16 50 MEuclidean in
  fst (cl_step mem_class IC (cl_after mem_class IC mem_new (demo_hnsw_ops low))
         (CSearch low (Vec [0; 0]%Z) 2)) =
  AHits [MkHit (demo_ids 97 0) 1%Z (Some 8%Z); MkHit (demo_ids 97 1) 5%Z None].
Proof. vm_compute. auto. Qed.

(** The condition of C29 holds of the two-level graph above, those of C30 of the one-level graph. *)
Example C29_hypotheses_met :
  let c := cl_after mem_class (hnsw_class mem_class 16 50 MEuclidean) mem_new (demo_hnsw_ops high) in
  length (h_levels (c_index c)) = 2 /\
  (exists id, read mem_class (c_storage c) id <> Ok None) /\
  forall l g, 1 <= l -> nth_error (h_levels (c_index c)) l = Some g ->
       g <> [] /\ forall a la, In (a, la) g -> la <> [].
Proof.
  intros c. pose proof (proj1 (proj2 C27_C28_hypotheses_met)) as El. cbv zeta in El. fold c in El.
  rewrite El. split; [reflexivity|].
  split; [exists (demo_ids 97 0); vm_compute; discriminate|]. clear El.
  intros l g Hl E. destruct l as [|[|l]]; [lia| |destruct l; discriminate E].
  injection E as <-. split; [discriminate|].
  intros a la Hin. repeat destruct Hin as [Hin|Hin]; try contradiction;
    injection Hin as <- <-; discriminate.
Qed.

Example C30_hypotheses_met :
  let c := cl_after mem_class (hnsw_class mem_class 16 50 MEuclidean) mem_new (demo_hnsw_ops low) in
  c_init c = true /\ length (h_levels (c_index c)) = 1 /\ length (h_vectors (c_index c)) = 3.
Proof. vm_compute. auto. Qed.

Example C17_hnsw_hypotheses_met :
  fresh_ids (demo_ids 99) 2 (map fst (s_recs (db_after true fresh_db (demo_hnsw_ops high)))).
Proof.
  split.
  - intros i j _ _. apply demo_ids_inj.
  - intros i Hi. split; [apply demo_ids_uuid; lia|].
    vm_compute. intros Hin. repeat destruct Hin as [Hin|Hin]; try discriminate; auto.
Qed.

(** C29 is false: one vector is stored, it was drawn to level 1, and searching for it finds
    nothing. *)
Theorem C29_hnsw_finds_something_refuted :
  exists (ops : list (cop Z Z hnsw_rand)) q,
    hnsw_history (dim_ok 2) false ops /\
    let IC := hnsw_class mem_class 16 50 MEuclidean in
    let c := cl_after mem_class IC mem_new ops in
    (exists id, read mem_class (c_storage c) id = Ok (Some (q, None))) /\
    fst (cl_step mem_class IC c (CSearch low (Vec q) 1)) = AHits [].
Proof.
  exists [CInit high []; CInsert high (demo_ids 97) (Mat [[3; 4]]%Z) None], [3; 4]%Z.
  split; [unfold high; fit_hnsw; discriminate || auto|].
  split; [exists (demo_ids 97 0)|]; reflexivity.
Qed.

(** C29 is false also after deletions: the only vector on the top level is deleted, and the rest
    can no longer be found. *)
Theorem C29_hnsw_after_deletion_refuted :
  exists (ops : list (cop Z Z hnsw_rand)) q,
    hnsw_history (dim_ok 2) false ops /\
    let IC := hnsw_class mem_class 16 50 MEuclidean in
    let c := cl_after mem_class IC mem_new ops in
    (exists id, read mem_class (c_storage c) id = Ok (Some (q, None))) /\
    fst (cl_step mem_class IC c (CSearch low (Vec q) 1)) = AHits [].
Proof.
  exists [CInit low []; CInsert first_high (demo_ids 97) (Mat [[3; 4]; [5; 6]; [7; 8]]%Z) None;
          CDelete [demo_ids 97 0]], [5; 6]%Z.
  split; [unfold low, first_high; fit_hnsw; discriminate || auto|].
  split; [exists (demo_ids 97 1)|]; reflexivity.
Qed.

(** C30 is false: three vectors on two levels, and a search answers one id twice while leaving out
    another. *)
Theorem C30_hnsw_distinct_ids_refuted :
  exists (ops : list (cop Z Z hnsw_rand)) q id1 id2 h1 h2 h3,
    hnsw_history (dim_ok 2) false ops /\
    let IC := hnsw_class mem_class 16 50 MEuclidean in
    let c := cl_after mem_class IC mem_new ops in
    fst (cl_step mem_class IC c (CSearch low (Vec q) 3)) = AHits [h1; h2; h3] /\
    h_id h1 = id1 /\ h_id h2 = id1 /\ ~ In id2 (map h_id [h1; h2; h3]) /\
    read mem_class (c_storage c) id2 <> Ok None.
Proof.
  exists [CInit high []; CInsert high (demo_ids 97) (Mat [[0; 0]; [3; 4]; [6; 8]]%Z) None], [0; 0]%Z,
    (demo_ids 97 0), (demo_ids 97 2), (MkHit (demo_ids 97 0) 0%Z None),
    (MkHit (demo_ids 97 0) 0%Z None), (MkHit (demo_ids 97 1) 5%Z None).
  split; [unfold high; fit_hnsw; discriminate || auto|].
  split; [reflexivity|]. split; [reflexivity|]. split; [reflexivity|]. split.
  - simpl. intros Hin. repeat destruct Hin as [Hin|Hin]; try discriminate; auto.
  - vm_compute. discriminate.
Qed.

(** C80 is false for the graph index: initialise again on memory storage, insert one vector, and
    the index still counts the vectors of the emptied database. *)
Theorem C80_hnsw_reinitialise_refuted :
  exists (ops : list (cop Z Z hnsw_rand)) insert,
    hnsw_history (dim_ok 2) false ops /\
    let IC := hnsw_class mem_class 16 50 MEuclidean in
    let again := cl_after mem_class IC mem_new (ops ++ [CInit low []; insert]) in
    let new := cl_after mem_class IC mem_new [CInit low []; insert] in
    fst (cl_step mem_class IC again CStats) = ACounts (Some 4%Z) (Some 1%Z) /\
    fst (cl_step mem_class IC new CStats) = ACounts (Some 1%Z) (Some 1%Z).
Proof.
  exists (demo_hnsw_ops low), (CInsert low (demo_ids 99) (Mat [[5; 5]]%Z) None).
  split; [apply demo_hnsw_fit|]. vm_compute. auto.
Qed.

Print Assumptions C27_hnsw_search_sound.
Print Assumptions C27_hnsw_history_conforms.
Print Assumptions C28_hnsw_graph_well_formed.
Print Assumptions C28_hnsw_no_trace.
Print Assumptions C29_hnsw_finds_something_partial.
Print Assumptions C29_hnsw_finds_something_refuted.
Print Assumptions C29_hnsw_after_deletion_refuted.
Print Assumptions C30_hnsw_distinct_ids_partial.
Print Assumptions C30_hnsw_distinct_ids_refuted.
Print Assumptions C17_hnsw_insert.
Print Assumptions C18_hnsw_delete.
Print Assumptions C18_hnsw_deleted_never_found.
Print Assumptions C19_hnsw_update.
Print Assumptions C40_hnsw_counts_agree.
Print Assumptions C80_hnsw_reinitialise_refuted.
