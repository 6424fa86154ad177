(** C119: a graph database that never holds more than [m] vectors answers exactly. *)

From Coq Require Import List Arith ZArith NArith Lia Bool Permutation Sorted ZifyBool ZifyNat.
From Coq Require String.
Import (notations) Coq.Strings.String.
From Verif Require Import PyBase BaseLemmas Payload StorageModel StorageSpec StorageRun
  StorageThms StorageOk Num ClientModel DbSpec ClientRun ClientProofs FlatProofs IvfProofs
  HnswModel HnswProofs ClientExtra HnswSmallProofs Demo DemoIndex PropsHnsw.
Import ListNotations.

(** At no point between two calls of the history were more than [m] vectors recorded. *)
Notation never_above m p ops :=
  (forall n, (Z.of_nat (length (s_recs (db_after p fresh_db (firstn n ops)))) <= m)%Z).

Lemma nil_or {T} (l : list T) : {l = []} + {l <> []}.
Proof. destruct l; [left|right]; congruence. Qed.

Section Props.
  Context {F Mt S : Type} `{Num F} `{!NumOrder F} `{Payload (list F) Mt} `{Unicode}.
  Implicit Types C : storage_class S (list F) Mt.

  Lemma small_full C s0 p m ef mt fit ops :
    library_backend C s0 p -> (0 <= m)%Z -> hnsw_history fit p ops -> never_above m p ops ->
    let c := cl_after C (hnsw_class C m ef mt) s0 ops in
    c_init c = true -> full (c_index c).
  Proof.
    intros HB Hm Hfit Hsm c Hi. destruct (library_ok C s0 p HB) as (b & sz & A & HC & HA).
    exact (extra_reach C (hnsw_class C m ef mt) p b sz A HC fit sample_ok (hnsw_ok mt) hopen hclosed
             (hnsw_index_ok C m ef mt p b sz A HC Hm fit) (small m) (fun _ => full)
             (hnsw_keeps C m ef mt p b sz A HC Hm fit) s0 ops HA Hfit Hsm Hi).
  Qed.

  (** Every two nodes of a level are linked. *)
  Theorem C119_hnsw_levels_complete C s0 p m ef mt ops :
    library_backend C s0 p -> (0 <= m)%Z -> hnsw_history any_row p ops -> never_above m p ops ->
    let c := cl_after C (hnsw_class C m ef mt) s0 ops in
    c_init c = true ->
    forall g a la b, In g (h_levels (c_index c)) -> In (a, la) g -> In b (map fst g) -> a <> b ->
    In b la.
  Proof.
    intros HB Hm Hfit Hsm c Hi g a la b' Hg Ha Hb Nab.
    pose proof (small_full C s0 p m ef mt any_row ops HB Hm Hfit Hsm Hi) as Hf.
    unfold full in Hf. rewrite Forall_forall in Hf. apply (Hf g Hg a la b'); auto.
    destruct (C28_hnsw_graph_well_formed C s0 p m ef mt ops HB Hm Hfit Hi) as [Hw _].
    apply In_nth_error in Hg as [l El]. destruct (Hw l g El) as [Hnd _]. now apply In_dget.
  Qed.

  (** The answer of a search, when the history stayed small. *)
  Lemma small_search C s0 p m ef mt dim ops o q k :
    library_backend C s0 p -> (0 <= m)%Z -> mt <> MOther ->
    hnsw_history (dim_ok dim) p ops -> never_above m p ops -> length q = dim -> (0 <= k)%Z ->
    let c := cl_after C (hnsw_class C m ef mt) s0 ops in
    let recs := s_recs (db_after p fresh_db ops) in
    c_init c = true ->
    exists hits, fst (cl_step C (hnsw_class C m ef mt) c (CSearch o (Vec q) k)) = AHits hits /\
      genuine mt recs q k hits /\ NoDup (map fst recs) /\ hopen recs (c_index c) /\
      (forall id v mm, In (id, (v, mm)) recs -> pair_distance mt q v = Ok (true_distance mt q v)) /\
      (recs = [] -> hits = []) /\
      (recs <> [] -> exists cs, candidates_of ef mt q (c_index c) = Ok cs /\
         Forall (live_cand mt recs q) cs /\
         (cs <> [] -> forall id, In id (map fst recs) -> In id (map fst cs)) /\
         map (fun h => (h_id h, h_dist h)) hits =
         slice_to (Z.min k (Z.of_nat (length recs))) (by_distance cs)).
  Proof.
    intros HB Hm Hmt Hfit Hsm Hq Hk c recs Hi.
    pose proof (hnsw_client_search C s0 p m ef mt (dim_ok dim) ops o q k HB Hm Hfit Hi) as Hs.
    destruct (C27_hnsw_search_sound C s0 p m ef mt dim ops o q k HB Hm Hmt Hfit Hq Hk Hi)
      as (hits & E & _). fold c in Hs, E. fold recs in Hs. rewrite E in Hs.
    destruct (hnsw_reach C s0 p m ef mt (dim_ok dim) ops HB Hm Hfit)
      as (b & sz & A & HC & _ & _ & HR & Hs').
    destruct (Hs' Hi) as (Ho & HA & HF & Hnd). fold c in Ho. fold recs in Ho, HF, Hnd.
    pose proof (small_full C s0 p m ef mt (dim_ok dim) ops HB Hm Hfit Hsm Hi) as Hf. fold c in Hf.
    destruct Hs as (Hgen & He & Hc). exists hits. split; auto. split; auto. split; auto. split; auto.
    split; [|split; auto].
    - intros id v mm Hin. apply pair_distance_true; auto. unfold fit_recs in HF.
      rewrite Forall_forall in HF. destruct (HF _ Hin) as [Hl _]. simpl in Hl. congruence.
    - intros Hne. destruct (Hc Hne) as (cs & Ec & Em). exists cs. split; auto.
      pose proof (candidates_ok ef mt recs q (c_index c) (hopen_sound _ _ Ho)) as Hcs. rewrite Ec in Hcs.
      split; auto. split; auto. intros Hn. now apply (full_candidates ef mt recs q (c_index c)).
  Qed.

  (** C119: the first hit is nearest: no stored vector is closer to the query. *)
  Theorem C119_hnsw_small_first_hit C s0 p m ef mt dim ops o q k :
    library_backend C s0 p -> (0 <= m)%Z -> mt <> MOther ->
    hnsw_history (dim_ok dim) p ops -> never_above m p ops -> length q = dim -> (0 <= k)%Z ->
    let c := cl_after C (hnsw_class C m ef mt) s0 ops in
    c_init c = true ->
    forall h hits, fst (cl_step C (hnsw_class C m ef mt) c (CSearch o (Vec q) k)) = AHits (h :: hits) ->
    forall id v mm, read C (c_storage c) id = Ok (Some (v, mm)) ->
    nleb (h_dist h) (true_distance mt q v) = true.
  Proof.
    intros HB Hm Hmt Hfit Hsm Hq Hk c Hi h hits E id v mm Hr.
    destruct (small_search C s0 p m ef mt dim ops o q k HB Hm Hmt Hfit Hsm Hq Hk Hi)
      as (hits' & E' & Hgen & Hnd & Ho & Hd & He & Hc).
    fold c in E'. rewrite E in E'. injection E' as <-.
    destruct (hnsw_reach C s0 p m ef mt (dim_ok dim) ops HB Hm Hfit)
      as (b & sz & A & HC & _ & _ & HR & _).
    rewrite (Rcl_read C p b sz A HC (dim_ok dim) _ _ _ c id HR (eq_trans (eq_sym (proj1 HR)) Hi)) in Hr.
    set (recs := s_recs (db_after p fresh_db ops)) in *. injection Hr as Ef.
    assert (Hin : In (id, (v, mm)) recs) by now apply sp_find_In.
    assert (Hne : recs <> []) by (intros Er; rewrite Er in Hin; destruct Hin).
    destruct (Hc Hne) as (cs & Ec & Hl & Hcov & Em).
    rewrite slice_to_want in Em.
    assert (Hcs : cs <> []).
    { intros ->. simpl in Em. now rewrite firstn_nil in Em. }
    specialize (Hcov Hcs id (in_map fst _ _ Hin)). apply in_map_iff in Hcov as ([id' d] & Eid & Hcin).
    simpl in Eid. subst id'. rewrite Forall_forall in Hl. destruct (Hl _ Hcin) as (v' & mm' & Ef' & Ed).
    simpl in Ef', Ed. rewrite Ef in Ef'. injection Ef' as <- <-. rewrite (Hd _ _ _ Hin) in Ed.
    injection Ed as <-.
    pose proof (by_distance_sorted (F := F) cs) as Hso.
    assert (Hcin' : In (id, true_distance mt q v) (by_distance cs)) by now apply In_sort.
    destruct (by_distance cs) as [|c0 rest]; [destruct Hcin'|].
    destruct (want _ _); [discriminate|]. simpl in Em. injection Em as Eh _.
    apply (f_equal snd) in Eh. simpl in Eh. rewrite Eh.
    inversion Hso as [|? ? _ Hfa]; subst. destruct Hcin' as [->|Hcin'].
    - simpl. pose proof (nleb_total (true_distance mt q v) (true_distance mt q v)) as [|]; auto.
    - rewrite Forall_forall in Hfa. exact (Hfa _ Hcin').
  Qed.

  Lemma small_nearest C s0 p m ef mt dim ops o q k :
    library_backend C s0 p -> (0 <= m)%Z -> mt <> MOther ->
    hnsw_history (dim_ok dim) p ops -> never_above m p ops -> length q = dim -> (0 <= k)%Z ->
    let c := cl_after C (hnsw_class C m ef mt) s0 ops in
    let recs := s_recs (db_after p fresh_db ops) in
    c_init c = true -> (length (h_levels (c_index c)) = 1 \/ ef = 1%Z) ->
    exists hits, fst (cl_step C (hnsw_class C m ef mt) c (CSearch o (Vec q) k)) = AHits hits /\
      ((hits = [] /\ (recs <> [] -> candidates_of ef mt q (c_index c) = Ok [])) \/
       nearest nleb (true_distance mt q) recs (Nat.min (Z.to_nat k) (length recs)) hits).
  Proof.
    intros HB Hm Hmt Hfit Hsm Hq Hk c recs Hi Hor.
    destruct (small_search C s0 p m ef mt dim ops o q k HB Hm Hmt Hfit Hsm Hq Hk Hi)
      as (hits & E & Hgen & Hnd & Ho & Hd & He & Hc).
    fold c in E. exists hits. split; auto. fold recs in Hgen, Hnd, Ho, Hd, He, Hc. fold c in Ho, Hc.
    destruct (nil_or recs) as [Er|Hne].
    { left. split; auto. congruence. }
    destruct (Hc Hne) as (cs & Ec & Hl & Hcov & Em).
    destruct (nil_or cs) as [Ecs|Hcs].
    { left. rewrite Ecs in *. split; auto. rewrite slice_to_want in Em. simpl in Em.
      rewrite firstn_nil in Em. now destruct hits. }
    right. specialize (Hcov Hcs).
    assert (Hcn : NoDup (map fst cs)) by (eapply candidates_distinct; eauto).
    assert (Hinc : incl (map fst cs) (map fst recs)).
    { intros id Hid. apply in_map_iff in Hid as (cc & <- & Hcc). rewrite Forall_forall in Hl.
      destruct (Hl cc Hcc) as (v & mm & Ef & _). apply In_keys_find. eauto. }
    assert (Hlen : length cs = length recs).
    { rewrite <- (map_length fst cs), <- (map_length fst recs). apply Nat.le_antisymm;
        apply NoDup_incl_length; auto. }
    assert (Hids : map h_id hits = map fst (slice_to (Z.min k (Z.of_nat (length recs))) (by_distance cs))).
    { rewrite <- Em, map_map. now apply map_ext. }
    constructor.
    - apply (f_equal (@length _)) in Em. rewrite map_length in Em. rewrite Em, slice_to_want, firstn_length.
      unfold by_distance. rewrite sort_length, Hlen. unfold want.
      replace (0 <=? Z.min k (Z.of_nat (length recs)))%Z with true by lia. lia.
    - rewrite Hids, slice_to_want, <- firstn_map_comm. apply NoDup_firstn.
      eapply Permutation_NoDup; [|exact Hcn]. apply Permutation_map. symmetry. apply sort_perm.
    - intros h Hh. destruct (gn_true _ _ _ _ _ Hgen h Hh) as (v & Hin & Ed). exists v. split; auto.
      rewrite (Hd _ _ _ Hin) in Ed. congruence.
    - apply (gn_sorted _ _ _ _ _ Hgen).
    - intros id v mm h Hin Hni Hh.
      assert (Hcin : In id (map fst cs)) by (apply Hcov; now apply (in_map fst) in Hin).
      apply in_map_iff in Hcin as ([id' d] & Eid & Hcin). simpl in Eid. subst id'.
      rewrite Forall_forall in Hl. destruct (Hl _ Hcin) as (v' & mm' & Ef' & Ed).
      simpl in Ef', Ed. apply sp_find_In in Ef'; auto.
      assert ((v', mm') = (v, mm)) as Ev.
      { apply sp_find_In in Ef', Hin; auto. congruence. }
      injection Ev as -> ->. rewrite (Hd _ _ _ Hin) in Ed. injection Ed as <-.
      pose proof (by_distance_sorted (F := F) cs) as Hso.
      assert (Hin' : In (id, true_distance mt q v) (by_distance cs)) by now apply In_sort.
      assert (Hhin : In (h_id h, h_dist h) (map (fun h => (h_id h, h_dist h)) hits))
        by (apply (in_map (fun h => (h_id h, h_dist h)) _ _ Hh)).
      rewrite Em in Hhin. rewrite slice_to_want in Hhin, Hids.
      rewrite <- (firstn_skipn (want (Z.min k (Z.of_nat (length recs))) (length (by_distance cs)))
                               (by_distance cs)) in Hin'.
      apply in_app_or in Hin' as [Hin'|Hin'].
      + exfalso. apply Hni. rewrite Hids. apply (in_map fst) in Hin'. exact Hin'.
      + exact (StronglySorted_firstn_skipn _ _ _ _ _ Hso Hhin Hin').
  Qed.

  (** C119: when no vector was ever drawn above the lowest level, a search answers exactly the [k]
      nearest records.  (With more levels the answer may repeat an id, C30, or be empty, C29.) *)
  Theorem C119_hnsw_small_exact C s0 p m ef mt dim ops o q k :
    library_backend C s0 p -> (0 <= m)%Z -> mt <> MOther ->
    hnsw_history (dim_ok dim) p ops -> never_above m p ops -> length q = dim -> (0 <= k)%Z ->
    let c := cl_after C (hnsw_class C m ef mt) s0 ops in
    let recs := s_recs (db_after p fresh_db ops) in
    c_init c = true -> length (h_levels (c_index c)) = 1 ->
    exists hits, fst (cl_step C (hnsw_class C m ef mt) c (CSearch o (Vec q) k)) = AHits hits /\
      nearest nleb (true_distance mt q) recs (Nat.min (Z.to_nat k) (length recs)) hits.
  Proof.
    intros HB Hm Hmt Hfit Hsm Hq Hk c recs Hi Hlev.
    destruct (small_nearest C s0 p m ef mt dim ops o q k HB Hm Hmt Hfit Hsm Hq Hk Hi (or_introl Hlev))
      as (hits & E & Hor). fold c in E, Hor. fold recs in Hor. exists hits. split; auto.
    destruct Hor as [[-> Hc]|]; auto.
    destruct (small_search C s0 p m ef mt dim ops o q k HB Hm Hmt Hfit Hsm Hq Hk Hi)
      as (hits' & E' & _ & Hnd & Ho & Hd & _). fold c in Ho. fold recs in Ho, Hnd, Hd.
    destruct (nil_or recs) as [Er|Hne].
    - rewrite Er. constructor; simpl; try constructor; try (intros; contradiction). lia.
    - exfalso. specialize (Hc Hne). revert Hc.
      destruct Ho as (_ & Hh & _ & g & ls & El & Elen & HW & _ & Hp). rewrite El in Hlev.
      simpl in Hlev. destruct ls; [|discriminate]. simpl in Elen.
      unfold candidates_of, entry_candidates. rewrite <- Elen, El. simpl.
      destruct g as [|[e nbs] g]; [apply Permutation_nil in Hp; now destruct recs|].
      assert (In e (map fst recs)) as Hin by (apply (Permutation_in _ Hp); now left).
      apply In_keys_find in Hin as [[v mm] Ef]. rewrite (proj2 Hh e), Ef. simpl.
      rewrite (Hd e v mm) by now apply sp_find_In. simpl.
      match goal with |- rbind (rbind ?r _) _ = _ -> _ => destruct r; simpl; discriminate end.
  Qed.

  (** C119: with [ef_search = 1] an answer that is not empty is exactly the [k] nearest
      records. *)
  Theorem C119_hnsw_small_ef1 C s0 p m mt dim ops o q k :
    library_backend C s0 p -> (0 <= m)%Z -> mt <> MOther ->
    hnsw_history (dim_ok dim) p ops -> never_above m p ops -> length q = dim -> (0 <= k)%Z ->
    let c := cl_after C (hnsw_class C m 1 mt) s0 ops in
    c_init c = true ->
    exists hits, fst (cl_step C (hnsw_class C m 1 mt) c (CSearch o (Vec q) k)) = AHits hits /\
      (hits = [] \/
       nearest nleb (true_distance mt q) (s_recs (db_after p fresh_db ops))
         (Nat.min (Z.to_nat k) (length (s_recs (db_after p fresh_db ops)))) hits).
  Proof.
    intros HB Hm Hmt Hfit Hsm Hq Hk c Hi.
    destruct (small_nearest C s0 p m 1 mt dim ops o q k HB Hm Hmt Hfit Hsm Hq Hk Hi (or_intror eq_refl))
      as (hits & E & [[Hn _]|Hnear]); exists hits; auto.
  Qed.

  (** C119: something is found, and the first hit is nearest, when every level above the lowest
      holds at least two vectors. *)
  Theorem C119_hnsw_small_finds C s0 p m ef mt dim ops o q k :
    library_backend C s0 p -> (0 <= m)%Z -> (1 <= ef)%Z -> mt <> MOther ->
    hnsw_history (dim_ok dim) p ops -> never_above m p ops -> length q = dim -> (1 <= k)%Z ->
    let c := cl_after C (hnsw_class C m ef mt) s0 ops in
    c_init c = true ->
    (exists id, read C (c_storage c) id <> Ok None) ->
    (forall l g, 1 <= l -> nth_error (h_levels (c_index c)) l = Some g -> 2 <= length g) ->
    exists h hits,
      fst (cl_step C (hnsw_class C m ef mt) c (CSearch o (Vec q) k)) = AHits (h :: hits) /\
      forall id v mm, read C (c_storage c) id = Ok (Some (v, mm)) ->
        nleb (h_dist h) (true_distance mt q v) = true.
  Proof.
    intros HB Hm Hef Hmt Hfit Hsm Hq Hk c Hi Hid Hup.
    assert (Hany : hnsw_history any_row p ops).
    { eapply all_fit_weaken; [|exact Hfit]. auto. }
    pose proof (C119_hnsw_levels_complete C s0 p m ef mt ops HB Hm Hany Hsm Hi) as Hcomp.
    destruct (C28_hnsw_graph_well_formed C s0 p m ef mt ops HB Hm Hany Hi) as [Hw _].
    fold c in Hcomp, Hw.
    destruct (C29_hnsw_finds_something_partial C s0 p m ef mt dim ops o q k HB Hm Hef Hmt Hfit Hq Hk Hi Hid)
      as (h & hits & E).
    - intros l g Hl El. specialize (Hup l g Hl El). split; [destruct g; simpl in Hup; [lia|discriminate]|].
      intros a la Ha ->. destruct (Hw l g El) as [Hnd _].
      assert (exists b', In b' (map fst g) /\ a <> b') as (b' & Hb & Nab).
      { destruct g as [|[a1 l1] [|[a2 l2] g]]; simpl in Hup; try lia.
        simpl in Hnd. inversion Hnd as [|? ? Hn _]; subst.
        destruct (eqb_spec a a1) as [->|].
        - exists a2. simpl. split; auto. intros <-. apply Hn. now left.
        - exists a1. simpl. auto. }
      apply nth_error_In in El. exact (Hcomp g a [] b' El Ha Hb Nab).
    - fold c in E. exists h, hits. split; auto.
      apply (C119_hnsw_small_first_hit C s0 p m ef mt dim ops o q k HB Hm Hmt Hfit Hsm Hq ltac:(lia) Hi h hits E).
  Qed.
End Props.

(** ** Concrete cases *)

(** The demonstration history of C27 never holds more than four vectors. *)
Lemma demo_small (p : bool) coin : never_above 16 p (demo_hnsw_ops (demo_rand coin)).
Proof.
  intros n. destruct p; do 6 (destruct n as [|n]; [vm_compute; congruence|]);
    (replace (firstn _ _) with (demo_hnsw_ops (demo_rand coin)) by reflexivity);
    vm_compute; congruence.
Qed.

(** Two levels of three linked vectors; the first hit is the nearest one. *)
Example C119_hypotheses_met :
  let IC := hnsw_class mem_class 16 50 MEuclidean in
  let c := cl_after mem_class IC mem_new (demo_hnsw_ops high) in
  c_init c = true /\ map (@length _) (h_levels (c_index c)) = [3; 3] /\
  fst (cl_step mem_class IC c (CSearch low (Vec [4; 4]%Z) 1)) =
  AHits [MkHit (demo_ids 97 1) 1%Z None].
Proof. vm_compute. auto. Qed.

(** One level, and the two nearest of three vectors. *)
Example C119_exact_hypotheses_met :
  let IC := hnsw_class mem_class 16 50 MEuclidean in
  let c := cl_after mem_class IC mem_new (demo_hnsw_ops low) in
  c_init c = true /\ length (h_levels (c_index c)) = 1 /\
  fst (cl_step mem_class IC c (CSearch low (Vec [4; 4]%Z) 2)) =
  AHits [MkHit (demo_ids 97 1) 1%Z None; MkHit (demo_ids 98 0) 4%Z None].
Proof. vm_compute. auto. Qed.

(** With [ef_search = 1] and two levels. *)
Example C119_ef1_hypotheses_met :
  let IC := hnsw_class mem_class 16 1 MEuclidean in
  let c := cl_after mem_class IC mem_new (demo_hnsw_ops high) in
  c_init c = true /\ length (h_levels (c_index c)) = 2 /\
  fst (cl_step mem_class IC c (CSearch low (Vec [4; 4]%Z) 3)) =
  AHits [MkHit (demo_ids 97 1) 1%Z None; MkHit (demo_ids 98 0) 4%Z None; MkHit (demo_ids 97 0) 5%Z (Some 8%Z)].
Proof. vm_compute. auto. Qed.

(** Draws that keep everybody low and link to the last nodes. *)
Definition low_last : hnsw_rand :=
  MkRand (fun _ _ => false) (fun _ _ nodes n => skipn (length nodes - n) nodes).

Lemma low_last_ok : sample_ok low_last.
Proof.
  intros i l nodes n Hnd Hl. simpl. split; [|split].
  - rewrite <- (firstn_skipn (length nodes - n) nodes) in Hnd. now apply NoDup_app_r in Hnd.
  - intros a Ha. rewrite <- (firstn_skipn (length nodes - n) nodes). apply in_or_app. now right.
  - rewrite skipn_length. lia.
Qed.

(** Seventeen rows. *)
Definition rows17 : list (list Z) := map (fun i => [Z.of_nat i; 0]%Z) (seq 0 17).

(** The bound is sharp: with the default [m = 16] and seventeen vectors on the lowest level, a
    search for a stored vector answers others and not this one. *)
Theorem C119_hnsw_bound_sharp :
  exists (ops : list (cop Z Z hnsw_rand)) q id h,
    hnsw_history (dim_ok 2) false ops /\ never_above 17 false ops /\
    let IC := hnsw_class mem_class 16 50 MEuclidean in
    let c := cl_after mem_class IC mem_new ops in
    c_init c = true /\ length (h_levels (c_index c)) = 1 /\
    read mem_class (c_storage c) id = Ok (Some (q, None)) /\
    fst (cl_step mem_class IC c (CSearch low (Vec q) 1)) = AHits [h] /\
    h_id h <> id /\ h_dist h = 1%Z.
Proof.
  exists [CInit low_last []; CInsert low_last (demo_ids 97) (Mat rows17) None], [16; 0]%Z,
    (demo_ids 97 16), (MkHit (demo_ids 97 15) 1%Z None).
  split; [|split].
  - split; [split; [apply low_last_ok|auto]|]. split; [|exact Logic.I].
    split; [apply low_last_ok|]. intros _. split; [|split].
    + split.
      * intros i j _ _. apply demo_ids_inj.
      * intros i Hi. split; [apply demo_ids_uuid; lia|]. intros [].
    + unfold rows17. rewrite Forall_map, Forall_forall. intros i _. split; reflexivity.
    + discriminate.
  - intros n. do 3 (destruct n as [|n]; [vm_compute; congruence|]).
    replace (firstn _ _) with [CInit low_last []; CInsert low_last (demo_ids 97) (Mat rows17) (@None (list (option Z)))]
      by reflexivity.
    vm_compute; congruence.
  - split; [vm_compute; auto|]. split; [vm_compute; auto|]. split; [vm_compute; auto|].
    split; [vm_compute; auto|]. split; [vm_compute; discriminate|reflexivity].
Qed.

Print Assumptions C119_hnsw_levels_complete.
Print Assumptions C119_hnsw_small_first_hit.
Print Assumptions C119_hnsw_small_exact.
Print Assumptions C119_hnsw_small_ef1.
Print Assumptions C119_hnsw_small_finds.
Print Assumptions C119_hnsw_bound_sharp.
