(** Property C151: several threads insert into one inverted-file index. *)

From Coq Require Import List Arith ZArith NArith Lia Bool Permutation Sorted.
From Coq Require Import ZifyBool ZifyNat ZifyN.
From Verif Require Import PyBase BaseLemmas Payload StorageModel StorageSpec StorageRun
  StorageThms StorageOk Num ClientModel DbSpec ClientRun ClientProofs FlatProofs IvfModel IvfProofs
  PropsIvf StepModel StepProofs LshSteps FlatRaceProofs PropsFlatRace RelyProofs IvfSteps
  IvfRaceProofs Demo DemoIndex.
Import ListNotations.
Open Scope py_scope.

(** ** Specification: what the threads are asked to add *)

Section Spec.
  Context {F Mt : Type} `{Num F} `{Payload (list F) Mt}.

  (** The records an insertion adds, and the ids it hands out. *)
  Definition ijob_recs (j : ijob F Mt) : list (entry (list F) Mt) :=
    batch_recs (ij_fresh j) (ij_rows j) (ij_meta j).
  Definition ijob_ids (j : ijob F Mt) : list pystr := map (ij_fresh j) (seq 0 (length (ij_rows j))).

  (** Vectors of the index's dimension, dictionaries as metadata. *)
  Definition ijob_fits (dim : nat) (j : ijob F Mt) : Prop :=
    (forall i, i < length (ij_rows j) -> uuid_like (ij_fresh j i)) /\
    (forall l m, ij_meta j = Some l -> In m l -> meta_ok m) /\
    Forall (dim_ok dim) (ij_rows j).
End Spec.

Section Calls.
  Context {F Mt S : Type} `{Num F}.
  Context (C : storage_class S (list F) Mt) (n_clusters : Z) (mt : metric).
  Notation W := (ivf F * S)%type.

  Lemma finish_iread {A} (f : ivf F -> A) (w : W) : finish (iread f) w = (Ok (f (fst w)), w).
  Proof. reflexivity. Qed.

  Lemma finish_iwrite f (w : W) : finish (iwrite f) w = (Ok tt, (f (fst w), snd w)).
  Proof. reflexivity. Qed.

  Lemma finish_irecount (w : W) :
    finish irecount_steps w = (Ok tt, (iset_count (fst w), snd w)).
  Proof. reflexivity. Qed.

  Lemma finish_ivf_rows fresh meta rows : forall i (w : W),
    finish (ivf_rows_steps C fresh meta i rows) w = ivf_insert_rows C fresh meta i rows w.
  Proof.
    induction rows as [|row rows IH]; intros i w; [reflexivity|].
    cbn [ivf_rows_steps ivf_insert_rows]. cbv zeta.
    rewrite finish_bind, finish_atomic. unfold bind at 1.
    destruct (on_sb _ w) as [[u|e] w1]; [|reflexivity].
    rewrite finish_bind, finish_iwrite, finish_bind, finish_iwrite, finish_bind, IH.
    unfold bind, set_ix, modify. simpl.
    destruct (ivf_insert_rows _ _ _ _ _ _) as [[ids|e] w2]; reflexivity.
  Qed.

  Lemma finish_cluster_add c id (w : W) :
    finish (cluster_add_steps c id) w =
    (Ok tt, (iset_clusters (cluster_add c id (i_clusters (fst w))) (fst w), snd w)).
  Proof.
    unfold cluster_add_steps. rewrite finish_bind, finish_iread. unfold dmem, cluster_add.
    destruct (dget c (i_clusters (fst w))) as [l|] eqn:E.
    - cbn [pbind]. rewrite finish_atomic. unfold bind, get_ix. rewrite E. reflexivity.
    - rewrite finish_bind, finish_iwrite, finish_atomic. unfold bind, get_ix. simpl.
      rewrite dget_dset, eqb_refl. unfold set_ix, modify. simpl. now rewrite dset_dset.
  Qed.

  Lemma finish_add_to_cluster id v (w : W) :
    finish (add_to_cluster_steps mt id v) w = ivf_add_to_cluster mt id v w.
  Proof.
    unfold add_to_cluster_steps, ivf_add_to_cluster. rewrite finish_bind, finish_iread.
    unfold bind at 1, get_ix. destruct (i_trained (fst w)); [|reflexivity].
    cbn [negb]. rewrite finish_bind, finish_iread.
    destruct (i_centroids (fst w)) as [cs|] eqn:E; [|reflexivity].
    rewrite finish_bind, finish_iread, E. unfold bind, lift.
    destruct (ivf_closest mt v 0 cs None 0); [|reflexivity].
    now rewrite finish_cluster_add.
  Qed.

  Lemma ivf_load_cons id ids (w : W) : ivf_load C (id :: ids) w =
    match dget id (i_cache (fst w)) with
    | Some v => (rest <- ivf_load C ids ;; ret ((id, v) :: rest)) w
    | None =>
        (result <- on_sb (sc_retrieve C id) ;;
         match result with
         | None => ivf_load C ids
         | Some (v, _) =>
             set_ix (fun x => iset_cache (dset id v (i_cache x)) x) ;;;
             rest <- ivf_load C ids ;; ret ((id, v) :: rest)
         end) w
    end.
  Proof.
    cbn [ivf_load]. unfold bind at 1, ivf_fetch, bind at 1, get_ix.
    destruct (dget id (i_cache (fst w))); [reflexivity|].
    unfold bind. destruct (on_sb (sc_retrieve C id) w) as [[[[v m]|]|e] w1]; try reflexivity.
    unfold ret. now destruct (ivf_load C ids w1) as [[l|e] w2].
  Qed.

  Lemma finish_iload n : forall i ids (w : W),
    skipn i (i_ids (fst w)) = ids -> length ids < n ->
    finish (iload_steps C n i) w = ivf_load C ids w.
  Proof.
    induction n as [|n IH]; intros i ids w Hsk Hn; [lia|].
    cbn [iload_steps]. rewrite finish_bind, finish_iread.
    assert (Hnext : forall id ids', ids = id :: ids' ->
              nth_error (i_ids (fst w)) i = Some id /\
              skipn (1 + i) (i_ids (fst w)) = ids').
    { intros id ids' ->. clear - Hsk. revert i Hsk. generalize (i_ids (fst w)) as L.
      induction L as [|a L IH]; intros [|i] Hsk; simpl in *; try discriminate.
      - injection Hsk as -> ->. auto.
      - now apply IH. }
    destruct ids as [|id ids'].
    - assert (nth_error (i_ids (fst w)) i = None) as ->; [|reflexivity].
      apply nth_error_None. pose proof (skipn_length i (i_ids (fst w))) as El.
      rewrite Hsk in El. simpl in El. lia.
    - destruct (Hnext id ids' eq_refl) as [-> Hsk']. simpl in Hn.
      rewrite finish_bind, finish_iread, ivf_load_cons.
      unfold dmem. destruct (dget id (i_cache (fst w))) as [v|] eqn:Ed.
      + unfold icached. rewrite finish_bind, finish_atomic. unfold bind at 1, get_ix at 1. rewrite Ed.
        unfold ret at 1. rewrite finish_bind, (IH (1 + i) ids') by (auto; lia).
        unfold bind. destruct (ivf_load C ids' w) as [[r|e] w1]; reflexivity.
      + rewrite finish_bind, finish_atomic. unfold bind.
        unfold on_sb, zoom. destruct (sc_retrieve C id (snd w)) as [[[[v m]|]|e] s1].
        * rewrite finish_bind, finish_iwrite, finish_bind.
          rewrite (IH (1 + i) ids') by (simpl; auto; lia). unfold bind, set_ix, modify.
          destruct (ivf_load C ids' _) as [[r|e] w1]; reflexivity.
        * rewrite (IH (1 + i) ids') by (simpl; auto; lia). reflexivity.
        * reflexivity.
  Qed.

  Lemma finish_build labels ids : forall i (w : W),
    finish (build_steps labels i ids) w = ivf_build labels i ids w.
  Proof.
    induction ids as [|id ids IH]; intros i w; [reflexivity|]. cbn [build_steps ivf_build].
    destruct (nth_error labels i) as [c|]; [|reflexivity].
    rewrite finish_bind, finish_cluster_add. apply IH.
  Qed.

  Lemma finish_train rounds kmeans (w : W) : length (i_ids (fst w)) < rounds ->
    finish (train_steps C n_clusters rounds kmeans) w = ivf_train C n_clusters kmeans w.
  Proof.
    intros Hr. unfold train_steps, ivf_train. rewrite finish_bind, finish_iread.
    unfold bind at 1, get_ix, ilen.
    destruct (Z.of_nat (length (i_ids (fst w))) <? n_clusters)%Z; [reflexivity|].
    rewrite finish_wrap. unfold wrap.
    rewrite finish_bind, (finish_iload rounds 0 (i_ids (fst w)) w eq_refl Hr). unfold bind at 1.
    destruct (ivf_load _ _ _) as [[l|e] w1]; [|reflexivity].
    destruct (length l =? 0); [reflexivity|]. unfold lift, bind at 1.
    destruct (np_array (map snd l)) as [a|e]; [|reflexivity]. cbn [rbind]. unfold bind at 1.
    destruct (kmeans n_clusters a) as [fitted|e]; [|reflexivity].
    rewrite finish_bind, finish_iwrite, finish_bind, finish_iwrite, finish_bind, finish_build.
    unfold bind, set_ix, modify. simpl.
    destruct (ivf_build _ _ _ _) as [[u|e] w2]; [|reflexivity].
    reflexivity.
  Qed.

  Lemma finish_adds ids : forall w : W,
    finish (pforM ids (fun id => vector <~ icached id ;; add_to_cluster_steps mt id vector)) w =
    forM ids (ivf_add_cached mt) w.
  Proof.
    induction ids as [|id ids IH]; intros w; [reflexivity|]. cbn [pforM forM].
    rewrite finish_bind, finish_bind. unfold icached. rewrite finish_atomic.
    assert (E : ivf_add_cached mt id w =
              match dget id (i_cache (fst w)) with
              | None => (Raise EKey, w)
              | Some v => ivf_add_to_cluster mt id v w
              end).
    { unfold ivf_add_cached, bind, get_ix. now destruct (dget id (i_cache (fst w))). }
    unfold bind. rewrite E. unfold get_ix.
    destruct (dget id (i_cache (fst w))) as [v|]; [|reflexivity].
    unfold ret. rewrite finish_add_to_cluster.
    destruct (ivf_add_to_cluster mt id v w) as [[u|e] w1]; [|reflexivity]. apply IH.
  Qed.

  Lemma finish_after rounds kmeans ids (w : W) : length (i_ids (fst w)) < rounds ->
    finish (after_insert_steps C n_clusters mt rounds kmeans ids) w =
    ivf_after_insert C n_clusters mt kmeans ids w.
  Proof.
    intros Hr. unfold after_insert_steps, ivf_after_insert. rewrite finish_bind, finish_iread.
    unfold bind, get_ix, ilen.
    destruct (n_clusters <=? Z.of_nat (length (i_ids (fst w))))%Z; cbn [andb].
    - rewrite finish_bind, finish_bind, finish_iread. cbn [finish].
      destruct (i_trained (fst w)) eqn:Et; cbn [negb].
      + rewrite finish_bind, finish_iread, Et. apply finish_adds.
      + now apply finish_train.
    - rewrite finish_bind. cbn [finish]. rewrite finish_bind, finish_iread.
      destruct (i_trained (fst w)); [apply finish_adds|reflexivity].
  Qed.

  Lemma ivf_insert_rows_len fresh meta rows : forall i (w : W) r w',
    ivf_insert_rows C fresh meta i rows w = (Ok r, w') ->
    length (i_ids (fst w')) = length (i_ids (fst w)) + length rows.
  Proof.
    induction rows as [|row rows IH]; intros i w r w' E.
    - injection E as _ <-. simpl. lia.
    - cbn [ivf_insert_rows] in E. cbv zeta in E. unfold bind at 1 in E.
      unfold on_sb, zoom in E. destruct (sc_store _ _ _ _ _) as [[u|e] s1]; [|discriminate].
      unfold bind, set_ix, modify in E. simpl in E.
      destruct (ivf_insert_rows _ _ _ _ _ _) as [[ids|e] w2] eqn:E2; [|discriminate].
      injection E as _ <-. apply IH in E2. simpl in E2. rewrite app_length in E2. simpl in *. lia.
  Qed.

  (** The steps, run without interruption, are the call of the sequential model. *)
  Theorem C151_steps_are_the_calls rounds kmeans fresh rows meta (w : W) :
    length (i_ids (fst w)) + length rows < rounds ->
    finish (ivf_insert_steps C n_clusters mt rounds kmeans fresh rows meta) w =
    ivf_insert C n_clusters mt kmeans fresh (Mat rows) meta w.
  Proof.
    intros Hr. unfold ivf_insert_steps, ivf_insert. rewrite finish_bind, finish_iread.
    unfold bind at 1, get_ix. destruct (negb (i_init (fst w))); [reflexivity|].
    rewrite finish_wrap. unfold wrap. rewrite finish_bind, finish_ivf_rows. unfold bind at 1.
    destruct (ivf_insert_rows _ _ _ _ _ _) as [[ids|e] w1] eqn:E; [|reflexivity].
    apply ivf_insert_rows_len in E.
    rewrite finish_bind, finish_irecount, finish_bind, finish_after by (simpl; lia).
    unfold bind, set_ix, modify.
    destruct (ivf_after_insert _ _ _ _ _ _) as [[u|e] w2]; reflexivity.
  Qed.
End Calls.

Section Race.
  Context {F Mt S : Type} `{Num F} `{!NumOrder F} `{Payload (list F) Mt} `{Unicode}.
  Context (C : storage_class S (list F) Mt).

  Lemma probe_all_spec np nc (ds : list F) : Z.of_nat (length ds) = nc -> (1 <= nc)%Z -> (nc <= np)%Z ->
    forall i, i < length ds -> In i (ivf_probes np ds).
  Proof.
    intros Hl Hn Hnp i Hi. destruct (probes_spec np ds) as (Hnd' & Hlen & Hlt & _); [lia|].
    assert (Permutation (ivf_probes np ds) (seq 0 (length ds))) as Hperm.
    { apply NoDup_Permutation_bis; auto.
      - rewrite seq_length. lia.
      - intros j Hj. apply in_seq. specialize (Hlt j Hj). lia. }
    eapply Permutation_in; [symmetry; exact Hperm|]. apply in_seq. lia.
  Qed.

  (** Probing every cluster, or searching before training, looks at every record. *)
  Lemma looked_at_all nc np mt dim (recs : list (entry (list F) Mt)) x q :
    (1 <= nc)%Z -> iopen nc dim recs x -> i_trained x = false \/ (nc <= np)%Z ->
    looked_at np mt recs x q = recs.
  Proof.
    intros Hn (_ & _ & _ & _ & Hpt & _) Hor. unfold looked_at.
    destruct (i_trained x) eqn:Ht; auto. destruct Hor as [Hor|Hnp]; [discriminate|].
    destruct (Hpt Ht) as (cs & Ecs & Hl & _ & Hkk & Hb & Hp). rewrite Ecs.
    apply filter_all. intros e He. apply memb_In.
    apply (probed_all (i_clusters x)); auto.
    - intros n Hin. apply Hb in Hin.
      apply (probe_all_spec np nc); rewrite ?map_length; auto.
    - eapply Permutation_in; [symmetry; exact Hp|]. now apply in_map.
  Qed.

  (** C151, as far as it goes: the index is trained already and every centroid has its list of
      members, or it will not have enough vectors to be trained.  Then whatever the schedule no
      insertion fails, each returns its own ids, and when all threads have returned the backend
      holds exactly the old records and those of all the batches, the id list has each id once,
      the clusters of a trained index hold each id once, and a search before training or over all
      clusters is exact.  Missing: the insertion that trains, a cluster without a list, and the
      count in [get_stats] (all refuted below).  Storage calls are atomic in this model: true of
      the memory and the hybrid backend, which hold a lock during each call. *)
  Theorem C151_concurrent_inserts_partial s0 pers nc np mt dim ops jobs sched :
    library_backend C s0 pers -> (1 <= nc)%Z -> mt <> MOther -> 0 < dim ->
    ivf_history dim pers ops ->
    let c := cl_after C (ivf_class C nc np mt) s0 ops in
    let total := s_recs (db_after pers fresh_db ops) ++ flat_map ijob_recs jobs in
    c_init c = true -> NoDup (map fst total) ->
    (forall j, In j jobs -> ijob_fits dim j) ->
    (forall e, In e (flat_map ijob_recs jobs) -> dmem (fst e) (i_cache (c_index c)) = false) ->
    (if i_trained (c_index c)
     then forall n, (Z.of_nat n < nc)%Z -> exists l, In (n, l) (i_clusters (c_index c))
     else (Z.of_nat (length total) < nc)%Z) ->
    match threads sched (ipool C nc mt jobs) (c_index c, c_storage c) with
    | (ps', (x', s')) =>
        (forall t j r, nth_error jobs t = Some j -> ps' t = Return r -> r = Ok (ijob_ids j)) /\
        ((forall t, exists r, ps' t = Return r) ->
         exists recs', Permutation recs' total /\
           (forall id, fst (sc_retrieve C id s') = Ok (sp_find id recs')) /\
           Permutation (i_ids x') (map fst total) /\
           i_trained x' = i_trained (c_index c) /\
           (i_trained x' = true -> Permutation (concat (map snd (i_clusters x'))) (map fst total)) /\
           (forall q k, length q = dim -> (0 <= k)%Z -> i_trained x' = false \/ (nc <= np)%Z ->
              exists hits, fst (ivf_search C np mt (Vec q) k (x', s')) = Ok hits /\
                nearest nleb (true_distance mt q) recs' (Nat.min (Z.to_nat k) (length recs')) hits))
    end.
  Proof.
    intros HB Hn Hmt Hd Hfit c total Hi Hnd Hjobs Hnew Hcase.
    destruct (ivf_reach C s0 pers nc np mt dim ops HB Hn Hmt Hd Hfit)
      as (b & sz & A & HC & _ & _ & _ & Hs).
    destruct (Hs Hi) as ((Hcoh & Hinit & Hids & _ & Hpt & Hun) & HA & HF & Hnd0).
    fold c in Hcoh, Hinit, Hids, Hpt, Hun, HA.
    set (recs := s_recs (db_after pers fresh_db ops)) in *.
    set (tr := i_trained (c_index c)) in *. set (ocs := i_centroids (c_index c)) in *.
    assert (Htr : tr = true -> exists cs, ocs = Some cs /\ 0 < length cs /\
              Forall (fun r => length r = dim) cs).
    { intros Ht. destruct (Hpt Ht) as (cs & Ec & Hl & Hcd & _). exists cs.
      split; auto. split; auto. lia. }
    assert (Hfew : tr = false -> (Z.of_nat (length total) < nc)%Z).
    { intros Ht. rewrite Ht in Hcase. exact Hcase. }
    set (todo := fun t => match nth_error jobs t with
                          | Some j => ins_acts tr (ijob_recs j)
                          | None => []
                          end).
    set (ts := seq 0 (length jobs)).
    assert (Efut : forall t, ifuture (todo t) =
                     match nth_error jobs t with Some j => ijob_recs j | None => [] end).
    { intros t. unfold todo. destruct (nth_error jobs t); auto. apply (ifuture_acts dim tr ocs Htr). }
    assert (Eput : forall t, iputs (todo t) = if tr then
                     match nth_error jobs t with Some j => map fst (ijob_recs j) | None => [] end
                     else []).
    { intros t. unfold todo. destruct (nth_error jobs t); [apply (iputs_acts dim tr ocs Htr)|now destruct tr]. }
    assert (Hpend : forall t, ipending (todo t) = []).
    { intros t. unfold todo. destruct (nth_error jobs t); auto. apply ipending_whole, (iwhole_acts dim tr ocs Htr). }
    assert (iinv A tr ocs ts total recs (c_index c, c_storage c) todo) as I0.
    { constructor; auto; simpl.
      - intros Ht. destruct (Hpt Ht) as (cs & Ec & Hl & Hcd & Hk & Hb & _). split; auto.
        intros cs' n Ec'. assert (cs' = cs) as -> by (unfold ocs in *; congruence).
        split; [apply Hb|]. intros Hlt. rewrite Ht in Hcase.
        destruct (Hcase n) as [l Hl']; [lia|]. unfold dkeys. apply (in_map fst) in Hl'. exact Hl'.
      - erewrite map_ext; [|exact Efut]. unfold ts. rewrite nth_flat_map. apply Permutation_app_comm.
      - assert (concat (map (fun t => ipending (todo t)) ts) = []) as ->; auto.
        { clear - Hpend. induction ts as [|t l IH]; simpl; auto. now rewrite Hpend, IH. }
      - intros Ht. destruct (Hpt Ht) as (_ & _ & _ & _ & _ & _ & Hp).
        rewrite Ht in Eput. erewrite map_ext; [|exact Eput]. unfold ts.
        rewrite (nth_flat_map (fun j => map fst (ijob_recs j))). unfold total. rewrite map_app.
        eapply perm_trans; [apply Permutation_app_comm|]. apply Permutation_app; auto.
        assert (flat_map (fun j => map fst (ijob_recs j)) jobs = map fst (flat_map ijob_recs jobs)) as ->;
          auto.
        clear. induction jobs as [|j l IH]; simpl; auto. now rewrite map_app, IH.
      - intros t. left. unfold todo. destruct (nth_error jobs t); [apply (iwhole_acts dim tr ocs Htr)|].
        apply (iwhole_puts []).
      - intros t Ht. unfold todo. assert (nth_error jobs t = None) as ->; auto.
        apply nth_error_None. unfold ts in Ht. rewrite in_seq in Ht. lia.
      - intros t e He. rewrite Efut in He. apply Hnew. apply in_flat_map.
        destruct (nth_error jobs t) as [j|] eqn:Ej; [|destruct He].
        exists j. split; auto. eapply nth_error_In; eauto. }
    pose proof (ithreads nc dim A Hd tr ocs Htr ts (seq_NoDup _ _) total Hnd Hfew
                  (fun t _ _ r => match nth_error jobs t with
                                  | Some j => r = Ok (ijob_ids j)
                                  | None => True
                                  end) sched (ipool C nc mt jobs) (c_index c, c_storage c) recs todo I0)
      as Hthr.
    destruct (threads sched _ _) as [ps' [x' s']].
    destruct Hthr as (recs' & todo' & I' & Hret).
    { intros t. unfold ipool, todo. destruct (nth_error jobs t) as [j|] eqn:Ej.
      - destruct (Hjobs j (nth_error_In _ _ Ej)) as (Hu & Hm & HFr).
        apply (follows_insert C nc mt dim pers b sz A HC Hmt Hd tr ocs Htr); auto.
        eapply Forall_impl; [|exact HFr]. intros v [Hv _]. exact Hv.
      - intros g w _ _. auto. }
    split.
    - intros t j r Ej Er. destruct (Hret t r Er) as [_ Hr]. now rewrite Ej in Hr.
    - intros Hall. exists recs'.
      assert (Hnil : forall t, todo' t = []).
      { intros t. destruct (Hall t) as [r Er]. apply (Hret t r Er). }
      assert (Hc : forall (Y : Type) (f : list iact -> list Y), f [] = [] ->
                concat (map (fun t => f (todo' t)) ts) = []).
      { intros Y f E. clear - Hnil E. induction ts as [|t l IH]; simpl; auto.
        now rewrite Hnil, E. }
      pose proof (ii_total _ _ _ _ _ _ _ _ I') as Ht. rewrite Hc in Ht by reflexivity.
      pose proof (ii_ids _ _ _ _ _ _ _ _ I') as Hids'. rewrite Hc in Hids' by reflexivity.
      pose proof (ii_A _ _ _ _ _ _ _ _ I') as HA'. simpl in HA', Hids', Ht.
      pose proof (ii_trained _ _ _ _ _ _ _ _ I') as Htr'.
      pose proof (ii_centroids _ _ _ _ _ _ _ _ I') as Hcs'. simpl in Htr', Hcs'.
      assert (Hput : tr = true -> Permutation (concat (dvals (i_clusters x'))) (map fst total)).
      { intros E. pose proof (ii_puts _ _ _ _ _ _ _ _ I' E) as Hp. rewrite Hc in Hp by reflexivity.
        exact Hp. }
      assert (fit_recs (dim_ok dim) recs') as HF'.
      { unfold fit_recs in *. rewrite Forall_forall in *. intros e He.
        apply (Permutation_in _ Ht) in He. apply in_app_or in He as [He|He]; [now apply HF|].
        apply in_flat_map in He as [j [Hj He]]. destruct (Hjobs j Hj) as (_ & _ & HFr).
        rewrite Forall_forall in HFr. apply HFr.
        unfold ijob_recs in He. change (batch_recs (ij_fresh j) (ij_rows j) (ij_meta j))
          with (batch_from (ij_fresh j) 0 (ij_rows j) (ij_meta j)) in He.
        unfold batch_from in He. apply in_map_iff in He as [[i row] [<- Hin]]. simpl.
        apply in_combine_r in Hin. exact Hin. }
      split; auto. split; [|split; [|split; [|split]]].
      + intros id. destruct (so_retrieve C pers b sz A HC recs' s' id HA') as (s1 & E & _).
        now rewrite E.
      + eapply perm_trans; [exact Hids'|]. now apply Permutation_map.
      + exact Htr'.
      + intros E. rewrite Htr' in E. exact (Hput E).
      + intros q k Hq Hk Hor. set (y := iput_count (ilen x') x').
        assert (iopen nc dim recs' y) as Ho.
        { split; [|split; [|split; [|split; [|split]]]].
          - exact (ii_coh _ _ _ _ _ _ _ _ I').
          - exact (ii_init _ _ _ _ _ _ _ _ I').
          - exact Hids'.
          - reflexivity.
          - simpl. intros E. change (i_trained x' = true) in E. rewrite Htr' in E.
            destruct (Hpt E) as (cs & Ec & Hl & Hcd & _). exists cs. simpl.
            destruct (ii_keys _ _ _ _ _ _ _ _ I' E) as [K1 K2]. simpl in K1, K2.
            split; [now rewrite Hcs'|]. split; [auto|]. split; [auto|]. split; [auto|]. split.
            + intros n Hin. now apply (K2 cs n Ec).
            + eapply perm_trans; [exact (Hput E)|]. symmetry. now apply Permutation_map.
          - simpl. intros E. change (i_trained x' = false) in E. rewrite Htr' in E.
            apply Permutation_length in Ht. rewrite Ht. now apply Hfew. }
        destruct (ivf_search_ok C nc np mt dim pers b sz A HC Hmt Hd q k recs' y s' HF' Ho HA')
          as (d & s2 & r & E & _ & _ & Hr).
        assert (fst (ivf_search C np mt (Vec q) k (x', s')) = r) as Er.
        { rewrite <- (search_count C np mt q k x' s' (ilen x')). fold y. now rewrite E. }
        rewrite (looked_at_all nc np mt dim recs' y q Hn Ho Hor) in Hr.
        destruct r as [hits|e]; [|destruct Hr as [_ Hr]; congruence].
        destruct Hr as [Hnn HFF]. exists hits. split; auto.
        unfold want in Hnn. replace (0 <=? k)%Z with true in Hnn by lia.
        eapply nearest_ext; [|exact Hnn]. intros id v m Hin.
        unfold fit_recs in HF'. rewrite Forall_forall in HF'.
        destruct (HF' _ Hin) as [Hv _]. simpl in Hv.
        unfold pd_val. now rewrite pair_distance_true by congruence.
  Qed.
End Race.

(** ** Demonstration *)

(** Three rows, then two threads that insert. *)
Definition irace_ops (rows : list (list Z)) : list (cop Z Z (kmeans_fn Z)) :=
  [CInit demo_kmeans []; CInsert demo_kmeans (demo_ids 97) (Mat rows) None].

Lemma irace_ops_fit (p : bool) : ivf_history 2 p (irace_ops [[0; 0]; [3; 4]; [9; 9]]%Z).
Proof.
  destruct p; unfold irace_ops; fit_ivf; simpl; auto; try discriminate;
    try (intros Hin; repeat destruct Hin as [Hin|Hin]; try discriminate; auto).
  all: try (now split).
Qed.

Definition irace_jobs : list (ijob Z Z) :=
  [MkIjob 10 demo_kmeans (demo_ids 98) [[1; 1]]%Z None;
   MkIjob 10 demo_kmeans (demo_ids 99) [[2; 2]; [3; 3]]%Z (Some [Some 8]%Z)].

(** The hypotheses of C151 are met: with two clusters the index is trained and both clusters have
    their lists; with nine it is not trained and the six records are too few. *)
Example C151_hypotheses nc : nc = 2%Z \/ nc = 9%Z ->
  let ops := irace_ops [[0; 0]; [3; 4]; [9; 9]]%Z in
  let c := cl_after mem_class (ivf_class mem_class nc 2 MEuclidean) (mem_new (V := list Z) (Mt := Z)) ops in
  let total := s_recs (db_after false fresh_db ops) ++ flat_map ijob_recs irace_jobs in
  library_backend mem_class (mem_new (V := list Z) (Mt := Z)) false /\ ivf_history 2 false ops /\
  c_init c = true /\ NoDup (map fst total) /\
  (forall j, In j irace_jobs -> ijob_fits 2 j) /\
  (forall e, In e (flat_map ijob_recs irace_jobs) -> dmem (fst e) (i_cache (c_index c)) = false) /\
  i_trained (c_index c) = (nc =? 2)%Z /\
  (if i_trained (c_index c)
   then forall n, (Z.of_nat n < nc)%Z -> exists l, In (n, l) (i_clusters (c_index c))
   else (Z.of_nat (length total) < nc)%Z).
Proof.
  intros Hnc. cbv zeta. split; [constructor|]. split; [apply irace_ops_fit|].
  assert (forall j, In j irace_jobs -> ijob_fits 2 j) as Hfits.
  { intros j Hj. destruct Hj as [<-|[<-|[]]]; (split; [|split]).
    - intros i _. apply demo_ids_uuid. lia.
    - discriminate.
    - repeat constructor.
    - intros i _. apply demo_ids_uuid. lia.
    - intros l m E Hm. injection E as <-. destruct Hm as [<-|[]]. split; simpl; auto.
    - repeat constructor. }
  destruct Hnc as [->| ->].
  - split; [reflexivity|]. split; [vm_compute; repeat constructor; simpl; intuition discriminate|].
    split; [auto|]. split; [|split; [reflexivity|]].
    + intros e He. vm_compute in He. destruct He as [<-|[<-|[<-|[]]]]; vm_compute; reflexivity.
    + vm_compute i_trained. cbv iota. intros n Hn. destruct n as [|[|n]]; [| |lia].
      * eexists. vm_compute. left. reflexivity.
      * eexists. vm_compute. right. left. reflexivity.
  - split; [reflexivity|]. split; [vm_compute; repeat constructor; simpl; intuition discriminate|].
    split; [auto|]. split; [|split; reflexivity].
    intros e He. vm_compute in He. destruct He as [<-|[<-|[<-|[]]]]; vm_compute; reflexivity.
Qed.

(** The database the threads start from: memory backend, Euclidean distances. *)
Definition irace_start (nc : Z) (rows : list (list Z)) : ivf Z * mem (list Z) Z :=
  let c := cl_after mem_class (ivf_class mem_class nc nc MEuclidean) mem_new (irace_ops rows) in
  (c_index c, c_storage c).

(** What a search over all clusters finds, nearest to the origin first. *)
Definition found (nc : Z) (w : ivf Z * mem (list Z) Z) : result (list pystr) :=
  match fst (ivf_search mem_class nc MEuclidean (Vec [0; 0]%Z) 9 w) with
  | Ok hits => Ok (map h_id hits)
  | Raise e => Raise e
  end.

(** A fair schedule in a trained index: everything is found. *)
Example C151_run :
  match threads (concat (repeat [0; 1] 40)) (ipool mem_class 2 MEuclidean irace_jobs)
          (irace_start 2 [[0; 0]; [3; 4]; [9; 9]]%Z) with
  | (ps', w') =>
      ps' 0 = Return (Ok [demo_ids 98 0]) /\
      ps' 1 = Return (Ok [demo_ids 99 0; demo_ids 99 1]) /\
      found 2 w' = Ok [demo_ids 97 0; demo_ids 98 0; demo_ids 99 0; demo_ids 99 1;
                       demo_ids 97 1; demo_ids 97 2]
  end.
Proof. vm_compute. repeat split. Qed.

(** ** What goes wrong *)

(** Two threads insert one row each into an index with two rows and three clusters, so that the
    first of them trains the index. *)
Definition train_jobs : list (ijob Z Z) :=
  [MkIjob 10 demo_kmeans (demo_ids 98) [[10; 0]]%Z None;
   MkIjob 10 demo_kmeans (demo_ids 99) [[6; 8]]%Z None].
Definition train_start : ivf Z * mem (list Z) Z := irace_start 3 [[0; 0]; [3; 4]]%Z.

(** C151: the second thread inserts and trains while the first has read the vectors but not yet
    rebuilt the clusters.  Both insertions succeed and both rows are stored and listed, but the row
    of the second is in no cluster: a search that probes every cluster does not find it. *)
Theorem C151_training_loses_refuted : exists sched,
  match threads sched (ipool mem_class 3 MEuclidean train_jobs) train_start with
  | (ps', (x', s')) =>
      ps' 0 = Return (Ok [demo_ids 98 0]) /\ ps' 1 = Return (Ok [demo_ids 99 0]) /\
      fst (sc_retrieve mem_class (demo_ids 99 0) s') = Ok (Some ([6; 8]%Z, None)) /\
      In (demo_ids 99 0) (i_ids x') /\ i_trained x' = true /\
      found 3 (x', s') = Ok [demo_ids 97 0; demo_ids 97 1; demo_ids 98 0]
  end.
Proof.
  exists (repeat 0 20 ++ repeat 1 80 ++ repeat 0 60). vm_compute.
  repeat split. right. right. right. now left.
Qed.

(** C151: both threads fill the clusters, and the same vector is found twice. *)
Theorem C151_training_doubles_refuted : exists sched,
  match threads sched (ipool mem_class 3 MEuclidean train_jobs) train_start with
  | (ps', w') =>
      ps' 0 = Return (Ok [demo_ids 98 0]) /\ ps' 1 = Return (Ok [demo_ids 99 0]) /\
      found 3 w' = Ok [demo_ids 97 0; demo_ids 97 1; demo_ids 97 1; demo_ids 98 0; demo_ids 98 0]
  end.
Proof.
  exists (repeat 0 22 ++ repeat 1 80 ++ repeat 0 60). vm_compute. repeat split.
Qed.

(** C151: the second thread clears the clusters between the first one's test for a list and its
    append: the append raises KeyError, the insertion raises an index error, and yet its row is
    stored and found. *)
Theorem C151_training_raises_refuted : exists sched,
  match threads sched (ipool mem_class 3 MEuclidean train_jobs) train_start with
  | (ps', (x', s')) =>
      ps' 0 = Return (Raise EIndex) /\ ps' 1 = Return (Ok [demo_ids 99 0]) /\
      fst (sc_retrieve mem_class (demo_ids 98 0) s') = Ok (Some ([10; 0]%Z, None)) /\
      found 3 (x', s') = Ok [demo_ids 97 0; demo_ids 97 1; demo_ids 99 0; demo_ids 98 0]
  end.
Proof.
  exists (repeat 0 23 ++ repeat 1 24 ++ repeat 0 60 ++ repeat 1 60). vm_compute. repeat split.
Qed.

(** A clustering that leaves all labels but the first unused; it keeps its contract. *)
Definition first_kmeans : kmeans_fn Z := fun n rows =>
  Ok (firstn (Z.to_nat n) rows, map (fun _ => 0) rows).

Lemma first_kmeans_ok : kmeans_ok first_kmeans.
Proof.
  intros n rows dim Hn Hd HF. eexists _, _. split; [reflexivity|].
  split; [|split; [|split]].
  - rewrite firstn_length. lia.
  - rewrite Forall_forall in *. intros c Hc. apply In_firstn in Hc. now apply HF.
  - now rewrite map_length.
  - rewrite Forall_forall. intros l Hl. apply in_map_iff in Hl as [r [<- _]]. lia.
Qed.

(** C151: in a trained index, two threads add the first members of a cluster that the clustering
    left without any: both see that there is no list, the second empty list replaces the one that
    has the first thread's id already, and that id is in no cluster. *)
Theorem C151_new_cluster_loses_refuted : exists km ops sched, kmeans_ok km /\
  let c := cl_after mem_class (ivf_class mem_class 2 2 MEuclidean) (mem_new (V := list Z) (Mt := Z)) ops in
  i_trained (c_index c) = true /\
  match threads sched
          (ipool mem_class 2 MEuclidean
             [MkIjob 10 km (demo_ids 98) [[9; 8]]%Z None; MkIjob 10 km (demo_ids 99) [[9; 7]]%Z None])
          (c_index c, c_storage c) with
  | (ps', (x', s')) =>
      ps' 0 = Return (Ok [demo_ids 98 0]) /\ ps' 1 = Return (Ok [demo_ids 99 0]) /\
      fst (sc_retrieve mem_class (demo_ids 98 0) s') = Ok (Some ([9; 8]%Z, None)) /\
      found 2 (x', s') = Ok [demo_ids 97 0; demo_ids 99 0; demo_ids 97 1]
  end.
Proof.
  exists first_kmeans,
    [CInit first_kmeans []; CInsert first_kmeans (demo_ids 97) (Mat [[0; 0]; [9; 9]]%Z) None].
  exists (repeat 0 14 ++ repeat 1 14 ++ repeat 0 20 ++ repeat 1 20).
  split; [apply first_kmeans_ok|]. vm_compute. repeat split.
Qed.

(** C151, the count: as for the flat index, one thread can write a length it read before the other
    one appended. *)
Theorem C151_count_refuted : exists sched,
  match threads sched
          (ipool mem_class 9 MEuclidean
             [MkIjob 10 demo_kmeans (demo_ids 98) [[1; 1]]%Z None;
              MkIjob 10 demo_kmeans (demo_ids 99) [[2; 2]]%Z None])
          (irace_start 9 [[0; 0]; [3; 4]; [9; 9]]%Z) with
  | (ps', (x', s')) =>
      ps' 0 = Return (Ok [demo_ids 98 0]) /\ ps' 1 = Return (Ok [demo_ids 99 0]) /\
      length (i_ids x') = 5 /\ ivf_count x' = Some 4%Z
  end.
Proof.
  exists (repeat 0 5 ++ repeat 1 20 ++ repeat 0 20). vm_compute. repeat split.
Qed.

Print Assumptions C151_steps_are_the_calls.
Print Assumptions C151_concurrent_inserts_partial.
Print Assumptions C151_training_loses_refuted.
Print Assumptions C151_training_doubles_refuted.
Print Assumptions C151_training_raises_refuted.
Print Assumptions C151_new_cluster_loses_refuted.
Print Assumptions C151_count_refuted.
