(** The inverted-file index keeps a partition of the live ids and conforms to the database
    specification with sound search answers. *)

From Coq Require Import List Arith ZArith NArith Lia Bool Permutation Sorted ZifyBool ZifyNat.
From Verif Require Import PyBase BaseLemmas Payload StorageModel StorageSpec StorageRun
  StorageProofs StorageThms StorageOk Num ClientModel DbSpec ClientRun ClientProofs FlatModel
  FlatProofs IvfModel.
Import ListNotations.
Open Scope py_scope.

(** ** Lists and dictionaries of lists *)

Section Clusters.
  Implicit Types cl : dict nat (list (list N)).

  Lemma dset_split {V} k (v w : V) : forall (d : dict nat V), dget k d = Some v ->
    exists d1 d2, d = d1 ++ (k, v) :: d2 /\ dset k w d = d1 ++ (k, w) :: d2.
  Proof.
    induction d as [|[j u] d IH]; simpl; [discriminate|]. destruct (eqb_spec k j) as [->|Hn].
    - intros E. injection E as ->. exists [], d. auto.
    - intros E. destruct (IH E) as (d1 & d2 & -> & E2). exists ((j, u) :: d1), d2. simpl.
      now rewrite E2.
  Qed.

  Lemma concat_cluster_add c id cl :
    Permutation (concat (dvals (cluster_add c id cl))) (concat (dvals cl) ++ [id]).
  Proof.
    unfold cluster_add. destruct (dget c cl) as [l|] eqn:E.
    - destruct (dset_split c l (l ++ [id]) cl E) as (d1 & d2 & E1 & ->). rewrite E1.
      unfold dvals. rewrite !map_app, !concat_app. simpl. rewrite <- !app_assoc.
      apply Permutation_app_head, Permutation_app_head. simpl.
      rewrite Permutation_app_comm. simpl. constructor. reflexivity.
    - rewrite dset_notin by now apply dget_None. unfold dvals.
      rewrite map_app, concat_app. simpl. reflexivity.
  Qed.

  Lemma keys_cluster_add c id cl j :
    In j (dkeys (cluster_add c id cl)) <-> j = c \/ In j (dkeys cl).
  Proof. unfold cluster_add. destruct (dget c cl); apply In_dkeys_dset. Qed.

  Lemma nodup_cluster_add c id cl : NoDup (dkeys cl) -> NoDup (dkeys (cluster_add c id cl)).
  Proof. unfold cluster_add. destruct (dget c cl); apply NoDup_dkeys_dset. Qed.

  Lemma filter_concat {A} (f : A -> bool) ls : concat (map (filter f) ls) = filter f (concat ls).
  Proof. induction ls as [|l ls IH]; simpl; auto. now rewrite filter_app, IH. Qed.

  Lemma NoDup_app_l {A} (l1 l2 : list A) : NoDup (l1 ++ l2) -> NoDup l1.
  Proof.
    induction l1 as [|a l1 IH]; simpl; intros Hn; [constructor|].
    inversion Hn as [|? ? Ha Hn']; subst. constructor; auto.
    intros Hi. apply Ha. apply in_or_app. now left.
  Qed.

  Lemma NoDup_app_r {A} (l1 l2 : list A) : NoDup (l1 ++ l2) -> NoDup l2.
  Proof. induction l1 as [|a l1 IH]; simpl; intros Hn; auto. inversion Hn; auto. Qed.

  Lemma NoDup_concat_In {A} (l : list A) ls : NoDup (concat ls) -> In l ls -> NoDup l.
  Proof.
    induction ls as [|m ls IH]; simpl; intros Hnd [].
    - subst. now apply NoDup_app_l in Hnd.
    - apply IH; auto. now apply NoDup_app_r in Hnd.
  Qed.

  Lemma filter_all {A} (f : A -> bool) l : (forall x, In x l -> f x = true) -> filter f l = l.
  Proof.
    induction l as [|x l IH]; simpl; auto. intros Hf.
    rewrite (Hf x) by auto. f_equal. apply IH. auto.
  Qed.

  Lemma remove_from_all_concat id cl : NoDup (concat (dvals cl)) ->
    concat (dvals (remove_from_all id cl)) = filter (fun j => negb (eqb id j)) (concat (dvals cl)).
  Proof.
    intros Hnd. rewrite <- filter_concat. f_equal. unfold remove_from_all, dvals in *.
    rewrite map_map, map_map. apply map_ext_in. intros [c l] Hin. simpl.
    assert (NoDup l) as Hl.
    { eapply NoDup_concat_In; eauto. apply in_map_iff. now exists (c, l). }
    destruct (memb_spec id l) as [Hi|Hi].
    - now apply remove_first_filter.
    - symmetry. apply filter_all. intros x Hx.
      destruct (eqb_spec id x) as [->|]; auto.
  Qed.

  Lemma remove_from_all_keys id cl : dkeys (remove_from_all id cl) = dkeys cl.
  Proof.
    unfold remove_from_all, dkeys. rewrite map_map. apply map_ext. now intros [c l].
  Qed.

  Lemma remove_from_first_all id cl : NoDup (concat (dvals cl)) ->
    remove_from_first id cl = remove_from_all id cl.
  Proof.
    induction cl as [|[c l] cl IH]; simpl; auto. intros Hnd.
    destruct (memb_spec id l) as [Hi|Hi].
    - f_equal. unfold remove_from_all. symmetry.
      rewrite <- (map_id cl) at 2. apply map_ext_in. intros [c' l'] Hin.
      destruct (memb_spec id l') as [Hi'|]; auto. exfalso.
      clear IH. unfold dvals in Hnd. simpl in Hnd.
      assert (In id (concat (map snd cl))) as Hc.
      { apply in_concat. exists l'. split; auto. apply in_map_iff. now exists (c', l'). }
      clear -Hnd Hi Hc. induction l as [|a l IHl]; [destruct Hi|]. simpl in Hnd.
      inversion Hnd as [|? ? Hn Hnd']; subst. destruct Hi as [->|Hi]; auto.
      apply Hn. apply in_or_app. now right.
    - f_equal. apply IH. now apply NoDup_app_r in Hnd.
  Qed.

  (** An id is in at most one cluster. *)
  Lemma one_cluster cl : NoDup (concat (dvals cl)) -> forall c1 c2 l1 l2 id,
    dget c1 cl = Some l1 -> dget c2 cl = Some l2 -> In id l1 -> In id l2 -> c1 = c2.
  Proof.
    induction cl as [|[c l] cl IH]; simpl; [discriminate|]. intros Hnd c1 c2 l1 l2 id.
    assert (Hdis : forall c' l', dget c' cl = Some l' -> In id l' -> ~ In id l).
    { intros c' l' E H1 H2. apply dget_Some_In in E.
      assert (In id (concat (map snd cl))) as Hc.
      { apply in_concat. exists l'. split; auto. apply in_map_iff. now exists (c', l'). }
      clear -Hnd H2 Hc. unfold dvals in Hnd. simpl in Hnd.
      induction l as [|a l IHl]; [destruct H2|]. simpl in Hnd.
      inversion Hnd as [|? ? Hn Hnd']; subst. destruct H2 as [->|H2]; auto.
      apply Hn. apply in_or_app. now right. }
    destruct (eqb_spec c1 c) as [->|N1]; destruct (eqb_spec c2 c) as [->|N2]; auto.
    - intros E1 E2 H1 H2. injection E1 as ->. exfalso. eapply Hdis; eauto.
    - intros E1 E2 H1 H2. injection E2 as ->. exfalso. eapply Hdis; eauto.
    - apply IH. now apply NoDup_app_r in Hnd.
  Qed.

  Lemma probed_In cl probes id :
    In id (probed_ids cl probes) <-> exists c l, In c probes /\ dget c cl = Some l /\ In id l.
  Proof.
    unfold probed_ids. rewrite in_flat_map. split.
    - intros [c [Hc Hi]]. destruct (dget c cl) as [l|] eqn:E; [|destruct Hi]. eauto 6.
    - intros (c & l & Hc & E & Hi). exists c. split; auto. now rewrite E.
  Qed.

  Lemma NoDup_app_disj {A} (l1 l2 : list A) :
    NoDup l1 -> NoDup l2 -> (forall x, In x l1 -> ~ In x l2) -> NoDup (l1 ++ l2).
  Proof.
    intros H1 H2. induction H1 as [|a l1 Ha H1 IH]; simpl; auto. intros Hd. constructor.
    - rewrite in_app_iff. intros [Hi|Hi]; auto. eapply Hd; eauto.
    - apply IH. intros x Hx. apply Hd. auto.
  Qed.

  Lemma probed_NoDup cl probes :
    NoDup (concat (dvals cl)) -> NoDup probes -> NoDup (probed_ids cl probes).
  Proof.
    intros Hnd Hp. induction Hp as [|c probes Hc Hp IH]; simpl; [constructor|].
    apply NoDup_app_disj; auto.
    - destruct (dget c cl) as [l|] eqn:E; [|constructor].
      eapply NoDup_concat_In; eauto. apply dget_Some_In in E.
      unfold dvals. apply in_map_iff. now exists (c, l).
    - intros id Hi Hj. apply probed_In in Hj as (c' & l' & Hc' & E' & Hi').
      destruct (dget c cl) as [l|] eqn:E; [|destruct Hi].
      assert (c = c') by (eapply one_cluster; eauto). now subst.
  Qed.

  Lemma probed_all cl probes : NoDup (dkeys cl) -> (forall c, In c (dkeys cl) -> In c probes) ->
    forall id, In id (concat (dvals cl)) <-> In id (probed_ids cl probes).
  Proof.
    intros Hk Hall id. rewrite probed_In, in_concat. unfold dvals. split.
    - intros [l [Hl Hi]]. apply in_map_iff in Hl as [[c l'] [E Hin]]. simpl in E. subst l'.
      exists c, l. split; [|split]; auto.
      + apply Hall. unfold dkeys. apply (in_map fst) in Hin. exact Hin.
      + now apply In_dget.
    - intros (c & l & _ & E & Hi). exists l. split; auto. apply dget_Some_In in E.
      apply in_map_iff. now exists (c, l).
  Qed.
End Clusters.

(** ** Distances *)

Section Dist.
  Context {F : Type} `{Num F}.

  (** The distance two vectors of equal length have: cosine distance, 1 when a vector has norm 0,
      or the norm of the difference. *)
  Definition true_distance (mt : metric) (x y : list F) : F :=
    match mt with
    | MCosine =>
        if neqb (norm x) nzero || neqb (norm y) nzero then none
        else nsub none (ndiv (dot x y) (nmul (norm x) (norm y)))
    | _ => norm (zip_with nsub x y)
    end.

  Lemma pair_distance_true mt x y : mt <> MOther -> length x = length y ->
    pair_distance mt x y = Ok (true_distance mt x y).
  Proof.
    intros Hm Hl. unfold pair_distance, true_distance, np_sub. rewrite Hl, Nat.eqb_refl.
    destruct mt; simpl; try congruence. now destruct (neqb (norm x) nzero || neqb (norm y) nzero).
  Qed.

  (** The value of a distance computation, when there is one. *)
  Definition pd_val (mt : metric) (x y : list F) : F :=
    match pair_distance mt x y with Ok d => d | Raise _ => nzero end.

  Lemma pair_distances_ok mt q rows : mt <> MOther ->
    Forall (fun r => length r = length q) rows ->
    pair_distances mt q rows = Ok (map (true_distance mt q) rows).
  Proof.
    intros Hm HF. induction HF as [|r rows Hr HF IH]; simpl; auto.
    rewrite pair_distance_true by auto. simpl. rewrite IH. reflexivity.
  Qed.

  Lemma pair_distances_val mt q rows ds :
    pair_distances mt q rows = Ok ds ->
    ds = map (pd_val mt q) rows /\ Forall (fun r => pair_distance mt q r = Ok (pd_val mt q r)) rows.
  Proof.
    revert ds. induction rows as [|r rows IH]; simpl; intros ds E.
    - injection E as <-. auto.
    - unfold pd_val at 1. destruct (pair_distance mt q r) as [d|] eqn:Er; simpl in E; [|discriminate].
      destruct (pair_distances mt q rows) as [ds'|]; simpl in E; [|discriminate].
      injection E as <-. destruct (IH ds' eq_refl) as [-> HF]. split; auto.
      constructor; auto. unfold pd_val. now rewrite Er.
  Qed.
End Dist.

Section NearestExt.
  Context {F Mt : Type} (leb : F -> F -> bool).

  Lemma nearest_ext f g (recs : list (entry (list F) Mt)) n hits :
    (forall id v m, In (id, (v, m)) recs -> f v = g v) ->
    nearest leb f recs n hits -> nearest leb g recs n hits.
  Proof.
    intros E [H1 H2 H3 H4 H5]. constructor; auto.
    - intros h Hh. destruct (H3 h Hh) as [v [Hi Hd]]. exists v. split; auto.
      rewrite Hd. eapply E; eauto.
    - intros id v m h Hr Hn Hh. rewrite <- (E id v m Hr). eapply H5; eauto.
  Qed.
End NearestExt.

(** What every search answer of an approximate index must satisfy: different ids, each live with
    its current metadata and its distance, in order of distance, at most [k]. *)
Record sound {F Mt} `{Num F} (mt : metric) (recs : list (entry (list F) Mt)) (q : list F) (k : Z)
    (hits : list (hit F Mt)) : Prop := {
  sd_distinct : NoDup (map h_id hits);
  sd_true : forall h, In h hits ->
    exists v, In (h_id h, (v, h_meta h)) recs /\ pair_distance mt q v = Ok (h_dist h);
  sd_sorted : StronglySorted (fun a b => nleb (h_dist a) (h_dist b) = true) hits;
  sd_length : (0 <= k)%Z -> length hits <= Z.to_nat k
}.

(** Search answers of the inverted-file index: sound, or an index error if the query has another
    dimension than the stored vectors. *)
Definition ivf_ok {F Mt} `{Num F} (mt : metric) (dim : nat) (recs : list (entry (list F) Mt))
    (q : list F) (k : Z) (r : cret F Mt) : Prop :=
  match r with
  | AHits hits => sound mt recs q k hits
  | AExn e => e = EIndex /\ length q <> dim
  | _ => False
  end.

(** What the clustering library promises for at least [n] rows of finite numbers of the same
    positive length: [n] centres of that length, one label below [n] per row. *)
Definition kmeans_ok {F} `{Num F} (kmeans : kmeans_fn F) : Prop :=
  forall n rows dim, (1 <= n <= Z.of_nat (length rows))%Z -> 0 < dim ->
    Forall (fun r => length r = dim /\ forallb nfinite r = true) rows ->
    exists cs labels, kmeans n rows = Ok (cs, labels) /\
      Z.of_nat (length cs) = n /\ Forall (fun c => length c = dim) cs /\
      length labels = length rows /\ Forall (fun l => (Z.of_nat l < n)%Z) labels.

Section Ivf.
  Context {F Mt S : Type} `{Num F} `{!NumOrder F} `{Payload (list F) Mt}.
  Context (C : storage_class S (list F) Mt) (n_clusters n_probes : Z) (mt : metric) (dim : nat).
  Context (p b : bool) (sz : option (list F * option Mt -> N))
          (A : sstate (list F) Mt -> S -> Prop) (HC : storage_ok C p b sz A).
  Context (Hn : (1 <= n_clusters)%Z) (Hmt : mt <> MOther) (Hdim : 0 < dim).
  Implicit Types recs : list (entry (list F) Mt).
  Implicit Types x : ivf F.

  (** Vectors handled: finite, of the index's dimension. *)
  Definition dim_ok (v : list F) : Prop := length v = dim /\ forallb nfinite v = true.

  Definition icoh recs (d : dict pystr (list F)) : Prop :=
    forall id v r, dget id d = Some v -> sp_find id recs = Some r -> fst r = v.

  (** The clusters of a trained index partition the ids listed in [live]. *)
  Definition parts (live : list pystr) x : Prop :=
    i_trained x = true ->
    exists cs, i_centroids x = Some cs /\ Z.of_nat (length cs) = n_clusters /\
      Forall (fun c => length c = dim) cs /\
      NoDup (dkeys (i_clusters x)) /\
      (forall c, In c (dkeys (i_clusters x)) -> c < length cs) /\
      Permutation (concat (dvals (i_clusters x))) live.

  Definition iopen recs x : Prop :=
    icoh recs (i_cache x) /\ i_init x = true /\ Permutation (i_ids x) (map fst recs) /\
    i_count x = Z.of_nat (length (i_ids x)) /\ parts (map fst recs) x /\
    (i_trained x = false -> (Z.of_nat (length recs) < n_clusters)%Z).

  Definition iclosed recs x : Prop := i_cache x = [] /\ i_trained x = false.

  Lemma icoh_set recs d id v m : icoh recs d -> sp_find id recs = Some (v, m) ->
    icoh recs (dset id v d).
  Proof.
    intros Hc Hf j w r Hd Hr. rewrite dget_dset in Hd.
    destruct (eqb_spec j id) as [->|]; [|eapply Hc; eauto].
    rewrite Hf in Hr. injection Hr as <-. now injection Hd.
  Qed.

  Lemma ivf_fetch_ok recs id v m x s :
    icoh recs (i_cache x) -> sp_find id recs = Some (v, m) -> A (MkS true recs) s ->
    exists d s', ivf_fetch C id (x, s) = (Ok (Some v), (iset_cache d x, s')) /\
      icoh recs d /\ A (MkS true recs) s'.
  Proof.
    intros Hcoh Hf HA. unfold ivf_fetch, bind, get_ix. simpl.
    destruct (dget id (i_cache x)) as [w|] eqn:E.
    - assert (v = w) as -> by exact (Hcoh id w (v, m) E Hf).
      exists (i_cache x), s. destruct x. auto.
    - unfold on_sb, zoom. simpl. destruct (so_retrieve C p b sz A HC recs s id HA) as (s1 & E1 & A1).
      rewrite E1, Hf. simpl. unfold set_ix, modify. simpl.
      eexists _, s1. split; [reflexivity|]. split; auto. eapply icoh_set; eauto.
  Qed.

  Lemma ivf_load_ok recs ids : forall x s,
    icoh recs (i_cache x) -> (forall id, In id ids -> In id (map fst recs)) -> A (MkS true recs) s ->
    exists d s' l, ivf_load C ids (x, s) = (Ok l, (iset_cache d x, s')) /\
      icoh recs d /\ A (MkS true recs) s' /\
      map fst l = ids /\
      Forall (fun e => exists m, sp_find (fst e) recs = Some (snd e, m)) l.
  Proof.
    induction ids as [|id ids IH]; intros x s Hcoh Hin HA.
    - exists (i_cache x), s, []. destruct x. auto.
    - destruct (proj1 (In_keys_find id recs) (Hin id (or_introl eq_refl))) as [[v m] Hf].
      destruct (ivf_fetch_ok recs id v m x s Hcoh Hf HA) as (d1 & s1 & E1 & C1 & A1).
      destruct (IH (iset_cache d1 x) s1 C1 (fun i Hi => Hin i (or_intror Hi)) A1)
        as (d & s' & l & E & C' & A' & El & Fl).
      cbn [ivf_load]. rewrite (bind_Ok _ _ _ _ _ E1), (bind_Ok _ _ _ _ _ E).
      exists d, s', ((id, v) :: l). split; [reflexivity|]. split; [|split; [|split]]; auto.
      + simpl. congruence.
      + constructor; simpl; eauto.
  Qed.

  (** Assigning labels adds every id to one cluster. *)
  Lemma ivf_build_ok labels ids : forall i x s live nc,
    (i + length ids <= length labels) -> Forall (fun l => l < nc) labels ->
    NoDup (dkeys (i_clusters x)) -> (forall c, In c (dkeys (i_clusters x)) -> c < nc) ->
    Permutation (concat (dvals (i_clusters x))) live ->
    exists cl, ivf_build (S := S) labels i ids (x, s) = (Ok tt, (iset_clusters cl x, s)) /\
      NoDup (dkeys cl) /\ (forall c, In c (dkeys cl) -> c < nc) /\
      Permutation (concat (dvals cl)) (live ++ ids).
  Proof.
    induction ids as [|id ids IH]; intros i x s live nc Hl HF Hk Hb Hp; simpl.
    - exists (i_clusters x). rewrite app_nil_r. destruct x. auto.
    - simpl in Hl. destruct (nth_error labels i) as [c|] eqn:E; [|apply nth_error_None in E; lia].
      unfold bind, set_ix, modify. simpl.
      assert (c < nc) as Hc.
      { rewrite Forall_forall in HF. apply HF. eapply nth_error_In; eauto. }
      destruct (IH (Datatypes.S i) (iset_clusters (cluster_add c id (i_clusters x)) x) s (live ++ [id]) nc)
        as (cl & E' & K' & B' & P'); auto.
      + lia.
      + simpl. now apply nodup_cluster_add.
      + simpl. intros j Hj. apply keys_cluster_add in Hj as [->|Hj]; auto.
      + simpl. eapply perm_trans; [apply concat_cluster_add|]. now apply Permutation_app_tail.
      + exists cl. rewrite E'. rewrite <- app_assoc in P'. auto.
  Qed.

  Lemma fit_dim recs id v m : fit_recs dim_ok recs -> sp_find id recs = Some (v, m) -> dim_ok v.
  Proof.
    intros HF Hf. unfold fit_recs in HF. rewrite Forall_forall in HF.
    rewrite sp_find_dget in Hf. apply dget_Some_In in Hf. apply (HF _ Hf).
  Qed.

  (** Training on all live ids. *)
  Lemma ivf_train_ok kmeans recs x s :
    kmeans_ok kmeans -> fit_recs dim_ok recs -> icoh recs (i_cache x) ->
    Permutation (i_ids x) (map fst recs) -> A (MkS true recs) s ->
    (n_clusters <= Z.of_nat (length (i_ids x)))%Z ->
    exists x' s', ivf_train C n_clusters kmeans (x, s) = (Ok tt, (x', s')) /\
      icoh recs (i_cache x') /\ A (MkS true recs) s' /\
      i_init x' = i_init x /\ i_ids x' = i_ids x /\ i_count x' = i_count x /\
      i_trained x' = true /\ parts (map fst recs) x'.
  Proof.
    intros Hkm HF Hcoh Hp HA Hlen.
    unfold ivf_train. rewrite (bind_Ok get_ix _ _ x (x, s)) by reflexivity.
    replace (Z.of_nat (length (i_ids x)) <? n_clusters)%Z with false by lia.
    destruct (ivf_load_ok recs (i_ids x) x s Hcoh) as (d & s1 & l & E1 & C1 & A1 & El & Fl); auto.
    { intros id Hid. eapply Permutation_in; eauto. }
    assert (length l = length (i_ids x)) as Ell by (rewrite <- El; now rewrite map_length).
    unfold wrap. rewrite (bind_Ok _ _ _ _ _ E1).
    replace (length l =? 0) with false by lia.
    assert (Forall dim_ok (map snd l)) as Hrows.
    { rewrite Forall_forall in *. intros v Hv. apply in_map_iff in Hv as [[id w] [E Hin]].
      simpl in E. subst w. destruct (Fl _ Hin) as [m Em]. simpl in Em. eapply fit_dim; eauto. }
    assert (np_array (map snd l) = Ok (map snd l)) as Enp.
    { destruct (map snd l) as [|r rs] eqn:Er; auto. unfold np_array.
      replace (forallb (fun r0 => length r0 =? length r) (r :: rs)) with true; auto.
      symmetry. rewrite forallb_forall. rewrite Forall_forall in Hrows. intros r0 Hr0.
      destruct (Hrows _ Hr0) as [-> _]. destruct (Hrows r (or_introl eq_refl)) as [-> _].
      apply Nat.eqb_refl. }
    destruct (Hkm n_clusters (map snd l) dim) as (cs & labels & Ek & Hcs & Hcd & Hll & Hlb); auto.
    { rewrite map_length. lia. }
    assert (Forall (fun c => c < length cs) labels) as Hlb'.
    { eapply Forall_impl; [|exact Hlb]. simpl. intros. lia. }
    destruct (ivf_build_ok labels (map fst l) 0 (iset_clusters [] (iset_centroids cs (iset_cache d x))) s1
                [] (length cs)) as (cl & Eb & K' & B' & P'); auto.
    { rewrite map_length in *. lia. }
    { constructor. }
    { intros c []. }
    assert (Hrun : (vectors_array <- lift (np_array (map snd l)) ;;
                    fitted <- lift (kmeans n_clusters vectors_array) ;;
                    set_ix (iset_centroids (fst fitted)) ;;;
                    set_ix (iset_clusters []) ;;;
                    ivf_build (snd fitted) 0 (map fst l) ;;;
                    set_ix iset_trained) (iset_cache d x, s1) =
                   (Ok tt, (iset_trained (iset_clusters cl (iset_centroids cs (iset_cache d x))), s1))).
    { unfold lift, bind at 1. rewrite Enp. unfold bind at 1. rewrite Ek.
      unfold bind at 1, set_ix at 1, modify at 1. cbn [fst snd].
      unfold bind at 1, set_ix at 1, modify at 1. cbn [fst snd].
      rewrite (bind_Ok _ _ _ _ _ Eb). reflexivity. }
    cbv beta in Hrun. rewrite Hrun.
    eexists _, s1. split; [reflexivity|]. simpl. split; [|split; [|split; [|split; [|split; [|split]]]]]; auto.
    intros _. exists cs. simpl. split; [|split; [|split; [|split; [|split]]]]; auto.
    simpl in P'. eapply perm_trans; [exact P'|]. now rewrite El.
  Qed.

  Lemma ivf_closest_bound v cs : length v = dim -> forall i best bc,
    Forall (fun c => length c = dim) cs -> bc < i + length cs \/ (cs = [] /\ bc <= i) ->
    exists c, ivf_closest mt v i cs best bc = Ok c /\ (c = bc \/ i <= c < i + length cs).
  Proof.
    intros Hv. induction cs as [|r cs IH]; intros i best bc HF Hb; simpl.
    - exists bc. auto.
    - inversion HF; subst. rewrite pair_distance_true by (auto; congruence). simpl.
      assert (Hb' : forall b', b' <= i \/ b' < i + Datatypes.S (length cs) ->
                b' < Datatypes.S i + length cs \/ (cs = [] /\ b' <= Datatypes.S i)).
      { intros b' [Hb'|Hb'].
        - left. lia.
        - left. lia. }
      destruct (match best with None => _ | Some _ => _ end).
      + destruct (IH (Datatypes.S i) (Some (true_distance mt v r)) i) as (c & E & Hc); auto.
        exists c. split; auto. lia.
      + destruct (IH (Datatypes.S i) best bc) as (c & E & Hc); auto.
        { apply Hb'. destruct Hb as [Hb|[Hb _]]; [|discriminate]. simpl in Hb. auto. }
        exists c. split; auto. lia.
  Qed.

  Lemma ivf_add_ok id v live x s : dim_ok v -> parts live x -> i_trained x = true ->
    exists x', ivf_add_to_cluster (S := S) mt id v (x, s) = (Ok tt, (x', s)) /\
      parts (live ++ [id]) x' /\ (exists cl, x' = iset_clusters cl x).
  Proof.
    intros [Hv _] Hparts Ht. destruct (Hparts Ht) as (cs & Ec & Hl & Hcd & Hk & Hb & Hp).
    destruct (ivf_closest_bound v cs Hv 0 None 0 Hcd) as (c & E & Hc).
    { left. simpl. lia. }
    unfold ivf_add_to_cluster. rewrite (bind_Ok get_ix _ _ x (x, s)) by reflexivity.
    rewrite Ht, Ec. unfold bind, lift. rewrite E. unfold set_ix, modify. simpl.
    eexists. split; [reflexivity|]. split; [|eauto].
    intros _. exists cs. simpl. split; [|split; [|split; [|split; [|split]]]]; auto.
    - now apply nodup_cluster_add.
    - intros j Hj. apply keys_cluster_add in Hj as [->|Hj]; auto. lia.
    - eapply perm_trans; [apply concat_cluster_add|]. now apply Permutation_app_tail.
  Qed.

  Lemma ivf_initialize_ok kmeans recs x s :
    kmeans_ok kmeans -> fit_recs dim_ok recs -> iclosed recs x -> A (MkS true recs) s ->
    exists x' s', ivf_initialize C n_clusters kmeans (x, s) = (Ok tt, (x', s')) /\
                  iopen recs x' /\ A (MkS true recs) s'.
  Proof.
    intros Hkm HF [Hcache Htr] HA. unfold ivf_initialize.
    destruct (so_list C p b sz A HC recs s HA) as (l & s1 & E & Hp & A1).
    pose proof (Permutation_length Hp) as Hlen. rewrite map_length in Hlen.
    unfold bind at 1, set_ix at 1, modify at 1. cbn [fst snd].
    unfold wrap, bind at 1, on_sb, zoom. cbn [fst snd]. rewrite E.
    unfold bind at 1, set_ix at 1, modify at 1. cbn [fst snd].
    unfold bind at 1, set_ix at 1, modify at 1. cbn [fst snd].
    set (x1 := iset_count (iset_ids l (iset_init x))).
    rewrite (bind_Ok get_ix _ _ x1 (x1, s1)) by reflexivity.
    assert (icoh recs (i_cache x1)) as Hcoh.
    { simpl. rewrite Hcache. intros id v r Hd. discriminate. }
    destruct (Z.leb_spec n_clusters (Z.of_nat (length (i_ids x1)))) as [Hge|Hlt].
    - destruct (ivf_train_ok kmeans recs x1 s1) as (x' & s' & E' & C' & A' & I' & D' & N' & T' & P'); auto.
      rewrite E'. exists x', s'. split; auto. split; auto.
      split; [|split; [|split; [|split; [|split]]]]; auto.
      + now rewrite D'.
      + now rewrite N', D'.
      + congruence.
    - unfold ret. exists x1, s1. split; auto. split; auto.
      split; [|split; [|split; [|split; [|split]]]]; auto.
      + intros Ht. simpl in Ht. congruence.
      + intros _. simpl in Hlt. lia.
  Qed.

  Lemma ivf_insert_rows_ok fresh meta rows : forall i recs x s,
    (forall l m, meta = Some l -> In m l -> meta_ok m) ->
    (forall j k, i <= j < i + length rows -> i <= k < i + length rows -> fresh j = fresh k -> j = k) ->
    (forall j, i <= j < i + length rows -> uuid_like (fresh j) /\ ~ In (fresh j) (map fst recs)) ->
    icoh recs (i_cache x) -> Permutation (i_ids x) (map fst recs) -> A (MkS true recs) s ->
    exists l d s', ivf_insert_rows C fresh meta i rows (x, s) =
                    (Ok (map fresh (seq i (length rows))), (iset_ids l (iset_cache d x), s')) /\
      icoh (recs ++ batch_from fresh i rows meta) d /\
      Permutation l (map fst (recs ++ batch_from fresh i rows meta)) /\
      A (MkS true (recs ++ batch_from fresh i rows meta)) s' /\
      (forall id v, dget id (i_cache x) = Some v -> (forall j, i <= j < i + length rows -> id <> fresh j) ->
                    dget id d = Some v) /\
      (forall j row, nth_error rows j = Some row -> dget (fresh (i + j)) d = Some row).
  Proof.
    induction rows as [|row rows IH]; intros i recs x s Hm Hinj Hfr Hcoh Hp HA; simpl.
    - rewrite app_nil_r. exists (i_ids x), (i_cache x), s. destruct x.
      split; [|split; [|split; [|split; [|split]]]]; auto. intros [|j]; discriminate.
    - destruct (Hfr i ltac:(simpl; lia)) as [Hu Hni].
      unfold bind, on_sb, zoom, set_ix, modify. simpl. rewrite row_meta_of.
      destruct (so_store C p b sz A HC recs s (fresh i) row (meta_of meta i) HA Hu
                  (meta_of_ok (V := list F) meta i Hm)) as (s1 & E & A1).
      rewrite E. simpl. rewrite sp_put_fresh in A1 by auto.
      set (x1 := iset_cache _ _).
      destruct (IH (Datatypes.S i) (recs ++ [(fresh i, (row, meta_of meta i))]) x1 s1 Hm)
        as (l & d & s' & E' & C' & P' & A' & K' & R'); auto.
      + intros j k Hj Hk. apply Hinj; simpl; lia.
      + intros j Hj. destruct (Hfr j ltac:(simpl; lia)) as [Hu' Hni']. split; auto.
        rewrite map_app, in_app_iff. simpl. intros [?|[E1|[]]]; auto.
        apply (Hinj i j) in E1; simpl; lia.
      + intros id v r Hd Hf. simpl in Hd. rewrite dget_dset in Hd.
        rewrite sp_find_app in Hf. destruct (eqb_spec id (fresh i)) as [->|].
        * apply sp_find_None in Hni. rewrite Hni in Hf. simpl in Hf. rewrite eqb_refl in Hf.
          injection Hf as <-. injection Hd as <-. reflexivity.
        * destruct (sp_find id recs) eqn:Ef.
          -- injection Hf as <-. eapply Hcoh; eauto.
          -- simpl in Hf. rewrite eqb_neq in Hf by auto. discriminate.
      + simpl. rewrite map_app. simpl. now apply Permutation_app_tail.
      + rewrite E'. unfold ret. exists l, d, s'. split; [reflexivity|].
        rewrite <- app_assoc in C', P', A'. simpl in C', P', A'.
        split; [|split; [|split; [|split]]]; auto.
        * intros id v Hd Hne. apply K'.
          -- simpl. rewrite dget_dset. rewrite eqb_neq; auto. apply Hne. lia.
          -- intros j Hj. apply Hne. lia.
        * intros [|j] r Er; simpl in Er.
          -- injection Er as <-. rewrite Nat.add_0_r. apply K'.
             ++ simpl. rewrite dget_dset. now rewrite eqb_refl.
             ++ intros j Hj E1. apply (Hinj i j) in E1; simpl; lia.
          -- rewrite <- plus_n_Sm. exact (R' j r Er).
  Qed.

  Lemma ivf_add_all_ok ids : forall live x (s : S),
    (forall id, In id ids -> exists v, dget id (i_cache x) = Some v /\ dim_ok v) ->
    parts live x -> i_trained x = true ->
    exists cl, forM ids (ivf_add_cached mt) (x, s) = (Ok tt, (iset_clusters cl x, s)) /\
      parts (live ++ ids) (iset_clusters cl x).
  Proof.
    induction ids as [|id ids IH]; intros live x s Hin Hp Ht.
    - exists (i_clusters x). rewrite app_nil_r. destruct x. auto.
    - destruct (Hin id (or_introl eq_refl)) as (v & Ev & Hv).
      destruct (ivf_add_ok id v live x s Hv Hp Ht) as (x1 & E1 & P1 & cl1 & ->).
      assert (ivf_add_cached mt id (x, s) = (Ok tt, (iset_clusters cl1 x, s))) as E0.
      { unfold ivf_add_cached. rewrite (bind_Ok get_ix _ _ x (x, s)) by reflexivity.
        rewrite Ev. exact E1. }
      destruct (IH (live ++ [id]) (iset_clusters cl1 x) s) as (cl & E & P'); auto.
      { intros j Hj. apply Hin. now right. }
      exists cl. cbn [forM]. rewrite (bind_Ok _ _ _ _ _ E0). split; auto.
      rewrite <- app_assoc in P'. exact P'.
  Qed.

  Lemma parts_live live live' x : parts live x -> Permutation live live' -> parts live' x.
  Proof.
    intros Hp Hl Ht. destruct (Hp Ht) as (cs & H1 & H2 & H3 & H4 & H5 & H6).
    exists cs. split; [|split; [|split; [|split; [|split]]]]; auto. now rewrite H6.
  Qed.

  Lemma ivf_insert_ok kmeans fresh rows meta recs x s :
    kmeans_ok kmeans -> fit_recs dim_ok recs -> iopen recs x -> A (MkS true recs) s ->
    fresh_ids fresh (length rows) (map fst recs) -> Forall dim_ok rows ->
    (forall l m, meta = Some l -> In m l -> meta_ok m) ->
    exists x' s', ivf_insert C n_clusters mt kmeans fresh (Mat rows) meta (x, s) =
                    (Ok (map fresh (seq 0 (length rows))), (x', s')) /\
                  iopen (recs ++ batch_recs fresh rows meta) x' /\
                  A (MkS true (recs ++ batch_recs fresh rows meta)) s'.
  Proof.
    intros Hkm HF (Hcoh & Hi & Hp & Hc & Hpt & Hun) HA [Hinj Hfr] HFr Hm.
    change (batch_recs fresh rows meta) with (batch_from fresh 0 rows meta).
    set (recs' := recs ++ batch_from fresh 0 rows meta).
    assert (fit_recs dim_ok recs') as HF'.
    { unfold fit_recs, recs' in *. apply Forall_app. split; auto. unfold batch_from.
      rewrite Forall_forall in *. intros e He. apply in_map_iff in He as [[j row] [<- Hin]].
      simpl. apply HFr. apply in_combine_r in Hin. exact Hin. }
    unfold ivf_insert. rewrite (bind_Ok get_ix _ _ x (x, s)) by reflexivity. rewrite Hi. cbn [negb].
    destruct (ivf_insert_rows_ok fresh meta rows 0 recs x s Hm)
      as (l & d & s1 & E & C1 & P1 & A1 & _ & R1); auto.
    { intros j k Hj Hk. apply Hinj; lia. }
    { intros j Hj. apply Hfr. lia. }
    fold recs' in C1, P1, A1.
    unfold wrap. rewrite (bind_Ok _ _ _ _ _ E).
    unfold bind at 1, set_ix at 1, modify at 1. cbn [fst snd].
    set (x1 := iset_count (iset_ids l (iset_cache d x))).
    pose proof (Permutation_length P1) as Hlen. rewrite map_length in Hlen.
    assert (Hafter : exists x' s', ivf_after_insert C n_clusters mt kmeans
                       (map fresh (seq 0 (length rows))) (x1, s1) = (Ok tt, (x', s')) /\
                     iopen recs' x' /\ A (MkS true recs') s').
    { unfold ivf_after_insert. rewrite (bind_Ok get_ix _ _ x1 (x1, s1)) by reflexivity.
      change (i_ids x1) with l. change (i_trained x1) with (i_trained x).
      destruct (i_trained x) eqn:Ht.
      - rewrite andb_false_r.
        destruct (ivf_add_all_ok (map fresh (seq 0 (length rows))) (map fst recs) x1 s1)
          as (cl & E' & P').
        + intros id Hid. apply in_map_iff in Hid as [j [<- Hj]]. apply in_seq in Hj.
          destruct (nth_error rows j) as [row|] eqn:Er; [|apply nth_error_None in Er; lia].
          exists row. split; [exact (R1 j row Er)|]. rewrite Forall_forall in HFr. apply HFr.
          eapply nth_error_In; eauto.
        + intros Ht'. apply (Hpt Ht').
        + exact Ht.
        + rewrite E'. eexists _, s1. split; [reflexivity|]. split; auto.
          split; [|split; [|split; [|split; [|split]]]]; auto.
          * unfold recs'. rewrite map_app. rewrite batch_from_keys. exact P'.
          * simpl. congruence.
      - rewrite andb_true_r. destruct (Z.leb_spec n_clusters (Z.of_nat (length l))) as [Hge|Hlt].
        + destruct (ivf_train_ok kmeans recs' x1 s1) as (x' & s' & E' & C' & A' & I' & D' & N' & T' & P'); auto.
          rewrite E'. exists x', s'. split; auto. split; auto.
          split; [|split; [|split; [|split; [|split]]]]; auto.
          * now rewrite I'.
          * now rewrite D'.
          * now rewrite N', D'.
          * congruence.
        + exists x1, s1. split; [reflexivity|]. split; auto.
          split; [|split; [|split; [|split; [|split]]]]; auto.
          * intros Ht'. simpl in Ht'. congruence.
          * intros _. lia. }
    destruct Hafter as (x' & s' & E' & Ho & A').
    rewrite (bind_Ok _ _ _ _ _ E'). exists x', s'. auto.
  Qed.

  (** Collecting candidates. *)
  Lemma ivf_candidates_ok q recs ids : forall x s,
    icoh recs (i_cache x) -> (forall id, In id ids -> In id (map fst recs)) -> A (MkS true recs) s ->
    exists d s' r, ivf_candidates C mt q ids (x, s) = (r, (iset_cache d x, s')) /\
      icoh recs d /\ A (MkS true recs) s' /\
      match r with
      | Ok l => map fst l = ids /\
                Forall (fun c => exists v m, sp_find (fst c) recs = Some (v, m) /\
                                             pair_distance mt q v = Ok (snd c)) l
      | Raise _ => exists id v m, In id ids /\ sp_find id recs = Some (v, m) /\
                                  forall d, pair_distance mt q v <> Ok d
      end.
  Proof.
    induction ids as [|id ids IH]; intros x s Hcoh Hin HA.
    - exists (i_cache x), s, (Ok []). destruct x. auto.
    - destruct (proj1 (In_keys_find id recs) (Hin id (or_introl eq_refl))) as [[v m] Hf].
      destruct (ivf_fetch_ok recs id v m x s Hcoh Hf HA) as (d1 & s1 & E1 & C1 & A1).
      cbn [ivf_candidates]. rewrite (bind_Ok _ _ _ _ _ E1).
      unfold lift. unfold bind at 1. destruct (pair_distance mt q v) as [dd|e] eqn:Ed.
      + destruct (IH (iset_cache d1 x) s1 C1 (fun i Hi => Hin i (or_intror Hi)) A1)
          as (d & s' & r & E & C' & A' & Hr).
        unfold bind. rewrite E. destruct r as [l|e].
        * destruct Hr as [El Fl]. exists d, s', (Ok ((id, dd) :: l)). split; [reflexivity|].
          split; [|split; [|split]]; auto; [simpl; congruence|].
          constructor; auto. exists v, m. auto.
        * destruct Hr as (id' & v' & m' & Hi' & Hf' & Hd'). exists d, s', (Raise e).
          split; [reflexivity|]. split; [|split]; auto. exists id', v', m'. simpl. auto.
      + exists d1, s1, (Raise e). split; [reflexivity|]. split; [|split]; auto.
        exists id, v, m. simpl. split; [|split]; auto. congruence.
  Qed.

  Lemma ivf_results_ok recs cands : forall x s,
    (forall c, In c cands -> In (fst c) (map fst recs)) -> A (MkS true recs) s ->
    exists s' hits, mapM cands (ivf_result C) (x, s) = (Ok hits, (x, s')) /\
      A (MkS true recs) s' /\
      map (fun h => (h_id h, h_dist h)) hits = cands /\
      (forall h, In h hits -> exists v, sp_find (h_id h) recs = Some (v, h_meta h)).
  Proof.
    induction cands as [|[id dd] cands IH]; intros x s Hin HA.
    - exists s, []. simpl. split; [|split; [|split]]; auto. intros h [].
    - destruct (proj1 (In_keys_find id recs) (Hin _ (or_introl eq_refl))) as [[v m] Hf].
      destruct (so_retrieve C p b sz A HC recs s id HA) as (s1 & E1 & A1).
      assert (ivf_result C (id, dd) (x, s) = (Ok (MkHit id dd m), (x, s1))) as E0.
      { unfold ivf_result, bind, on_sb, zoom. simpl. rewrite E1, Hf. reflexivity. }
      destruct (IH x s1 (fun c Hc => Hin c (or_intror Hc)) A1) as (s' & hits & E & A' & Em & Hm).
      cbn [mapM]. rewrite (bind_Ok _ _ _ _ _ E0), (bind_Ok _ _ _ _ _ E).
      exists s', (MkHit id dd m :: hits). split; [reflexivity|]. split; [|split]; auto.
      + simpl. now rewrite Em.
      + intros h [<-|Hh]; simpl; eauto.
  Qed.

  (** The records a search looks at: all of them before training, those of the probed clusters
      after. *)
  Definition looked_at recs x q : list (entry (list F) Mt) :=
    if i_trained x
    then match i_centroids x with
         | Some cs =>
             filter (fun e => memb (fst e)
                      (probed_ids (i_clusters x) (ivf_probes n_probes (map (pd_val mt q) cs)))) recs
         | None => []
         end
    else recs.

  Lemma sorted_cands (cands : list (pystr * F)) :
    StronglySorted (fun a b => nleb (snd a) (snd b) = true)
      (sort (fun a b => nleb (snd a) (snd b)) cands).
  Proof.
    apply sort_sorted with (P := fun _ => True).
    - split; intros; [apply nleb_total | eapply nleb_trans; eauto].
    - rewrite Forall_forall. auto.
  Qed.

  (** From candidates to an answer. *)
  Lemma ivf_answer_ok q k recs sub ids cands x s :
    NoDup (map fst recs) -> NoDup (map fst sub) -> incl sub recs ->
    Permutation ids (map fst sub) -> map fst cands = ids ->
    Forall (fun c => exists v m, sp_find (fst c) recs = Some (v, m) /\
                                 pair_distance mt q v = Ok (snd c)) cands ->
    A (MkS true recs) s ->
    exists s' hits, ivf_answer C cands k (x, s) = (Ok hits, (x, s')) /\ A (MkS true recs) s' /\
      nearest nleb (pd_val mt q) sub (want k (length sub)) hits /\
      Forall (fun e => pair_distance mt q (fst (snd e)) = Ok (pd_val mt q (fst (snd e)))) sub.
  Proof.
    intros Hnd Hns Hinc Hp Ec HF HA. unfold ivf_answer.
    set (scands := sort (fun a b => nleb (snd a) (snd b)) cands).
    assert (Hpc : Permutation cands (map (fun e => (fst e, pd_val mt q (fst (snd e)))) sub)).
    { apply NoDup_Permutation.
      - apply NoDup_map_inv with (f := fst). rewrite Ec.
        eapply Permutation_NoDup; [symmetry; exact Hp|auto].
      - apply NoDup_map_inv with (f := fst). now rewrite map_map.
      - intros [id d]. rewrite Forall_forall in HF. split; intros Hin.
        + destruct (HF _ Hin) as (v & m & Ef & Ed). simpl in Ef, Ed.
          assert (In id (map fst sub)) as Hs.
          { eapply Permutation_in; [exact Hp|]. rewrite <- Ec. apply (in_map fst) in Hin. exact Hin. }
          apply in_map_iff in Hs as [[id' [v' m']] [E Hs]]. simpl in E. subst id'.
          apply in_map_iff. exists (id, (v', m')). split; auto. simpl.
          apply Hinc in Hs. apply sp_find_In in Hs; auto. rewrite Ef in Hs. injection Hs as <- <-.
          unfold pd_val. now rewrite Ed.
        + apply in_map_iff in Hin as [[id' [v' m']] [E Hs]]. simpl in E. injection E as -> <-.
          assert (In id (map fst cands)) as Hi.
          { rewrite Ec. eapply Permutation_in; [symmetry; exact Hp|]. apply (in_map fst) in Hs. exact Hs. }
          apply in_map_iff in Hi as [[id2 d2] [E2 Hin2]]. simpl in E2. subst id2.
          destruct (HF _ Hin2) as (v & m & Ef & Ed). simpl in Ef, Ed.
          apply Hinc in Hs. apply sp_find_In in Hs; auto. rewrite Ef in Hs. injection Hs as <- <-.
          unfold pd_val. now rewrite Ed. }
    assert (Hlen : length scands = length sub).
    { unfold scands. rewrite sort_length. apply Permutation_length in Hpc.
      now rewrite map_length in Hpc. }
    rewrite slice_to_want. fold scands. rewrite Hlen.
    destruct (ivf_results_ok recs (firstn (want k (length sub)) scands) x s) as (s' & hits & E & A' & Em & Hm).
    { intros c Hc. apply In_firstn in Hc. apply In_sort in Hc. rewrite Forall_forall in HF.
      destruct (HF _ Hc) as (v & m & Ef & _). apply In_keys_find. eauto. }
    { exact HA. }
    exists s', hits. split; auto. split; auto. split.
    - apply nearest_of_sorted with (cands := scands); auto.
      + eapply perm_trans; [apply sort_perm|]. exact Hpc.
      + apply sorted_cands.
      + intros h Hh. destruct (Hm h Hh) as [v Ef]. exists v.
        apply sp_find_In in Ef; auto.
        assert (In (h_id h) (map fst sub)) as Hs.
        { eapply Permutation_in; [exact Hp|]. rewrite <- Ec.
          assert (In (h_id h, h_dist h) scands) as Hc.
          { eapply In_firstn. rewrite <- Em. apply (in_map (fun h => (h_id h, h_dist h))) in Hh. exact Hh. }
          apply In_sort in Hc. apply (in_map fst) in Hc. exact Hc. }
        apply in_map_iff in Hs as [[id' [v' m']] [E' Hs]]. simpl in E'. subst id'.
        apply sp_find_In; auto. pose proof Hs as Hs'. apply Hinc in Hs'.
        apply sp_find_In in Hs'; auto. apply sp_find_In in Ef; auto.
        rewrite Ef in Hs'. injection Hs' as <- <-. exact Hs.
      + apply want_le.
    - rewrite Forall_forall in *. intros [id [v m]] Hs. simpl.
      assert (In (id, pd_val mt q v) cands) as Hc.
      { eapply Permutation_in; [symmetry; exact Hpc|]. apply in_map_iff. now exists (id, (v, m)). }
      destruct (HF _ Hc) as (v' & m' & Ef & Ed). simpl in Ef, Ed.
      apply Hinc in Hs. apply sp_find_In in Hs; auto. rewrite Ef in Hs. injection Hs as <- <-. auto.
  Qed.

  Lemma NoDup_probes ds : NoDup (ivf_probes n_probes ds).
  Proof.
    unfold ivf_probes. rewrite slice_to_want, <- firstn_map_comm. apply NoDup_firstn.
    eapply Permutation_NoDup; [symmetry; apply Permutation_map, sort_perm|].
    unfold enumerate. replace (map fst (combine (seq 0 (length ds)) ds)) with (seq 0 (length ds)).
    - apply seq_NoDup.
    - generalize 0. induction ds as [|d ds IH]; intros n; simpl; f_equal; auto.
  Qed.

  Lemma looked_at_incl recs x q : incl (looked_at recs x q) recs.
  Proof.
    unfold looked_at. intros e. destruct (i_trained x); auto. destruct (i_centroids x); [|intros []].
    intros He. apply filter_In in He. tauto.
  Qed.

  Lemma looked_at_nodup recs x q : NoDup (map fst recs) -> NoDup (map fst (looked_at recs x q)).
  Proof.
    intros Hnd. unfold looked_at. destruct (i_trained x); auto. destruct (i_centroids x); [|constructor].
    generalize (probed_ids (i_clusters x) (ivf_probes n_probes (map (pd_val mt q) l))). intros P.
    induction recs as [|e recs IH]; simpl; auto. inversion Hnd; subst.
    destruct (memb (fst e) P); simpl; auto. constructor; auto.
    intros Hin. apply in_map_iff in Hin as [e' [E Hin]]. apply filter_In in Hin as [Hin _].
    match goal with Hx : ~ In (fst e) _ |- _ => apply Hx end. rewrite <- E. now apply in_map.
  Qed.

  Lemma iopen_cache recs x d : iopen recs x -> icoh recs d -> iopen recs (iset_cache d x).
  Proof. intros (Hcoh & Hi & Hp & Hc & Hpt & Hun) Hd. split; auto. Qed.

  (** The answer of a search in any reachable state. *)
  Lemma ivf_search_ok q k recs x s :
    fit_recs dim_ok recs -> iopen recs x -> A (MkS true recs) s ->
    exists d s' r, ivf_search C n_probes mt (Vec q) k (x, s) = (r, (iset_cache d x, s')) /\
      iopen recs (iset_cache d x) /\ A (MkS true recs) s' /\
      match r with
      | Ok hits =>
          nearest nleb (pd_val mt q) (looked_at recs x q) (want k (length (looked_at recs x q))) hits /\
          Forall (fun e => pair_distance mt q (fst (snd e)) = Ok (pd_val mt q (fst (snd e))))
                 (looked_at recs x q)
      | Raise e => e = EIndex /\ length q <> dim
      end.
  Proof.
    intros HF Ho HA. pose proof Ho as (Hcoh & Hi & Hp & Hc & Hpt & Hun).
    pose proof (so_nd C p b sz A HC _ _ HA) as Hnd. simpl in Hnd.
    pose proof (Permutation_length Hp) as Hlen. rewrite map_length in Hlen.
    assert (Hbad : forall id v m, sp_find id recs = Some (v, m) ->
              (forall d, pair_distance mt q v <> Ok d) -> length q <> dim).
    { intros id v m Hf Hno Eq. destruct (fit_dim recs id v m HF Hf) as [Hv _].
      apply (Hno (true_distance mt q v)). apply pair_distance_true; congruence. }
    unfold ivf_search. rewrite (bind_Ok get_ix _ _ x (x, s)) by reflexivity. rewrite Hi. cbn [negb].
    destruct (Nat.eqb_spec (length (i_ids x)) 0) as [E0|E0].
    { destruct recs; simpl in Hlen; [|lia]. exists (i_cache x), s, (Ok []).
      assert (looked_at [] x q = []) as El.
      { unfold looked_at. destruct (i_trained x); auto. now destruct (i_centroids x). }
      rewrite El. destruct x. split; [reflexivity|]. split; auto. split; auto. split; auto.
      unfold want. simpl. rewrite Nat.min_0_r.
      replace (if (0 <=? k)%Z then 0 else 0) with 0 by now destruct (0 <=? k)%Z.
      constructor; simpl; auto; try constructor; intros; contradiction. }
    assert (Hgo : forall ids, Permutation ids (map fst (looked_at recs x q)) ->
      exists d s' r, wrap EIndex (candidates <- ivf_candidates C mt q ids ;; ivf_answer C candidates k)
                       (x, s) = (r, (iset_cache d x, s')) /\
        iopen recs (iset_cache d x) /\ A (MkS true recs) s' /\
        match r with
        | Ok hits =>
            nearest nleb (pd_val mt q) (looked_at recs x q) (want k (length (looked_at recs x q))) hits /\
            Forall (fun e => pair_distance mt q (fst (snd e)) = Ok (pd_val mt q (fst (snd e))))
                   (looked_at recs x q)
        | Raise e => e = EIndex /\ length q <> dim
        end).
    { intros ids Hids.
      destruct (ivf_candidates_ok q recs ids x s Hcoh) as (d & s1 & r & E1 & C1 & A1 & Hr); auto.
      { intros id Hid. apply (Permutation_in _ Hids) in Hid. apply in_map_iff in Hid as [e [<- He]].
        apply looked_at_incl in He. now apply in_map. }
      destruct r as [cands|e].
      - destruct Hr as [Ec Fc].
        destruct (ivf_answer_ok q k recs (looked_at recs x q) ids cands (iset_cache d x) s1)
          as (s2 & hits & E2 & A2 & Hnn & HFF); auto.
        + now apply looked_at_nodup.
        + apply looked_at_incl.
        + exists d, s2, (Ok hits). unfold wrap. rewrite (bind_Ok _ _ _ _ _ E1), E2.
          split; [reflexivity|]. split; [|split]; auto. now apply iopen_cache.
      - destruct Hr as (id & v & m & _ & Hf & Hno).
        exists d, s1, (Raise EIndex). unfold wrap. rewrite (bind_Raise _ _ _ _ _ E1).
        split; [reflexivity|]. split; [|split]; eauto. now apply iopen_cache. }
    destruct (i_trained x) eqn:Ht; cbn [negb].
    - destruct (Hpt Ht) as (cs & Ecs & Hl & Hcd & Hk & Hb & Hpc). rewrite Ecs.
      destruct (pair_distances mt q cs) as [ds|e] eqn:Eds.
      + destruct (pair_distances_val mt q cs ds Eds) as [-> _].
        apply Hgo. unfold looked_at. rewrite Ht, Ecs.
        set (P := probed_ids (i_clusters x) _).
        apply NoDup_Permutation.
        * apply probed_NoDup; [|apply NoDup_probes].
          eapply Permutation_NoDup; [symmetry; exact Hpc|auto].
        * pose proof (looked_at_nodup recs x q Hnd) as Hl2. unfold looked_at in Hl2.
          rewrite Ht, Ecs in Hl2. exact Hl2.
        * intros id. split.
          -- intros Hin. assert (In id (map fst recs)) as Hr.
             { eapply Permutation_in; [exact Hpc|]. apply probed_In in Hin as (c & l & _ & Ec & Hil).
               apply in_concat. exists l. split; auto. unfold dvals. apply dget_Some_In in Ec.
               apply (in_map snd) in Ec. exact Ec. }
             apply in_map_iff in Hr as [e [<- He]]. apply in_map. apply filter_In. split; auto.
             now apply memb_In.
          -- intros Hin. apply in_map_iff in Hin as [e [<- He]]. apply filter_In in He as [_ He].
             now apply memb_In in He.
      + exists (i_cache x), s, (Raise EIndex). destruct x. split; [reflexivity|].
        split; [|split; [|split]]; auto. intros Eq. rewrite pair_distances_ok in Eds; auto; [discriminate|].
        eapply Forall_impl; [|exact Hcd]. simpl. congruence.
    - apply Hgo. unfold looked_at. rewrite Ht. exact Hp.
  Qed.

  Lemma nearest_sound q k recs sub n hits :
    incl sub recs -> ((0 <= k)%Z -> n <= Z.to_nat k) ->
    Forall (fun e => pair_distance mt q (fst (snd e)) = Ok (pd_val mt q (fst (snd e)))) sub ->
    nearest nleb (pd_val mt q) sub n hits -> sound mt recs q k hits.
  Proof.
    intros Hinc Hk HF [H1 H2 H3 H4 H5]. rewrite Forall_forall in HF. constructor; auto.
    - intros h Hh. destruct (H3 h Hh) as [v [Hi Hd]]. exists v. split; auto.
      rewrite Hd. exact (HF _ Hi).
    - rewrite H1. exact Hk.
  Qed.

  Lemma want_k k n : (0 <= k)%Z -> want k n <= Z.to_nat k.
  Proof. intros Hk. unfold want. replace (0 <=? k)%Z with true by lia. lia. Qed.

  Lemma ivf_delete_ids_ok ids : forall recs x s succ,
    icoh recs (i_cache x) -> Permutation (i_ids x) (map fst recs) -> parts (map fst recs) x ->
    A (MkS true recs) s ->
    exists x' s', ivf_delete_ids C ids succ (x, s) = (Ok (succ && del_ans ids recs), (x', s')) /\
      icoh (del_recs ids recs) (i_cache x') /\ i_init x' = i_init x /\
      i_trained x' = i_trained x /\
      Permutation (i_ids x') (map fst (del_recs ids recs)) /\
      parts (map fst (del_recs ids recs)) x' /\
      A (MkS true (del_recs ids recs)) s'.
  Proof.
    induction ids as [|id ids IH]; intros recs x s succ Hcoh Hp Hpt HA; simpl.
    - rewrite andb_true_r. exists x, s. auto 10.
    - pose proof (so_nd C p b sz A HC _ _ HA) as Hnd. simpl in Hnd.
      unfold bind, on_sb, zoom, set_ix, modify. simpl.
      destruct (so_delete C p b sz A HC recs s id HA) as (s1 & E1 & A1). rewrite E1. simpl.
      set (x0 := if memb id (i_ids x) then _ else _).
      set (x1 := iset_clusters _ _).
      assert (i_cache x1 = ddel id (i_cache x)) as Ec.
      { unfold x1, x0. simpl. destruct (memb id (i_ids x)); reflexivity. }
      assert (i_ids x1 = remove_first id (i_ids x)) as Ei.
      { unfold x1, x0. simpl. destruct (memb_spec id (i_ids x)); simpl; auto.
        now rewrite remove_first_notin. }
      assert (i_init x1 = i_init x /\ i_trained x1 = i_trained x /\ i_centroids x1 = i_centroids x)
        as (Eini & Etr & Ecen).
      { unfold x1, x0. simpl. destruct (memb id (i_ids x)); auto. }
      assert (i_clusters x1 = remove_from_all id (i_clusters x)) as Ecl.
      { unfold x1, x0. simpl. destruct (memb id (i_ids x)); auto. }
      assert (Hfil : Permutation (filter (fun j => negb (eqb id j)) (map fst recs))
                       (map fst (sp_del id recs))).
      { apply NoDup_Permutation.
        - now apply NoDup_filter.
        - rewrite sp_del_ddel. now apply NoDup_dkeys_ddel.
        - intros j. rewrite filter_In, keys_del. split.
          + intros [Hj Hne]. split; auto. intros ->. now rewrite eqb_refl in Hne.
          + intros [Hne Hj]. split; auto. rewrite eqb_neq; auto. }
      destruct (IH (sp_del id recs) x1 s1 (if match sp_find id recs with Some _ => true | None => false end then succ else false))
        as (x' & s' & E & C' & I' & T' & P' & Pt' & A'); auto.
      + intros j w r Hd Hr. rewrite Ec, dget_ddel in Hd. rewrite sp_find_del in Hr.
        destruct (eqb j id); [discriminate|]. eapply Hcoh; eauto.
      + rewrite Ei. assert (NoDup (i_ids x)) as Hnx.
        { eapply Permutation_NoDup; [symmetry; exact Hp|auto]. }
        rewrite remove_first_filter by auto. eapply perm_trans; [|exact Hfil].
        apply NoDup_Permutation; try (now apply NoDup_filter).
        intros j. rewrite !filter_In. split; intros [Hj Hne]; split; auto;
          (eapply Permutation_in; [|exact Hj]); auto. now symmetry.
      + intros Ht. rewrite Etr in Ht. destruct (Hpt Ht) as (cs & H1 & H2 & H3 & H4 & H5 & H6).
        exists cs. rewrite Ecen, Ecl, remove_from_all_keys.
        split; [|split; [|split; [|split; [|split]]]]; auto.
        rewrite remove_from_all_concat by (eapply Permutation_NoDup; [symmetry; exact H6|auto]).
        eapply perm_trans; [|exact Hfil].
        apply NoDup_Permutation.
        * apply NoDup_filter. eapply Permutation_NoDup; [symmetry; exact H6|auto].
        * now apply NoDup_filter.
        * intros j. rewrite !filter_In. split; intros [Hj Hne]; split; auto;
            (eapply Permutation_in; [|exact Hj]); auto. now symmetry.
      + exists x', s'. rewrite E. split; [|split; [|split; [|split; [|split; [|split]]]]]; auto; try congruence.
        f_equal. f_equal. destruct (sp_find id recs), succ; simpl; auto.
  Qed.

  Lemma ivf_delete_ok ids recs x s : iopen recs x -> A (MkS true recs) s ->
    exists x' s', ivf_delete C ids (x, s) = (Ok (del_ans ids recs), (x', s')) /\
                  iopen (del_recs ids recs) x' /\ A (MkS true (del_recs ids recs)) s'.
  Proof.
    intros (Hcoh & Hi & Hp & Hc & Hpt & Hun) HA.
    destruct (ivf_delete_ids_ok ids recs x s true Hcoh Hp Hpt HA)
      as (x' & s' & E & C' & I' & T' & P' & Pt' & A').
    unfold ivf_delete. rewrite (bind_Ok get_ix _ _ x (x, s)) by reflexivity. rewrite Hi. cbn [negb].
    unfold wrap. rewrite (bind_Ok _ _ _ _ _ E).
    eexists _, s'. split; [reflexivity|]. split; auto. simpl.
    split; [|split; [|split; [|split; [|split]]]]; simpl; auto.
    - now rewrite I'.
    - rewrite T'. intros Ht. specialize (Hun Ht).
      assert (Hle : forall ids (r : list (entry (list F) Mt)), length (del_recs ids r) <= length r).
      { induction ids0 as [|i ids0 IHi]; intros r; unfold del_recs in *; simpl; auto.
        eapply Nat.le_trans; [apply IHi|]. unfold sp_del.
        clear. induction r as [|e r IH]; simpl; auto. destruct (negb _); simpl; lia. }
      specialize (Hle ids recs). lia.
  Qed.

  Lemma ivf_update_ok id v m recs x s : iopen recs x -> A (MkS true recs) s ->
    dim_ok v -> meta_ok m ->
    let recs' := match sp_find id recs with
                 | Some _ => sp_put id (v, m) recs
                 | None => recs
                 end in
    exists x' s', ivf_update C mt id v m (x, s) =
      (Ok (match sp_find id recs with Some _ => true | None => false end), (x', s')) /\
      iopen recs' x' /\ A (MkS true recs') s'.
  Proof.
    intros Ho HA Hv Hm recs'. pose proof Ho as (Hcoh & Hi & Hp & Hc & Hpt & Hun).
    pose proof (so_nd C p b sz A HC _ _ HA) as Hnd. simpl in Hnd.
    destruct (so_update C p b sz A HC recs s id v m HA Hm) as (s1 & E1 & A1).
    unfold ivf_update. rewrite (bind_Ok get_ix _ _ x (x, s)) by reflexivity. rewrite Hi. cbn [negb].
    assert (on_sb (sc_update C id v m) (x, s) =
            (Ok (match sp_find id recs with Some _ => true | None => false end), (x, s1))) as Eu.
    { unfold on_sb, zoom. simpl. now rewrite E1. }
    unfold wrap. rewrite (bind_Ok _ _ _ _ _ Eu).
    destruct (sp_find id recs) as [r0|] eqn:Ef; cbn [negb].
    - unfold bind at 1, set_ix at 1, modify at 1. cbn [fst snd].
      set (x1 := iset_cache (dset id v (i_cache x)) x).
      rewrite (bind_Ok get_ix _ _ x1 (x1, s1)) by reflexivity.
      change (i_trained x1) with (i_trained x).
      assert (Hin : In id (map fst recs)) by (apply In_keys_find; eauto).
      assert (Hkeys : map fst recs' = map fst recs) by (unfold recs'; now rewrite keys_put).
      assert (Hlen' : length recs' = length recs).
      { rewrite <- (map_length fst recs'), Hkeys. now rewrite map_length. }
      assert (Hcoh' : icoh recs' (dset id v (i_cache x))).
      { intros j w r Hd Hr. rewrite dget_dset in Hd. unfold recs' in Hr.
        rewrite sp_find_put in Hr. destruct (eqb j id).
        - injection Hd as <-. injection Hr as <-. reflexivity.
        - eapply Hcoh; eauto. }
      assert (Hre : exists cl, (if i_trained x then ivf_reassign mt id v else ret tt) (x1, s1) =
                     (Ok tt, (iset_clusters cl x1, s1)) /\ parts (map fst recs) (iset_clusters cl x1)).
      { destruct (i_trained x) eqn:Ht.
        - destruct (Hpt Ht) as (cs & H1 & H2 & H3 & H4 & H5 & H6).
          unfold ivf_reassign. rewrite (bind_Ok get_ix _ _ x1 (x1, s1)) by reflexivity.
          change (i_trained x1) with (i_trained x). change (i_centroids x1) with (i_centroids x).
          rewrite Ht, H1. unfold bind at 1, set_ix at 1, modify at 1. cbn [fst snd].
          set (x2 := iset_clusters _ x1).
          assert (NoDup (concat (dvals (i_clusters x)))) as Hcn
            by (eapply Permutation_NoDup; [symmetry; exact H6|auto]).
          destruct (ivf_add_ok id v (filter (fun j => negb (eqb id j)) (map fst recs)) x2 s1 Hv)
            as (x' & E' & P' & cl & ->).
          + intros _. exists cs. unfold x2. simpl. rewrite remove_from_first_all by auto.
            rewrite remove_from_all_keys. split; [|split; [|split; [|split; [|split]]]]; auto.
            rewrite remove_from_all_concat by auto.
            apply NoDup_Permutation; try (now apply NoDup_filter).
            intros j. rewrite !filter_In. split; intros [Hj Hne]; split; auto;
              (eapply Permutation_in; [|exact Hj]); auto. now symmetry.
          + exact Ht.
          + exists cl. rewrite E'. split; [reflexivity|].
            change (iset_clusters cl x1) with (iset_clusters cl x2).
            eapply parts_live; [exact P'|].
            apply NoDup_Permutation; auto.
            * apply NoDup_snoc; [now apply NoDup_filter|]. rewrite filter_In, eqb_refl.
              intros [_ Hne]. discriminate.
            * intros j. rewrite in_app_iff, filter_In. simpl. split.
              -- intros [[Hj _]|[<-|[]]]; auto.
              -- intros Hj. destruct (eqb_spec id j) as [->|]; auto.
        - exists (i_clusters x1). destruct x. simpl in Ht. subst. split; [reflexivity|].
          intros Ht'. simpl in Ht'. discriminate. }
      destruct Hre as (cl & Ere & Pre). rewrite (bind_Ok _ _ _ _ _ Ere).
      eexists _, s1. split; [reflexivity|]. split; auto.
      split; [|split; [|split; [|split; [|split]]]]; auto.
      + now rewrite Hkeys.
      + now rewrite Hkeys.
      + rewrite Hlen'. exact Hun.
    - exists x, s1. split; [reflexivity|]. split; auto.
  Qed.

  Lemma ivf_index_ok :
    index_ok (ivf_class C n_clusters n_probes mt) A false dim_ok kmeans_ok (ivf_ok mt dim) iopen iclosed.
  Proof.
    constructor.
    - intros recs. split; reflexivity.
    - discriminate.
    - intros recs x Hx. exact Hx.
    - intros o recs x s Hkm HF Hx HA. now apply ivf_initialize_ok.
    - intros o fresh arr meta recs x s HF Ho HA. destruct arr as [v|rows|]; simpl.
      + unfold ivf_insert, bind, get_ix. simpl. destruct Ho as (_ & -> & _). reflexivity.
      + intros Hkm Hfr HFr Hm. now apply ivf_insert_ok.
      + unfold ivf_insert, bind, get_ix. simpl. destruct Ho as (_ & -> & _). reflexivity.
    - intros o q k recs x s _ HF Ho HA. simpl. destruct q as [q|rows|].
      + destruct (ivf_search_ok q k recs x s HF Ho HA) as (d & s' & r & -> & Ho' & A' & Hr).
        split; auto. split; auto. destruct r as [hits|e]; simpl; auto.
        destruct Hr as [Hnn HFF]. eapply nearest_sound; [apply looked_at_incl| |exact HFF|exact Hnn].
        apply want_k.
      + unfold ivf_search, bind, get_ix. simpl. pose proof Ho as (_ & Hi & _). rewrite Hi. simpl. auto.
      + unfold ivf_search, bind, get_ix. simpl. pose proof Ho as (_ & Hi & _). rewrite Hi. simpl. auto.
    - intros ids recs x s _ Hx HA. now apply ivf_delete_ok.
    - intros o id v m recs x s _ _ Hx HA Hv Hm. now apply ivf_update_ok.
    - intros recs x (Hcoh & Hi & Hp & Hc & _). simpl. unfold ivf_count. rewrite Hi. simpl.
      rewrite Hc. f_equal. apply Permutation_length in Hp. rewrite map_length in Hp. lia.
    - intros x s. simpl. eexists. split; [reflexivity|]. intros recs. split; reflexivity.
  Qed.
End Ivf.
