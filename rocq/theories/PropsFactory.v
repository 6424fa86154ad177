(** Properties of the database constructors of factory.py: C156 (text), C157 (documents with
    metadata), C158 (images), C159 (configuration). *)

From Coq Require Import String List Arith ZArith NArith Lia Bool Reals Lra Permutation Sorted.
From Verif Require Import PyBase PyMore PyValue BaseLemmas Payload StorageModel StorageSpec StorageRun
  StorageThms StorageOk Num RealNum ClientModel DbSpec ClientRun ClientProofs FlatModel FlatProofs
  HnswModel HnswProofs AnnoyModel ConfigModel FactoryModel PropsFlat PropsHnsw PropsAnnoy PropsSimilarity
  Demo DemoIndex.
Import ListNotations.
Local Open Scope string_scope.
Local Open Scope list_scope.
Open Scope py_scope.
Open Scope nat_scope.

(** ** Spec *)

(** [hits] answer a query over [n] items: item [i] is known as [id i], is at distance [dist i] and
    carries [meta i].  They are [min k n] different items in order of distance, and no item left
    out is closer than one answered. *)
Definition closest_items (id : nat -> pystr) (dist : nat -> R) (meta : nat -> conf) (n k : nat)
    (hits : list (hit R conf)) : Prop :=
  exists items, NoDup items /\ List.length items = Nat.min k n /\ (forall i, In i items -> i < n) /\
    hits = map (fun i => MkHit (id i) (dist i) (Some (meta i))) items /\
    StronglySorted (fun i j => (dist i <= dist j)%R) items /\
    forall i j, In i items -> j < n -> ~ In j items -> (dist i <= dist j)%R.

(** [hits] are items with their true distance and metadata, in order of distance, at most [k]. *)
Definition true_items (id : nat -> pystr) (dist : nat -> R) (meta : nat -> conf) (n k : nat)
    (hits : list (hit R conf)) : Prop :=
  exists items, (forall i, In i items -> i < n) /\
    hits = map (fun i => MkHit (id i) (dist i) (Some (meta i))) items /\
    StronglySorted (fun i j => (dist i <= dist j)%R) items /\ List.length items <= k.

(** What is recorded with a text, and with image [i] of a list. *)
Definition text_record (name : pystr) (dim : nat) (text : pystr) : conf :=
  [(py "text", PStr text); (py "text_length", PInt (Z.of_nat (List.length text)));
   (py "model_used", PStr name); (py "embedding_dimension", PInt (Z.of_nat dim))].
Definition image_record (i : nat) (path : pystr) : conf :=
  [(py "image_path", PStr path); (py "image_id", PInt (Z.of_nat i)); (py "extractor", pstr "clip")].

(** A sentence model: every text has a vector of [d] numbers, a list of texts is answered with the
    matrix of their vectors, and no texts with an empty one-dimensional array. *)
Definition sentence_model (encode : pystr -> list pystr -> result (ndarray R))
    (vec : pystr -> pystr -> list R) (d : nat) : Prop :=
  (forall name t ts, encode name (t :: ts) = Ok (Mat (map (vec name) (t :: ts)))) /\
  (forall name, encode name [] = Ok (Vec [])) /\
  forall name t, List.length (vec name t) = d.

(** The metric the caller asks for: the option "metric" if there is one, cosine otherwise. *)
Definition asks_for (config : option conf) (mt : metric) : Prop :=
  match match config with Some c => dget (py "metric") c | None => None end with
  | None => mt = MCosine
  | Some v => v = pstr "cosine" /\ mt = MCosine \/ v = pstr "euclidean" /\ mt = MEuclidean
  end.

(** The storage types there are. *)
Definition storage_names : list pystr := [py "memory"; py "disk"; py "hybrid"].
Definition index_names : list pystr := [py "flat"; py "hnsw"; py "ivf"; py "lsh"; py "annoy"].

(** ** Lemmas *)

Section Runs.
  Context {X S F Mt Orc : Type} (C : storage_class S (list F) Mt) (IC : index_class X S F Mt Orc).

  Lemma cl_run_app a : forall c b, cl_run C IC c (a ++ b) =
    (fst (cl_run C IC c a) ++ fst (cl_run C IC (snd (cl_run C IC c a)) b),
     snd (cl_run C IC (snd (cl_run C IC c a)) b)).
  Proof.
    induction a as [|o a IH]; intros c b; simpl.
    - now destruct (cl_run C IC c b).
    - destruct (cl_step C IC c o) as [r c1]. rewrite IH.
      destruct (cl_run C IC c1 a) as [rs c2]. simpl. reflexivity.
  Qed.
End Runs.

(** What the constructors do is the history initialise, insert. *)
Lemma build_db_history {X S F Orc} (C : storage_class S (list F) conf)
    (IC : conf -> index_class X S F conf Orc) attrs arr md o o' fresh s0 ids :
  cl_answers C (IC attrs) s0 [CInit o []; CInsert o' fresh arr (Some (map Some md))] = [AUnit; AIds ids] ->
  build_db C IC (Ok (attrs, arr, md)) o o' fresh s0 =
    Ok (cl_after C (IC attrs) s0 [CInit o []; CInsert o' fresh arr (Some (map Some md))]).
Proof.
  unfold cl_answers, cl_after, build_db, cl_new. cbn [rbind cl_run cl_step]. unfold bind.
  destruct (cl_initialize C (IC attrs) o [] _) as [[u|e] c1]; cbn [cobs].
  - destruct (cl_insert (IC attrs) o' fresh arr _ c1) as [[l|e] c2]; cbn; [reflexivity|discriminate].
  - destruct (cl_insert _ _ _ _ _ c1) as [[l|e'] c2]; cbn; discriminate.
Qed.

Lemma build_db_run {X S F Orc} (C : storage_class S (list F) conf)
    (IC : conf -> index_class X S F conf Orc) plan o o' fresh s0 c :
  build_db C IC plan o o' fresh s0 = Ok c -> exists attrs ops, c = cl_after C (IC attrs) s0 ops.
Proof.
  unfold build_db. destruct plan as [[[attrs arr] md]|e]; cbn [rbind]; [|discriminate].
  exists attrs, [CInit o []; CInsert o' fresh arr (Some (map Some md))].
  revert H. unfold cl_after, cl_new. cbn [cl_run cl_step]. unfold bind.
  destruct (cl_initialize C (IC attrs) o [] _) as [[u|e] c1]; [|discriminate]. cbn [cobs].
  destruct (cl_insert (IC attrs) o' fresh arr _ c1) as [[l|e] c2]; cbn; congruence.
Qed.

Lemma batch_recs_In {F Mt} fresh (rows : list (list F)) (meta : option (list (option Mt))) id v m :
  In (id, (v, m)) (batch_recs fresh rows meta) <->
  exists i, nth_error rows i = Some v /\ id = fresh i /\ m = meta_of meta i.
Proof.
  unfold batch_recs. rewrite in_map_iff. split.
  - intros ([i row] & [= <- <- <-] & Hin). exists i. split; auto.
    apply In_nth_error in Hin as [j Hj].
    assert (i = j /\ nth_error rows j = Some row) as [-> ?]; auto.
    clear -Hj. set (n := List.length rows) in *. assert (Hn : n = List.length rows) by reflexivity. clearbody n.
    assert (forall k m, nth_error (combine (seq k m) rows) j = Some (i, row) ->
              i = k + j /\ nth_error rows j = Some row) as G.
    { clear. revert rows. induction j as [|j IH]; intros rows k [|m]; simpl; try discriminate;
        destruct rows as [|r rows]; try discriminate; simpl.
      - intros [= <- <-]. split; auto; lia.
      - intros E. apply IH in E as [-> E]. split; auto; lia. }
    apply G in Hj. exact Hj.
  - intros (i & Hi & -> & ->). exists (i, v). split; auto.
    assert (forall k (rs : list (list F)) j, nth_error rs j = Some v ->
              In (k + j, v) (combine (seq k (List.length rs)) rs)) as G.
    { clear. intros k rs. revert k. induction rs as [|r rs IH]; intros k [|j]; simpl; try discriminate.
      - intros [= ->]. left. f_equal. lia.
      - intros E. right. specialize (IH (1 + k) j E). now replace (k + Datatypes.S j) with (1 + k + j) by lia. }
    exact (G 0 rows i Hi).
Qed.

Lemma meta_of_map {Mt} (md : list Mt) i : i < List.length md -> forall d,
  meta_of (Some (map Some md)) i = Some (nth i md d).
Proof.
  intros Hi d. unfold meta_of. rewrite nth_error_map, (nth_error_nth' md d Hi). reflexivity.
Qed.

Lemma choose_items {A} (f : nat -> A) (P : nat -> Prop) (l : list A) :
  (forall h, In h l -> exists i, P i /\ h = f i) -> exists is, l = map f is /\ forall i, In i is -> P i.
Proof.
  induction l as [|h l IH]; intros Hl.
  - exists []. split; auto. intros i [].
  - destruct (Hl h (or_introl eq_refl)) as (i & Hi & ->). destruct IH as (is & -> & His).
    { intros h' Hh. apply Hl. now right. }
    exists (i :: is). split; auto. intros j [<-|Hj]; auto.
Qed.

Lemma StronglySorted_map {A B} (f : A -> B) (P : B -> B -> Prop) l :
  StronglySorted P (map f l) -> StronglySorted (fun a b => P (f a) (f b)) l.
Proof.
  induction l as [|a l IH]; simpl; intros Hs; [constructor|].
  apply StronglySorted_inv in Hs as [Hs Hf]. constructor; auto. now rewrite Forall_map in Hf.
Qed.

Lemma nearest_items fresh (rows : list (list R)) (md : list conf) dist k hits :
  List.length md = List.length rows ->
  (forall i j, i < List.length rows -> j < List.length rows -> fresh i = fresh j -> i = j) ->
  nearest (fun a b => if Rle_dec a b then true else false) dist
          (batch_recs fresh rows (Some (map Some md))) (Nat.min k (List.length rows)) hits ->
  closest_items fresh (fun i => dist (nth i rows [])) (fun i => nth i md []) (List.length rows) k hits.
Proof.
  intros Emd Hinj [Nl Nd Nt Ns Nb].
  set (f := fun i => MkHit (fresh i) (dist (nth i rows [])) (Some (nth i md []))).
  destruct (choose_items f (fun i => i < List.length rows) hits) as (is & -> & His).
  { intros h Hh. destruct (Nt h Hh) as (v & Hin & Ed). apply batch_recs_In in Hin as (i & Ei & Eid & Em).
    assert (i < List.length rows) as Hi by (apply nth_error_Some; congruence).
    exists i. split; auto. unfold f. rewrite (nth_error_nth _ _ [] Ei), <- Ed.
    rewrite (meta_of_map md i ltac:(lia) []) in Em. destruct h as [a b c]. simpl in *. congruence. }
  exists is. rewrite map_length in Nl. rewrite map_map in Nd. simpl in Nd. split; [|split; [|split; [|split; [|split]]]]; auto.
  - eapply NoDup_map_inv. exact Nd.
  - apply StronglySorted_map in Ns. simpl in Ns. clear -Ns.
    induction Ns as [|a l Hs IH Hf]; constructor; auto. eapply Forall_impl; [|exact Hf].
    intros b Hb. simpl in Hb. destruct (Rle_dec _ _) in Hb; auto. discriminate.
  - intros i j Hi Hj Hn. specialize (Nb (fresh j) (nth j rows []) (meta_of (Some (map Some md)) j) (f i)).
    rewrite map_map in Nb. simpl in Nb.
    assert ((if Rle_dec (dist (nth i rows [])) (dist (nth j rows [])) then true else false) = true) as E.
    { apply Nb.
      - apply batch_recs_In. exists j. split; auto. now apply nth_error_nth'.
      - intros Hin. apply in_map_iff in Hin as (i' & E & Hi'). apply Hinj in E; auto. now subst.
      - now apply in_map. }
    destruct (Rle_dec _ _) in E; auto. discriminate.
Qed.

Lemma closest_ext id dist dist' meta meta' n k hits :
  (forall i, i < n -> dist i = dist' i) -> (forall i, i < n -> meta i = meta' i) ->
  closest_items id dist meta n k hits -> closest_items id dist' meta' n k hits.
Proof.
  intros Ed Em (items & N1 & N2 & N3 & N4 & N5 & N6).
  exists items. split; auto. split; auto. split; auto. split; [|split].
  - rewrite N4. apply map_ext_in. intros i Hi. rewrite Ed, Em by auto. reflexivity.
  - clear -N5 N3 Ed. induction N5 as [|i l Hs IH Hf]; constructor.
    + apply IH. intros j Hj. apply N3. now right.
    + rewrite Forall_forall in *. intros j Hj. specialize (Hf j Hj).
      rewrite <- (Ed i), <- (Ed j) by (apply N3; simpl; auto). exact Hf.
  - intros i j Hi Hj Hn. rewrite <- (Ed i), <- (Ed j) by auto. auto.
Qed.

Lemma true_ext id dist dist' meta meta' n k hits :
  (forall i, i < n -> dist i = dist' i) -> (forall i, i < n -> meta i = meta' i) ->
  true_items id dist meta n k hits -> true_items id dist' meta' n k hits.
Proof.
  intros Ed Em (items & N3 & N4 & N5 & N6).
  exists items. split; auto. split; [|split; auto].
  - rewrite N4. apply map_ext_in. intros i Hi. rewrite Ed, Em by auto. reflexivity.
  - clear -N5 N3 Ed. induction N5 as [|i l Hs IH Hf]; constructor.
    + apply IH. intros j Hj. apply N3. now right.
    + rewrite Forall_forall in *. intros j Hj. specialize (Hf j Hj).
      rewrite <- (Ed i), <- (Ed j) by (apply N3; simpl; auto). exact Hf.
Qed.

Lemma nth_map_in {A B} (f : A -> B) (l : list A) i d d' : i < List.length l -> nth i (map f l) d = f (nth i l d').
Proof.
  intros Hi. rewrite (nth_indep _ d (f d')) by (rewrite map_length; auto). apply map_nth.
Qed.

(** The indexes the constructors make from the attributes. *)
Definition flat_of {S F} `{Num F} (C : storage_class S (list F) conf) (attrs : conf) :=
  flat_class C (metric_of attrs).
Definition hnsw_of {S F} `{Num F} (C : storage_class S (list F) conf) (attrs : conf) :=
  hnsw_class C (int_attr attrs (py "m")) (int_attr attrs (py "ef_search")) (metric_of attrs).

Section Built.
  Context {S : Type} `{Payload (list R) conf} `{Unicode} (C : storage_class S (list R) conf).

  Lemma flat_built s0 p attrs rows md mt d ds ds' fresh :
    library_backend C s0 p -> 0 < d -> metric_of attrs = mt -> mt = MCosine \/ mt = MEuclidean ->
    (forall r, In r rows -> List.length r = d) -> List.length md = List.length rows ->
    argsort_ok ds -> argsort_ok ds' -> fresh_ids fresh (List.length rows) [] ->
    (forall m, In m md -> meta_ok (Some m)) ->
    let recs := batch_recs fresh rows (Some (map Some md)) in
    exists c, build_db C (flat_of C) (Ok (attrs, Mat rows, md)) ds ds' fresh s0 = Ok c /\
      (forall q k argsort, List.length q = d -> (0 <= k)%Z -> argsort_ok argsort ->
        exists hits, fst (cl_step C (flat_class C mt) c (CSearch argsort (Vec q) k)) = AHits hits /\
          closest_items fresh (fun i => real_distance mt q (nth i rows [])) (fun i => nth i md [])
            (List.length rows) (Z.to_nat k) hits) /\
      (forall later, all_fit true (fun _ => True) argsort_ok p (MkS true recs) later ->
        db_conforms p (flat_ok mt) (MkS true recs) later (fst (cl_run C (flat_class C mt) c later))).
  Proof.
    intros HB Hd Emt Hmt Hrows Hmd Hds Hds' Hfr Hm recs.
    set (ops := [CInit ds []; CInsert ds' fresh (Mat rows) (Some (map Some md))]).
    assert (Hfit : flat_history p ops).
    { unfold ops. cbn [all_fit]. split; [split; auto; discriminate|]. split; auto. split; auto.
      intros _. cbn. split; [destruct p; exact Hfr|]. split; [apply Forall_forall; auto|].
      intros l m [= <-] Hin. apply in_map_iff in Hin as (x & <- & Hx). auto. }
    assert (Hs2 : db_after p fresh_db ops = MkS true recs).
    { unfold ops, db_after, recs. cbn. now destruct p. }
    pose proof (C16_flat_history_conforms C s0 p mt ops HB Hfit) as Hc.
    assert (Hops : cl_answers C (flat_of C attrs) s0 ops = [AUnit; AIds (map fresh (seq 0 (List.length rows)))]).
    { unfold flat_of. rewrite Emt. unfold ops in Hc |- *.
      destruct (cl_answers C (flat_class C mt) s0 _) as [|r1 [|r2 [|r3 rs]]]; cbn in Hc; try tauto.
      destruct Hc as (-> & -> & _). reflexivity. }
    exists (cl_after C (flat_of C attrs) s0 ops). split.
    { apply (build_db_history C) with (ids := map fresh (seq 0 (List.length rows))). exact Hops. }
    unfold flat_of. rewrite Emt. split.
    - intros q k argsort Eq Hk Harg.
      assert (Hrecs : s_recs (db_after p fresh_db ops) = recs) by now rewrite Hs2.
      assert (Hcl : c_init (cl_after C (flat_class C mt) s0 ops) = true).
      { destruct (library_ok C s0 p HB) as (b & sz & A & HC & HA).
        destruct (client_conforms C _ p b sz A HC true _ argsort_ok (flat_ok mt) _ _
                    (flat_index_ok C mt p b sz A HC true) s0 ops HA Hfit) as [_ HR].
        rewrite (proj1 HR). reflexivity. }
      destruct (C16_flat_exact_knn_real C s0 p mt ops argsort q k HB Hfit Hcl Harg Hmt) as (hits & E & Hn); auto.
      { intros ->. simpl in Eq. lia. }
      { intros id v m Hin. rewrite Hrecs in Hin. apply batch_recs_In in Hin as (i & Hi & _).
        apply nth_error_In in Hi. rewrite Eq. auto. }
      exists hits. split; auto. rewrite Hrecs in Hn.
      assert (List.length recs = List.length rows) as El.
      { unfold recs, batch_recs. rewrite map_length, combine_length, seq_length. lia. }
      rewrite El in Hn. apply nearest_items in Hn; auto. exact (proj1 Hfr).
    - intros later Hlater.
      assert (Hfit2 : flat_history p (ops ++ later)).
      { apply all_fit_app. split; auto. fold (db_after p fresh_db ops). now rewrite Hs2. }
      pose proof (C16_flat_history_conforms C s0 p mt (ops ++ later) HB Hfit2) as Hc2.
      unfold cl_answers in Hc2, Hops |- *. unfold flat_of in Hops. rewrite Emt in Hops.
      rewrite cl_run_app in Hc2. cbn [fst] in Hc2. rewrite Hops in Hc2.
      unfold ops in Hc2 at 1. cbn [app db_conforms] in Hc2. destruct Hc2 as (_ & _ & Hc2).
      unfold cl_after. fold ops in Hc2.
      replace (db_next p (db_next p fresh_db (CInit ds [])) (CInsert ds' fresh (Mat rows) (Some (map Some md))))
        with (MkS true recs) in Hc2 by (symmetry; exact Hs2).
      exact Hc2.
  Qed.

  Lemma hnsw_built s0 p attrs rows md mt d o o' fresh :
    library_backend C s0 p -> metric_of attrs = mt -> mt = MCosine \/ mt = MEuclidean ->
    (0 <= int_attr attrs (py "m"))%Z ->
    (forall r, In r rows -> List.length r = d) -> List.length md = List.length rows ->
    sample_ok o -> sample_ok o' -> fresh_ids fresh (List.length rows) [] ->
    (forall m, In m md -> meta_ok (Some m)) ->
    let recs := batch_recs fresh rows (Some (map Some md)) in
    exists c, build_db C (hnsw_of C) (Ok (attrs, Mat rows, md)) o o' fresh s0 = Ok c /\
      (forall q k rnd, List.length q = d -> (0 <= k)%Z -> sample_ok rnd ->
        exists hits, fst (cl_step C (hnsw_of C attrs) c (CSearch rnd (Vec q) k)) = AHits hits /\
          true_items fresh (fun i => real_distance mt q (nth i rows [])) (fun i => nth i md [])
            (List.length rows) (Z.to_nat k) hits) /\
      (forall later, all_fit false (fun _ => True) sample_ok p (MkS true recs) later ->
        db_conforms p (hnsw_ok mt) (MkS true recs) later (fst (cl_run C (hnsw_of C attrs) c later))).
  Proof.
    intros HB Emt Hmt Hm0 Hrows Hmd Ho Ho' Hfr Hm recs.
    set (ops := [CInit o []; CInsert o' fresh (Mat rows) (Some (map Some md))]).
    assert (Hfit : hnsw_history any_row p ops).
    { unfold ops. cbn [all_fit]. split; [split; auto|]. split; auto. split; auto.
      intros _. cbn. split; [destruct p; exact Hfr|]. split; [apply Forall_forall; auto|].
      intros l m [= <-] Hin. apply in_map_iff in Hin as (x & <- & Hx). auto. }
    assert (Hs2 : db_after p fresh_db ops = MkS true recs).
    { unfold ops, db_after, recs. cbn. now destruct p. }
    assert (Hconf : forall l, hnsw_history any_row p l ->
              db_conforms p (hnsw_ok mt) fresh_db l (cl_answers C (hnsw_of C attrs) s0 l)).
    { intros l Hl. unfold hnsw_of. rewrite Emt. now apply C27_hnsw_history_conforms. }
    pose proof (Hconf ops Hfit) as Hc.
    assert (Hops : cl_answers C (hnsw_of C attrs) s0 ops = [AUnit; AIds (map fresh (seq 0 (List.length rows)))]).
    { unfold ops in Hc |- *.
      destruct (cl_answers C (hnsw_of C attrs) s0 _) as [|r1 [|r2 [|r3 rs]]]; cbn in Hc; try tauto.
      destruct Hc as (-> & -> & _). reflexivity. }
    assert (Hlater : forall later, all_fit false (fun _ => True) sample_ok p (MkS true recs) later ->
        db_conforms p (hnsw_ok mt) (MkS true recs) later
          (fst (cl_run C (hnsw_of C attrs) (cl_after C (hnsw_of C attrs) s0 ops) later))).
    { intros later Hlater.
      assert (Hfit2 : hnsw_history any_row p (ops ++ later)).
      { apply all_fit_app. split; auto. fold (db_after p fresh_db ops). now rewrite Hs2. }
      pose proof (Hconf (ops ++ later) Hfit2) as Hc2.
      unfold cl_answers in Hc2, Hops |- *.
      rewrite cl_run_app in Hc2. cbn [fst] in Hc2. rewrite Hops in Hc2.
      unfold ops in Hc2 at 1. cbn [app db_conforms] in Hc2. destruct Hc2 as (_ & _ & Hc2).
      unfold cl_after. fold ops in Hc2.
      replace (db_next p (db_next p fresh_db (CInit o [])) (CInsert o' fresh (Mat rows) (Some (map Some md))))
        with (MkS true recs) in Hc2 by (symmetry; exact Hs2).
      exact Hc2. }
    exists (cl_after C (hnsw_of C attrs) s0 ops). split.
    { apply (build_db_history C) with (ids := map fresh (seq 0 (List.length rows))). exact Hops. }
    split; auto.
    intros q k rnd Eq Hk Hrnd. specialize (Hlater [CSearch rnd (Vec q) k]).
    cbn [cl_run] in Hlater.
    destruct (cl_step C (hnsw_of C attrs) (cl_after C (hnsw_of C attrs) s0 ops) (CSearch rnd (Vec q) k)) as [r c'].
    cbn [fst db_conforms db_ans s_open s_recs] in *. destruct Hlater as [Hr _]; [cbn; auto|].
    assert (Hpd : forall id v m, In (id, (v, m)) recs -> pair_distance mt q v = Ok (real_distance mt q v)).
    { intros id v m Hin. apply batch_recs_In in Hin as (i & Hi & _). apply nth_error_In in Hi.
      apply C43_indexes_agree; auto. rewrite Eq. symmetry. auto. }
    unfold hnsw_ok in Hr. destruct r as [| |hits| | |e]; try contradiction.
    2: { destruct Hr as (_ & id & v & m & e' & Hin & E). rewrite (Hpd _ _ _ Hin) in E. discriminate. }
    exists hits. split; auto. destruct Hr as [Gt Gs Gl].
    set (f := fun i => MkHit (fresh i) (real_distance mt q (nth i rows [])) (Some (nth i md []))).
    destruct (choose_items f (fun i => i < List.length rows) hits) as (is & -> & His).
    { intros h Hh. destruct (Gt h Hh) as (v & Hin & Ed). rewrite (Hpd _ _ _ Hin) in Ed. injection Ed as Ed.
      apply batch_recs_In in Hin as (i & Ei & Eid & Em).
      assert (i < List.length rows) as Hi by (apply nth_error_Some; congruence).
      exists i. split; auto. unfold f. rewrite (nth_error_nth _ _ [] Ei), Ed.
      rewrite (meta_of_map md i ltac:(lia) []) in Em. destruct h as [a b c0]. simpl in *. congruence. }
    exists is. split; auto. split; [reflexivity|]. rewrite map_length in Gl. split; [|auto].
    apply StronglySorted_map in Gs. simpl in Gs. clear -Gs.
    induction Gs as [|a l Hs IH Hf]; constructor; auto. eapply Forall_impl; [|exact Hf].
    intros b Hb. simpl in Hb. destruct (Rle_dec _ _) in Hb; auto. discriminate.
  Qed.
End Built.

Lemma rmap_all {A B} (f : A -> result B) g l : (forall a, In a l -> f a = Ok (g a)) -> rmap f l = Ok (map g l).
Proof.
  induction l as [|a l IH]; simpl; intros Hf; auto.
  rewrite (Hf a), IH by auto. reflexivity.
Qed.

Lemma storage_named name : In name storage_names -> create_storage name = Ok tt.
Proof. intros [<-|[<-|[<-|[]]]]; reflexivity. Qed.

(** The number of links the caller asks for: the option "m" if there is one, 16 otherwise. *)
Definition asks_links (config : option conf) (n : Z) : Prop :=
  match match config with Some c => dget (py "m") c | None => None end with
  | None => n = 16%Z
  | Some v => v = PInt n
  end.

Lemma asks_metric config mt : asks_for config mt -> mt = MCosine \/ mt = MEuclidean.
Proof.
  unfold asks_for. destruct (match config with Some _ => _ | None => _ end); tauto.
Qed.

Lemma metric_opt config mt : asks_for config mt ->
  opt (over config []) "metric" (pstr "cosine") = pstr "cosine" /\ mt = MCosine \/
  opt (over config []) "metric" (pstr "cosine") = pstr "euclidean" /\ mt = MEuclidean.
Proof.
  unfold asks_for, opt. destruct config as [c|]; cbn [over].
  - destruct (dget (py "metric") c) as [v|]; [tauto|]. intros ->. auto.
  - intros ->. auto.
Qed.

Lemma flat_chosen nv dim uc st ic mt : In st storage_names -> asks_for ic mt ->
  create_vector_db nv dim uc (Some (py "flat")) st ic = Ok (flat_attrs (over ic [])) /\
  metric_of (flat_attrs (over ic [])) = mt.
Proof.
  intros Hs Ha. split.
  - unfold create_vector_db. change (py "flat") with (102%N :: py "lat"). cbn [rbind fst snd].
    rewrite (storage_named _ Hs). destruct ic; reflexivity.
  - unfold metric_of.
    change (dget (py "metric") (flat_attrs (over ic [])))
      with (Some (opt (over ic []) "metric" (pstr "cosine"))).
    destruct (metric_opt ic mt Ha) as [[-> ->] | [-> ->]]; reflexivity.
Qed.

Lemma hnsw_chosen nv dim uc st ic mt n : In st storage_names -> asks_for ic mt -> asks_links ic n ->
  create_vector_db nv dim uc (Some (py "hnsw")) st ic = Ok (hnsw_attrs (over ic [])) /\
  metric_of (hnsw_attrs (over ic [])) = mt /\ int_attr (hnsw_attrs (over ic [])) (py "m") = n.
Proof.
  intros Hs Ha Hn. split; [|split].
  - unfold create_vector_db. change (py "hnsw") with (104%N :: py "nsw"). cbn [rbind fst snd].
    rewrite (storage_named _ Hs). destruct ic; reflexivity.
  - unfold metric_of.
    change (dget (py "metric") (hnsw_attrs (over ic [])))
      with (Some (opt (over ic []) "metric" (pstr "cosine"))).
    destruct (metric_opt ic mt Ha) as [[-> ->] | [-> ->]]; reflexivity.
  - unfold int_attr.
    change (dget (py "m") (hnsw_attrs (over ic []))) with (Some (opt (over ic []) "m" (PInt 16))).
    unfold asks_links, opt in *. destruct ic as [c|]; cbn [over] in *.
    + destruct (dget (py "m") c) as [v|]; now subst.
    + now subst.
Qed.

Lemma real_distance_self mt v : mt = MCosine \/ mt = MEuclidean ->
  (mt = MCosine -> exists x, In x v /\ x <> 0%R) -> real_distance mt v v = 0%R.
Proof.
  intros [-> | ->] Hz; cbn [real_distance].
  - destruct (Hz eq_refl) as (x & Hx & Hx0).
    assert (~ zero_vec v) as Hv.
    { intros Hv. unfold zero_vec in Hv. rewrite Forall_forall in Hv. apply Hx0. auto. }
    pose proof (cos_dist_real v v) as [_ Hc]. cbn [real_distance] in Hc. rewrite Hc by auto.
    rewrite len_sq. rewrite <- inner_zero in Hv. unfold Rdiv. rewrite Rinv_r; [lra|auto].
  - now apply euclid_zero.
Qed.

Lemma real_distance_pos mt v w : List.length v = List.length w -> (0 <= real_distance mt v w)%R.
Proof.
  intros E. assert ((0 <= euclid v w)%R) as Hp by apply sqrt_pos.
  destruct mt; cbn [real_distance]; auto.
  destruct (C42_cosine_value v w E) as (x & _ & _ & Hv & Hb).
  destruct (Req_EM_T (len v) 0) as [|Hv0]; [lra|]. destruct (Req_EM_T (len w) 0) as [|Hw0]; [lra|].
  rewrite len_zero in Hv0, Hw0. rewrite <- Hv by auto. lra.
Qed.

(** What [closest_items] means for an item at distance zero: the first answer is at distance zero. *)
Lemma closest_first id dist meta n k hits i :
  closest_items id dist meta n k hits -> 1 <= k -> i < n -> dist i = 0%R -> (forall j, (0 <= dist j)%R) ->
  exists j rest, j < n /\ hits = MkHit (id j) 0%R (Some (meta j)) :: rest /\ dist j = 0%R.
Proof.
  intros (items & N1 & N2 & N3 & N4 & N5 & N6) Hk Hi E0 Hpos.
  destruct items as [|j items]; [simpl in N2; lia|].
  assert (dist j <= 0)%R as Hj.
  { destruct (in_dec Nat.eq_dec i (j :: items)) as [Hin|Hin].
    - destruct Hin as [->|Hin]; [lra|]. apply StronglySorted_inv in N5 as [_ N5].
      rewrite Forall_forall in N5. rewrite <- E0. auto.
    - rewrite <- E0. apply N6; auto. now left. }
  assert (dist j = 0%R) as Ej by (pose proof (Hpos j); lra).
  exists j, (map (fun i => MkHit (id i) (dist i) (Some (meta i))) items). split; [apply N3; now left|].
  split; auto. rewrite N4. simpl. now rewrite Ej.
Qed.

Section Texts.
  Context (encode : pystr -> list pystr -> result (ndarray R)) (cast : R -> R)
          (vec : pystr -> pystr -> list R) (d : nat) (Henc : sentence_model encode vec d).

  (** The stored vector of a text. *)
  Definition stored (name text : pystr) : list R := map cast (vec name text).

  Lemma stored_length name t : List.length (stored name t) = d.
  Proof. unfold stored. rewrite map_length. apply Henc. Qed.

  Lemma vectors_from_text texts name : texts <> [] ->
    create_vectors_from_text true encode cast texts name =
      Ok (Mat (map (stored name) texts), map (text_record name d) texts).
  Proof.
    destruct Henc as (He & _ & Hl). intros Hne. unfold create_vectors_from_text. cbn [negb].
    destruct texts as [|t ts]; [congruence|]. rewrite He. cbn [rbind].
    rewrite (rmap_all _ (text_record name d)).
    2: { intros a _. cbn [shape1 map rbind]. now rewrite Hl. }
    cbn [rbind astype]. rewrite map_map. reflexivity.
  Qed.

  Lemma semantic_plan_ok texts name o attrs : texts <> [] ->
    (forall nv dim, create_vector_db nv dim (over (o_use_case o) (py "balanced"))
       (Some (over (o_index_type o) (py "annoy"))) (over (o_storage_type o) (py "memory"))
       (o_index_config o) = Ok attrs) ->
    semantic_plan true encode cast texts name o =
      Ok (attrs, Mat (map (stored name) texts), map (text_record name d) texts).
  Proof.
    intros Hne Ha. unfold semantic_plan. rewrite vectors_from_text by auto. cbn [rbind].
    cbn [shape1 rbind]. rewrite Ha. reflexivity.
  Qed.

  (** C156: the database built over a corpus with the flat index answers every query with the
      closest texts, and in every later history of calls it is the database that starts with the
      corpus. *)
  Theorem C156_flat_closest_partial {S} `{Payload (list R) conf} `{Unicode} (C : storage_class S (list R) conf)
      s0 p texts name o mt ds ds' fresh :
    library_backend C s0 p -> texts <> [] -> 0 < d ->
    o_index_type o = Some (py "flat") -> In (over (o_storage_type o) (py "memory")) storage_names ->
    asks_for (o_index_config o) mt ->
    argsort_ok ds -> argsort_ok ds' -> fresh_ids fresh (List.length texts) [] ->
    (forall t, In t texts -> meta_ok (Some (text_record name d t))) ->
    let recs := batch_recs fresh (map (stored name) texts) (Some (map Some (map (text_record name d) texts))) in
    exists c, build_db C (flat_of C) (semantic_plan true encode cast texts name o) ds ds' fresh s0 = Ok c /\
      (forall q k argsort, List.length q = d -> (0 <= k)%Z -> argsort_ok argsort ->
        exists hits, fst (cl_step C (flat_class C mt) c (CSearch argsort (Vec q) k)) = AHits hits /\
          closest_items fresh (fun i => real_distance mt q (stored name (nth i texts [])))
            (fun i => text_record name d (nth i texts [])) (List.length texts) (Z.to_nat k) hits) /\
      (forall later, all_fit true (fun _ => True) argsort_ok p (MkS true recs) later ->
        db_conforms p (flat_ok mt) (MkS true recs) later (fst (cl_run C (flat_class C mt) c later))).
  Proof.
    intros HB Hne Hd Ei Hs Ha Hds Hds' Hfr Hm recs.
    set (attrs := flat_attrs (over (o_index_config o) [])).
    rewrite (semantic_plan_ok texts name o attrs Hne).
    2: { intros nv dim. rewrite Ei. cbn [over]. now apply (flat_chosen nv dim _ _ _ mt). }
    pose proof (asks_metric _ _ Ha) as Hmt.
    assert (metric_of attrs = mt) as Emt by now apply (flat_chosen None None [] (py "memory")); [left|].
    destruct (flat_built C s0 p attrs (map (stored name) texts) (map (text_record name d) texts) mt d
                ds ds' fresh) as (c & Ec & Hc & Hl); auto.
    - intros r Hr. apply in_map_iff in Hr as (t & <- & _). apply stored_length.
    - now rewrite !map_length.
    - now rewrite map_length.
    - intros m Hin. apply in_map_iff in Hin as (t & <- & Ht). auto.
    - exists c. split; auto. split; auto. intros q k argsort Eq Hk Harg.
      destruct (Hc q k argsort Eq Hk Harg) as (hits & E & Hh). exists hits. split; auto.
      rewrite map_length in Hh. eapply closest_ext; [| |exact Hh]; intros i Hi; simpl.
      + now rewrite (nth_map_in _ _ _ _ []).
      + now rewrite (nth_map_in _ _ _ _ []).
  Qed.

  (** C156: the flat database asked for one of its own texts answers first a text at distance 0.
      Under the cosine metric the text's vector must not be zero. *)
  Theorem C156_own_text_partial {S} `{Payload (list R) conf} `{Unicode} (C : storage_class S (list R) conf)
      s0 p texts name o mt ds ds' fresh c i k argsort :
    library_backend C s0 p -> 0 < d ->
    o_index_type o = Some (py "flat") -> In (over (o_storage_type o) (py "memory")) storage_names ->
    asks_for (o_index_config o) mt ->
    argsort_ok ds -> argsort_ok ds' -> fresh_ids fresh (List.length texts) [] ->
    (forall t, In t texts -> meta_ok (Some (text_record name d t))) ->
    build_db C (flat_of C) (semantic_plan true encode cast texts name o) ds ds' fresh s0 = Ok c ->
    i < List.length texts -> (1 <= k)%Z -> argsort_ok argsort ->
    (mt = MCosine -> exists x, In x (stored name (nth i texts [])) /\ x <> 0%R) ->
    exists j rest, j < List.length texts /\
      fst (cl_step C (flat_class C mt) c (CSearch argsort (Vec (stored name (nth i texts []))) k)) =
        AHits (MkHit (fresh j) 0%R (Some (text_record name d (nth j texts []))) :: rest) /\
      real_distance mt (stored name (nth i texts [])) (stored name (nth j texts [])) = 0%R.
  Proof.
    intros HB Hd Ei Hs Ha Hds Hds' Hfr Hm Hb Hi Hk Harg Hz.
    destruct (C156_flat_closest_partial C s0 p texts name o mt ds ds' fresh) as (c' & Ec & Hc & _); auto.
    { intros ->. simpl in Hi. lia. }
    rewrite Hb in Ec. injection Ec as <-.
    destruct (Hc (stored name (nth i texts [])) k argsort) as (hits & E & Hh); auto; try lia.
    { apply stored_length. }
    destruct (closest_first _ _ _ _ _ _ i Hh) as (j & rest & Hj & -> & Ej); auto; try lia.
    - apply real_distance_self; auto. eapply asks_metric; eauto.
    - intros j. apply real_distance_pos. now rewrite !stored_length.
    - exists j, rest. auto.
  Qed.

  (** C156: with the graph index every answer is a text of the corpus with its true distance, in
      order of distance, and in every later history the database is the one that starts with the
      corpus. *)
  Theorem C156_hnsw_true_partial {S} `{Payload (list R) conf} `{Unicode} (C : storage_class S (list R) conf)
      s0 p texts name o mt n r r' fresh :
    library_backend C s0 p -> texts <> [] ->
    o_index_type o = Some (py "hnsw") -> In (over (o_storage_type o) (py "memory")) storage_names ->
    asks_for (o_index_config o) mt -> asks_links (o_index_config o) n -> (0 <= n)%Z ->
    sample_ok r -> sample_ok r' -> fresh_ids fresh (List.length texts) [] ->
    (forall t, In t texts -> meta_ok (Some (text_record name d t))) ->
    let attrs := hnsw_attrs (over (o_index_config o) []) in
    let recs := batch_recs fresh (map (stored name) texts) (Some (map Some (map (text_record name d) texts))) in
    exists c, build_db C (hnsw_of C) (semantic_plan true encode cast texts name o) r r' fresh s0 = Ok c /\
      (forall q k rnd, List.length q = d -> (0 <= k)%Z -> sample_ok rnd ->
        exists hits, fst (cl_step C (hnsw_of C attrs) c (CSearch rnd (Vec q) k)) = AHits hits /\
          true_items fresh (fun i => real_distance mt q (stored name (nth i texts [])))
            (fun i => text_record name d (nth i texts [])) (List.length texts) (Z.to_nat k) hits) /\
      (forall later, all_fit false (fun _ => True) sample_ok p (MkS true recs) later ->
        db_conforms p (hnsw_ok mt) (MkS true recs) later (fst (cl_run C (hnsw_of C attrs) c later))).
  Proof.
    intros HB Hne Ei Hs Ha Hn Hn0 Hr Hr' Hfr Hm attrs recs.
    rewrite (semantic_plan_ok texts name o attrs Hne).
    2: { intros nv dim. rewrite Ei. cbn [over]. now apply (hnsw_chosen nv dim _ _ _ mt n). }
    pose proof (asks_metric _ _ Ha) as Hmt.
    destruct (hnsw_chosen None None [] (py "memory") (o_index_config o) mt n) as (_ & Emt & En); auto.
    { now left. }
    destruct (hnsw_built C s0 p attrs (map (stored name) texts) (map (text_record name d) texts) mt d
                r r' fresh) as (c & Ec & Hc & Hl); auto.
    - unfold attrs. rewrite En. auto.
    - intros x Hx. apply in_map_iff in Hx as (t & <- & _). apply stored_length.
    - now rewrite !map_length.
    - now rewrite map_length.
    - intros m Hin. apply in_map_iff in Hin as (t & <- & Ht). auto.
    - exists c. split; auto. split; auto. intros q k rnd Eq Hk Hrnd.
      destruct (Hc q k rnd Eq Hk Hrnd) as (hits & E & Hh). exists hits. split; auto.
      rewrite map_length in Hh. eapply true_ext; [| |exact Hh]; intros i Hi; simpl.
      + now rewrite (nth_map_in _ _ _ _ []).
      + now rewrite (nth_map_in _ _ _ _ []).
  Qed.

  (** C156: what the constructor raises: the package is missing, or there is no text. *)
  Theorem C156_raises texts name o :
    semantic_plan false encode cast texts name o = Raise EValidation /\
    semantic_plan true encode cast [] name o = Raise EIndexRange.
  Proof.
    destruct Henc as (_ & He & _). split; [reflexivity|].
    unfold semantic_plan, create_vectors_from_text. cbn [negb]. rewrite He. reflexivity.
  Qed.

  (** ** C157 *)

  (** What is recorded about document [i]: its own fields, and for the fields it lacks those of
      its text; "doc_id" is its position. *)
  Definition document_record (name : pystr) (i : nat) (doc m : conf) : Prop :=
    forall key, dget key m =
      if eqb key (py "doc_id") then Some (PInt (Z.of_nat i))
      else match dget key doc with
           | Some v => Some v
           | None => match dget (py "text") doc with
                     | Some (PStr t) => dget key (text_record name d t)
                     | _ => None
                     end
           end.

  Lemma dget_merged b : forall a key, NoDup (map fst b) ->
    dget key (merged a b) = match dget key b with Some v => Some v | None => dget key a end.
  Proof.
    unfold merged. induction b as [|[k v] b IH]; intros a key Hn; simpl; auto.
    inversion Hn as [|x l Hk Hb]; subst. rewrite IH by auto.
    destruct (eqb_spec key k) as [->|Hne].
    - destruct (dget k b) as [w|] eqn:E.
      + exfalso. apply Hk. apply dget_Some_In in E. apply in_map_iff. now exists (k, w).
      + apply dget_dset_same.
    - destruct (dget key b); auto. now rewrite dget_dset_other.
  Qed.

  Lemma dget_fields doc key : dget key (doc_fields doc) = if eqb key (py "text") then None else dget key doc.
  Proof.
    unfold doc_fields. induction doc as [|[k v] doc IH]; cbn [filter fst].
    - now destruct (eqb key (py "text")).
    - destruct (eqb_spec k (py "text")) as [Ek|Hk]; cbn [negb].
      + rewrite IH. destruct (eqb_spec key (py "text")) as [Ekey|Hne]; auto. cbn [dget].
        destruct (eqb_spec key k) as [E|E]; [congruence|reflexivity].
      + cbn [dget]. rewrite IH. destruct (eqb_spec key k) as [E|E]; auto.
        destruct (eqb_spec key (py "text")) as [Ekey|Ekey]; congruence.
  Qed.

  Lemma fields_NoDup doc : NoDup (map fst doc) -> NoDup (map fst (doc_fields doc)).
  Proof.
    unfold doc_fields. induction doc as [|[k v] doc IH]; cbn [filter map fst]; auto.
    intros Hn. inversion Hn as [|x l Hk Hd]; subst.
    destruct (negb (eqb k (py "text"))); auto. cbn [map fst]. constructor; auto.
    intros Hin. apply Hk. apply in_map_iff in Hin as (kv & <- & Hin). apply filter_In in Hin as [Hin _].
    now apply in_map.
  Qed.

  Lemma combined_nth ts : forall ds i0 i, List.length ts = List.length ds -> i < List.length ts ->
    nth i (combined_metadata i0 ts ds) [] =
      dset (py "doc_id") (PInt (Z.of_nat (i0 + i))) (merged (nth i ts []) (nth i ds [])).
  Proof.
    induction ts as [|t ts IH]; intros [|x ds] i0 i E Hi; simpl in *; try lia.
    destruct i as [|i]; simpl; [now rewrite Nat.add_0_r|]. rewrite IH by lia.
    now replace (i0 + Datatypes.S i) with (Datatypes.S (i0 + i)) by lia.
  Qed.

  Lemma combined_length ts : forall ds i, List.length ts = List.length ds ->
    List.length (combined_metadata i ts ds) = List.length ts.
  Proof. induction ts as [|t ts IH]; intros [|x ds] i E; simpl in *; auto; try discriminate. Qed.

  (** The text of a document that has one. *)
  Definition text_of (doc : conf) : pystr :=
    match dget (py "text") doc with Some (PStr t) => t | _ => [] end.
  Definition has_text (doc : conf) : Prop :=
    NoDup (map fst doc) /\ exists t, dget (py "text") doc = Some (PStr t).

  Lemma hybrid_plan_ok docs name o attrs : docs <> [] -> (forall doc, In doc docs -> has_text doc) ->
    (forall nv dim, create_vector_db nv dim (over (o_use_case o) (py "balanced"))
       (Some (over (o_index_type o) (py "hnsw"))) (over (o_storage_type o) (py "memory"))
       (Some (over (o_index_config o) hnsw_options)) = Ok attrs) ->
    exists md, hybrid_plan true encode cast docs name o =
                 Ok (attrs, Mat (map (fun doc => stored name (text_of doc)) docs), md) /\
      List.length md = List.length docs /\
      forall i, i < List.length docs -> document_record name i (nth i docs []) (nth i md []).
  Proof.
    intros Hne Hdoc Ha.
    exists (combined_metadata 0 (map (text_record name d) (map text_of docs)) (map doc_fields docs)).
    split; [|split].
    - unfold hybrid_plan. rewrite (rmap_all _ text_of).
      2: { intros doc Hin. destruct (Hdoc doc Hin) as (_ & t & E). unfold doc_text, text_of. now rewrite E. }
      cbn [rbind]. rewrite vectors_from_text by (destruct docs; [congruence|discriminate]). cbn [rbind].
      cbn [shape1 rbind]. rewrite Ha. cbn [rbind]. now rewrite map_map.
    - now rewrite combined_length; rewrite !map_length.
    - intros i Hi key. rewrite combined_nth by (rewrite !map_length; auto).
      rewrite map_map, (nth_map_in (fun x => text_record name d (text_of x)) docs i [] []) by auto.
      rewrite (nth_map_in doc_fields docs i [] []) by auto.
      cbn [Nat.add].
      destruct (Hdoc (nth i docs []) (nth_In _ _ Hi)) as (Hn & t & Et).
      assert (text_of (nth i docs []) = t) as Ht by (unfold text_of; now rewrite Et). rewrite Ht, Et.
      destruct (eqb_spec key (py "doc_id")) as [->|Hk].
      + rewrite dget_dset_same. reflexivity.
      + rewrite dget_dset_other by auto. rewrite dget_merged by now apply fields_NoDup.
        rewrite dget_fields. destruct (eqb_spec key (py "text")) as [->|Hk2]; [now rewrite Et|]. reflexivity.
  Qed.

  (** C157: a database built over documents with the graph index (the default): every answer is
      a document with its true distance and its fields, in order of distance. *)
  Theorem C157_hnsw_true_partial {S} `{Payload (list R) conf} `{Unicode} (C : storage_class S (list R) conf)
      s0 p docs name o mt n r r' fresh :
    library_backend C s0 p -> docs <> [] -> (forall doc, In doc docs -> has_text doc) ->
    over (o_index_type o) (py "hnsw") = py "hnsw" -> In (over (o_storage_type o) (py "memory")) storage_names ->
    asks_for (o_index_config o) mt -> asks_links (o_index_config o) n -> (0 <= n)%Z ->
    sample_ok r -> sample_ok r' -> fresh_ids fresh (List.length docs) [] ->
    (forall m : conf, meta_ok (Some m)) ->
    let attrs := hnsw_attrs (over (o_index_config o) hnsw_options) in
    exists md, (forall i, i < List.length docs -> document_record name i (nth i docs []) (nth i md [])) /\
    let recs := batch_recs fresh (map (fun doc => stored name (text_of doc)) docs) (Some (map Some md)) in
    exists c, build_db C (hnsw_of C) (hybrid_plan true encode cast docs name o) r r' fresh s0 = Ok c /\
      (forall q k rnd, List.length q = d -> (0 <= k)%Z -> sample_ok rnd ->
        exists hits, fst (cl_step C (hnsw_of C attrs) c (CSearch rnd (Vec q) k)) = AHits hits /\
          true_items fresh (fun i => real_distance mt q (stored name (text_of (nth i docs []))))
            (fun i => nth i md []) (List.length docs) (Z.to_nat k) hits) /\
      (forall later, all_fit false (fun _ => True) sample_ok p (MkS true recs) later ->
        db_conforms p (hnsw_ok mt) (MkS true recs) later (fst (cl_run C (hnsw_of C attrs) c later))).
  Proof.
    intros HB Hne Hdoc Ei Hs Ha Hn Hn0 Hr Hr' Hfr Hm attrs.
    assert (asks_for (Some (over (o_index_config o) hnsw_options)) mt) as Ha'.
    { unfold asks_for in *. destruct (o_index_config o); cbn [over]; auto. left. auto. }
    assert (asks_links (Some (over (o_index_config o) hnsw_options)) n) as Hn'.
    { unfold asks_links in *. destruct (o_index_config o); cbn [over]; auto. }
    destruct (hybrid_plan_ok docs name o attrs Hne Hdoc) as (md & Ep & El & Hmd).
    { intros nv dim. rewrite Ei. exact (proj1 (hnsw_chosen nv dim _ _ _ mt n Hs Ha' Hn')). }
    exists md. split; auto. intros recs. rewrite Ep.
    pose proof (asks_metric _ _ Ha) as Hmt.
    destruct (hnsw_chosen None None [] (py "memory") _ mt n ltac:(now left) Ha' Hn') as (_ & Emt & En).
    destruct (hnsw_built C s0 p attrs (map (fun doc => stored name (text_of doc)) docs) md mt d
                r r' fresh) as (c & Ec & Hc & Hl); auto.
    - unfold attrs. cbn [over] in En. rewrite En. auto.
    - intros x Hx. apply in_map_iff in Hx as (t & <- & _). apply stored_length.
    - now rewrite map_length.
    - now rewrite map_length.
    - exists c. split; auto. split; auto. intros q k rnd Eq Hk Hrnd.
      destruct (Hc q k rnd Eq Hk Hrnd) as (hits & E & Hh). exists hits. split; auto.
      rewrite map_length in Hh. eapply true_ext; [| |exact Hh]; intros i Hi; auto.
      cbv beta. now rewrite (nth_map_in (fun doc => stored name (text_of doc)) docs i [] []).
  Qed.

  (** C157: with the flat index the answers are the closest documents. *)
  Theorem C157_flat_closest_partial {S} `{Payload (list R) conf} `{Unicode} (C : storage_class S (list R) conf)
      s0 p docs name o mt ds ds' fresh :
    library_backend C s0 p -> docs <> [] -> 0 < d -> (forall doc, In doc docs -> has_text doc) ->
    o_index_type o = Some (py "flat") -> In (over (o_storage_type o) (py "memory")) storage_names ->
    asks_for (o_index_config o) mt ->
    argsort_ok ds -> argsort_ok ds' -> fresh_ids fresh (List.length docs) [] ->
    (forall m : conf, meta_ok (Some m)) ->
    exists md c, (forall i, i < List.length docs -> document_record name i (nth i docs []) (nth i md [])) /\
      build_db C (flat_of C) (hybrid_plan true encode cast docs name o) ds ds' fresh s0 = Ok c /\
      forall q k argsort, List.length q = d -> (0 <= k)%Z -> argsort_ok argsort ->
        exists hits, fst (cl_step C (flat_class C mt) c (CSearch argsort (Vec q) k)) = AHits hits /\
          closest_items fresh (fun i => real_distance mt q (stored name (text_of (nth i docs []))))
            (fun i => nth i md []) (List.length docs) (Z.to_nat k) hits.
  Proof.
    intros HB Hne Hd Hdoc Ei Hs Ha Hds Hds' Hfr Hm.
    set (attrs := flat_attrs (over (o_index_config o) hnsw_options)).
    assert (asks_for (Some (over (o_index_config o) hnsw_options)) mt) as Ha'.
    { unfold asks_for in *. destruct (o_index_config o); cbn [over]; auto. left. auto. }
    destruct (hybrid_plan_ok docs name o attrs Hne Hdoc) as (md & Ep & El & Hmd).
    { intros nv dim. rewrite Ei. exact (proj1 (flat_chosen nv dim _ _ _ mt Hs Ha')). }
    exists md. rewrite Ep.
    pose proof (asks_metric _ _ Ha) as Hmt.
    destruct (flat_chosen None None [] (py "memory") _ mt ltac:(now left) Ha') as (_ & Emt).
    destruct (flat_built C s0 p attrs (map (fun doc => stored name (text_of doc)) docs) md mt d
                ds ds' fresh) as (c & Ec & Hc & Hl); auto.
    - intros x Hx. apply in_map_iff in Hx as (t & <- & _). apply stored_length.
    - now rewrite map_length.
    - now rewrite map_length.
    - exists c. split; auto. split; auto. intros q k argsort Eq Hk Harg.
      destruct (Hc q k argsort Eq Hk Harg) as (hits & E & Hh). exists hits. split; auto.
      rewrite map_length in Hh. eapply closest_ext; [| |exact Hh]; intros i Hi; auto.
      cbv beta. now rewrite (nth_map_in (fun doc => stored name (text_of doc)) docs i [] []).
  Qed.

  (** C157: a document without the field "text" makes the constructor raise KeyError before
      anything is computed. *)
  Theorem C157_no_text installed docs1 doc docs2 name o :
    (forall x, In x docs1 -> has_text x) -> dget (py "text") doc = None ->
    hybrid_plan installed encode cast (docs1 ++ doc :: docs2) name o = Raise EKey.
  Proof.
    intros H1 H2. unfold hybrid_plan.
    assert (rmap doc_text (docs1 ++ doc :: docs2) = Raise EKey) as ->; [|reflexivity].
    induction docs1 as [|x docs1 IH]; cbn [app rmap].
    - unfold doc_text at 1. rewrite H2. reflexivity.
    - destruct (H1 x (or_introl eq_refl)) as (_ & t & E). unfold doc_text at 1. rewrite E. cbn [rbind].
      rewrite IH; auto. intros y Hy. apply H1. now right.
  Qed.

  (** C157 is false for the forest index: whatever the documents, asking for it and nothing else
      raises, because the graph index's default options are handed to it. *)
  Theorem C157_annoy_raises docs name : docs <> [] -> (forall doc, In doc docs -> has_text doc) ->
    hybrid_plan true encode cast docs name (MkOptions (Some (py "annoy")) None None None None None) = Raise EIndex.
  Proof.
    intros Hne Hdoc. unfold hybrid_plan. rewrite (rmap_all _ text_of).
    2: { intros doc Hin. destruct (Hdoc doc Hin) as (_ & t & E). unfold doc_text, text_of. now rewrite E. }
    cbn [rbind]. rewrite vectors_from_text by (destruct docs; [congruence|discriminate]). cbn [rbind].
    cbn [shape1 rbind]. reflexivity.
  Qed.
End Texts.

(** ** C158 *)

(** An image model: a readable image has a vector of [d] numbers, any other raises. *)
Definition image_model (features : pystr -> result (list R)) (readable : pystr -> bool)
    (vec : pystr -> list R) (d : nat) : Prop :=
  forall path,
    (readable path = true -> features path = Ok (vec path) /\ List.length (vec path) = d) /\
    (readable path = false -> exists e, features path = Raise e).

(** The positions of the readable images, in order. *)
Definition readable_positions (readable : pystr -> bool) (paths : list pystr) : list nat :=
  filter (fun i => readable (nth i paths [])) (seq 0 (List.length paths)).

Section Images.
  Context (features : pystr -> result (list R)) (readable : pystr -> bool) (vec : pystr -> list R)
          (d : nat) (Hmodel : image_model features readable vec d).

  Lemma image_rows_positions paths : forall pre,
    image_rows features (List.length pre) paths =
      map (fun i => (vec (nth i (pre ++ paths) []), image_record i (nth i (pre ++ paths) [])))
        (filter (fun i => readable (nth i (pre ++ paths) [])) (seq (List.length pre) (List.length paths))).
  Proof.
    induction paths as [|path paths IH]; intros pre; [reflexivity|].
    cbn [image_rows List.length seq filter].
    assert (nth (List.length pre) (pre ++ path :: paths) [] = path) as Ep.
    { rewrite app_nth2, Nat.sub_diag by lia. reflexivity. }
    rewrite Ep. specialize (IH (pre ++ [path])). rewrite app_length, <- app_assoc in IH. cbn in IH.
    rewrite Nat.add_1_r in IH. change (1 + List.length pre) with (Datatypes.S (List.length pre)).
    destruct (Hmodel path) as [Ht Hf]. destruct (readable path).
    - destruct (Ht eq_refl) as [-> _]. cbn [map]. rewrite Ep. f_equal. exact IH.
    - destruct (Hf eq_refl) as [e ->]. exact IH.
  Qed.

  (** C158: the image database with the graph index (the default) holds the readable images, in
      order, with the position each had in the list; every answer is one of them with its true
      distance. *)
  Theorem C158_images_partial {S} `{Payload (list R) conf} `{Unicode} (C : storage_class S (list R) conf)
      s0 p paths o mt n r r' fresh :
    let positions := readable_positions readable paths in
    let image j := nth (nth j positions 0) paths [] in
    library_backend C s0 p -> positions <> [] ->
    over (o_index_type o) (py "hnsw") = py "hnsw" -> In (over (o_storage_type o) (py "memory")) storage_names ->
    asks_for (o_index_config o) mt -> asks_links (o_index_config o) n -> (0 <= n)%Z ->
    sample_ok r -> sample_ok r' -> fresh_ids fresh (List.length positions) [] ->
    (forall m : conf, meta_ok (Some m)) ->
    let attrs := hnsw_attrs (over (o_index_config o) []) in
    let recs := batch_recs fresh (map (fun i => vec (nth i paths [])) positions)
                  (Some (map Some (map (fun i => image_record i (nth i paths [])) positions))) in
    exists c, build_db C (hnsw_of C) (image_plan true features paths (py "clip") o) r r' fresh s0 = Ok c /\
      (forall q k rnd, List.length q = d -> (0 <= k)%Z -> sample_ok rnd ->
        exists hits, fst (cl_step C (hnsw_of C attrs) c (CSearch rnd (Vec q) k)) = AHits hits /\
          true_items fresh (fun j => real_distance mt q (vec (image j)))
            (fun j => image_record (nth j positions 0) (image j))
            (List.length positions) (Z.to_nat k) hits) /\
      (forall later, all_fit false (fun _ => True) sample_ok p (MkS true recs) later ->
        db_conforms p (hnsw_ok mt) (MkS true recs) later (fst (cl_run C (hnsw_of C attrs) c later))).
  Proof.
    intros positions image HB Hne Ei Hs Ha Hn Hn0 Hr Hr' Hfr Hm attrs recs.
    pose proof (image_rows_positions paths []) as Erows. cbn [List.length app] in Erows.
    fold (readable_positions readable paths) in Erows. fold positions in Erows.
    assert (image_plan true features paths (py "clip") o =
              Ok (attrs, Mat (map (fun i => vec (nth i paths [])) positions),
                  map (fun i => image_record i (nth i paths [])) positions)) as ->.
    { unfold image_plan, extract_image_features.
      replace (eqb (py "clip") (py "clip")) with true by reflexivity. cbn [negb].
      rewrite Erows. rewrite !map_map. cbn [rbind fst snd].
      destruct positions as [|i ps]; [congruence|]. cbn [map np_rows shape1 rbind].
      rewrite Ei. rewrite (proj1 (hnsw_chosen _ _ _ _ _ mt n Hs Ha Hn)). reflexivity. }
    pose proof (asks_metric _ _ Ha) as Hmt.
    destruct (hnsw_chosen None None [] (py "memory") _ mt n ltac:(now left) Ha Hn) as (_ & Emt & En).
    destruct (hnsw_built C s0 p attrs (map (fun i => vec (nth i paths [])) positions)
                (map (fun i => image_record i (nth i paths [])) positions) mt d
                r r' fresh) as (c & Ec & Hc & Hl); auto.
    - unfold attrs. rewrite En. auto.
    - intros x Hx. apply in_map_iff in Hx as (i & <- & Hi). apply filter_In in Hi as [_ Hi].
      now apply (proj1 (Hmodel _)).
    - now rewrite !map_length.
    - now rewrite map_length.
    - exists c. split; auto. split; auto. intros q k rnd Eq Hk Hrnd.
      destruct (Hc q k rnd Eq Hk Hrnd) as (hits & E & Hh). exists hits. split; auto.
      rewrite map_length in Hh. eapply true_ext; [| |exact Hh]; intros i Hi; cbv beta.
      + now rewrite (nth_map_in (fun i => vec (nth i paths [])) positions i [] 0).
      + now rewrite (nth_map_in (fun i => image_record i (nth i paths [])) positions i [] 0).
  Qed.

  (** C158: what the constructor raises: another extractor than clip, a missing package, and no
      readable image. *)
  Theorem C158_raises installed paths extractor o :
    (extractor <> py "clip" -> image_plan installed features paths extractor o = Raise EValue) /\
    image_plan false features paths (py "clip") o = Raise EValidation /\
    (readable_positions readable paths = [] ->
       image_plan true features paths (py "clip") o = Raise EIndexRange).
  Proof.
    unfold image_plan, extract_image_features. split; [|split].
    - intros Hne. destruct (eqb_spec extractor (py "clip")); [contradiction|reflexivity].
    - reflexivity.
    - intros Hp. pose proof (image_rows_positions paths []) as Erows. cbn [List.length app] in Erows.
      fold (readable_positions readable paths) in Erows. rewrite Hp in Erows.
      replace (eqb (py "clip") (py "clip")) with true by reflexivity. cbn [negb]. rewrite Erows. reflexivity.
  Qed.
End Images.

(** ** C159 *)

(** C159: an index or storage type that is none of the names raises ValueError. *)
Theorem C159_names nv dim uc it st ic : it <> [] ->
  (~ In it index_names -> create_vector_db nv dim uc (Some it) st ic = Raise EValue) /\
  (~ In st storage_names -> exists e, create_vector_db nv dim uc (Some it) st ic = Raise e /\
     (In it [py "flat"; py "hnsw"; py "ivf"] -> e = EValue)) /\
  (In it [py "flat"; py "hnsw"; py "ivf"] -> In st storage_names ->
     exists attrs, create_vector_db nv dim uc (Some it) st ic = Ok attrs).
Proof.
  intros Hne. destruct it as [|x xs]; [congruence|]. cbn [create_vector_db]. unfold create_vector_db.
  cbn [rbind fst snd]. set (it := x :: xs) in *. set (c := match ic with Some c => c | None => [] end).
  assert (Hst : ~ In st storage_names -> create_storage st = Raise EValue).
  { intros Hn. unfold create_storage. 
    destruct (eqb_spec st (py "memory")) as [E|_]; [exfalso; apply Hn; rewrite E; cbn; tauto|].
    destruct (eqb_spec st (py "disk")) as [E|_]; [exfalso; apply Hn; rewrite E; cbn; tauto|].
    destruct (eqb_spec st (py "hybrid")) as [E|_]; [exfalso; apply Hn; rewrite E; cbn; tauto|]. reflexivity. }
  split; [|split].
  - unfold index_names. intros Hn. unfold create_index.
    destruct (eqb_spec it (py "flat")) as [E|_]; [exfalso; apply Hn; rewrite E; cbn; tauto|].
    destruct (eqb_spec it (py "hnsw")) as [E|_]; [exfalso; apply Hn; rewrite E; cbn; tauto|].
    destruct (eqb_spec it (py "ivf")) as [E|_]; [exfalso; apply Hn; rewrite E; cbn; tauto|].
    destruct (eqb_spec it (py "lsh")) as [E|_]; [exfalso; apply Hn; rewrite E; cbn; tauto|].
    destruct (eqb_spec it (py "annoy")) as [E|_]; [exfalso; apply Hn; rewrite E; cbn; tauto|]. reflexivity.
  - intros Hn. rewrite (Hst Hn). destruct (create_index it c) as [attrs|e] eqn:E.
    + exists EValue. split; [reflexivity|auto].
    + exists e. split; [reflexivity|]. intros Hin. exfalso. unfold create_index in E.
      destruct Hin as [<-|[<-|[<-|[]]]]; discriminate.
  - intros Hin Hs. rewrite (storage_named _ Hs).
    destruct Hin as [<-|[<-|[<-|[]]]]; eexists; reflexivity.
Qed.

(** C159: a configuration category that is none of the table's raises ValueError. *)
Theorem C159_category t category : category <> [] ->
  (exists L, list_configs t (Some category) = Ok L) <->
  category = py "index" \/ In category (dkeys (t_flat t)).
Proof.
  intros Hne. destruct category as [|x xs]; [congruence|]. unfold list_configs.
  destruct (eqb_spec (x :: xs) (py "index")) as [E|E].
  - split; [auto|]. intros _. eexists. reflexivity.
  - destruct (dget (x :: xs) (t_flat t)) as [configs|] eqn:Ed.
    + split; [|intros _; eexists; reflexivity]. intros _. right. apply dget_Some_In in Ed.
      unfold dkeys. apply in_map_iff. now exists (x :: xs, configs).
    + split; [intros [L HL]; discriminate|]. intros [?|Hin]; [contradiction|].
      exfalso. apply dget_None in Ed. contradiction.
Qed.

Theorem C159_category_error t category e : list_configs t (Some category) = Raise e -> e = EValue.
Proof.
  unfold list_configs. destruct category as [|x xs]; [discriminate|].
  destruct (eqb _ _); [discriminate|]. destruct (dget _ _); [discriminate|]. congruence.
Qed.

(** C159: the document database honours the metric the caller asks for with the flat index, *)
Theorem C159_document_metric_partial o mt :
  o_index_type o = Some (py "flat") -> In (over (o_storage_type o) (py "memory")) storage_names ->
  asks_for (o_index_config o) mt ->
  exists attrs, document_attrs o = Ok attrs /\ metric_of attrs = mt.
Proof.
  intros Ei Hs Ha. unfold document_attrs. rewrite Ei. cbn [over].
  replace (eqb (py "flat") (py "annoy")) with false by reflexivity.
  replace (eqb (py "flat") (py "hnsw")) with false by reflexivity.
  destruct (flat_chosen (over (o_num_vectors o) None) (over (o_dimension o) None)
              (over (o_use_case o) (py "balanced")) _ _ mt Hs Ha) as [-> E]. eauto.
Qed.

(** but with the graph and the forest index the caller's options are overwritten. *)
Theorem C159_document_overwritten o : In (over (o_storage_type o) (py "memory")) storage_names ->
  (o_index_type o = Some (py "hnsw") ->
     document_attrs o = Ok (cfg [("m", PInt 16); ("ef_construction", PInt 200); ("ef_search", PInt 50);
                                 ("metric", pstr "cosine")])) /\
  (over (o_index_type o) (py "annoy") = py "annoy" ->
     document_attrs o = Ok (cfg [("num_trees", PInt 20); ("metric", pstr "angular"); ("search_k", PInt (-1));
                                 ("build_on_disk", PBool false); ("random_seed", PInt 42)])).
Proof.
  intros Hs. unfold document_attrs. split; intros Ei.
  - rewrite Ei. cbn [over]. unfold create_vector_db.
    change (py "hnsw") with (104%N :: py "nsw"). cbn [rbind fst snd]. rewrite (storage_named _ Hs). reflexivity.
  - rewrite Ei. unfold create_vector_db.
    change (py "annoy") with (97%N :: py "nnoy"). cbn [rbind fst snd]. rewrite (storage_named _ Hs). reflexivity.
Qed.

Theorem C159_document_options_refuted :
  exists o mt attrs, o_index_type o = Some (py "hnsw") /\ asks_for (o_index_config o) mt /\
    document_attrs o = Ok attrs /\ metric_of attrs <> mt.
Proof.
  exists (MkOptions (Some (py "hnsw")) None None None None (Some (cfg [("metric", pstr "euclidean")]))), MEuclidean.
  eexists. split; [reflexivity|]. split; [right; split; reflexivity|]. split; [reflexivity|]. discriminate.
Qed.

(** ** The default index *)

(** C156 is false for the default index, the forest: whatever the corpus and the options, no
    search of the database ever answers. *)
Theorem C156_forest_never_answers {F S} `{Num F} `{Payload (list F) conf} (C : storage_class S (list F) conf)
    amt plan o o' fresh s0 c :
  build_db C (fun _ => annoy_class amt []) plan o o' fresh s0 = Ok c ->
  forall orc q k, exists e, fst (cl_step C (annoy_class amt []) c (CSearch orc q k)) = AExn e.
Proof.
  intros E orc q k.
  destruct (build_db_run C _ plan o o' fresh s0 c E) as (attrs & ops & ->).
  apply C39_annoy_never_searchable.
Qed.

(** ** Examples and refutations *)

(** Dictionaries can be copied and pickled. *)
#[local] Instance dict_payload {V} : Payload (list V) conf := {|
  nbytes v := (4 * N.of_nat (List.length v))%N;
  strbytes m := 5%N;
  copyable m := true;
  picklable m := true
|}.

(** A model that counts the letters of a text. *)
Definition count_vec (name text : pystr) : list R := [INR (List.length text); 1%R].
Definition count_encode (name : pystr) (texts : list pystr) : result (ndarray R) :=
  match texts with [] => Ok (Vec []) | _ => Ok (Mat (map (count_vec name) texts)) end.
Definition count_encode_Z (name : pystr) (texts : list pystr) : result (ndarray Z) :=
  match texts with
  | [] => Ok (Vec [])
  | _ => Ok (Mat (map (fun t => [Z.of_nat (List.length t); 1%Z]) texts))
  end.

Lemma count_model : sentence_model count_encode count_vec 2.
Proof. repeat split. Qed.

Definition two_texts : list pystr := [py "ab"; py "wxyz"].
Definition with_index (name : pystr) (c : conf) : options := MkOptions (Some name) None None None None (Some c).

Lemma demo_fresh_2 : fresh_ids (demo_ids 97) 2 [].
Proof.
  split.
  - intros i j _ _. apply demo_ids_inj.
  - intros i Hi. split; [apply demo_ids_uuid; lia|intros []].
Qed.

Example C156_hypotheses_met :
  sentence_model count_encode count_vec 2 /\
  library_backend (mem_class (V := list R) (Mt := conf)) mem_new false /\ two_texts <> [] /\
  asks_for (o_index_config (with_index (py "flat") (cfg [("metric", pstr "euclidean")]))) MEuclidean /\
  asks_for (o_index_config (with_index (py "hnsw") (cfg [("m", PInt 4)]))) MCosine /\
  asks_links (o_index_config (with_index (py "hnsw") (cfg [("m", PInt 4)]))) 4 /\
  argsort_ok stable_argsort /\ sample_ok low /\ fresh_ids (demo_ids 97) (List.length two_texts) [] /\
  (forall m : conf, meta_ok (V := list R) (Some m)) /\
  (exists x, In x (count_vec [] (py "ab")) /\ x <> 0%R).
Proof.
  split; [exact count_model|]. split; [constructor|]. split; [discriminate|].
  split; [right; split; reflexivity|]. split; [reflexivity|]. split; [reflexivity|].
  split; [exact stable_argsort_ok|]. split; [apply demo_rand_ok|]. split; [exact demo_fresh_2|].
  split; [intros m; split; reflexivity|]. exists 1%R. split; [right; left; reflexivity|lra].
Qed.

(** C156 is false of a call without options: the corpus is taken in, and nothing can be asked. *)
Theorem C156_default_refuted :
  exists texts (c : client (annoy Z conf) (mem (list Z) conf)), texts <> [] /\
    build_db mem_class (fun _ => annoy_class AAngular [])
      (semantic_plan true count_encode_Z (fun x => x) texts (py "m") no_options)
      demo_annoy_orc demo_annoy_orc (demo_ids 97) mem_new = Ok c /\
    forall orc q k, exists e, fst (cl_step mem_class (annoy_class AAngular []) c (CSearch orc q k)) = AExn e.
Proof.
  exists two_texts. eexists. split; [discriminate|]. split; [vm_compute; reflexivity|].
  eapply C156_forest_never_answers with (plan :=
    semantic_plan true count_encode_Z (fun x => x) two_texts (py "m") no_options)
    (o := demo_annoy_orc) (o' := demo_annoy_orc) (fresh := demo_ids 97) (s0 := mem_new).
  vm_compute. reflexivity.
Qed.

(** C156 is false of the empty corpus. *)
Theorem C156_empty_refuted :
  exists texts o, build_db (mem_class (V := list R) (Mt := conf)) (flat_of mem_class)
    (semantic_plan true count_encode (fun x => x) texts (py "m") o)
    stable_argsort stable_argsort (demo_ids 97) mem_new = Raise EIndexRange.
Proof. exists [], no_options. reflexivity. Qed.

(** Two documents. *)
Definition two_docs : list conf :=
  [cfg [("text", pstr "ab"); ("year", PInt 1999)]; cfg [("doc_id", pstr "x"); ("text", pstr "wxyz"); ("text_length", PInt 0)]].

Example C157_hypotheses_met :
  two_docs <> [] /\ (forall doc, In doc two_docs -> has_text doc) /\
  asks_for (o_index_config no_options) MCosine /\ asks_links (o_index_config no_options) 16 /\
  In (over (o_storage_type no_options) (py "memory")) storage_names /\
  hybrid_plan true count_encode_Z (fun x => x) two_docs (py "m") no_options =
    Ok (hnsw_attrs hnsw_options, Mat [[2; 1]; [4; 1]]%Z,
        [cfg [("text", pstr "ab"); ("text_length", PInt 2); ("model_used", pstr "m");
              ("embedding_dimension", PInt 2); ("year", PInt 1999); ("doc_id", PInt 0)];
         cfg [("text", pstr "wxyz"); ("text_length", PInt 0); ("model_used", pstr "m");
              ("embedding_dimension", PInt 2); ("doc_id", PInt 1)]]).
Proof.
  split; [discriminate|]. split.
  { intros doc [<-|[<-|[]]]; (split; [|eexists; reflexivity]);
      repeat constructor; simpl; intros Hin; decompose [or] Hin; discriminate || contradiction. }
  split; [reflexivity|]. split; [reflexivity|]. split; [now left|]. vm_compute. reflexivity.
Qed.

(** C157 is false of the document's own "doc_id": it is replaced by the position. *)
Theorem C157_doc_id_refuted :
  exists docs o attrs rows md v, (forall doc, In doc docs -> has_text doc) /\
    hybrid_plan true count_encode_Z (fun x => x) docs (py "m") o = Ok (attrs, rows, md) /\
    dget (py "doc_id") (nth 1 docs []) = Some v /\ dget (py "doc_id") (nth 1 md []) <> Some v.
Proof.
  exists two_docs, no_options. do 4 eexists. split; [apply C157_hypotheses_met|].
  split; [vm_compute; reflexivity|]. split; [reflexivity|]. discriminate.
Qed.

(** C157 is false as a search that finds: a database over one document, asked for its own text,
    answers nothing when the coin lifted the document to an upper level. *)
Theorem C157_nothing_found_refuted :
  exists docs (c : client (hnsw Z) (mem (list Z) conf)), (forall doc, In doc docs -> has_text doc) /\
    List.length docs = 1 /\
    build_db mem_class (hnsw_of (F := Z) mem_class) (hybrid_plan true count_encode_Z (fun x => x) docs (py "m") no_options)
      high high (demo_ids 97) mem_new = Ok c /\
    fst (cl_step mem_class (hnsw_of mem_class (hnsw_attrs hnsw_options)) c (CSearch low (Vec [2; 1]%Z) 1)) = AHits [].
Proof.
  exists (firstn 1 two_docs). eexists. split.
  { intros doc Hin. apply C157_hypotheses_met. apply In_firstn in Hin. exact Hin. }
  split; [reflexivity|]. split; [vm_compute; reflexivity|]. vm_compute. reflexivity.
Qed.

(** C157 is false of the forest index. *)
Theorem C157_annoy_refuted :
  exists docs, (forall doc, In doc docs -> has_text doc) /\ docs <> [] /\
    hybrid_plan true count_encode_Z (fun x => x) docs (py "m")
      (MkOptions (Some (py "annoy")) None None None None None) = Raise EIndex.
Proof. exists two_docs. split; [apply C157_hypotheses_met|]. split; [discriminate|]. reflexivity. Qed.

(** Images that can be read if their name is longer than one letter. *)
Definition long_name (path : pystr) : bool := 1 <? List.length path.
Definition name_features (path : pystr) : result (list R) :=
  if long_name path then Ok (count_vec [] path) else Raise EOs.

Example C158_hypotheses_met :
  image_model name_features long_name (count_vec []) 2 /\
  readable_positions long_name [py "a"; py "bc"; py "d"; py "efg"] = [1; 3].
Proof.
  split; [|reflexivity]. intros path. unfold name_features. destruct (long_name path); split;
    try discriminate; intros _; [split; reflexivity|now exists EOs].
Qed.

(** C158 is false when no image can be read, and of the extractor the documentation names
    beside clip. *)
Theorem C158_unreadable_refuted :
  exists paths, paths <> [] /\ image_plan true name_features paths (py "clip") no_options = Raise EIndexRange.
Proof. exists [py "a"]. split; [discriminate|reflexivity]. Qed.

Theorem C158_resnet_refuted :
  exists paths, image_plan true name_features paths (py "resnet") no_options = Raise EValue.
Proof. exists [py "bc"]. reflexivity. Qed.

Example C159_hypotheses_met :
  ~ In (py "tree") index_names /\ ~ In (py "cloud") storage_names /\ In (py "ivf") index_names /\
  In (over (o_storage_type no_options) (py "memory")) storage_names.
Proof.
  unfold index_names, storage_names.
  split; [intros Hin; cbn in Hin; decompose [or] Hin; discriminate || contradiction|].
  split; [intros Hin; cbn in Hin; decompose [or] Hin; discriminate || contradiction|].
  split; cbn; auto.
Qed.

Print Assumptions C156_flat_closest_partial.
Print Assumptions C156_own_text_partial.
Print Assumptions C156_hnsw_true_partial.
Print Assumptions C156_raises.
Print Assumptions C156_forest_never_answers.
Print Assumptions C156_default_refuted.
Print Assumptions C156_empty_refuted.
Print Assumptions C157_hnsw_true_partial.
Print Assumptions C157_flat_closest_partial.
Print Assumptions C157_no_text.
Print Assumptions C157_annoy_raises.
Print Assumptions C157_doc_id_refuted.
Print Assumptions C157_nothing_found_refuted.
Print Assumptions C157_annoy_refuted.
Print Assumptions C158_images_partial.
Print Assumptions C158_raises.
Print Assumptions C158_unreadable_refuted.
Print Assumptions C158_resnet_refuted.
Print Assumptions C159_names.
Print Assumptions C159_category.
Print Assumptions C159_category_error.
Print Assumptions C159_document_metric_partial.
Print Assumptions C159_document_overwritten.
Print Assumptions C159_document_options_refuted.
