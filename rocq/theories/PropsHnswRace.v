(** Property C152: several threads insert into one graph index. *)

From Coq Require Import List Arith ZArith NArith Lia Bool Permutation Sorted.
From Coq Require Import ZifyBool ZifyNat ZifyN.
From Verif Require Import PyBase PyMore BaseLemmas Payload StorageModel StorageSpec StorageRun
  StorageThms StorageOk Num ClientModel DbSpec ClientRun ClientProofs FlatProofs IvfProofs
  HnswModel HnswProofs PropsHnsw StepModel StepProofs LshSteps FlatRaceProofs RelyProofs
  HnswSteps HnswRaceProofs Demo DemoIndex.
Import ListNotations.
Open Scope py_scope.

(** ** Specification: what the threads are asked to add *)

Section Spec.
  Context {F Mt : Type} `{Num F} `{Payload (list F) Mt}.

  (** The records an insertion adds, and the ids it hands out. *)
  Definition hjob_recs (j : hjob F Mt) : list (entry (list F) Mt) :=
    batch_recs (hj_fresh j) (hj_rows j) (hj_meta j).
  Definition hjob_ids (j : hjob F Mt) : list pystr := map (hj_fresh j) (seq 0 (length (hj_rows j))).

  (** Vectors of one dimension, dictionaries as metadata, samples that are samples. *)
  Definition hjob_fits (dim : nat) (j : hjob F Mt) : Prop :=
    sample_ok (hj_rand j) /\
    (forall i, i < length (hj_rows j) -> uuid_like (hj_fresh j i)) /\
    (forall l m, hj_meta j = Some l -> In m l -> meta_ok m) /\
    Forall (dim_ok dim) (hj_rows j).
End Spec.

Section Calls.
  Context {F Mt S : Type} `{Num F}.
  Context (C : storage_class S (list F) Mt) (m : Z).
  Notation W := (hnsw F * S)%type.

  Lemma finish_hread {A} (f : hnsw F -> A) (w : W) : finish (hread f) w = (Ok (f (fst w)), w).
  Proof. reflexivity. Qed.

  Lemma finish_hwrite f (w : W) : finish (hwrite f) w = (Ok tt, (f (fst w), snd w)).
  Proof. reflexivity. Qed.

  Lemma hset_levels_same (x : hnsw F) : hset_levels (h_levels x) x = x.
  Proof. now destruct x. Qed.

  Lemma finish_pad rounds level : forall (x : hnsw F) (s : S),
    1 + level - length (h_levels x) < rounds ->
    finish (pad_steps rounds level) (x, s) =
    (Ok tt, (hset_levels (pad_levels (1 + level) (h_levels x)) x, s)).
  Proof.
    induction rounds as [|rounds IH]; intros x s Hr; [lia|]. cbn [pad_steps].
    rewrite finish_bind, finish_hread. cbn [fst]. unfold pad_levels.
    destruct (Nat.leb_spec (length (h_levels x)) level) as [Hl|Hl].
    - rewrite finish_bind, finish_hwrite. cbn [fst snd].
      rewrite IH by (cbn [hset_levels h_levels]; rewrite app_length; simpl length; lia).
      unfold pad_levels. cbn [hset_levels h_levels h_vectors h_max h_count h_init].
      rewrite app_length. simpl length.
      replace (1 + level - length (h_levels x)) with (Datatypes.S (1 + level - (length (h_levels x) + 1))) by lia.
      cbn [repeat]. rewrite <- app_assoc. reflexivity.
    - replace (1 + level - length (h_levels x)) with 0 by lia. cbn [repeat]. rewrite app_nil_r, hset_levels_same.
      reflexivity.
  Qed.

  Lemma set_nth_mid (pre : list graph) g g' post : set_nth (length pre) g' (pre ++ g :: post) = pre ++ g' :: post.
  Proof. induction pre as [|a pre IH]; simpl; auto. now rewrite IH. Qed.

  Lemma nth_mid (pre : list graph) g post : nth_error (pre ++ g :: post) (length pre) = Some g.
  Proof. rewrite nth_error_app2, Nat.sub_diag by lia. reflexivity. Qed.

  Lemma finish_hlevel l (x : hnsw F) (s : S) g : nth_error (h_levels x) l = Some g ->
    finish (hlevel l) (x, s) = (Ok g, (x, s)).
  Proof. intros E. unfold hlevel. rewrite finish_atomic. unfold bind, get_ix. cbn [fst]. now rewrite E. Qed.

  Lemma finish_put l f (x : hnsw F) (s : S) g g' : nth_error (h_levels x) l = Some g -> f g = Ok g' ->
    finish (hlevel_put l f) (x, s) = (Ok tt, (hset_levels (set_nth l g' (h_levels x)) x, s)).
  Proof.
    intros E Ef. unfold hlevel_put. rewrite finish_atomic. unfold bind, get_ix. cbn [fst].
    rewrite E. unfold lift. now rewrite Ef.
  Qed.

  Lemma finish_add_node id pre g post (x : hnsw F) (s : S) : h_levels x = pre ++ g :: post ->
    finish (add_node_steps id (length pre)) (x, s) =
    (Ok tt, (hset_levels (pre ++ add_node id g :: post) x, s)).
  Proof.
    intros E. unfold add_node_steps. rewrite finish_bind.
    rewrite (finish_hlevel (length pre) x s g) by (rewrite E; apply nth_mid).
    unfold add_node. destruct (dmem id g).
    - rewrite <- E, hset_levels_same. reflexivity.
    - rewrite (finish_put (length pre) _ x s g (dset id [] g)); [|rewrite E; apply nth_mid|reflexivity].
      now rewrite E, set_nth_mid.
  Qed.

  Lemma finish_nodes id n : forall pre ls (x : hnsw F) (s : S), h_levels x = pre ++ ls -> n <= length ls ->
    finish (pforM (seq (length pre) n) (add_node_steps id)) (x, s) =
    (Ok tt, (hset_levels (pre ++ add_levels id n ls) x, s)).
  Proof.
    induction n as [|n IH]; intros pre ls x s E Hn.
    - cbn [seq pforM finish add_levels]. now rewrite <- E, hset_levels_same.
    - destruct ls as [|g ls]; [simpl in Hn; lia|]. cbn [seq pforM].
      rewrite finish_bind, (finish_add_node id pre g ls x s E).
      replace (Datatypes.S (length pre)) with (length (pre ++ [add_node id g])) by (rewrite app_length; simpl; lia).
      rewrite (IH (pre ++ [add_node id g]) ls); [|cbn [hset_levels h_levels]; now rewrite <- app_assoc|simpl in Hn; lia].
      cbn [add_levels hset_levels h_vectors h_max h_count h_init]. now rewrite <- app_assoc.
  Qed.

  (** The two halves of a link. *)
  Lemma finish_half pre g post (x : hnsw F) (s : S) a b ns : h_levels x = pre ++ g :: post -> dget a g = Some ns ->
    finish (half_link_steps (length pre) a b) (x, s) =
    (Ok tt, (hset_levels (pre ++ (if memb b ns then g else dset a (ns ++ [b]) g) :: post) x, s)).
  Proof.
    intros E Ea. unfold half_link_steps. rewrite finish_bind, finish_atomic. unfold bind, get_ix. cbn [fst].
    assert (nth_error (h_levels x) (length pre) = Some g) as En by (rewrite E; apply nth_mid).
    rewrite En, Ea. unfold ret. destruct (memb b ns).
    - rewrite <- E, hset_levels_same. reflexivity.
    - rewrite (finish_put (length pre) _ x s g (dset a (ns ++ [b]) g)); [|exact En|now rewrite Ea].
      now rewrite E, set_nth_mid.
  Qed.

  Lemma finish_link id nb pre g g' post (x : hnsw F) (s : S) : h_levels x = pre ++ g :: post ->
    link id g nb = Ok g' ->
    finish (link_steps id (length pre) nb) (x, s) = (Ok tt, (hset_levels (pre ++ g' :: post) x, s)).
  Proof.
    intros E El. unfold link in El. unfold link_steps. destruct (eqb nb id).
    - injection El as <-. now rewrite <- E, hset_levels_same.
    - destruct (dget nb g) as [ns|] eqn:En; [|discriminate].
      rewrite finish_bind, (finish_half pre g post x s nb id ns E En).
      set (g1 := if memb id ns then g else dset nb (ns ++ [id]) g) in *. cbv zeta in El.
      destruct (dget id g1) as [ms|] eqn:Ei; [|discriminate]. injection El as <-.
      rewrite (finish_half pre g1 post _ s id nb ms); [reflexivity|reflexivity|exact Ei].
  Qed.

  Lemma finish_links id pre post nbs : forall g g' (x : hnsw F) (s : S), h_levels x = pre ++ g :: post ->
    link_all id g nbs = Ok g' ->
    finish (pforM nbs (link_steps id (length pre))) (x, s) = (Ok tt, (hset_levels (pre ++ g' :: post) x, s)).
  Proof.
    induction nbs as [|nb nbs IH]; intros g g' x s E El; cbn [link_all] in El.
    - injection El as <-. cbn [pforM finish]. now rewrite <- E, hset_levels_same.
    - destruct (link id g nb) as [g1|] eqn:E1; [|discriminate]. cbn [rbind] in El. cbn [pforM].
      rewrite finish_bind, (finish_link id nb pre g g1 post x s E E1).
      now rewrite (IH g1 g' (hset_levels (pre ++ g1 :: post) x) s eq_refl El).
  Qed.

  Lemma finish_connect_level id sample pre g g' post (x : hnsw F) (s : S) : h_levels x = pre ++ g :: post ->
    connect_level m id sample g = Ok g' ->
    finish (connect_level_steps m id sample (length pre)) (x, s) = (Ok tt, (hset_levels (pre ++ g' :: post) x, s)).
  Proof.
    intros E Ec. unfold connect_level_steps. rewrite finish_bind.
    rewrite (finish_hlevel (length pre) x s g) by (rewrite E; apply nth_mid).
    unfold connect_level in Ec. cbv zeta in *. destruct (length (dkeys g) =? 0).
    - injection Ec as <-. now rewrite <- E, hset_levels_same.
    - destruct (_ <? 0)%Z; [discriminate|]. now apply finish_links with (g := g).
  Qed.

  Lemma finish_connect id (sample : nat -> list pystr -> nat -> list pystr) n : forall pre ls ls' (x : hnsw F) (s : S),
    h_levels x = pre ++ ls -> n <= length ls -> connect_levels m id sample (length pre) n ls = Ok ls' ->
    finish (pforM (seq (length pre) n) (fun l => connect_level_steps m id (sample l) l)) (x, s) =
    (Ok tt, (hset_levels (pre ++ ls') x, s)).
  Proof.
    induction n as [|n IH]; intros pre ls ls' x s E Hn Ec.
    - cbn [connect_levels] in Ec. injection Ec as <-. cbn [seq pforM finish]. now rewrite <- E, hset_levels_same.
    - destruct ls as [|g ls]; [simpl in Hn; lia|]. cbn [connect_levels] in Ec.
      destruct (connect_level m id (sample (length pre)) g) as [g'|] eqn:E1; [|discriminate]. cbn [rbind] in Ec.
      destruct (connect_levels m id sample (1 + length pre) n ls) as [ls2|] eqn:E2; [|discriminate].
      cbn [rbind] in Ec. injection Ec as <-. cbn [seq pforM].
      rewrite finish_bind, (finish_connect_level id (sample (length pre)) pre g g' ls x s E E1).
      replace (Datatypes.S (length pre)) with (length (pre ++ [g'])) by (rewrite app_length; simpl; lia).
      rewrite (IH (pre ++ [g']) ls ls2).
      + cbn [hset_levels h_vectors h_max h_count h_init]. now rewrite <- app_assoc.
      + cbn [hset_levels h_levels]. now rewrite <- app_assoc.
      + simpl in Hn. lia.
      + rewrite app_length, Nat.add_comm. exact E2.
  Qed.

  Lemma pad_length n (ls : list graph) : length (pad_levels n ls) = Nat.max n (length ls).
  Proof. unfold pad_levels. rewrite app_length, repeat_length. lia. Qed.

  Lemma finish_hadd rnd i id v (w w' : W) :
    hnsw_add m rnd i id v w = (Ok tt, w') -> finish (hnsw_add_steps m rnd i id v) w = (Ok tt, w').
  Proof.
    destruct w as [x s]. unfold hnsw_add, hnsw_add_steps. intros E.
    rewrite finish_bind, finish_hwrite. cbn [fst snd].
    set (x1 := hset_vectors (dset id v (h_vectors x)) x).
    unfold hrecount_steps. rewrite !finish_bind, finish_hread. cbn [fst]. rewrite finish_hwrite. cbn [fst snd].
    set (level := draw_level (r_coin rnd i) 0 10) in *. cbv zeta in E |- *.
    unfold bind, set_ix, modify, get_ix, lift in E. cbn [fst snd] in E.
    change (hput_count (Z.of_nat (length (h_vectors x1))) x1) with (hset_count x1). fold x1 in E.
    rewrite finish_bind, finish_pad by lia.
    cbn [h_levels hset_levels hset_count hset_max h_max] in *.
    change (h_levels x1) with (h_levels x) in *.
    set (ls := pad_levels (1 + level) (h_levels x)) in *.
    assert (Hlen : 1 + level <= length ls) by (unfold ls; rewrite pad_length; lia).
    replace (Nat.min (1 + level) (length ls)) with (1 + level) in E by lia.
    assert (Hlen' : length (add_levels id (1 + level) ls) = length ls) by apply add_levels_length.
    rewrite Hlen' in E. replace (Nat.min (1 + level) (length ls)) with (1 + level) in E by lia.
    destruct (connect_levels _ _ _ _ _ _) as [ls'|] eqn:Ec; [|discriminate]. injection E as <-.
    assert (exists g gs, ls = g :: gs) as (g & gs & Els).
    { destruct ls as [|g gs]; [simpl in Hlen; lia|eauto]. }
    rewrite finish_bind, (finish_add_node id [] g gs) by (cbn [hset_levels h_levels app]; exact Els).
    rewrite finish_bind, finish_hread. cbn [fst hset_levels h_levels app].
    rewrite Els in Hlen. cbn [length] in *.
    replace (Nat.min (1 + level) (Datatypes.S (length gs)) - 1) with level by lia.
    rewrite finish_bind.
    rewrite (finish_nodes id level [add_node id g] gs) by (cbn [hset_levels h_levels app]; auto; lia).
    rewrite finish_bind, finish_hread, finish_bind, finish_hwrite, finish_bind, finish_hread.
    cbn [fst snd hset_levels hset_max hset_count h_levels h_max h_vectors h_count h_init app].
    rewrite Els in Ec. cbn [Nat.add add_levels] in Ec.
    assert (Hl2 : length (add_node id g :: add_levels id level gs) = Datatypes.S (length gs))
      by (cbn [length]; now rewrite add_levels_length).
    rewrite Hl2. replace (Nat.min (1 + level) (Datatypes.S (length gs))) with (1 + level) by lia.
    rewrite (finish_connect id (r_sample rnd i) (1 + level) [] (add_node id g :: add_levels id level gs) ls').
    - reflexivity.
    - reflexivity.
    - rewrite Hl2. lia.
    - exact Ec.
  Qed.

  Lemma finish_hrows rnd fresh meta rows : forall i (w w' : W) ids,
    hnsw_insert_rows C m rnd fresh meta i rows w = (Ok ids, w') ->
    finish (hnsw_rows_steps C m rnd fresh meta i rows) w = (Ok ids, w').
  Proof.
    induction rows as [|row rows IH]; intros i w w' ids E; [exact E|].
    cbn [hnsw_insert_rows] in E. cbn [hnsw_rows_steps]. cbv zeta in *.
    rewrite finish_bind, finish_atomic. unfold bind at 1 in E.
    destruct (on_sb _ w) as [[u|e] w1]; [|discriminate].
    rewrite finish_bind. unfold bind at 1 in E.
    destruct (hnsw_add m rnd i (fresh i) row w1) as [[[]|e] w2] eqn:Ea; [|discriminate].
    rewrite (finish_hadd _ _ _ _ _ _ Ea). rewrite finish_bind. unfold bind in E.
    destruct (hnsw_insert_rows C m rnd fresh meta (1 + i) rows w2) as [[ids'|e] w3] eqn:Er; [|discriminate].
    rewrite (IH _ _ _ _ Er). exact E.
  Qed.

  (** The steps of an insertion, run without interruption, are the call of the sequential model,
      whenever that returns (an insertion into a graph index in service does: C27, C28). *)
  Theorem C152_steps_are_the_calls rnd fresh rows meta (w w' : W) ids :
    hnsw_insert C m rnd fresh (Mat rows) meta w = (Ok ids, w') ->
    finish (hnsw_insert_steps C m rnd fresh rows meta) w = (Ok ids, w').
  Proof.
    unfold hnsw_insert, hnsw_insert_steps. rewrite finish_bind, finish_hread. unfold bind at 1, get_ix.
    destruct (negb (h_init (fst w))); [discriminate|]. rewrite finish_wrap. unfold wrap.
    destruct (hnsw_insert_rows _ _ _ _ _ _ _ _) as [[ids'|e] w2] eqn:E; [|discriminate].
    rewrite (finish_hrows _ _ _ _ _ _ _ _ E). auto.
  Qed.

  (** Out of service both refuse, at once and in the same way. *)
  Theorem C152_refused_out_of_service rnd fresh rows meta (w : W) : h_init (fst w) = false ->
    finish (hnsw_insert_steps C m rnd fresh rows meta) w = (Raise EIndex, w) /\
    hnsw_insert C m rnd fresh (Mat rows) meta w = (Raise EIndex, w).
  Proof.
    intros E. unfold hnsw_insert, hnsw_insert_steps. rewrite finish_bind, finish_hread. unfold bind, get_ix.
    rewrite E. split; reflexivity.
  Qed.
End Calls.

Section Race.
  Context {F Mt S : Type} `{Num F} `{!NumOrder F} `{Payload (list F) Mt} `{Unicode}.
  Context (C : storage_class S (list F) Mt).
  Notation ent := (entry (list F) Mt).

  (** The thread that inserts an id. *)
  Fixpoint owner (jobs : list (hjob F Mt)) (id : pystr) : nat :=
    match jobs with
    | [] => 0
    | j :: js => if memb id (map fst (hjob_recs j)) then 0 else Datatypes.S (owner js id)
    end.

  Lemma owner_spec jobs : NoDup (map fst (flat_map hjob_recs jobs)) -> forall t j id,
    nth_error jobs t = Some j -> In id (map fst (hjob_recs j)) -> owner jobs id = t.
  Proof.
    induction jobs as [|j0 jobs IH]; intros Hnd t j id Ej Hid; [destruct t; discriminate|].
    cbn [flat_map] in Hnd. rewrite map_app in Hnd. cbn [owner]. destruct t as [|t]; cbn [nth_error] in Ej.
    - injection Ej as <-. apply memb_In in Hid. now rewrite Hid.
    - destruct (memb id (map fst (hjob_recs j0))) eqn:Em.
      + exfalso. apply (proj1 (memb_In _ _)) in Em. apply (NoDup_apart _ _ id Hnd Em).
        apply in_map_iff in Hid as (e & <- & He). apply in_map, in_flat_map. exists j.
        split; [now apply nth_error_In in Ej|auto].
      + f_equal. apply (IH (NoDup_app_r _ _ Hnd) t j); auto.
  Qed.

  (** What each thread has to do at the start. *)
  Definition hstart (jobs : list (hjob F Mt)) (t : nat) : list (hact (F := F) (Mt := Mt)) :=
    match nth_error jobs t with
    | Some j => rows_acts (hj_rand j) 0 (hjob_recs j)
    | None => []
    end.

  Lemma hinv_start (A : sstate (list F) Mt -> S -> Prop) (recs : list ent) (x : hnsw F) (s : S) jobs :
    NoDup (map fst (recs ++ flat_map hjob_recs jobs)) -> hopen recs x -> A (MkS true recs) s ->
    hinv A (owner jobs) (recs ++ flat_map hjob_recs jobs) recs (x, s) (hstart jobs).
  Proof.
    intros Hnd (Hi & [Hp Hg] & Hc & g & ls & El & Elen & HW & Hne & Hpg) HA.
    assert (Hnd1 : NoDup (map fst recs)) by (rewrite map_app in Hnd; now apply NoDup_app_l in Hnd).
    assert (Hnd2 : NoDup (map fst (flat_map hjob_recs jobs))) by (rewrite map_app in Hnd; now apply NoDup_app_r in Hnd).
    assert (Hapart : forall id, In id (map fst recs) -> ~ In id (map fst (flat_map hjob_recs jobs))).
    { intros id. rewrite map_app in Hnd. apply (NoDup_apart _ _ id Hnd). }
    assert (Hjob : forall t a, In a (hstart jobs t) -> exists j, nth_error jobs t = Some j /\
              In a (rows_acts (hj_rand j) 0 (hjob_recs j))).
    { intros t a Ha. unfold hstart in Ha. destruct (nth_error jobs t) as [j|]; [eauto|destruct Ha]. }
    assert (Hpart : forall t j id, nth_error jobs t = Some j -> In id (map fst (hjob_recs j)) ->
              In id (map fst (flat_map hjob_recs jobs))).
    { intros t j id Ej Hid. apply in_map_iff in Hid as (e & <- & He). apply in_map, in_flat_map. exists j.
      split; [now apply nth_error_In in Ej|auto]. }
    assert (Hdown : forall l id, node l id (h_levels x) -> node 0 id (h_levels x)).
    { intros l id (g' & E & Hin). exists g. rewrite El in *. split; [reflexivity|].
      apply (nested_nth (map dkeys (g :: ls)) 0 l (dkeys g) (dkeys g') Hne); [lia|reflexivity| |exact Hin].
      now rewrite nth_error_map, E. }
    assert (Hrec : forall l id, node l id (h_levels x) -> In id (map fst recs)).
    { intros l id Hn. apply Hdown in Hn as (g' & E & Hin). rewrite El in E. injection E as <-.
      now apply (Permutation_in _ Hpg). }
    assert (Hlink : forall l a b, linked l a b (h_levels x) ->
              a <> b /\ node l b (h_levels x) /\ linked l b a (h_levels x)).
    { intros l a b (g' & la & E & Ea & Hin). rewrite Forall_forall in HW.
      assert (wfg g') as [_ Hw] by (apply HW; rewrite <- El; now apply nth_error_In in E).
      destruct (Hw a la Ea) as (_ & Hna & Hsym). destruct (Hsym b Hin) as (lb & Eb & Hab).
      assert (linked l b a (h_levels x)) as Hl by (now exists g', lb).
      split; [congruence|]. split; [now apply linked_node in Hl|exact Hl]. }
    constructor; cbn [fst snd].
    - split; [exact HA|]. split; [exact Hi|]. split; cbn [fst]; [rewrite El; simpl; lia|].
      rewrite El. eapply Forall_impl; [|exact HW]. intros g' [Hk _]. exact Hk.
    - eapply Permutation_NoDup; [symmetry; exact Hp|auto].
    - intros id v E. rewrite Hg in E. destruct (sp_find id recs) as [[v' mm]|] eqn:Ef; [|discriminate].
      injection E as <-. exists mm. now apply sp_find_In in Ef.
    - intros id Hn. apply (Permutation_in _ (Permutation_sym Hp)). now apply Hrec in Hn.
    - intros l id (g' & E & Hin). assert (exists g2, nth_error (h_levels x) l = Some g2) as [g2 E2].
      { destruct (nth_error (h_levels x) l) eqn:E2; [eauto|]. apply nth_error_None in E2.
        assert (Datatypes.S l < length (h_levels x)) by (apply nth_error_Some; congruence). lia. }
      exists g2. split; [exact E2|]. rewrite El in *.
      apply (nested_nth (map dkeys (g :: ls)) l (Datatypes.S l) (dkeys g2) (dkeys g') Hne); [lia| | |exact Hin].
      + now rewrite nth_error_map, E2.
      + now rewrite nth_error_map, E.
    - intros l a b Hl. destruct (Hlink l a b Hl) as (? & ? & ?). auto.
    - intros l a b Hl. destruct (Hlink l a b Hl) as (? & ? & ?). auto.
    - intros t l a b Hin. apply Hjob in Hin as (j & Ej & Hin).
      apply rows_in in Hin as [(e & _ & [E|E])|(l' & id & _ & E)]; discriminate.
    - intros e He. apply in_or_app. auto.
    - intros e He. apply in_app_or in He as [He|He]; auto. right.
      apply in_flat_map in He as (j & Hj & He). apply In_nth_error in Hj as [t Ej]. exists t.
      unfold hstart. rewrite Ej. now apply rows_store.
    - intros e He. left. apply (Permutation_in _ (Permutation_sym Hp)). now apply in_map.
    - intros id Hid. left. exists g. rewrite El. split; [reflexivity|].
      apply (Permutation_in _ (Permutation_sym Hpg)). now apply (Permutation_in _ Hp).
    - intros t e Hin. apply Hjob in Hin as (j & Ej & Hin).
      apply rows_in in Hin as [(e' & He & [E|E])|(l' & id & _ & E)]; [|discriminate..].
      injection E as <-. split.
      + apply in_or_app. right. apply in_flat_map. exists j. split; [now apply nth_error_In in Ej|auto].
      + intros Hc'. apply (Hapart _ Hc'). apply (Hpart t j); auto. now apply in_map.
    - intros t l id Hin Hn. apply Hjob in Hin as (j & Ej & Hin).
      apply rows_in in Hin as [(e' & He & [E|E])|(l' & id' & Hid & E)]; [discriminate..|].
      injection E as <- <-. apply (Hapart id); [now apply Hrec in Hn|]. now apply (Hpart t j).
    - intros t k id Hin. unfold hstart in Hin. destruct (nth_error jobs t) as [j|] eqn:Ej; [|destruct Hin].
      apply rows_skeys_in in Hin. now apply (owner_spec jobs Hnd2 t j).
    - intros t. unfold hstart. destruct (nth_error jobs t) as [j|] eqn:Ej; [|constructor].
      apply rows_once. clear - Hnd2 Ej. revert t Ej. induction jobs as [|j0 js IH]; intros [|t] Ej; try discriminate.
      + injection Ej as ->. cbn [flat_map] in Hnd2. rewrite map_app in Hnd2. now apply NoDup_app_l in Hnd2.
      + cbn [flat_map] in Hnd2. rewrite map_app in Hnd2. apply NoDup_app_r in Hnd2. eapply IH; eauto.
    - intros t. unfold hstart. destruct (nth_error jobs t) as [j|]; [apply rows_ordered|exact Logic.I].
  Qed.

  (** C152, as far as it goes: a graph index in service, any number of insertions at once, any
      schedule.  No insertion fails and each returns its own ids.  When all have returned, the
      backend holds exactly the old records and those of all the batches, the index holds their
      vectors, the bottom level has exactly their ids, every level is contained in the one below,
      links go to other nodes of the same level and lead back, and a search answers stored ids with
      their metadata and true distance, nearest first.  Missing: that a link is there once, the
      count of [get_stats], and that the search starts at the top level (all refuted below).
      Storage calls are atomic in this model: true of the memory and the hybrid backend. *)
  Theorem C152_concurrent_inserts_partial s0 pers m ef mt dim ops jobs sched :
    library_backend C s0 pers -> (0 <= m)%Z -> mt <> MOther ->
    hnsw_history (dim_ok dim) pers ops ->
    let c := cl_after C (hnsw_class C m ef mt) s0 ops in
    let total := s_recs (db_after pers fresh_db ops) ++ flat_map hjob_recs jobs in
    c_init c = true -> NoDup (map fst total) ->
    (forall j, In j jobs -> hjob_fits dim j) ->
    match threads sched (hpool C m jobs) (c_index c, c_storage c) with
    | (ps', (x', s')) =>
        (forall t j r, nth_error jobs t = Some j -> ps' t = Return r -> r = Ok (hjob_ids j)) /\
        ((forall t, exists r, ps' t = Return r) ->
         exists recs', Permutation recs' total /\
           (forall id, fst (sc_retrieve C id s') = Ok (sp_find id recs')) /\
           Permutation (map fst (h_vectors x')) (map fst total) /\
           (forall id v, In (id, v) (h_vectors x') -> exists mm, In (id, (v, mm)) total) /\
           (forall l g, nth_error (h_levels x') l = Some g ->
              NoDup (map fst g) /\
              forall a la, In (a, la) g ->
                ~ In a la /\ forall b, In b la -> exists lb, In (b, lb) g /\ In a lb) /\
           (forall l g g' id, nth_error (h_levels x') l = Some g ->
              nth_error (h_levels x') (Datatypes.S l) = Some g' -> In id (map fst g') -> In id (map fst g)) /\
           (exists g0, nth_error (h_levels x') 0 = Some g0 /\ Permutation (map fst g0) (map fst total)) /\
           (forall q k, length q = dim -> (0 <= k)%Z ->
              exists hits, fst (hnsw_search C ef mt (Vec q) k (x', s')) = Ok hits /\
                (forall h, In h hits -> exists v,
                   In (h_id h, (v, h_meta h)) recs' /\ h_dist h = true_distance mt q v) /\
                StronglySorted (fun a b => nleb (h_dist a) (h_dist b) = true) hits /\
                length hits <= Z.to_nat k))
    end.
  Proof.
    intros HB Hm Hmt Hfit c total Hi Hnd Hjobs.
    destruct (hnsw_reach C s0 pers m ef mt (dim_ok dim) ops HB Hm Hfit)
      as (b & sz & A & HC & _ & _ & _ & Hs).
    destruct (Hs Hi) as (Ho & HA & HF & Hnd0). fold c in Ho, HA.
    set (recs := s_recs (db_after pers fresh_db ops)) in *.
    pose proof (hinv_start A recs (c_index c) (c_storage c) jobs Hnd Ho HA) as I0. fold total in I0.
    pose proof (hthreads A (owner jobs) total
                  (fun t _ _ r => match nth_error jobs t with
                                  | Some j => r = Ok (hjob_ids j)
                                  | None => True
                                  end) sched (hpool C m jobs) (c_index c, c_storage c) recs (hstart jobs) I0)
      as Hthr.
    destruct (threads sched _ _) as [ps' [x' s']].
    destruct Hthr as (recs' & todo' & I' & Hret).
    { intros t. unfold hpool, hstart. destruct (nth_error jobs t) as [j|] eqn:Ej.
      - destruct (Hjobs j (nth_error_In _ _ Ej)) as (Hsam & Hu & Hmm & HFr).
        apply (follows_hinsert C m Hm pers b sz A HC); auto.
      - intros g w _ _. auto. }
    split.
    - intros t j r Ej Er. destruct (Hret t r Er) as [_ Hr]. now rewrite Ej in Hr.
    - intros Hall. exists recs'.
      assert (Hnil : forall a, ~ pend a todo').
      { intros a [t Ha]. destruct (Hall t) as [r Er]. destruct (Hret t r Er) as [E _]. rewrite E in Ha. destruct Ha. }
      destruct I'. cbn [fst snd] in *.
      destruct hi_good as (HA' & Hinit' & Hmax' & Hkeys'). cbn [fst snd] in *.
      assert (Hnd' : NoDup (map fst recs')) by exact (so_nd C pers b sz A HC _ _ HA').
      assert (Hperm : Permutation recs' total).
      { apply NoDup_Permutation.
        - now apply NoDup_map_inv in Hnd'.
        - now apply NoDup_map_inv in Hnd.
        - intros e. split; [apply hi_sub|]. intros He. destruct (hi_total e He) as [|Hp]; auto.
          exfalso. now apply (Hnil _ Hp). }
      assert (Hvec : forall id, In id (dkeys (h_vectors x')) <-> In id (map fst recs')).
      { intros id. split.
        - intros Hid. apply dget_In in Hid as [v Ev]. destruct (hi_vecs id v Ev) as [mm Hin].
          apply in_map_iff. now exists (id, (v, mm)).
        - intros Hid. apply in_map_iff in Hid as (e & <- & He). destruct (hi_vec e He) as [|Hp]; auto.
          exfalso. now apply (Hnil _ Hp). }
      assert (Hpv : Permutation (dkeys (h_vectors x')) (map fst recs')) by (apply NoDup_Permutation; auto).
      assert (Hzero : forall id, node 0 id (h_levels x') <-> In id (map fst recs')).
      { intros id. rewrite <- Hvec. split; [apply hi_zero|]. intros Hid. destruct (hi_node id Hid) as [|Hp]; auto.
        exfalso. now apply (Hnil _ Hp). }
      assert (Hlev : forall l id, node l id (h_levels x') -> In id (map fst recs')).
      { intros l id Hn. apply Hzero. induction l as [|l IH]; auto. }
      assert (Hgn : forall l g, nth_error (h_levels x') l = Some g -> NoDup (dkeys g)).
      { intros l g E. rewrite Forall_forall in Hkeys'. apply Hkeys'. now apply nth_error_In in E. }
      split; [exact Hperm|]. split; [|split; [|split; [|split; [|split; [|split]]]]].
      + intros id. destruct (so_retrieve C pers b sz A HC recs' s' id HA') as (s1 & E & _). now rewrite E.
      + eapply perm_trans; [exact Hpv|]. now apply Permutation_map.
      + intros id v Hin. destruct (hi_vecs id v) as [mm Hin']; [now apply In_dget|].
        exists mm. now apply (Permutation_in _ Hperm).
      + intros l g E. split; [now apply (Hgn l)|]. intros a la Ha. apply In_dget in Ha; [|now apply (Hgn l)]. split.
        * intros Hin. destruct (hi_link l a a) as [_ Hne]; [now exists g, la|congruence].
        * intros b' Hin. destruct (hi_sym l a b') as [(g' & lb & E' & Eb & Hab)|Hp]; [now exists g, la| |exfalso; now apply (Hnil _ Hp)].
          assert (g' = g) as -> by congruence. exists lb. split; [now apply dget_Some_In|auto].
      + intros l g g' id E E' Hin. destruct (hi_nest l id) as (g2 & E2 & Hin2); [now exists g'|].
        assert (g2 = g) as -> by congruence. exact Hin2.
      + destruct (nth_error (h_levels x') 0) as [g0|] eqn:E0.
        * exists g0. split; auto. apply NoDup_Permutation; [now apply (Hgn 0)|auto|].
          intros id. rewrite <- (Permutation_in' (eq_refl id) (Permutation_map fst Hperm)), <- Hzero.
          split; [intros Hid; now exists g0|]. intros (g & E & Hin). assert (g = g0) as -> by congruence. exact Hin.
        * apply nth_error_None in E0. lia.
      + intros q k Hq Hk.
        assert (HF' : forall id v mm, In (id, (v, mm)) recs' -> length v = dim).
        { intros id v mm He. apply (Permutation_in _ Hperm) in He. unfold fit_recs in HF. rewrite Forall_forall in HF.
          apply in_app_or in He as [He|He]; [now apply (HF _ He)|].
          apply in_flat_map in He as [j [Hj He]]. destruct (Hjobs j Hj) as (_ & _ & _ & HFr).
          rewrite Forall_forall in HFr. apply HFr.
          unfold hjob_recs in He. change (batch_recs (hj_fresh j) (hj_rows j) (hj_meta j))
            with (batch_from (hj_fresh j) 0 (hj_rows j) (hj_meta j)) in He.
          unfold batch_from in He. apply in_map_iff in He as [[i row] [E Hin]]. simpl in E. injection E as _ <- _.
          apply in_combine_r in Hin. exact Hin. }
        assert (Hsound : hsound recs' x').
        { split; [|split; [exact Hmax'|]].
          - split; [exact Hpv|]. intros id. destruct (dget id (h_vectors x')) as [v|] eqn:Ev.
            + destruct (hi_vecs id v Ev) as [mm Hin]. apply sp_find_In in Hin; auto. now rewrite Hin.
            + apply dget_None in Ev. rewrite Hvec in Ev. apply sp_find_None in Ev. now rewrite Ev.
          - intros g id Hg Hid. apply In_nth_error in Hg as [l El]. apply (Hlev l). now exists g. }
        destruct (hnsw_search_sound C ef mt pers b sz A HC q k recs' x' s' Hinit' Hsound HA')
          as (s2 & r & E & _ & Hr).
        rewrite E. cbn [fst]. destruct r as [hits|e].
        * destruct Hr as ([Ht Hso Hl] & _). exists hits. split; auto. split; [|split]; auto.
          intros h Hh. destruct (Ht h Hh) as (v & Hin & Ed). exists v. split; auto.
          rewrite pair_distance_true in Ed by (auto; rewrite (HF' _ _ _ Hin); auto). congruence.
        * exfalso. destruct Hr as [_ (id & v & mm & e' & Ef & Ed)]. apply sp_find_In in Ef; auto.
          rewrite pair_distance_true in Ed by (auto; rewrite (HF' _ _ _ Ef); auto). discriminate.
  Qed.
End Race.

(** ** Demonstration *)

(** Some rows, and then two threads that insert. *)
Definition hrace_ops (rows : list (list Z)) : list (cop Z Z hnsw_rand) :=
  [CInit low []; CInsert high (demo_ids 97) (Mat rows) None].

Lemma hrace_ops_fit (p : bool) : hnsw_history (dim_ok 2) p (hrace_ops [[0; 0]; [3; 4]; [9; 9]]%Z).
Proof.
  destruct p; unfold hrace_ops, low, high; fit_hnsw; simpl; auto; try discriminate;
    try (intros Hin; repeat destruct Hin as [Hin|Hin]; try discriminate; auto).
Qed.

Definition hrace_jobs : list (hjob Z Z) :=
  [MkHjob low (demo_ids 98) [[1; 1]]%Z None;
   MkHjob high (demo_ids 99) [[2; 2]; [3; 3]]%Z (Some [Some 8]%Z)].

(** The hypotheses of C152 are met. *)
Example C152_hypotheses :
  let ops := hrace_ops [[0; 0]; [3; 4]; [9; 9]]%Z in
  let c := cl_after mem_class (hnsw_class mem_class 16 50 MEuclidean) (mem_new (V := list Z) (Mt := Z)) ops in
  let total := s_recs (db_after false fresh_db ops) ++ flat_map hjob_recs hrace_jobs in
  library_backend mem_class (mem_new (V := list Z) (Mt := Z)) false /\
  hnsw_history (dim_ok 2) false ops /\ c_init c = true /\ NoDup (map fst total) /\
  (forall j, In j hrace_jobs -> hjob_fits 2 j).
Proof.
  cbv zeta. split; [constructor|]. split; [apply hrace_ops_fit|]. split; [reflexivity|].
  split; [vm_compute; repeat constructor; simpl; intuition discriminate|].
  intros j Hj. destruct Hj as [<-|[<-|[]]]; (split; [apply demo_rand_ok|split; [|split]]).
  - intros i _. apply demo_ids_uuid. lia.
  - discriminate.
  - repeat constructor.
  - intros i _. apply demo_ids_uuid. lia.
  - intros l m E Hm. injection E as <-. destruct Hm as [<-|[]]. split; simpl; auto.
  - repeat constructor.
Qed.

(** The database the threads start from: memory backend, Euclidean distances. *)
Definition hrace_start (rows : list (list Z)) : hnsw Z * mem (list Z) Z :=
  let c := cl_after mem_class (hnsw_class mem_class 16 50 MEuclidean) mem_new (hrace_ops rows) in
  (c_index c, c_storage c).

(** The [k] ids a search finds, nearest to [q] first. *)
Definition hfound (q : list Z) (k : Z) (w : hnsw Z * mem (list Z) Z) : result (list pystr) :=
  match fst (hnsw_search mem_class 50 MEuclidean (Vec q) k w) with
  | Ok hits => Ok (map h_id hits)
  | Raise e => Raise e
  end.

Example C152_run :
  match threads (concat (repeat [0; 1] 200)) (hpool mem_class 16 hrace_jobs)
          (hrace_start [[0; 0]; [3; 4]; [9; 9]]%Z) with
  | (ps', (x', s')) =>
      ps' 0 = Return (Ok [demo_ids 98 0]) /\
      ps' 1 = Return (Ok [demo_ids 99 0; demo_ids 99 1]) /\
      length (h_vectors x') = 6 /\ map (fun g => length g) (h_levels x') = [6; 5]
  end.
Proof. vm_compute. repeat split. Qed.

(** The call that [C152_steps_are_the_calls] speaks of does return. *)
Example C152_call :
  match hnsw_insert mem_class 16 high (demo_ids 99) (Mat [[2; 2]; [3; 3]]%Z) (Some [Some 8]%Z)
          (hrace_start [[0; 0]; [3; 4]; [9; 9]]%Z) with
  | (Ok ids, (x', _)) => ids = [demo_ids 99 0; demo_ids 99 1] /\ length (h_vectors x') = 5
  | _ => False
  end.
Proof. vm_compute. repeat split. Qed.

(** After a close [C152_refused_out_of_service] applies. *)
Example C152_closed_index :
  match hnsw_close (hrace_start [[0; 0]; [3; 4]]%Z) with
  | (Ok tt, w) => h_init (fst w) = false
  | _ => False
  end.
Proof. vm_compute. reflexivity. Qed.

(** ** What goes wrong *)

(** Two threads that insert one row each, neither above the bottom level. *)
Definition pair_jobs : list (hjob Z Z) :=
  [MkHjob low (demo_ids 98) [[0; 0]]%Z None; MkHjob low (demo_ids 99) [[3; 4]]%Z None].

(** C152, the links: both threads find the link from the second node to the first missing and both
    make it.  A search for the two nearest then answers the same vector twice and the other not at
    all, and deleting the vector strikes one of the two links only: the graph keeps a link to an id
    that is no longer there. *)
Theorem C152_links_doubled_refuted : exists sched,
  match threads sched (hpool mem_class 16 pair_jobs) (hrace_start []) with
  | (ps', (x', s')) =>
      ps' 0 = Return (Ok [demo_ids 98 0]) /\ ps' 1 = Return (Ok [demo_ids 99 0]) /\
      h_levels x' = [[(demo_ids 99 0, [demo_ids 98 0; demo_ids 98 0]); (demo_ids 98 0, [demo_ids 99 0])]] /\
      hfound [0; 0]%Z 2 (x', s') = Ok [demo_ids 98 0; demo_ids 98 0] /\
      match hnsw_delete mem_class [demo_ids 98 0] (x', s') with
      | (r, (x2, s2)) =>
          r = Ok true /\ fst (sc_retrieve mem_class (demo_ids 98 0) s2) = Ok None /\
          h_levels x2 = [[(demo_ids 99 0, [demo_ids 98 0])]]
      end
  end.
Proof.
  exists (repeat 1 9 ++ repeat 0 14 ++ repeat 1 40 ++ repeat 0 40). vm_compute. repeat split.
Qed.

(** C152, the count: one thread can write a length it read before the other one added its vector. *)
Theorem C152_count_refuted : exists sched,
  match threads sched (hpool mem_class 16 pair_jobs) (hrace_start []) with
  | (ps', (x', s')) =>
      ps' 0 = Return (Ok [demo_ids 98 0]) /\ ps' 1 = Return (Ok [demo_ids 99 0]) /\
      length (h_vectors x') = 2 /\ h_count x' = 1%Z
  end.
Proof.
  exists (repeat 1 4 ++ repeat 0 40 ++ repeat 1 40). vm_compute. repeat split.
Qed.

(** C152, the top level: one thread makes a second level and raises [max_level] to it, the other
    puts back the value it had read before.  The level stays, and searches no longer start there. *)
Theorem C152_max_level_refuted : exists sched,
  match threads sched
          (hpool mem_class 16 [MkHjob high (demo_ids 98) [[0; 0]]%Z None;
                               MkHjob low (demo_ids 99) [[3; 4]]%Z None]) (hrace_start []) with
  | (ps', (x', s')) =>
      ps' 0 = Return (Ok [demo_ids 98 0]) /\ ps' 1 = Return (Ok [demo_ids 99 0]) /\
      nth_error (h_levels x') 1 = Some [(demo_ids 98 0, [])] /\ h_max x' = 0
  end.
Proof.
  exists (repeat 1 10 ++ repeat 0 60 ++ repeat 1 40). vm_compute. repeat split.
Qed.

Print Assumptions C152_steps_are_the_calls.
Print Assumptions C152_refused_out_of_service.
Print Assumptions C152_concurrent_inserts_partial.
Print Assumptions C152_links_doubled_refuted.
Print Assumptions C152_count_refuted.
Print Assumptions C152_max_level_refuted.
