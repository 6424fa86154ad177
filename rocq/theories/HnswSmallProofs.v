(** The graph index while at most [m] vectors are stored: every level is a complete graph. *)

From Coq Require Import List Arith ZArith NArith Lia Bool Permutation Sorted ZifyBool ZifyNat.
From Verif Require Import PyBase BaseLemmas Payload StorageModel StorageSpec StorageRun
  StorageProofs StorageThms StorageOk Num ClientModel DbSpec ClientRun ClientProofs FlatProofs
  IvfProofs HnswModel HnswProofs ClientExtra.
Import ListNotations.
Open Scope py_scope.

(** ** One level *)

(** Any two nodes are linked. *)
Definition complete (g : graph) : Prop :=
  forall a la b, dget a g = Some la -> In b (dkeys g) -> a <> b -> In b la.

(** Any two nodes other than [id] are linked. *)
Definition almost (id : pystr) (g : graph) : Prop :=
  forall a la b, dget a g = Some la -> In b (dkeys g) -> a <> b -> a <> id -> b <> id -> In b la.

Lemma complete_nil : complete [].
Proof. intros a la b E. discriminate. Qed.

Lemma almost_add id g : complete g -> almost id (add_node id g).
Proof.
  intros Hg a la b. unfold add_node. destruct (dmem id g); [intros; eapply Hg; eauto|].
  intros Ea Hb Nab Na Nb. rewrite dget_dset_other in Ea by auto.
  apply In_dkeys_dset in Hb as [Hb|Hb]; [congruence|]. eapply Hg; eauto.
Qed.

(** What [link_all] leaves and adds. *)
Lemma link_all_full id nbs : forall g, wfg g -> In id (dkeys g) -> incl nbs (dkeys g) ->
  exists g', link_all id g nbs = Ok g' /\ wfg g' /\ dkeys g' = dkeys g /\
    (forall a b la, dget a g = Some la -> In b la -> exists la', dget a g' = Some la' /\ In b la') /\
    (forall nb, In nb nbs -> nb <> id -> exists ms, dget id g' = Some ms /\ In nb ms).
Proof.
  induction nbs as [|nb nbs IH]; intros g Hw Hi Hin; simpl.
  - exists g. split; auto. split; auto. split; auto. split; [eauto|]. intros nb [].
  - destruct (link_ok id nb g Hw Hi (Hin nb (or_introl eq_refl))) as (g1 & E1 & W1 & K1 & M1 & L1).
    rewrite E1. simpl. destruct (IH g1 W1) as (g' & E' & W' & K' & M' & L').
    + now rewrite K1.
    + rewrite K1. intros a Ha. apply Hin. now right.
    + exists g'. split; auto. split; auto. split; [congruence|]. split.
      * intros a b la Ea Hb. destruct (M1 a b la Ea Hb) as (l1 & E2 & Hb1). eauto.
      * intros nb' [<-|Hn] Nn; auto. destruct (L1 Nn) as (ms & E2 & Hm).
        exact (M' id nb ms E2 Hm).
Qed.

Lemma sample_all rnd i l nodes : sample_ok rnd -> NoDup nodes ->
  incl nodes (r_sample rnd i l nodes (length nodes)).
Proof.
  intros Hs Hnd. destruct (Hs i l nodes (length nodes) Hnd (le_n _)) as (N1 & I1 & L1).
  apply NoDup_length_incl; auto. lia.
Qed.

Lemma connect_level_full m id rnd i l g g' : sample_ok rnd -> wfg g -> In id (dkeys g) ->
  (Z.of_nat (length (dkeys g)) <= m)%Z -> almost id g ->
  connect_level m id (r_sample rnd i l) g = Ok g' -> complete g'.
Proof.
  intros Hs Hw Hi Hl Ha. unfold connect_level.
  destruct (Nat.eqb_spec (length (dkeys g)) 0) as [E0|E0].
  { destruct (dkeys g); [destruct Hi|discriminate]. }
  replace (Z.min m (Z.of_nat (length (dkeys g)))) with (Z.of_nat (length (dkeys g))) by lia.
  replace (Z.of_nat (length (dkeys g)) <? 0)%Z with false by lia. rewrite Nat2Z.id.
  pose proof (sample_all rnd i l (dkeys g) Hs (proj1 Hw)) as Hall.
  destruct (Hs i l (dkeys g) (length (dkeys g)) (proj1 Hw) (le_n _)) as (_ & Hinc & _).
  destruct (link_all_full id (r_sample rnd i l (dkeys g) (length (dkeys g))) g Hw Hi Hinc)
    as (g2 & E2 & W2 & K2 & M2 & L2).
  rewrite E2. intros E. injection E as <-. intros a la b Ea Hb Nab. rewrite K2 in Hb.
  destruct (eqb_spec a id) as [->|Na].
  - destruct (L2 b (Hall b Hb)) as (ms & Ei & Hm); congruence.
  - assert (In a (dkeys g)) as Hag by (rewrite <- K2; apply dget_In; eauto).
    destruct (eqb_spec b id) as [->|Nb].
    + destruct (L2 a (Hall a Hag) Na) as (ms & Ei & Hm). destruct W2 as [_ W2].
      destruct (W2 id ms Ei) as (_ & _ & Hsym). destruct (Hsym a Hm) as (lb & Eb & Hid). congruence.
    + apply dget_In in Hag as [l0 E0']. destruct (M2 a b l0 E0') as (l1 & E1 & Hb1); [|congruence].
      eapply Ha; eauto.
Qed.

Lemma connect_levels_full m id rnd i K : sample_ok rnd -> (Z.of_nat (length K) <= m)%Z ->
  forall n l ls ls', Forall wfg ls -> Forall (fun g => incl (dkeys g) K) ls ->
  (forall j g, j < n -> nth_error ls j = Some g -> In id (dkeys g) /\ almost id g) ->
  (forall j g, n <= j -> nth_error ls j = Some g -> complete g) ->
  connect_levels m id (r_sample rnd i) l n ls = Ok ls' -> Forall complete ls'.
Proof.
  intros Hs HK. induction n as [|n IH]; intros l ls ls' HW HI Hlo Hhi E; simpl in E.
  - injection E as <-. rewrite Forall_forall. intros g Hg. apply In_nth_error in Hg as [j Ej].
    apply (Hhi j g); auto. lia.
  - destruct ls as [|g ls]; [injection E as <-; constructor|].
    inversion HW as [|? ? Wg HW']; inversion HI as [|? ? Ig HI']; subst.
    destruct (connect_level m id (r_sample rnd i l) g) as [g'|] eqn:Eg; simpl in E; [|discriminate].
    destruct (connect_levels m id (r_sample rnd i) (Datatypes.S l) n ls) as [ls2|] eqn:El;
      simpl in E; [|discriminate].
    injection E as <-. destruct (Hlo 0 g ltac:(lia) eq_refl) as [Hi Ha]. constructor.
    + apply (connect_level_full m id rnd i l g g'); auto.
      pose proof (NoDup_incl_length (proj1 Wg) Ig). lia.
    + apply (IH (Datatypes.S l) ls ls2); auto.
      * intros j g2 Hj Ej. apply (Hlo (Datatypes.S j) g2); auto. lia.
      * intros j g2 Hj Ej. apply (Hhi (Datatypes.S j) g2); auto. lia.
Qed.

Lemma add_levels_nth id n : forall ls j g', nth_error (add_levels id n ls) j = Some g' ->
  exists g, nth_error ls j = Some g /\ g' = if j <? n then add_node id g else g.
Proof.
  induction n as [|n IH]; intros ls j g' E; simpl in E.
  - exists g'. auto.
  - destruct ls as [|g ls]; [destruct j; discriminate|]. destruct j as [|j]; simpl in E.
    + injection E as <-. exists g. auto.
    + destruct (IH ls j g' E) as (g0 & E0 & ->). exists g0. split; auto.
Qed.

Lemma complete_remove id g : wfg g -> complete g -> complete (remove_node id g).
Proof.
  intros Hw Hg a la b. rewrite (remove_node_get id g a Hw).
  destruct (eqb_spec a id) as [->|Na]; [discriminate|].
  destruct (dget a g) as [l0|] eqn:Ea; [|discriminate]. intros E. injection E as <-.
  rewrite remove_node_keys. intros Hb Nab. apply filter_In in Hb as [Hb Nb].
  destruct (eqb_spec id b) as [|Nb']; [discriminate|].
  apply remove_first_In; [apply (proj2 Hw a l0 Ea)|]. split; [congruence|]. eapply Hg; eauto.
Qed.

(** ** The whole index *)

Section Small.
  Context {F Mt S : Type} `{Num F} `{!NumOrder F} `{Payload (list F) Mt}.
  Context (C : storage_class S (list F) Mt) (m ef : Z) (mt : metric).
  Context (p b : bool) (sz : option (list F * option Mt -> N))
          (A : sstate (list F) Mt -> S -> Prop) (HC : storage_ok C p b sz A).
  Context (Hm : (0 <= m)%Z).
  Implicit Types recs : list (entry (list F) Mt).
  Implicit Types x : hnsw F.

  (** Every level is a complete graph. *)
  Definition full x : Prop := Forall complete (h_levels x).

  (** At most [m] records. *)
  Definition small recs : Prop := (Z.of_nat (length recs) <= m)%Z.

  Lemma hnsw_add_full rnd i id v recs x (s : S) x' s' : sample_ok rnd ->
    hopen recs x -> ~ In id (map fst recs) -> full x -> (Z.of_nat (length recs) + 1 <= m)%Z ->
    hnsw_add m rnd i id v (x, s) = (Ok tt, (x', s')) -> full x'.
  Proof.
    intros Hs (Hi & Hh & Hc & g & ls & El & Elen & HW & Hne & Hp) Hn Hf Hsm.
    unfold full in Hf. rewrite El in Hf.
    unfold hnsw_add. set (level := draw_level (r_coin rnd i) 0 10).
    unfold bind at 1, set_ix at 1, modify at 1. cbn [fst snd].
    unfold bind at 1, set_ix at 1, modify at 1. cbn [fst snd].
    unfold bind at 1, set_ix at 1, modify at 1. cbn [fst snd].
    unfold bind at 1, set_ix at 1, modify at 1. cbn [fst snd].
    unfold hset_count, hset_vectors, hset_levels, hset_max.
    cbn [h_levels h_vectors h_max h_count h_init]. rewrite El.
    set (ls1 := pad_levels (1 + level) (g :: ls)).
    set (n := Nat.min (1 + level) (length ls1)).
    set (ls2 := add_levels id n ls1).
    match goal with |- context [bind get_ix _ (?y, s)] => set (x1 := y) end.
    rewrite (bind_Ok get_ix _ _ x1 (x1, s)) by reflexivity.
    assert (Hl1 : 1 + level <= length ls1).
    { unfold ls1, pad_levels. rewrite app_length, repeat_length. simpl length. lia. }
    assert (Hnn : n = Datatypes.S level) by (unfold n; lia).
    assert (Hkeys : Forall (fun g => incl (dkeys g) (map fst recs)) ls1).
    { unfold ls1, pad_levels. apply Forall_app. split.
      - constructor; [intros a Ha; now apply (Permutation_in _ Hp)|]. simpl in Hne.
        pose proof (nested_first (dkeys g) (map dkeys ls) Hne) as Hall.
        rewrite Forall_map in Hall. eapply Forall_impl; [|exact Hall]. simpl.
        intros g' Hinc a Ha. apply (Permutation_in _ Hp). auto.
      - rewrite Forall_forall. intros g' Hg'. apply repeat_spec in Hg'. subst. intros a []. }
    assert (Hf1 : Forall (fun g => ~ In id (dkeys g)) ls1).
    { eapply Forall_impl; [|exact Hkeys]. simpl. intros g' Hinc Hin. auto. }
    assert (Hw1 : Forall wfg ls1).
    { unfold ls1, pad_levels. apply Forall_app. split; auto. rewrite Forall_forall. intros g' Hg'.
      apply repeat_spec in Hg'. subst. apply wfg_nil. }
    assert (Hc1 : Forall complete ls1).
    { unfold ls1, pad_levels. apply Forall_app. split; auto. rewrite Forall_forall. intros g' Hg'.
      apply repeat_spec in Hg'. subst. apply complete_nil. }
    assert (Hk2 : map dkeys ls2 = add_keys id n (map dkeys ls1)) by now apply add_levels_keys.
    assert (Hw2 : Forall wfg ls2) by now apply add_levels_wf.
    assert (Hl2 : length ls2 = length ls1) by apply add_levels_length.
    assert (Hmin : Nat.min (1 + level) (length ls2) = n) by lia.
    assert (Hi2 : Forall (fun g => incl (dkeys g) (id :: map fst recs)) ls2).
    { rewrite Forall_forall. intros g' Hg'. apply In_nth_error in Hg' as [j Ej].
      destruct (add_levels_nth id n ls1 j g' Ej) as (g0 & E0 & ->). apply nth_error_In in E0.
      rewrite Forall_forall in Hkeys. pose proof (Hkeys g0 E0) as Hk. intros a Ha.
      destruct (j <? n); [|right; auto]. unfold add_node in Ha.
      destruct (dmem id g0); [right; auto|]. apply In_dkeys_dset in Ha as [->|Ha]; [now left|right; auto]. }
    change (h_levels x1) with ls2. rewrite Hmin. unfold bind at 1, lift at 1.
    destruct (connect_levels m id (r_sample rnd i) 0 n ls2) as [ls3|] eqn:E3; [|discriminate].
    unfold set_ix, modify. cbn [fst snd]. intros E. injection E as <- <-.
    unfold full. simpl.
    apply (connect_levels_full m id rnd i (id :: map fst recs) Hs) with (n := n) (l := 0) (ls := ls2); auto.
    - simpl length. rewrite map_length. lia.
    - intros j g' Hj Ej. split.
      + apply (In_add_keys id n (map dkeys ls1) j); [lia|].
        rewrite <- Hk2, nth_error_map, Ej. reflexivity.
      + destruct (add_levels_nth id n ls1 j g' Ej) as (g0 & E0 & ->). apply nth_error_In in E0.
        rewrite Forall_forall in Hc1. replace (j <? n) with true by lia. apply almost_add; auto.
    - intros j g' Hj Ej. destruct (add_levels_nth id n ls1 j g' Ej) as (g0 & E0 & ->).
      apply nth_error_In in E0. rewrite Forall_forall in Hc1.
      replace (j <? n) with false by lia. auto.
  Qed.

  Lemma hnsw_load_all_full rnd recs : sample_ok rnd -> small recs -> NoDup (map fst recs) ->
    forall ids done i x s x' s',
    (forall id, In id ids -> In id (map fst recs)) -> NoDup (done ++ ids) ->
    (forall id, In id done -> In id (map fst recs)) ->
    hopen (pick recs done) x -> full x -> A (MkS true recs) s ->
    hnsw_load_all C m rnd i ids (x, s) = (Ok tt, (x', s')) -> full x'.
  Proof.
    intros Hs Hsm Hndr. induction ids as [|id ids IH]; intros done i x s x' s' Hin Hnd Hdone Ho Hf HA E.
    - cbn in E. now injection E as <- <-.
    - destruct (proj1 (In_keys_find id recs) (Hin id (or_introl eq_refl))) as [[v mm] Ef].
      destruct (so_retrieve C p b sz A HC recs s id HA) as (s1 & E1 & A1).
      assert (Hnid : ~ In id (map fst (pick recs done))).
      { rewrite pick_keys by auto. apply NoDup_remove_2 in Hnd.
        intros Hd. apply Hnd. apply in_or_app. now left. }
      destruct (hnsw_add_ok m Hm rnd i id v mm (pick recs done) x s1 Hs Ho Hnid) as (x1 & E2 & Ho1).
      assert (Hlen : (Z.of_nat (length (pick recs done)) + 1 <= m)%Z).
      { unfold small in Hsm. rewrite <- (map_length fst (pick recs done)), pick_keys by auto.
        assert (length (done ++ [id]) <= length (map fst recs)) as Hle.
        { apply NoDup_incl_length.
          - replace (done ++ id :: ids) with ((done ++ [id]) ++ ids) in Hnd by now rewrite <- app_assoc.
            now apply NoDup_app_l in Hnd.
          - intros j Hj. apply in_app_or in Hj as [Hj|[<-|[]]]; auto. apply Hin. now left. }
        rewrite app_length, map_length in Hle. simpl in Hle. lia. }
      pose proof (hnsw_add_full rnd i id v (pick recs done) x s1 x1 s1 Hs Ho Hnid Hf Hlen E2) as Hf1.
      assert (hnsw_load C m rnd i id (x, s) = (Ok tt, (x1, s1))) as E0.
      { unfold hnsw_load, bind at 1, on_sb, zoom. cbn [fst snd]. rewrite E1, Ef. exact E2. }
      cbn [hnsw_load_all] in E. rewrite (bind_Ok _ _ _ _ _ E0) in E.
      apply (IH (done ++ [id]) (Datatypes.S i) x1 s1 x' s'); auto.
      + intros j Hj. apply Hin. now right.
      + rewrite <- app_assoc. exact Hnd.
      + intros j Hj. apply in_app_or in Hj as [Hj|[<-|[]]]; auto. apply Hin. now left.
      + unfold pick. rewrite flat_map_app. simpl. rewrite Ef. exact Ho1.
  Qed.

  Lemma hnsw_initialize_full rnd recs x s x' s' :
    sample_ok rnd -> hclosed recs x -> A (MkS true recs) s -> small recs ->
    hnsw_initialize C m rnd (x, s) = (Ok tt, (x', s')) -> full x'.
  Proof.
    intros Hs (Hv & Hx & Hc) HA Hsm. unfold hnsw_initialize.
    pose proof (so_nd C p b sz A HC _ _ HA) as Hnd. simpl in Hnd.
    unfold bind at 1, set_ix at 1, modify at 1. cbn [fst snd].
    unfold bind at 1, set_ix at 1, modify at 1. cbn [fst snd].
    destruct (so_list C p b sz A HC recs s HA) as (l & s1 & E1 & Hp & A1).
    unfold wrap, bind at 1, on_sb, zoom. cbn [fst snd]. rewrite E1.
    assert (NoDup l) as Hnl by (eapply Permutation_NoDup; [symmetry; exact Hp|auto]).
    destruct (hnsw_load_all C m rnd 0 l (hset_levels [[]] (hset_init x), s1)) as [[[]|e] [x2 s2]] eqn:El;
      [|discriminate].
    intros E. injection E as <- <-.
    apply (hnsw_load_all_full rnd recs Hs Hsm Hnd l [] 0 (hset_levels [[]] (hset_init x)) s1 x2 s2); auto.
    - intros id Hin. eapply Permutation_in; eauto.
    - intros id [].
    - simpl. split; [reflexivity|]. unfold hset_levels, hset_init. simpl. rewrite Hv. split; [|split].
      + split; auto.
      + now rewrite Hc.
      + exists [], []. simpl. split; auto. split; auto. split; [|split]; auto.
        constructor; auto. apply wfg_nil.
    - unfold full. simpl. constructor; [apply complete_nil|constructor].
  Qed.

  Lemma hnsw_insert_rows_full rnd fresh meta rows : sample_ok rnd -> forall i recs x s x' s' r,
    (forall l mm, meta = Some l -> In mm l -> meta_ok mm) ->
    (forall j k, i <= j < i + length rows -> i <= k < i + length rows -> fresh j = fresh k -> j = k) ->
    (forall j, i <= j < i + length rows -> uuid_like (fresh j) /\ ~ In (fresh j) (map fst recs)) ->
    hopen recs x -> full x -> A (MkS true recs) s ->
    (Z.of_nat (length recs + length rows) <= m)%Z ->
    hnsw_insert_rows C m rnd fresh meta i rows (x, s) = (r, (x', s')) -> full x'.
  Proof.
    intros Hs. induction rows as [|row rows IH]; intros i recs x s x' s' r Hmt Hinj Hfr Ho Hf HA Hsm E.
    - cbn in E. now injection E as _ <- _.
    - destruct (Hfr i ltac:(simpl; lia)) as [Hu Hni].
      destruct (so_store C p b sz A HC recs s (fresh i) row (meta_of meta i) HA Hu
                  (meta_of_ok (V := list F) meta i Hmt)) as (s1 & E' & A1).
      rewrite sp_put_fresh in A1 by auto.
      assert (on_sb (sc_store C (fresh i) row (row_meta meta i)) (x, s) = (Ok true, (x, s1))) as E0.
      { unfold on_sb, zoom. cbn [fst snd]. now rewrite row_meta_of, E'. }
      destruct (hnsw_add_ok m Hm rnd i (fresh i) row (meta_of meta i) recs x s1 Hs Ho Hni)
        as (x1 & E1 & Ho1).
      assert (Hf1 : full x1).
      { apply (hnsw_add_full rnd i (fresh i) row recs x s1 x1 s1); auto. simpl length in Hsm. lia. }
      cbn [hnsw_insert_rows] in E. rewrite (bind_Ok _ _ _ _ _ E0), (bind_Ok _ _ _ _ _ E1) in E.
      destruct (hnsw_insert_rows C m rnd fresh meta (1 + i) rows (x1, s1)) as [r2 [x2 s2]] eqn:E2.
      assert (Hf2 : full x2).
      { apply (IH (Datatypes.S i) (recs ++ [(fresh i, (row, meta_of meta i))]) x1 s1 x2 s2 r2 Hmt); auto.
        + intros j k Hj Hk. apply Hinj; simpl; lia.
        + intros j Hj. destruct (Hfr j ltac:(simpl; lia)) as [Hu' Hni']. split; auto.
          rewrite map_app, in_app_iff. simpl. intros [?|[E3|[]]]; auto.
          apply (Hinj i j) in E3; simpl; lia.
        + rewrite app_length. simpl length in *. lia. }
      unfold bind in E. rewrite E2 in E. destruct r2; cbn in E; now injection E as _ <- _.
  Qed.

  Lemma hnsw_delete_ids_full ids : forall succ x s r x' s',
    Forall wfg (h_levels x) -> full x ->
    hnsw_delete_ids C ids succ (x, s) = (r, (x', s')) -> full x'.
  Proof.
    induction ids as [|id ids IH]; intros succ x s r x' s' Hw Hf E.
    - cbn in E. now injection E as _ <- _.
    - cbn [hnsw_delete_ids] in E. unfold bind at 1, on_sb, zoom in E. cbn [fst snd] in E.
      destruct (sc_delete C id s) as [[d|e] s1]; [|cbn in E; now injection E as _ <- _].
      unfold bind at 1, set_ix at 1, modify at 1 in E. cbn [fst snd] in E.
      assert (Hlev : h_levels (hnsw_remove id x) = map (remove_node id) (h_levels x)).
      { unfold hnsw_remove. simpl. now destruct (dmem id (h_vectors x)). }
      eapply IH; [| |exact E].
      + rewrite Hlev, Forall_map. eapply Forall_impl; [|exact Hw]. intros g. apply wfg_remove.
      + unfold full in *. rewrite Hlev, Forall_map. rewrite Forall_forall in *.
        intros g Hg. apply complete_remove; auto.
  Qed.

  Lemma batch_length fresh (rows : list (list F)) (meta : option (list (option Mt))) :
    length (batch_recs fresh rows meta) = length rows.
  Proof. unfold batch_recs. rewrite map_length, combine_length, seq_length. lia. Qed.

  Lemma hopen_wf recs x : hopen recs x -> Forall wfg (h_levels x).
  Proof. intros (_ & _ & _ & g & ls & -> & _ & HW & _). exact HW. Qed.

  Lemma hnsw_keeps (row_fits : list F -> Prop) :
    keeps (hnsw_class C m ef mt) A row_fits sample_ok hopen hclosed small (fun _ => full).
  Proof.
    constructor; simpl.
    - intros o recs x s x' s' Hs Hc HA Hb E. eapply hnsw_initialize_full; eauto.
    - intros o fresh rows meta recs x s x' s' r Hs [Hinj Hfr] _ Hmm _ Ho Hf HA Hb E.
      unfold hnsw_insert in E. rewrite (bind_Ok get_ix _ _ x (x, s)) in E by reflexivity.
      pose proof Ho as (Hi & _). rewrite Hi in E. cbn [negb] in E. unfold wrap in E.
      destruct (hnsw_insert_rows C m o fresh meta 0 rows (x, s)) as [r2 [x2 s2]] eqn:E2.
      assert (full x2).
      { eapply (hnsw_insert_rows_full o fresh meta rows Hs 0 recs x s x2 s2 r2); eauto.
        - intros j k Hj Hk. apply Hinj; lia.
        - intros j Hj. apply Hfr. lia.
        - unfold small in Hb. rewrite app_length, batch_length in Hb. lia. }
      destruct r2; now injection E as _ <- _.
    - intros o q k recs x s x' s' r _ _ Ho Hf HA E. destruct q as [q|rows|].
      + destruct (hnsw_search_ok C ef mt p b sz A HC q k recs x s Ho HA) as (s2 & r2 & E2 & _).
        rewrite E2 in E. now injection E as _ <- _.
      + unfold hnsw_search, bind, get_ix in E. simpl in E. pose proof Ho as (Hi & _).
        rewrite Hi in E. simpl in E. now injection E as _ <- _.
      + unfold hnsw_search, bind, get_ix in E. simpl in E. pose proof Ho as (Hi & _).
        rewrite Hi in E. simpl in E. now injection E as _ <- _.
    - intros ids recs x s x' s' r _ Ho Hf HA E. unfold hnsw_delete in E.
      rewrite (bind_Ok get_ix _ _ x (x, s)) in E by reflexivity.
      pose proof Ho as (Hi & _). rewrite Hi in E. cbn [negb] in E. unfold wrap in E.
      destruct (hnsw_delete_ids C ids true (x, s)) as [r2 [x2 s2]] eqn:E2.
      assert (full x2) by (eapply hnsw_delete_ids_full; [eapply hopen_wf; eauto|eauto|exact E2]).
      destruct r2; now injection E as _ <- _.
    - intros o id v mm recs x s x' s' r _ _ Ho Hf HA _ Hmm E. unfold hnsw_update in E.
      rewrite (bind_Ok get_ix _ _ x (x, s)) in E by reflexivity.
      pose proof Ho as (Hi & _). rewrite Hi in E. cbn [negb] in E.
      unfold wrap, bind, on_sb, zoom in E. cbn [fst snd] in E.
      destruct (sc_update C id v mm s) as [[u|e] s1]; [|cbn in E; now injection E as _ <- _].
      destruct u; cbn in E; [|now injection E as _ <- _].
      injection E as _ <- _. destruct (dmem id (h_vectors x)); exact Hf.
  Qed.

  (** ** Search *)

  (** The candidates of a search in a complete graph are all records, if there are any. *)
  Lemma full_candidates recs q x cs : hopen recs x -> full x ->
    candidates_of ef mt q x = Ok cs -> cs <> [] ->
    forall id, In id (map fst recs) -> In id (map fst cs).
  Proof.
    intros Ho Hf E Hne id Hid. pose proof Ho as (Hi & Hh & Hc & Hgood).
    pose proof Hgood as (g & ls & El & Elen & HW & Hnest & Hp).
    assert (Hcur : Z.min (Z.of_nat (h_max x)) (Z.of_nat (length (h_levels x)) - 1) = Z.of_nat (h_max x)).
    { rewrite El. simpl length. lia. }
    pose proof (candidates_ok ef mt recs q x (hopen_sound _ _ Ho)) as Hall. rewrite E in Hall. simpl in Hall.
    unfold candidates_of in E. rewrite Hcur, Nat2Z.id in E.
    destruct (entry_candidates mt q x (Z.of_nat (h_max x))) as [c0|]; simpl in E; [|discriminate].
    destruct (descend ef mt q x (h_max x) c0) as [c1|]; simpl in E; [|discriminate].
    replace (0 <=? Z.of_nat (h_max x))%Z with true in E by lia. cbn [andb] in E.
    destruct c1 as [|[a d] c1]; cbn [length Nat.eqb negb] in E; [now injection E as <-|].
    rewrite El in E. cbn [expand] in E.
    assert (Ha : In a (dkeys g)).
    { destruct (match dget a g with Some nbs => near mt q (h_vectors x) nbs | None => Ok [] end);
        simpl in E; [|discriminate].
      destruct (expand mt q (h_vectors x) g c1); simpl in E; [|discriminate]. injection E as <-.
      inversion Hall as [|? ? (v & mm & Ef & _) _]; subst. simpl in Ef.
      apply (Permutation_in _ (Permutation_sym Hp)). apply In_keys_find. eauto. }
    apply dget_In in Ha as [la Ea]. rewrite Ea in E.
    destruct (near mt q (h_vectors x) la) as [here|] eqn:En; simpl in E; [|discriminate].
    destruct (expand mt q (h_vectors x) g c1) as [rest|]; simpl in E; [|discriminate].
    injection E as <-. assert (In g (h_levels x)) as Hg by (rewrite El; now left).
    pose proof (near_keys mt recs _ q la here Hh En (good_neighbours recs x g a la Hgood Hg Ea)) as Ek.
    simpl. destruct (eqb_spec a id) as [->|Na]; auto. right.
    rewrite !map_app, Ek. apply in_or_app. right. apply in_or_app. left.
    unfold full in Hf. rewrite El in Hf. apply Forall_inv in Hf as Hcg.
    apply (Hcg a la id Ea); auto. apply (Permutation_in _ (Permutation_sym Hp)). auto.
  Qed.
End Small.
