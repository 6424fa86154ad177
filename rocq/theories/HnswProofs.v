(** The graph index: the graph stays well formed, and searches are sound. *)

From Coq Require Import List Arith ZArith NArith Lia Bool Permutation Sorted ZifyBool ZifyNat.
From Verif Require Import PyBase BaseLemmas Payload StorageModel StorageSpec StorageRun
  StorageProofs StorageThms StorageOk Num ClientModel DbSpec ClientRun ClientProofs FlatProofs IvfProofs HnswModel.
Import ListNotations.
Open Scope py_scope.

(** ** One level *)

(** Well formed: links are symmetric, single, between different nodes of the level. *)
Definition wfg (g : graph) : Prop :=
  NoDup (dkeys g) /\
  forall a la, dget a g = Some la ->
    NoDup la /\ ~ In a la /\ forall b, In b la -> exists lb, dget b g = Some lb /\ In a lb.

Lemma wfg_nil : wfg [].
Proof. split; [constructor|]. discriminate. Qed.

Lemma wfg_add id g : wfg g -> ~ In id (dkeys g) -> wfg (add_node id g).
Proof.
  intros [Hnd Hg] Hn. unfold add_node.
  destruct (dmem id g) eqn:E; [split; auto|]. split; [now apply NoDup_dkeys_dset|].
  intros a la. rewrite dget_dset. destruct (eqb_spec a id) as [->|Na].
  - intros E'. injection E' as <-. split; [constructor|]. split; [tauto|]. intros b [].
  - intros Ha. destruct (Hg a la Ha) as (H1 & H2 & H3). split; auto. split; auto.
    intros b Hb. destruct (H3 b Hb) as (lb & Eb & Hab). exists lb. split; auto.
    rewrite dget_dset. destruct (eqb_spec b id) as [->|]; auto.
    exfalso. apply Hn. apply dget_In. eauto.
Qed.

Lemma link_ok id nb g : wfg g -> In id (dkeys g) -> In nb (dkeys g) ->
  exists g', link id g nb = Ok g' /\ wfg g' /\ dkeys g' = dkeys g /\
    (forall a b la, dget a g = Some la -> In b la -> exists la', dget a g' = Some la' /\ In b la') /\
    (nb <> id -> exists ms, dget id g' = Some ms /\ In nb ms).
Proof.
  intros [Hnd Hg] Hi Hn. unfold link.
  destruct (eqb_spec nb id) as [->|Nn].
  { exists g. split; auto. split; [split; auto|]. split; auto. split; [eauto|congruence]. }
  apply dget_In in Hi as [li Ei]. apply dget_In in Hn as [ln En]. rewrite En.
  destruct (Hg id li Ei) as (Hi1 & Hi2 & Hi3). destruct (Hg nb ln En) as (Hn1 & Hn2 & Hn3).
  assert (Hsym : In id ln <-> In nb li).
  { split; intros Hin.
    - destruct (Hn3 id Hin) as (l' & E' & H'). congruence.
    - destruct (Hi3 nb Hin) as (l' & E' & H'). congruence. }
  destruct (memb id ln) eqn:Em.
  - apply memb_In in Em. rewrite Ei. assert (In nb li) as Hm by tauto.
    replace (memb nb li) with true by (symmetry; now apply memb_In).
    exists g. split; auto. split; [split; auto|]. split; auto. split; eauto.
  - apply memb_false in Em. rewrite dget_dset_other by congruence. rewrite Ei.
    assert (~ In nb li) as Hm by tauto.
    replace (memb nb li) with false by (symmetry; now apply memb_false).
    set (g' := dset id (li ++ [nb]) (dset nb (ln ++ [id]) g)).
    assert (Hget : forall a, dget a g' = if eqb a id then Some (li ++ [nb])
                                          else if eqb a nb then Some (ln ++ [id]) else dget a g).
    { intros a. unfold g'. rewrite !dget_dset. reflexivity. }
    exists g'. split; auto. split; [split|split; [|split]].
    + apply NoDup_dkeys_dset, NoDup_dkeys_dset. auto.
    + intros a la Ea. rewrite Hget in Ea.
      destruct (eqb_spec a id) as [->|Na]; [|destruct (eqb_spec a nb) as [->|Nb]].
      * injection Ea as <-. split; [apply NoDup_snoc; auto|]. split.
        -- intros Hin. apply in_app_or in Hin as [Hin|[Hin|[]]]; auto.
        -- intros b Hb. apply in_app_or in Hb as [Hb|[<-|[]]].
           ++ destruct (Hi3 b Hb) as (lb & Eb & Hab). rewrite Hget.
              destruct (eqb_spec b id) as [->|]; [tauto|].
              destruct (eqb_spec b nb) as [->|]; [exists (ln ++ [id])|exists lb]; split; auto.
              apply in_or_app. right. now left.
           ++ rewrite Hget. destruct (eqb_spec nb id); [congruence|].
              destruct (eqb_spec nb nb); [|congruence]. exists (ln ++ [id]). split; auto.
              apply in_or_app. right. now left.
      * injection Ea as <-. split; [apply NoDup_snoc; auto|]. split.
        -- intros Hin. apply in_app_or in Hin as [Hin|[Hin|[]]]; auto.
        -- intros b Hb. apply in_app_or in Hb as [Hb|[<-|[]]].
           ++ destruct (Hn3 b Hb) as (lb & Eb & Hab). rewrite Hget.
              destruct (eqb_spec b id) as [->|]; [tauto|].
              destruct (eqb_spec b nb) as [->|]; [tauto|]. eauto.
           ++ rewrite Hget. destruct (eqb_spec id id); [|congruence]. exists (li ++ [nb]).
              split; auto. apply in_or_app. right. now left.
      * destruct (Hg a la Ea) as (H1 & H2 & H3). split; auto. split; auto.
        intros b Hb. destruct (H3 b Hb) as (lb & Eb & Hab). rewrite Hget.
        destruct (eqb_spec b id) as [->|]; [|destruct (eqb_spec b nb) as [->|]].
        -- exists (li ++ [nb]). split; auto. apply in_or_app. left. congruence.
        -- exists (ln ++ [id]). split; auto. apply in_or_app. left. congruence.
        -- eauto.
    + unfold g'. rewrite !dkeys_dset_in; auto.
      * apply dget_In. eauto.
      * rewrite dkeys_dset_in; [|apply dget_In; eauto]. apply dget_In. eauto.
    + intros a b la Ea Hb. rewrite Hget.
      destruct (eqb_spec a id) as [->|]; [|destruct (eqb_spec a nb) as [->|]].
      * exists (li ++ [nb]). split; auto. apply in_or_app. left. congruence.
      * exists (ln ++ [id]). split; auto. apply in_or_app. left. congruence.
      * eauto.
    + intros _. rewrite Hget. destruct (eqb_spec id id); [|congruence].
      exists (li ++ [nb]). split; auto. apply in_or_app. right. now left.
Qed.

Lemma link_all_ok id nbs : forall g, wfg g -> In id (dkeys g) -> incl nbs (dkeys g) ->
  exists g', link_all id g nbs = Ok g' /\ wfg g' /\ dkeys g' = dkeys g.
Proof.
  induction nbs as [|nb nbs IH]; intros g Hw Hi Hin; simpl; [eauto|].
  destruct (link_ok id nb g Hw Hi (Hin nb (or_introl eq_refl))) as (g1 & E1 & W1 & K1 & _).
  rewrite E1. simpl. destruct (IH g1 W1) as (g' & E' & W' & K').
  - now rewrite K1.
  - rewrite K1. intros a Ha. apply Hin. now right.
  - exists g'. split; auto. split; auto. congruence.
Qed.

Lemma unlink_get id nbs : forall g a, NoDup nbs ->
  dget a (unlink id g nbs) =
  match dget a g with
  | Some la => Some (if memb a nbs && memb id la then remove_first id la else la)
  | None => None
  end.
Proof.
  induction nbs as [|nb nbs IH]; intros g a Hnd; simpl.
  - now destruct (dget a g).
  - inversion Hnd as [|? ? Hn Hnd']; subst. rewrite IH by auto.
    destruct (eqb_spec a nb) as [->|Na]; simpl.
    + apply memb_false in Hn. rewrite Hn. simpl.
      destruct (dget nb g) as [ns|] eqn:E; [|now rewrite E].
      destruct (memb id ns) eqn:Em; [now rewrite dget_dset_same|now rewrite E].
    + replace (dget a match dget nb g with
                      | Some ns => if memb id ns then dset nb (remove_first id ns) g else g
                      | None => g
                      end) with (dget a g); auto.
      destruct (dget nb g); auto. destruct (memb id l); auto. now rewrite dget_dset_other.
Qed.

Lemma unlink_keys id nbs : forall g, dkeys (unlink id g nbs) = dkeys g.
Proof.
  induction nbs as [|nb nbs IH]; intros g; simpl; auto. rewrite IH.
  destruct (dget nb g) as [ns|] eqn:E; auto. destruct (memb id ns); auto.
  apply dkeys_dset_in. apply dget_In. eauto.
Qed.

Lemma remove_node_keys id g : dkeys (remove_node id g) = filter (fun j => negb (eqb id j)) (dkeys g).
Proof.
  unfold remove_node. destruct (dget id g) eqn:E.
  - now rewrite dkeys_ddel, unlink_keys.
  - apply dget_None in E. induction (dkeys g) as [|a l IH]; simpl; auto.
    simpl in E. destruct (eqb_spec id a) as [->|]; [tauto|]. simpl. f_equal. apply IH. tauto.
Qed.

(** Removing a node leaves exactly the other nodes, each without the removed one. *)
Lemma remove_node_get id g a : wfg g ->
  dget a (remove_node id g) =
  if eqb a id then None
  else match dget a g with Some la => Some (remove_first id la) | None => None end.
Proof.
  intros [Hnd Hg]. unfold remove_node. destruct (dget id g) as [li|] eqn:Ei.
  - destruct (Hg id li Ei) as (H1 & H2 & H3). rewrite dget_ddel, unlink_get by auto.
    destruct (eqb_spec a id) as [->|Na]; auto. destruct (dget a g) as [la|] eqn:Ea; auto.
    destruct (memb a li) eqn:Em; simpl.
    + destruct (memb id la) eqn:Em2; auto. apply memb_false in Em2.
      now rewrite remove_first_notin.
    + apply memb_false in Em. rewrite remove_first_notin; auto.
      intros Hin. destruct (Hg a la Ea) as (_ & _ & H4). destruct (H4 id Hin) as (l' & E' & H'). congruence.
  - destruct (eqb_spec a id) as [->|Na]; auto. destruct (dget a g) as [la|] eqn:Ea; auto.
    rewrite remove_first_notin; auto. intros Hin. destruct (Hg a la Ea) as (_ & _ & H4).
    destruct (H4 id Hin) as (l' & E' & H'). congruence.
Qed.

Lemma wfg_remove id g : wfg g -> wfg (remove_node id g).
Proof.
  intros Hw. pose proof Hw as [Hnd Hg]. split.
  - rewrite remove_node_keys. now apply NoDup_filter.
  - intros a la'. rewrite (remove_node_get id g a Hw). destruct (eqb_spec a id) as [->|Na]; [discriminate|].
    destruct (dget a g) as [la|] eqn:Ea; [|discriminate]. intros E. injection E as <-.
    destruct (Hg a la Ea) as (H1 & H2 & H3). split; [now apply remove_first_NoDup|]. split.
    + intros Hin. apply remove_first_In in Hin; auto. tauto.
    + intros b Hb. apply remove_first_In in Hb as [Nb Hb]; auto.
      destruct (H3 b Hb) as (lb & Eb & Hab). rewrite (remove_node_get id g b Hw), Eb.
      destruct (eqb_spec b id); [congruence|]. exists (remove_first id lb). split; auto.
      apply remove_first_In; auto. now destruct (Hg b lb Eb).
Qed.

(** ** All levels *)

(** Each list of ids includes the next. *)
Fixpoint nested (kss : list (list pystr)) : Prop :=
  match kss with
  | ks :: kss' => match kss' with ks' :: _ => incl ks' ks | [] => True end /\ nested kss'
  | [] => True
  end.

Lemma nested_pad kss n : nested kss -> nested (kss ++ repeat [] n).
Proof.
  induction kss as [|ks kss IH]; simpl.
  - intros _. induction n as [|n IH]; simpl; auto. split; auto. destruct n; simpl; auto. now intros a.
  - intros [H1 H2]. split; auto. destruct kss; simpl; auto. destruct n; simpl; auto. intros a [].
Qed.

Lemma filter_perm {T} (f : T -> bool) l l' : Permutation l l' -> Permutation (filter f l) (filter f l').
Proof.
  induction 1; simpl; auto.
  - destruct (f x); auto.
  - destruct (f x), (f y); auto. apply perm_swap.
  - etransitivity; eauto.
Qed.

Lemma map_repeat {T U} (f : T -> U) a n : map f (repeat a n) = repeat (f a) n.
Proof. induction n; simpl; f_equal; auto. Qed.

(** Ids added to the first [n] lists. *)
Fixpoint add_keys (id : pystr) (n : nat) (kss : list (list pystr)) : list (list pystr) :=
  match n, kss with
  | S n', ks :: kss' => (ks ++ [id]) :: add_keys id n' kss'
  | _, _ => kss
  end.

Lemma nested_add id : forall n kss, nested kss -> nested (add_keys id n kss).
Proof.
  induction n as [|n IH]; intros kss; simpl; auto. destruct kss as [|ks kss]; simpl; auto.
  intros [H1 H2]. split; [|now apply IH]. destruct kss as [|ks' kss]; [now destruct n|].
  destruct n as [|n]; simpl.
  - intros a Ha. apply in_or_app. left. now apply H1.
  - intros a Ha. apply in_app_or in Ha as [Ha|Ha]; apply in_or_app; auto.
Qed.

Lemma nested_filter f : forall kss, nested kss -> nested (map (filter f) kss).
Proof.
  induction kss as [|ks kss IH]; simpl; auto. intros [H1 H2]. split; auto.
  destruct kss as [|ks' kss]; simpl; auto. intros a Ha. apply filter_In in Ha as [Ha Hf].
  apply filter_In. split; auto.
Qed.

(** Everything at any level is at the first. *)
Lemma nested_first ks kss : nested (ks :: kss) -> Forall (fun ks' => incl ks' ks) kss.
Proof.
  revert ks. induction kss as [|k2 kss IH]; intros ks Hn; [constructor|].
  destruct Hn as [H1 H2]. constructor; auto. eapply Forall_impl; [|apply (IH k2 H2)].
  simpl. intros ks' Hi a Ha. auto.
Qed.

Lemma nested_nth kss : forall l l' ks ks', nested kss -> l <= l' ->
  nth_error kss l = Some ks -> nth_error kss l' = Some ks' -> incl ks' ks.
Proof.
  induction kss as [|k0 kss IH]; intros l l' ks ks' Hn Hle E E'; [destruct l; discriminate|].
  destruct l as [|l], l' as [|l']; simpl in *; try lia.
  - injection E as <-. injection E' as <-. apply incl_refl.
  - injection E as <-. pose proof (nested_first _ _ Hn) as Hf. rewrite Forall_forall in Hf.
    apply Hf. eapply nth_error_In; eauto.
  - destruct Hn as [_ Hn]. apply (IH l l'); auto. lia.
Qed.

Lemma add_levels_keys id n : forall ls, Forall (fun g => ~ In id (dkeys g)) ls ->
  map dkeys (add_levels id n ls) = add_keys id n (map dkeys ls).
Proof.
  induction n as [|n IH]; intros ls HF; simpl; auto. destruct ls as [|g ls]; simpl; auto.
  inversion HF as [|? ? Hg HF']; subst. f_equal; auto. unfold add_node.
  replace (dmem id g) with false; [now apply dkeys_dset_notin|].
  symmetry. apply dmem_false. now apply dget_None.
Qed.

Lemma add_levels_wf id n : forall ls, Forall wfg ls -> Forall (fun g => ~ In id (dkeys g)) ls ->
  Forall wfg (add_levels id n ls).
Proof.
  induction n as [|n IH]; intros ls HW HF; simpl; auto. destruct ls as [|g ls]; auto.
  inversion HF; inversion HW; subst. constructor; auto. now apply wfg_add.
Qed.

Lemma add_levels_length id n : forall ls, length (add_levels id n ls) = length ls.
Proof. induction n as [|n IH]; intros [|g ls]; simpl; auto. Qed.

(** What [random.sample] gives: [n] different elements of the population. *)
Definition sample_ok (rnd : hnsw_rand) : Prop :=
  forall i l nodes n, NoDup nodes -> n <= length nodes ->
    NoDup (r_sample rnd i l nodes n) /\ incl (r_sample rnd i l nodes n) nodes /\
    length (r_sample rnd i l nodes n) = n.

Lemma connect_levels_ok m id rnd i : (0 <= m)%Z -> sample_ok rnd -> forall n l ls,
  Forall wfg ls -> (forall j g, j < n -> nth_error ls j = Some g -> In id (dkeys g)) ->
  exists ls', connect_levels m id (r_sample rnd i) l n ls = Ok ls' /\
    Forall wfg ls' /\ map dkeys ls' = map dkeys ls.
Proof.
  intros Hm Hs. induction n as [|n IH]; intros l ls HW Hin; simpl; [eauto|].
  destruct ls as [|g ls]; [eauto|]. inversion HW as [|? ? Hg HW']; subst.
  assert (In id (dkeys g)) as Hi by (apply (Hin 0 g); auto; lia).
  assert (exists g', connect_level m id (r_sample rnd i l) g = Ok g' /\ wfg g' /\ dkeys g' = dkeys g)
    as (g' & E' & W' & K').
  { unfold connect_level. destruct (Nat.eqb_spec (length (dkeys g)) 0); [eauto|].
    replace (Z.min m (Z.of_nat (length (dkeys g))) <? 0)%Z with false by lia.
    apply link_all_ok; auto.
    apply (Hs i l (dkeys g) (Z.to_nat (Z.min m (Z.of_nat (length (dkeys g)))))); [apply Hg|lia]. }
  rewrite E'. simpl.
  destruct (IH (Datatypes.S l) ls HW') as (ls' & E2 & W2 & K2).
  { intros j g2 Hj Hg2. apply (Hin (Datatypes.S j) g2); auto. lia. }
  rewrite E2. simpl. exists (g' :: ls'). split; auto. split; [constructor; auto|].
  simpl. congruence.
Qed.

(** ** The whole index *)

(** What every search answer of the graph index satisfies: live ids with their current metadata
    and their distance, in order of distance, at most [k]. *)
Record genuine {F Mt} `{Num F} (mt : metric) (recs : list (entry (list F) Mt)) (q : list F) (k : Z)
    (hits : list (hit F Mt)) : Prop := {
  gn_true : forall h, In h hits ->
    exists v, In (h_id h, (v, h_meta h)) recs /\ pair_distance mt q v = Ok (h_dist h);
  gn_sorted : StronglySorted (fun a b => nleb (h_dist a) (h_dist b) = true) hits;
  gn_length : (0 <= k)%Z -> length hits <= Z.to_nat k
}.

(** Search answers of the graph index: genuine, or an index error if some stored vector has no
    distance to the query. *)
Definition hnsw_ok {F Mt} `{Num F} (mt : metric) (recs : list (entry (list F) Mt))
    (q : list F) (k : Z) (r : cret F Mt) : Prop :=
  match r with
  | AHits hits => genuine mt recs q k hits
  | AExn e => e = EIndex /\ exists id v m e', In (id, (v, m)) recs /\ pair_distance mt q v = Raise e'
  | _ => False
  end.

Section Hnsw.
  Context {F Mt S : Type} `{Num F} `{!NumOrder F} `{Payload (list F) Mt}.
  Context (C : storage_class S (list F) Mt) (m ef : Z) (mt : metric).
  Context (p b : bool) (sz : option (list F * option Mt -> N))
          (A : sstate (list F) Mt -> S -> Prop) (HC : storage_ok C p b sz A).
  Context (Hm : (0 <= m)%Z).
  Implicit Types recs : list (entry (list F) Mt).
  Implicit Types x : hnsw F.

  (** The vectors held are those of the records. *)
  Definition held recs (d : dict pystr (list F)) : Prop :=
    Permutation (dkeys d) (map fst recs) /\
    forall id, dget id d = option_map fst (sp_find id recs).

  (** The graph is well formed over the ids of the records. *)
  Definition good_graph recs x : Prop :=
    exists g ls, h_levels x = g :: ls /\ length ls = h_max x /\ Forall wfg (g :: ls) /\
                 nested (map dkeys (g :: ls)) /\ Permutation (dkeys g) (map fst recs).

  Definition hopen recs x : Prop :=
    h_init x = true /\ held recs (h_vectors x) /\ h_count x = Z.of_nat (length (h_vectors x)) /\
    good_graph recs x.

  Definition hclosed recs x : Prop := h_vectors x = [] /\ h_max x = 0 /\ h_count x = 0%Z.

  Lemma held_length recs d : held recs d -> length d = length recs.
  Proof.
    intros [Hp _]. apply Permutation_length in Hp. unfold dkeys in Hp. now rewrite !map_length in Hp.
  Qed.

  Lemma held_add recs d id v mm : held recs d -> ~ In id (map fst recs) ->
    held (recs ++ [(id, (v, mm))]) (dset id v d).
  Proof.
    intros [Hp Hg] Hn. split.
    - rewrite dkeys_dset_notin, map_app; [now apply Permutation_app_tail|].
      intros Hin. apply Hn. eapply Permutation_in; eauto.
    - intros j. rewrite dget_dset, sp_find_app, Hg. simpl. destruct (eqb_spec j id) as [->|].
      + apply sp_find_None in Hn. now rewrite Hn.
      + now destruct (sp_find j recs).
  Qed.

  Lemma In_add_keys id : forall n kss j ks, j < n ->
    nth_error (add_keys id n kss) j = Some ks -> In id ks.
  Proof.
    induction n as [|n IH]; intros kss j ks Hj; [lia|]. destruct kss as [|k0 kss]; simpl.
    - now destruct j.
    - destruct j as [|j]; simpl.
      + intros E. injection E as <-. apply in_or_app. right. now left.
      + apply IH. lia.
  Qed.

  Lemma hnsw_add_ok rnd i id v mm recs x (s : S) : sample_ok rnd ->
    hopen recs x -> ~ In id (map fst recs) ->
    exists x', hnsw_add m rnd i id v (x, s) = (Ok tt, (x', s)) /\
               hopen (recs ++ [(id, (v, mm))]) x'.
  Proof.
    intros Hs (Hi & Hh & Hc & g & ls & El & Elen & HW & Hne & Hp) Hn.
    unfold hnsw_add. set (level := draw_level (r_coin rnd i) 0 10).
    unfold bind at 1, set_ix at 1, modify at 1. cbn [fst snd].
    unfold bind at 1, set_ix at 1, modify at 1. cbn [fst snd].
    unfold bind at 1, set_ix at 1, modify at 1. cbn [fst snd].
    unfold bind at 1, set_ix at 1, modify at 1. cbn [fst snd].
    unfold hset_count, hset_vectors, hset_levels, hset_max.
    cbn [h_levels h_vectors h_max h_count h_init]. rewrite El.
    set (ls1 := pad_levels (1 + level) (g :: ls)).
    set (n := Nat.min (1 + level) (length ls1)).
    set (ls2 := add_levels id n ls1).
    match goal with |- context [bind get_ix _ (?y, s)] => set (x1 := y) end.
    rewrite (bind_Ok get_ix _ _ x1 (x1, s)) by reflexivity.
    assert (Hl1 : length ls1 = Datatypes.S (Nat.max (h_max x) level)).
    { unfold ls1, pad_levels. rewrite app_length, repeat_length. simpl length. lia. }
    assert (Hnn : n = Datatypes.S level) by (unfold n; lia).
    assert (Hw1 : Forall wfg ls1).
    { unfold ls1, pad_levels. apply Forall_app. split; auto. rewrite Forall_forall. intros g' Hg'.
      apply repeat_spec in Hg'. subst. apply wfg_nil. }
    assert (Hf1 : Forall (fun g => ~ In id (dkeys g)) ls1).
    { unfold ls1, pad_levels. apply Forall_app. split.
      - assert (Hg0 : ~ In id (dkeys g)) by (intros Hin; apply Hn; eapply Permutation_in; eauto).
        constructor; auto. simpl in Hne.
        pose proof (nested_first (dkeys g) (map dkeys ls) Hne) as Hall.
        rewrite Forall_map in Hall. eapply Forall_impl; [|exact Hall]. simpl.
        intros g' Hinc Hin. auto.
      - rewrite Forall_forall. intros g' Hg'. apply repeat_spec in Hg'. subst. simpl. tauto. }
    assert (Hn1 : nested (map dkeys ls1)).
    { unfold ls1, pad_levels. rewrite map_app.
      rewrite map_repeat. apply nested_pad. exact Hne. }
    assert (Hk2 : map dkeys ls2 = add_keys id n (map dkeys ls1)) by now apply add_levels_keys.
    assert (Hw2 : Forall wfg ls2) by now apply add_levels_wf.
    assert (Hl2 : length ls2 = length ls1) by apply add_levels_length.
    destruct (connect_levels_ok m id rnd i Hm Hs (Nat.min (1 + level) (length ls2)) 0 ls2 Hw2)
      as (ls3 & E3 & W3 & K3).
    { intros j g' Hj Hg'. apply (In_add_keys id n (map dkeys ls1) j); [lia|].
      rewrite <- Hk2, nth_error_map, Hg'. reflexivity. }
    change (h_levels x1) with ls2. unfold bind at 1, lift at 1. rewrite E3.
    unfold set_ix, modify. cbn [fst snd]. eexists. split; [reflexivity|].
    assert (Hl3 : length ls3 = length ls2).
    { apply (f_equal (@length _)) in K3. now rewrite !map_length in K3. }
    rewrite Hl2, Hl1 in Hl3.
    split; [|split; [|split]]; simpl; auto.
    - now apply held_add.
    - destruct ls3 as [|g3 ls3]; [discriminate|]. exists g3, ls3.
      split; auto. split; [now injection Hl3|]. split; auto. split.
      + rewrite K3, Hk2. now apply nested_add.
      + rewrite Hk2, Hnn in K3. unfold ls1 in K3. simpl in K3. injection K3 as K3 _.
        rewrite K3, map_app. simpl. now apply Permutation_app_tail.
  Qed.

  Lemma held_perm recs recs' d : held recs d -> NoDup (map fst recs) -> Permutation recs recs' ->
    held recs' d.
  Proof.
    intros [Hp Hg] Hnd Hpr. split.
    - eapply perm_trans; [exact Hp|]. now apply Permutation_map.
    - intros id. rewrite Hg. f_equal.
      assert (NoDup (map fst recs')) as Hnd'
        by (eapply Permutation_NoDup; [apply Permutation_map; exact Hpr|auto]).
      destruct (sp_find id recs) as [r|] eqn:E.
      + symmetry. apply sp_find_In; auto. apply sp_find_In in E; auto.
        eapply Permutation_in; eauto.
      + symmetry. apply sp_find_None. apply sp_find_None in E. intros Hin. apply E.
        eapply Permutation_in; [symmetry; apply Permutation_map; exact Hpr|auto].
  Qed.

  Lemma hopen_perm recs recs' x : hopen recs x -> NoDup (map fst recs) -> Permutation recs recs' ->
    hopen recs' x.
  Proof.
    intros (Hi & Hh & Hc & g & ls & El & Elen & HW & Hne & Hp) Hnd Hpr.
    split; auto. split; [eapply held_perm; eauto|]. split; auto.
    exists g, ls. split; auto. split; auto. split; auto. split; auto.
    eapply perm_trans; [exact Hp|]. now apply Permutation_map.
  Qed.

  (** Records of a list of ids. *)
  Definition pick recs (ids : list pystr) : list (entry (list F) Mt) :=
    flat_map (fun id => match sp_find id recs with Some r => [(id, r)] | None => [] end) ids.

  Lemma pick_keys recs ids : (forall id, In id ids -> In id (map fst recs)) ->
    map fst (pick recs ids) = ids.
  Proof.
    induction ids as [|id ids IH]; intros Hin; simpl; auto.
    destruct (proj1 (In_keys_find id recs) (Hin id (or_introl eq_refl))) as [r E].
    rewrite E. simpl. f_equal. apply IH. intros j Hj. apply Hin. now right.
  Qed.

  Lemma pick_perm recs ids : NoDup (map fst recs) -> Permutation ids (map fst recs) ->
    Permutation (pick recs ids) recs.
  Proof.
    intros Hnd Hp.
    assert (Hk : map fst (pick recs ids) = ids).
    { apply pick_keys. intros id Hin. eapply Permutation_in; eauto. }
    assert (NoDup ids) as Hni by (eapply Permutation_NoDup; [symmetry; exact Hp|auto]).
    apply NoDup_Permutation.
    - apply NoDup_map_inv with (f := fst). now rewrite Hk.
    - now apply NoDup_map_inv with (f := fst).
    - intros [id r]. split.
      + intros Hin. unfold pick in Hin. apply in_flat_map in Hin as [j [Hj Hin]].
        destruct (sp_find j recs) eqn:E; [|destruct Hin]. destruct Hin as [Hin|[]].
        injection Hin as -> ->. now apply sp_find_In in E.
      + intros Hin. unfold pick. apply in_flat_map. exists id. split.
        * eapply Permutation_in; [symmetry; exact Hp|]. apply (in_map fst) in Hin. exact Hin.
        * apply sp_find_In in Hin; auto. rewrite Hin. now left.
  Qed.

  Lemma hnsw_load_all_ok rnd recs : sample_ok rnd -> forall ids done i x s,
    (forall id, In id ids -> In id (map fst recs)) -> NoDup (done ++ ids) ->
    (forall id, In id done -> In id (map fst recs)) ->
    hopen (pick recs done) x -> A (MkS true recs) s ->
    exists x' s', hnsw_load_all C m rnd i ids (x, s) = (Ok tt, (x', s')) /\
      hopen (pick recs (done ++ ids)) x' /\ A (MkS true recs) s'.
  Proof.
    intros Hs. induction ids as [|id ids IH]; intros done i x s Hin Hnd Hdone Ho HA.
    - exists x, s. rewrite app_nil_r. auto.
    - destruct (proj1 (In_keys_find id recs) (Hin id (or_introl eq_refl))) as [[v mm] Ef].
      destruct (so_retrieve C p b sz A HC recs s id HA) as (s1 & E1 & A1).
      destruct (hnsw_add_ok rnd i id v mm (pick recs done) x s1 Hs Ho) as (x1 & E2 & Ho1).
      { rewrite pick_keys by auto. apply NoDup_remove_2 in Hnd.
        intros Hd. apply Hnd. apply in_or_app. now left. }
      assert (hnsw_load C m rnd i id (x, s) = (Ok tt, (x1, s1))) as E0.
      { unfold hnsw_load, bind at 1, on_sb, zoom. cbn [fst snd]. rewrite E1, Ef. exact E2. }
      cbn [hnsw_load_all]. rewrite (bind_Ok _ _ _ _ _ E0).
      destruct (IH (done ++ [id]) (Datatypes.S i) x1 s1) as (x' & s' & E' & Ho' & A'); auto.
      + intros j Hj. apply Hin. now right.
      + rewrite <- app_assoc. exact Hnd.
      + intros j Hj. apply in_app_or in Hj as [Hj|[<-|[]]]; auto. apply Hin. now left.
      + unfold pick. rewrite flat_map_app. simpl. rewrite Ef. exact Ho1.
      + exists x', s'. split; [exact E'|]. rewrite <- app_assoc in Ho'. auto.
  Qed.

  Lemma hnsw_initialize_ok rnd recs x s :
    sample_ok rnd -> hclosed recs x -> A (MkS true recs) s ->
    exists x' s', hnsw_initialize C m rnd (x, s) = (Ok tt, (x', s')) /\
                  hopen recs x' /\ A (MkS true recs) s'.
  Proof.
    intros Hs (Hv & Hx & Hc) HA. unfold hnsw_initialize.
    pose proof (so_nd C p b sz A HC _ _ HA) as Hnd. simpl in Hnd.
    unfold bind at 1, set_ix at 1, modify at 1. cbn [fst snd].
    unfold bind at 1, set_ix at 1, modify at 1. cbn [fst snd].
    destruct (so_list C p b sz A HC recs s HA) as (l & s1 & E1 & Hp & A1).
    unfold wrap, bind at 1, on_sb, zoom. cbn [fst snd]. rewrite E1.
    assert (NoDup l) as Hnl by (eapply Permutation_NoDup; [symmetry; exact Hp|auto]).
    destruct (hnsw_load_all_ok rnd recs Hs l [] 0 (hset_levels [[]] (hset_init x)) s1)
      as (x' & s' & E' & Ho' & A'); auto.
    - intros id Hin. eapply Permutation_in; eauto.
    - intros id [].
    - simpl. split; [reflexivity|]. unfold hset_levels, hset_init. simpl. rewrite Hv. split; [|split].
      + split; auto.
      + now rewrite Hc.
      + exists [], []. simpl. split; auto. split; auto. split; [|split]; auto.
        constructor; auto. apply wfg_nil.
    - rewrite E'. exists x', s'. split; auto. split; auto.
      simpl in Ho'. eapply hopen_perm; [exact Ho'| |now apply pick_perm].
      rewrite pick_keys; auto. intros id Hin. eapply Permutation_in; eauto.
  Qed.

  Lemma hnsw_insert_rows_ok rnd fresh meta rows : sample_ok rnd -> forall i recs x s,
    (forall l mm, meta = Some l -> In mm l -> meta_ok mm) ->
    (forall j k, i <= j < i + length rows -> i <= k < i + length rows -> fresh j = fresh k -> j = k) ->
    (forall j, i <= j < i + length rows -> uuid_like (fresh j) /\ ~ In (fresh j) (map fst recs)) ->
    hopen recs x -> A (MkS true recs) s ->
    exists x' s', hnsw_insert_rows C m rnd fresh meta i rows (x, s) =
                    (Ok (map fresh (seq i (length rows))), (x', s')) /\
      hopen (recs ++ batch_from fresh i rows meta) x' /\
      A (MkS true (recs ++ batch_from fresh i rows meta)) s'.
  Proof.
    intros Hs. induction rows as [|row rows IH]; intros i recs x s Hmt Hinj Hfr Ho HA.
    - simpl. rewrite app_nil_r. exists x, s. auto.
    - destruct (Hfr i ltac:(simpl; lia)) as [Hu Hni].
      destruct (so_store C p b sz A HC recs s (fresh i) row (meta_of meta i) HA Hu
                  (meta_of_ok (V := list F) meta i Hmt)) as (s1 & E & A1).
      rewrite sp_put_fresh in A1 by auto.
      assert (on_sb (sc_store C (fresh i) row (row_meta meta i)) (x, s) = (Ok true, (x, s1))) as E0.
      { unfold on_sb, zoom. cbn [fst snd]. now rewrite row_meta_of, E. }
      destruct (hnsw_add_ok rnd i (fresh i) row (meta_of meta i) recs x s1 Hs Ho Hni) as (x1 & E1 & Ho1).
      cbn [hnsw_insert_rows]. rewrite (bind_Ok _ _ _ _ _ E0), (bind_Ok _ _ _ _ _ E1).
      destruct (IH (Datatypes.S i) (recs ++ [(fresh i, (row, meta_of meta i))]) x1 s1 Hmt)
        as (x' & s' & E' & Ho' & A'); auto.
      + intros j k Hj Hk. apply Hinj; simpl; lia.
      + intros j Hj. destruct (Hfr j ltac:(simpl; lia)) as [Hu' Hni']. split; auto.
        rewrite map_app, in_app_iff. simpl. intros [?|[E2|[]]]; auto.
        apply (Hinj i j) in E2; simpl; lia.
      + simpl Nat.add. rewrite (bind_Ok _ _ _ _ _ E'). exists x', s'. split; [reflexivity|].
        rewrite <- app_assoc in Ho', A'. auto.
  Qed.

  (** ** Search *)

  (** A candidate: a live id with its distance. *)
  Definition live_cand recs q (c : pystr * F) : Prop :=
    exists v mm, sp_find (fst c) recs = Some (v, mm) /\ pair_distance mt q v = Ok (snd c).

  (** Some record has no distance to the query. *)
  Definition bad recs q : Prop :=
    exists id v mm e, sp_find id recs = Some (v, mm) /\ pair_distance mt q v = Raise e.

  Definition cands_ok recs q (r : result (list (pystr * F))) : Prop :=
    match r with Ok cs => Forall (live_cand recs q) cs | Raise _ => bad recs q end.

  Lemma near_ok recs d q nbs : held recs d -> cands_ok recs q (near mt q d nbs).
  Proof.
    intros [_ Hg]. induction nbs as [|nb nbs IH]; simpl; [constructor|].
    rewrite Hg. destruct (sp_find nb recs) as [[v mm]|] eqn:E; simpl; auto.
    destruct (pair_distance mt q v) as [dd|e] eqn:Ed; simpl.
    - destruct (near mt q d nbs); simpl in *; auto. constructor; auto. exists v, mm. auto.
    - exists nb, v, mm, e. auto.
  Qed.

  Lemma expand_ok recs d q g cs : held recs d -> cands_ok recs q (expand mt q d g cs).
  Proof.
    intros Hh. induction cs as [|[n dd] cs IH]; simpl; [constructor|].
    assert (cands_ok recs q (match dget n g with Some nbs => near mt q d nbs | None => Ok [] end)) as H1.
    { destruct (dget n g); [now apply near_ok|constructor]. }
    destruct (match dget n g with Some nbs => near mt q d nbs | None => Ok [] end); simpl in *; auto.
    destruct (expand mt q d g cs); simpl in *; auto. now apply Forall_app.
  Qed.

  Lemma Forall_by_distance (P : pystr * F -> Prop) l : Forall P l -> Forall P (by_distance l).
  Proof.
    intros HF. unfold by_distance. eapply Permutation_Forall; [symmetry; apply sort_perm|auto].
  Qed.

  Lemma Forall_slice_to {T} (P : T -> Prop) k l : Forall P l -> Forall P (slice_to k l).
  Proof.
    intros HF. rewrite slice_to_want. rewrite Forall_forall in *. intros a Ha.
    apply In_firstn in Ha. auto.
  Qed.

  Lemma descend_ok recs q x : held recs (h_vectors x) -> forall l cs,
    l < length (h_levels x) -> Forall (live_cand recs q) cs ->
    cands_ok recs q (descend ef mt q x l cs).
  Proof.
    intros Hh. induction l as [|l IH]; intros cs Hl HF; cbn [descend]; auto.
    destruct (nth_error (h_levels x) (Datatypes.S l)) as [g|] eqn:E.
    - pose proof (expand_ok recs (h_vectors x) q g cs Hh) as He.
      destruct (expand mt q (h_vectors x) g cs); simpl in *; auto.
      apply IH; [lia|]. apply Forall_slice_to, Forall_by_distance. exact He.
    - apply nth_error_None in E. lia.
  Qed.

  (** What a sound search needs of the index: the vectors are those of the records, and the levels
      hold ids of records only. *)
  Definition hsound recs x : Prop :=
    held recs (h_vectors x) /\ h_max x < length (h_levels x) /\
    forall g id, In g (h_levels x) -> In id (dkeys g) -> In id (map fst recs).

  Lemma hopen_sound recs x : hopen recs x -> hsound recs x.
  Proof.
    intros (Hi & Hh & Hc & g & ls & El & Elen & HW & Hne & Hp). split; [exact Hh|].
    rewrite El. split; [simpl; lia|]. intros g' id [<-|Hg] Hid; apply (Permutation_in _ Hp); [exact Hid|].
    simpl in Hne. pose proof (nested_first _ _ Hne) as Hall.
    rewrite Forall_map, Forall_forall in Hall. now apply (Hall _ Hg).
  Qed.

  Lemma candidates_ok recs q x : hsound recs x -> cands_ok recs q (candidates_of ef mt q x).
  Proof.
    intros (Hh & Hlt & Hids). unfold candidates_of.
    assert (Hcur : Z.min (Z.of_nat (h_max x)) (Z.of_nat (length (h_levels x)) - 1) = Z.of_nat (h_max x)) by lia.
    rewrite Hcur, Nat2Z.id. unfold entry_candidates. rewrite Nat2Z.id.
    replace (Z.of_nat (h_max x) <? 0)%Z with false by lia.
    assert (cands_ok recs q
      match nth_error (h_levels x) (h_max x) with
      | None => Raise EIndexRange
      | Some [] => Ok []
      | Some ((entry_point, _) :: _) =>
          match dget entry_point (h_vectors x) with
          | None => Raise EKey
          | Some v => rbind (pair_distance mt q v) (fun d => Ok [(entry_point, d)])
          end
      end) as H1.
    { destruct (nth_error (h_levels x) (h_max x)) as [gt|] eqn:E;
        [|apply nth_error_None in E; lia].
      destruct gt as [|[e nbs] gt]; [constructor|].
      assert (In e (map fst recs)) as He.
      { apply (Hids ((e, nbs) :: gt)); [now apply nth_error_In in E|now left]. }
      apply In_keys_find in He as [[v mm] Ef]. destruct Hh as [_ Hg]. rewrite Hg, Ef. simpl.
      destruct (pair_distance mt q v) as [d|er] eqn:Ed; simpl.
      - constructor; auto. exists v, mm. auto.
      - exists e, v, mm, er. auto. }
    match goal with |- cands_ok _ _ (rbind ?r _) => destruct r as [c0|er]; simpl in *; auto end.
    pose proof (descend_ok recs q x Hh (h_max x) c0 Hlt H1) as H2.
    destruct (descend ef mt q x (h_max x) c0) as [c1|er]; simpl in *; auto.
    destruct ((0 <=? Z.of_nat (h_max x))%Z && negb (length c1 =? 0)); simpl; auto.
    destruct (h_levels x) as [|g ls]; [simpl in Hlt; lia|].
    pose proof (expand_ok recs (h_vectors x) q g c1 Hh) as H3.
    destruct (expand mt q (h_vectors x) g c1); simpl in *; auto. now apply Forall_app.
  Qed.

  (** *** When something is found, and when only once *)

  Lemma near_keys recs d q nbs cs : held recs d -> near mt q d nbs = Ok cs ->
    incl nbs (map fst recs) -> map fst cs = nbs.
  Proof.
    intros [_ Hg]. revert cs. induction nbs as [|nb nbs IH]; simpl; intros cs E Hi.
    - now injection E as <-.
    - destruct (proj1 (In_keys_find nb recs) (Hi nb (or_introl eq_refl))) as [[v mm] Ef].
      rewrite Hg, Ef in E. simpl in E. destruct (pair_distance mt q v); simpl in E; [|discriminate].
      destruct (near mt q d nbs) as [rest|]; simpl in E; [|discriminate]. injection E as <-.
      simpl. f_equal. apply IH; auto. intros j Hj. apply Hi. now right.
  Qed.

  Lemma good_neighbours recs x g a la : good_graph recs x -> In g (h_levels x) ->
    dget a g = Some la -> incl la (map fst recs).
  Proof.
    intros (g0 & ls & El & _ & HW & Hne & Hp) Hg Ha nb Hnb. rewrite El in Hg.
    rewrite Forall_forall in HW. destruct (HW g Hg) as [_ Hw].
    destruct (Hw a la Ha) as (_ & _ & Hs). destruct (Hs nb Hnb) as (lb & Eb & _).
    apply (Permutation_in _ Hp). assert (In nb (dkeys g)) as Hin by (apply dget_In; eauto).
    destruct Hg as [<-|Hg]; auto. simpl in Hne. pose proof (nested_first _ _ Hne) as Hf.
    rewrite Forall_map, Forall_forall in Hf. now apply (Hf g Hg).
  Qed.

  Lemma expand_nonempty recs x q g cs r : hopen recs x -> In g (h_levels x) ->
    (forall a la, In (a, la) g -> la <> []) -> cs <> [] ->
    (forall c, In c cs -> In (fst c) (dkeys g)) ->
    expand mt q (h_vectors x) g cs = Ok r ->
    r <> [] /\ forall c, In c r -> In (fst c) (dkeys g).
  Proof.
    intros (_ & Hh & _ & Hgood) Hg Hnb Hne Hin E. pose proof Hgood as (g0 & ls & El & _ & HW & _ & _).
    rewrite <- El, Forall_forall in HW. destruct (HW g Hg) as [Hk Hw].
    assert (Hcl : forall a la, dget a g = Some la -> incl la (dkeys g)).
    { intros a la Ha nb Hn. destruct (Hw a la Ha) as (_ & _ & Hs). destruct (Hs nb Hn) as (lb & Eb & _).
      apply dget_In. eauto. }
    assert (Hgen : forall cs r, (forall c, In c cs -> In (fst c) (dkeys g)) ->
      expand mt q (h_vectors x) g cs = Ok r ->
      (cs <> [] -> r <> []) /\ forall c, In c r -> In (fst c) (dkeys g)).
    { clear cs r Hne Hin E. induction cs as [|[n dd] cs IH]; simpl; intros r Hin E.
      - injection E as <-. split; [congruence|]. intros c [].
      - destruct (proj2 (dget_In n g) (Hin _ (or_introl eq_refl))) as [la Ha]. rewrite Ha in E.
        destruct (near mt q (h_vectors x) la) as [here|] eqn:En; simpl in E; [|discriminate].
        destruct (expand mt q (h_vectors x) g cs) as [rest|] eqn:Er; simpl in E; [|discriminate].
        injection E as <-.
        pose proof (near_keys recs _ q la here Hh En (good_neighbours recs x g n la Hgood Hg Ha)) as Ek.
        destruct (IH rest (fun c Hc => Hin c (or_intror Hc)) eq_refl) as [_ IH2]. split.
        + intros _ Er0. apply app_eq_nil in Er0 as [-> _]. simpl in Ek. subst la.
          apply (Hnb n []); auto. now apply dget_Some_In.
        + intros c Hc. apply in_app_or in Hc as [Hc|Hc]; auto.
          apply (Hcl n la Ha). rewrite <- Ek. now apply in_map. }
    destruct (Hgen cs r Hin E). auto.
  Qed.

  Lemma descend_nonempty recs q x : (1 <= ef)%Z -> hopen recs x ->
    (forall l g, 1 <= l -> nth_error (h_levels x) l = Some g ->
       g <> [] /\ forall a la, In (a, la) g -> la <> []) ->
    forall l cs r, cs <> [] ->
    (forall g c, nth_error (h_levels x) l = Some g -> In c cs -> In (fst c) (dkeys g)) ->
    descend ef mt q x l cs = Ok r -> r <> [].
  Proof.
    intros Hef Ho Hup. pose proof Ho as (_ & _ & _ & g0 & ls & El & _ & _ & Hnest & _).
    induction l as [|l IH]; intros cs r Hne Hin E.
    - simpl in E. now injection E as <-.
    - cbn [descend] in E. destruct (nth_error (h_levels x) (Datatypes.S l)) as [g|] eqn:Eg; [|discriminate].
      destruct (expand mt q (h_vectors x) g cs) as [nc|] eqn:Ee; simpl in E; [|discriminate].
      destruct (Hup _ _ (le_n_S 0 l (Nat.le_0_l l)) Eg) as [_ Hnb].
      destruct (expand_nonempty recs x q g cs nc Ho) as [Hn Hk]; auto.
      { eapply nth_error_In; eauto. }
      apply IH in E; auto.
      + intros Es. rewrite slice_to_want in Es. apply (f_equal (@length _)) in Es.
        rewrite firstn_length in Es. unfold by_distance in Es. rewrite sort_length in Es.
        unfold want in Es. destruct nc; [congruence|]. simpl length in Es.
        replace (0 <=? ef)%Z with true in Es by lia. lia.
      + intros g' c Eg' Hc. rewrite slice_to_want in Hc. apply In_firstn in Hc.
        unfold by_distance in Hc. rewrite In_sort in Hc. apply Hk in Hc.
        apply (nested_nth (map dkeys (h_levels x)) l (Datatypes.S l) (dkeys g') (dkeys g)); auto.
        * now rewrite El.
        * now rewrite nth_error_map, Eg'.
        * now rewrite nth_error_map, Eg.
  Qed.

  Lemma candidates_nonempty recs q x cs : (1 <= ef)%Z -> hopen recs x -> recs <> [] ->
    (forall l g, 1 <= l -> nth_error (h_levels x) l = Some g ->
       g <> [] /\ forall a la, In (a, la) g -> la <> []) ->
    candidates_of ef mt q x = Ok cs -> cs <> [].
  Proof.
    intros Hef Ho Hr Hup E. pose proof Ho as (Hi & Hh & Hc & g & ls & El & Elen & HW & Hne & Hp).
    unfold candidates_of in E.
    assert (Hcur : Z.min (Z.of_nat (h_max x)) (Z.of_nat (length (h_levels x)) - 1) = Z.of_nat (h_max x)).
    { rewrite El. simpl length. lia. }
    rewrite Hcur, Nat2Z.id in E. unfold entry_candidates in E. rewrite Nat2Z.id in E.
    replace (Z.of_nat (h_max x) <? 0)%Z with false in E by lia.
    assert (Hlt : h_max x < length (h_levels x)) by (rewrite El; simpl; lia).
    destruct (nth_error (h_levels x) (h_max x)) as [gt|] eqn:Eg; [|simpl in E; discriminate].
    destruct gt as [|[e nbs] gt].
    { destruct (h_max x) as [|n] eqn:Em.
      - exfalso. rewrite El in Eg. simpl in Eg. injection Eg as ->. apply Permutation_nil in Hp.
        now destruct recs.
      - exfalso. destruct (Hup (Datatypes.S n) [] ltac:(lia) Eg) as [Hn _]. congruence. }
    destruct (dget e (h_vectors x)) as [v|]; simpl in E; [|discriminate].
    destruct (pair_distance mt q v) as [d|]; simpl in E; [|discriminate].
    destruct (descend ef mt q x (h_max x) [(e, d)]) as [c1|] eqn:Ed; simpl in E; [|discriminate].
    assert (c1 <> []) as Hc1.
    { eapply (descend_nonempty recs q x Hef Ho Hup (h_max x) [(e, d)]); [discriminate| |exact Ed].
      intros g' c Eg' [<-|[]]. rewrite Eg in Eg'. injection Eg' as <-. now left. }
    destruct ((0 <=? Z.of_nat (h_max x))%Z && negb (length c1 =? 0)).
    - rewrite El in E. destruct (expand mt q (h_vectors x) g c1); simpl in E; [|discriminate].
      injection E as <-. intros En. now apply app_eq_nil in En as [? _].
    - now injection E as <-.
  Qed.

  Lemma slice_to_1 {T} (l : list T) : length (slice_to 1 l) <= 1.
  Proof.
    rewrite slice_to_want, firstn_length. unfold want.
    change (0 <=? 1)%Z with true. change (Z.to_nat 1) with 1. cbn iota. lia.
  Qed.

  Lemma descend_one q x : ef = 1%Z -> forall l cs r, length cs <= 1 ->
    descend ef mt q x l cs = Ok r -> length r <= 1.
  Proof.
    intros ->. induction l as [|l IH]; intros cs r Hl E.
    - simpl in E. now injection E as <-.
    - cbn [descend] in E. destruct (nth_error (h_levels x) (Datatypes.S l)); [|discriminate].
      destruct (expand mt q (h_vectors x) _ cs); simpl in E; [|discriminate].
      apply IH in E; auto. apply slice_to_1.
  Qed.

  Lemma candidates_distinct recs q x cs : hopen recs x ->
    (length (h_levels x) = 1 \/ ef = 1%Z) -> candidates_of ef mt q x = Ok cs -> NoDup (map fst cs).
  Proof.
    intros Ho Hor E. pose proof Ho as (Hi & Hh & Hc & Hgood).
    pose proof Hgood as (g & ls & El & Elen & HW & Hne & Hp).
    unfold candidates_of in E.
    assert (Hcur : Z.min (Z.of_nat (h_max x)) (Z.of_nat (length (h_levels x)) - 1) = Z.of_nat (h_max x)).
    { rewrite El. simpl length. lia. }
    rewrite Hcur, Nat2Z.id in E.
    destruct (entry_candidates mt q x (Z.of_nat (h_max x))) as [c0|] eqn:E0; simpl in E; [|discriminate].
    assert (length c0 <= 1) as Hl0.
    { unfold entry_candidates in E0. destruct (Z.of_nat (h_max x) <? 0)%Z; [injection E0 as <-; simpl; lia|].
      destruct (nth_error (h_levels x) _) as [[|[e nbs] gt]|]; try discriminate.
      - injection E0 as <-. simpl. lia.
      - destruct (dget e (h_vectors x)); simpl in E0; [|discriminate].
        destruct (pair_distance mt q _); simpl in E0; [|discriminate]. injection E0 as <-. simpl. lia. }
    destruct (descend ef mt q x (h_max x) c0) as [c1|] eqn:Ed; simpl in E; [|discriminate].
    assert (length c1 <= 1) as Hl1.
    { destruct Hor as [Hl|He].
      - rewrite El in Hl. simpl in Hl. assert (h_max x = 0) as Em by lia. rewrite Em in Ed.
        simpl in Ed. now injection Ed as <-.
      - eapply descend_one; eauto. }
    destruct c1 as [|[a d] [|]]; simpl in Hl1; [|clear Hl1|lia].
    - simpl in E. rewrite andb_false_r in E. injection E as <-. constructor.
    - destruct ((0 <=? Z.of_nat (h_max x))%Z && negb (length [(a, d)] =? 0)).
      + rewrite El in E. simpl in E. destruct (dget a g) as [la|] eqn:Ea; simpl in E.
        * destruct (near mt q (h_vectors x) la) as [here|] eqn:En; simpl in E; [|discriminate].
          injection E as <-. rewrite app_nil_r. simpl.
          assert (In g (h_levels x)) as Hg by (rewrite El; now left).
          rewrite (near_keys recs _ q la here Hh En (good_neighbours recs x g a la Hgood Hg Ea)).
          rewrite Forall_forall in HW. destruct (HW g (or_introl eq_refl)) as [_ Hw].
          destruct (Hw a la Ea) as (G1 & G2 & _). now constructor.
        * injection E as <-. simpl. constructor; [intros []|constructor].
      + injection E as <-. simpl. constructor; [intros []|constructor].
  Qed.

  Lemma hnsw_results_ok recs cands : forall x s,
    (forall c, In c cands -> In (fst c) (map fst recs)) -> A (MkS true recs) s ->
    exists s' hits, mapM cands (hnsw_result C) (x, s) = (Ok hits, (x, s')) /\
      A (MkS true recs) s' /\
      map (fun h => (h_id h, h_dist h)) hits = cands /\
      (forall h, In h hits -> exists v, sp_find (h_id h) recs = Some (v, h_meta h)).
  Proof.
    induction cands as [|[id dd] cands IH]; intros x s Hin HA.
    - exists s, []. simpl. split; [|split; [|split]]; auto. intros h [].
    - destruct (proj1 (In_keys_find id recs) (Hin _ (or_introl eq_refl))) as [[v mm] Hf].
      destruct (so_retrieve C p b sz A HC recs s id HA) as (s1 & E1 & A1).
      assert (hnsw_result C (id, dd) (x, s) = (Ok (MkHit id dd mm), (x, s1))) as E0.
      { unfold hnsw_result, bind, on_sb, zoom. simpl. rewrite E1, Hf. reflexivity. }
      destruct (IH x s1 (fun c Hc => Hin c (or_intror Hc)) A1) as (s' & hits & E & A' & Em & Hmm).
      cbn [mapM]. rewrite (bind_Ok _ _ _ _ _ E0), (bind_Ok _ _ _ _ _ E).
      exists s', (MkHit id dd mm :: hits). split; [reflexivity|]. split; [|split]; auto.
      + simpl. now rewrite Em.
      + intros h [<-|Hh]; simpl; eauto.
  Qed.

  Lemma by_distance_sorted l :
    StronglySorted (fun a b : pystr * F => nleb (snd a) (snd b) = true) (by_distance l).
  Proof.
    apply sort_sorted with (P := fun _ => True).
    - split; intros; [apply nleb_total | eapply nleb_trans; eauto].
    - rewrite Forall_forall. auto.
  Qed.

  (** The search of an index in use, in terms of its candidates. *)
  Lemma hnsw_search_sound q k recs x s : h_init x = true -> hsound recs x -> A (MkS true recs) s ->
    exists s' r, hnsw_search C ef mt (Vec q) k (x, s) = (r, (x, s')) /\ A (MkS true recs) s' /\
      match r with
      | Ok hits => genuine mt recs q k hits /\
          (recs = [] -> hits = []) /\
          (recs <> [] -> exists cs, candidates_of ef mt q x = Ok cs /\
             map (fun h => (h_id h, h_dist h)) hits =
             slice_to (Z.min k (Z.of_nat (length recs))) (by_distance cs))
      | Raise e => e = EIndex /\ bad recs q
      end.
  Proof.
    intros Hi Ho HA. pose proof Ho as (Hh & _).
    pose proof (so_nd C p b sz A HC _ _ HA) as Hnd. simpl in Hnd.
    unfold hnsw_search. rewrite (bind_Ok get_ix _ _ x (x, s)) by reflexivity. rewrite Hi. cbn [negb].
    rewrite (held_length recs _ Hh). destruct (Nat.eqb_spec (length recs) 0) as [E0|E0].
    - exists s, (Ok []). split; [reflexivity|]. split; auto. split; [|split]; auto.
      + constructor; simpl; [intros h []|constructor|lia].
      + destruct recs; [congruence|discriminate].
    - pose proof (candidates_ok recs q x Ho) as Hcs.
      destruct (candidates_of ef mt q x) as [cs|e] eqn:Ecs.
      + set (k' := Z.min k (Z.of_nat (length recs))).
        destruct (hnsw_results_ok recs (slice_to k' (by_distance cs)) x s) as (s' & hits & E & A' & Em & Hmm); auto.
        { assert (HF : Forall (live_cand recs q) (slice_to k' (by_distance cs)))
            by now apply Forall_slice_to, Forall_by_distance.
          rewrite Forall_forall in HF. intros c Hc'. destruct (HF c Hc') as (v & mm & Ef & _).
          apply In_keys_find. eauto. }
        exists s', (Ok hits). split.
        { unfold wrap, bind, lift. rewrite E. reflexivity. }
        split; auto. split; [|split].
        * constructor.
          -- intros h Hin. destruct (Hmm h Hin) as [v Ef]. exists v. split.
             ++ now apply sp_find_In.
             ++ assert (HF : Forall (live_cand recs q) (slice_to k' (by_distance cs)))
                  by now apply Forall_slice_to, Forall_by_distance.
                rewrite <- Em, Forall_map, Forall_forall in HF. destruct (HF h Hin) as (v' & mm' & Ef' & Ed).
                simpl in Ef', Ed. rewrite Ef in Ef'. injection Ef' as <- <-. exact Ed.
          -- pose proof (by_distance_sorted cs) as Hso. rewrite slice_to_want in Em.
             apply (StronglySorted_firstn _ (want k' (length (by_distance cs)))) in Hso.
             rewrite <- Em in Hso. clear -Hso. induction hits as [|h hits IH]; [constructor|].
             simpl in Hso. inversion Hso as [|? ? H1 H2]; subst. constructor; auto.
             rewrite Forall_map in H2. exact H2.
          -- intros Hk. apply (f_equal (@length _)) in Em. rewrite map_length in Em.
             rewrite Em, slice_to_want, firstn_length. unfold want, k'.
             replace (0 <=? Z.min k (Z.of_nat (length recs)))%Z with true by lia. lia.
        * intros ->. simpl in E0. congruence.
        * intros _. exists cs. auto.
      + exists s, (Raise EIndex). split; [reflexivity|]. auto.
  Qed.

  Lemma hnsw_search_ok q k recs x s : hopen recs x -> A (MkS true recs) s ->
    exists s' r, hnsw_search C ef mt (Vec q) k (x, s) = (r, (x, s')) /\ A (MkS true recs) s' /\
      match r with
      | Ok hits => genuine mt recs q k hits /\
          (recs = [] -> hits = []) /\
          (recs <> [] -> exists cs, candidates_of ef mt q x = Ok cs /\
             map (fun h => (h_id h, h_dist h)) hits =
             slice_to (Z.min k (Z.of_nat (length recs))) (by_distance cs))
      | Raise e => e = EIndex /\ bad recs q
      end.
  Proof. intros Ho. apply hnsw_search_sound; [apply Ho|now apply hopen_sound]. Qed.

  (** ** Deletion and update *)

  Lemma hopen_remove id recs x : NoDup (map fst recs) -> hopen recs x ->
    hopen (sp_del id recs) (hnsw_remove id x).
  Proof.
    intros Hnd (Hi & [Hp Hg] & Hc & g & ls & El & Elen & HW & Hne & Hpg).
    assert (Hfil : filter (fun j => negb (eqb id j)) (map fst recs) = map fst (sp_del id recs)).
    { rewrite sp_del_ddel. change (map fst (ddel id recs)) with (dkeys (ddel id recs)).
      now rewrite dkeys_ddel. }
    assert (Hv : h_vectors (hnsw_remove id x) = ddel id (h_vectors x)).
    { unfold hnsw_remove. simpl. destruct (dmem id (h_vectors x)) eqn:E; auto.
      apply dmem_false in E. apply dget_None in E. symmetry. now apply ddel_notin. }
    assert (Hcnt : h_count (hnsw_remove id x) = Z.of_nat (length (h_vectors (hnsw_remove id x)))).
    { unfold hnsw_remove. simpl. now destruct (dmem id (h_vectors x)). }
    assert (Hlev : h_levels (hnsw_remove id x) = map (remove_node id) (h_levels x)).
    { unfold hnsw_remove. simpl. now destruct (dmem id (h_vectors x)). }
    assert (Hmx : h_max (hnsw_remove id x) = h_max x).
    { unfold hnsw_remove. simpl. now destruct (dmem id (h_vectors x)). }
    assert (Hin : h_init (hnsw_remove id x) = true).
    { unfold hnsw_remove. simpl. now destruct (dmem id (h_vectors x)). }
    split; auto. split; [|split; auto].
    - rewrite Hv. split.
      + rewrite dkeys_ddel, <- Hfil. now apply filter_perm.
      + intros j. rewrite dget_ddel, sp_find_del, Hg. now destruct (eqb j id).
    - exists (remove_node id g), (map (remove_node id) ls). rewrite Hlev, El, Hmx.
      split; auto. split; [now rewrite map_length|]. split; [|split].
      + change (Forall wfg (map (remove_node id) (g :: ls))). rewrite Forall_map.
        eapply Forall_impl; [|exact HW]. intros g' Hg'. now apply wfg_remove.
      + change (nested (map dkeys (map (remove_node id) (g :: ls)))).
        rewrite map_map. rewrite (map_ext _ (fun g => filter (fun j => negb (eqb id j)) (dkeys g)))
          by apply remove_node_keys.
        rewrite <- (map_map dkeys (filter _)). now apply nested_filter.
      + rewrite remove_node_keys, <- Hfil. now apply filter_perm.
  Qed.

  Lemma hnsw_delete_ids_ok ids : forall recs x s succ, hopen recs x -> A (MkS true recs) s ->
    exists x' s', hnsw_delete_ids C ids succ (x, s) = (Ok (succ && del_ans ids recs), (x', s')) /\
      hopen (del_recs ids recs) x' /\ A (MkS true (del_recs ids recs)) s'.
  Proof.
    induction ids as [|id ids IH]; intros recs x s succ Ho HA.
    - simpl. rewrite andb_true_r. exists x, s. auto.
    - pose proof (so_nd C p b sz A HC _ _ HA) as Hnd. simpl in Hnd.
      destruct (so_delete C p b sz A HC recs s id HA) as (s1 & E1 & A1).
      cbn [hnsw_delete_ids]. unfold bind at 1, on_sb, zoom. cbn [fst snd]. rewrite E1.
      unfold bind at 1, set_ix at 1, modify at 1. cbn [fst snd].
      destruct (IH (sp_del id recs) (hnsw_remove id x) s1
                  (if match sp_find id recs with Some _ => true | None => false end then succ else false))
        as (x' & s' & E & Ho' & A'); auto using hopen_remove.
      rewrite E. exists x', s'. split; auto. f_equal. f_equal. simpl.
      destruct (sp_find id recs), succ; reflexivity.
  Qed.

  Lemma hnsw_update_ok id v mm recs x s : hopen recs x -> A (MkS true recs) s -> meta_ok mm ->
    let recs' := match sp_find id recs with
                 | Some _ => sp_put id (v, mm) recs
                 | None => recs
                 end in
    exists x' s', hnsw_update C id v mm (x, s) =
      (Ok (match sp_find id recs with Some _ => true | None => false end), (x', s')) /\
      hopen recs' x' /\ A (MkS true recs') s'.
  Proof.
    intros Ho HA Hmm recs'. pose proof Ho as (Hi & [Hp Hg] & Hc & Hgr).
    destruct (so_update C p b sz A HC recs s id v mm HA Hmm) as (s1 & E1 & A1).
    unfold hnsw_update. rewrite (bind_Ok get_ix _ _ x (x, s)) by reflexivity. rewrite Hi. cbn [negb].
    unfold wrap, bind at 1, on_sb, zoom. cbn [fst snd]. rewrite E1.
    destruct (sp_find id recs) as [r0|] eqn:Ef; cbn [negb].
    - unfold bind at 1, set_ix at 1, modify at 1. cbn [fst snd].
      assert (Hd : dget id (h_vectors x) = Some (fst r0)) by now rewrite Hg, Ef.
      replace (dmem id (h_vectors x)) with true
        by (symmetry; destruct (dmem id (h_vectors x)) eqn:E; auto;
            apply dmem_false in E; congruence).
      eexists _, s1. split; [reflexivity|]. split; auto.
      assert (Hin : In id (dkeys (h_vectors x))) by (apply dget_In; eauto).
      assert (Hkeys : map fst recs' = map fst recs).
      { unfold recs'. rewrite keys_put; auto. apply In_keys_find. eauto. }
      split; [exact Hi|]. split; [|split]; simpl.
      + split; [now rewrite dkeys_dset_in, Hkeys|].
        intros j. unfold recs'. rewrite dget_dset, sp_find_put, Hg. now destruct (eqb j id).
      + rewrite Hc. f_equal. rewrite <- (map_length fst (dset _ _ _)).
        change (map fst (dset id v (h_vectors x))) with (dkeys (dset id v (h_vectors x))).
        rewrite dkeys_dset_in by auto. unfold dkeys. now rewrite map_length.
      + destruct Hgr as (g & ls & El & Elen & HW & Hne & Hpg). exists g, ls.
        rewrite Hkeys. auto 10.
    - exists x, s1. split; [reflexivity|]. auto.
  Qed.

  Lemma hnsw_index_ok (row_fits : list F -> Prop) :
    index_ok (hnsw_class C m ef mt) A false row_fits sample_ok (hnsw_ok mt) hopen hclosed.
  Proof.
    constructor.
    - intros recs. repeat split.
    - discriminate.
    - intros recs x Hx. exact Hx.
    - intros o recs x s Hs _ Hx HA. now apply hnsw_initialize_ok.
    - intros o fresh arr meta recs x s HF Ho HA. destruct arr as [v|rows|]; simpl.
      + unfold hnsw_insert, bind, get_ix. simpl. destruct Ho as (-> & _). reflexivity.
      + intros Hs [Hinj Hfr] _ Hmm. unfold hnsw_insert.
        rewrite (bind_Ok get_ix _ _ x (x, s)) by reflexivity.
        destruct (hnsw_insert_rows_ok o fresh meta rows Hs 0 recs x s Hmm) as (x' & s' & E & Ho' & A'); auto.
        * intros j k Hj Hk. apply Hinj; lia.
        * intros j Hj. apply Hfr. lia.
        * pose proof Ho as (-> & _). cbn [negb]. unfold wrap. rewrite E. exists x', s'. auto.
      + unfold hnsw_insert, bind, get_ix. simpl. destruct Ho as (-> & _). reflexivity.
    - intros o q k recs x s _ HF Ho HA. simpl. destruct q as [q|rows|].
      + destruct (hnsw_search_ok q k recs x s Ho HA) as (s' & r & -> & A' & Hr).
        split; auto. split; auto. destruct r as [hits|e]; simpl; [apply Hr|].
        destruct Hr as [-> (id & v & mm & e' & Ef & Ed)]. split; auto.
        exists id, v, mm, e'. split; auto. apply sp_find_In; auto.
        exact (so_nd C p b sz A HC _ _ HA).
      + unfold hnsw_search, bind, get_ix. simpl. pose proof Ho as (-> & _). simpl. auto.
      + unfold hnsw_search, bind, get_ix. simpl. pose proof Ho as (-> & _). simpl. auto.
    - intros ids recs x s _ Ho HA. simpl. unfold hnsw_delete.
      rewrite (bind_Ok get_ix _ _ x (x, s)) by reflexivity. pose proof Ho as (-> & _). cbn [negb].
      destruct (hnsw_delete_ids_ok ids recs x s true Ho HA) as (x' & s' & E & Ho' & A').
      unfold wrap. rewrite E. exists x', s'. auto.
    - intros o id v mm recs x s _ _ Ho HA _ Hmm. now apply hnsw_update_ok.
    - intros recs x (Hi & Hh & Hc & _). simpl. unfold hnsw_count. rewrite Hi. simpl.
      now rewrite Hc, (held_length recs _ Hh).
    - intros x s. simpl. eexists. split; [reflexivity|]. intros recs. repeat split.
  Qed.
End Hnsw.
