(** Several threads insert into one inverted-file index while no training is due: what every
    schedule keeps. *)

From Coq Require Import List Arith ZArith NArith Lia Bool Permutation Sorted.
From Coq Require Import ZifyBool ZifyNat ZifyN.
From Verif Require Import PyBase BaseLemmas Payload StorageModel StorageSpec StorageRun
  StorageThms StorageOk Num ClientModel DbSpec ClientRun ClientProofs FlatModel FlatProofs
  IvfModel IvfProofs StepModel StepProofs LshSteps FlatRaceProofs RelyProofs IvfSteps.
Import ListNotations.
Open Scope py_scope.

Section IvfRace.
  Context {F Mt S : Type} `{Num F} `{!NumOrder F} `{Payload (list F) Mt}.
  Context (C : storage_class S (list F) Mt) (n_clusters : Z) (mt : metric) (dim : nat).
  Context (p b : bool) (sz : option (list F * option Mt -> N))
          (A : sstate (list F) Mt -> S -> Prop) (HC : storage_ok C p b sz A).
  Context (Hmt : mt <> MOther) (Hdim : 0 < dim).
  (** Whether the index is trained, and its centroids: the same all the time. *)
  Context (tr : bool) (ocs : option (list (list F))).
  Context (Htr : tr = true -> exists cs, ocs = Some cs /\ 0 < length cs /\
                   Forall (fun c => length c = dim) cs).
  Notation W := (ivf F * S)%type.
  Notation ent := (entry (list F) Mt).
  Implicit Types recs : list ent.

  (** ** What one thread does *)

  (** The writes of one inserted row and of its entry into a cluster. *)
  Inductive iact : Type :=
  | IStore (e : ent) | IAppend (e : ent) | ICache (e : ent) | IPut (id : pystr).

  (** A vector of the right length is cached. *)
  Definition cached (id : pystr) (x : ivf F) : Prop :=
    exists v, dget id (i_cache x) = Some v /\ length v = dim.

  Definition igood recs (w : W) : Prop :=
    A (MkS true recs) (snd w) /\
    i_init (fst w) = true /\ i_trained (fst w) = tr /\ i_centroids (fst w) = ocs /\
    (tr = true -> forall cs c, ocs = Some cs -> c < length cs ->
       In c (dkeys (i_clusters (fst w)))) /\
    (tr = false -> (Z.of_nat (length (i_ids (fst w))) < n_clusters)%Z).

  Definition ilater recs (w : W) recs' (w' : W) : Prop :=
    forall id, cached id (fst w) -> cached id (fst w').

  Definition ieff (acts acts' : list iact) recs (w : W) recs' (w' : W) : Prop :=
    (acts' = acts /\ recs' = recs /\ exists n, w' = (iput_count n (fst w), snd w)) \/
    (exists e, acts = IStore e :: acts' /\ recs' = sp_put (fst e) (snd e) recs /\
       fst w' = fst w /\ A (MkS true recs') (snd w')) \/
    (exists e, acts = IAppend e :: acts' /\ recs' = recs /\
       w' = (iset_ids (i_ids (fst w) ++ [fst e]) (fst w), snd w)) \/
    (exists e, acts = ICache e :: acts' /\ recs' = recs /\ length (fst (snd e)) = dim /\
       w' = (iset_cache (dset (fst e) (fst (snd e)) (i_cache (fst w))) (fst w), snd w)) \/
    (exists id c, acts = IPut id :: acts' /\ recs' = recs /\
       In c (dkeys (i_clusters (fst w))) /\
       w' = (iset_clusters (cluster_add c id (i_clusters (fst w))) (fst w), snd w)).

  Lemma ieff_app a1 a1' a2 recs w recs' w' :
    ieff a1 a1' recs w recs' w' -> ieff (a1 ++ a2) (a1' ++ a2) recs w recs' w'.
  Proof.
    intros [(-> & ?)|[(e & -> & ?)|[(e & -> & ?)|[(e & -> & ?)|(id & c & -> & ?)]]]].
    - left. auto.
    - right. left. exists e. auto.
    - right. right. left. exists e. auto.
    - right. right. right. left. exists e. auto.
    - right. right. right. right. exists id, c. auto.
  Qed.

  Lemma ieff_later acts acts' recs w recs' w' :
    ieff acts acts' recs w recs' w' -> ilater recs w recs' w'.
  Proof.
    intros [(_ & _ & n & ->)|[(e & _ & _ & E & _)|[(e & _ & _ & ->)|[(e & _ & _ & El & ->)|(id & c & _ & _ & _ & ->)]]]] j Hj;
      auto.
    - now rewrite E.
    - destruct Hj as (v & Ev & Hv). unfold cached. simpl. rewrite dget_dset.
      destruct (eqb j (fst e)); eauto.
  Qed.

  Lemma ilater_refl recs w : ilater recs w recs w.
  Proof. intros id. auto. Qed.

  Lemma ilater_trans r1 w1 r2 w2 r3 w3 : ilater r1 w1 r2 w2 -> ilater r2 w2 r3 w3 -> ilater r1 w1 r3 w3.
  Proof. intros H1 H2 id Hid. auto. Qed.

  Notation Follows := (follows igood ieff ilater).
  Notation Stays := (stays (G := list ent) ilater).

  (** A read. *)
  Lemma follows_iread {R T} (g : ivf F -> R) (k : R -> prog W T) acts
      (P : list ent -> W -> Prop) Q :
    Stays P ->
    (forall recs w, igood recs w -> P recs w -> Follows (k (g (fst w))) acts P Q) ->
    Follows (pbind (iread g) k) acts P Q.
  Proof.
    intros HS Hk. cbn [pbind iread atomic]. intros w recs Hg HP.
    unfold bind, get_ix, ret. exists acts, recs, P.
    split; [|split; [auto|split; [auto|]]].
    - left. split; auto. split; auto. exists (i_count (fst w)). destruct w as [[] s]. reflexivity.
    - eapply Hk; eauto.
  Qed.

  (** A write. *)
  Lemma follows_iwrite {T} f (k : unit -> prog W T) a acts (P : list ent -> W -> Prop) Q :
    Stays P ->
    (forall recs w, igood recs w -> P recs w -> ieff (a ++ acts) acts recs w recs (f (fst w), snd w)) ->
    Follows (k tt) acts P Q ->
    Follows (pbind (iwrite f) k) (a ++ acts) P Q.
  Proof.
    intros HS He Hk. cbn [pbind iwrite atomic]. intros w recs Hg HP.
    unfold set_ix, modify. exists acts, recs, P. specialize (He recs w Hg HP).
    split; [auto|split; [auto|split; [|auto]]].
    eapply HS; [|exact HP]. eapply ieff_later; eauto.
  Qed.

  (** The writes of a row. *)
  Definition irow_acts (e : ent) : list iact := [IStore e; IAppend e; ICache e].

  Lemma stays_cached id : Stays (fun _ w => cached id (fst w)).
  Proof. intros r w r' w' HL. apply HL. Qed.

  Lemma stays_all ids : Stays (fun _ w => Forall (fun id => cached id (fst w)) ids).
  Proof. intros r w r' w' HL. apply Forall_impl. apply HL. Qed.

  Lemma stays_and P Q : Stays P -> Stays Q -> Stays (fun r w => P r w /\ Q r w).
  Proof. intros HP HQ r w r' w' HL [? ?]. split; [eapply HP|eapply HQ]; eauto. Qed.

  Lemma follows_rows fresh meta rows : forall i P,
    Stays P ->
    (forall j, i <= j < i + length rows -> uuid_like (fresh j)) ->
    (forall l m, meta = Some l -> In m l -> meta_ok m) ->
    Forall (fun v => length v = dim) rows ->
    Follows (ivf_rows_steps C fresh meta i rows)
         (flat_map irow_acts (batch_from fresh i rows meta)) P
         (fun g w r => r = Ok (map fresh (seq i (length rows))) /\ P g w /\
            Forall (fun id => cached id (fst w)) (map fresh (seq i (length rows)))).
  Proof.
    induction rows as [|row rows IH]; intros i P HS Hu Hm HF.
    - simpl. auto.
    - cbn [ivf_rows_steps]. cbv zeta.
      change (batch_from fresh i (row :: rows) meta)
        with ((fresh i, (row, meta_of meta i)) :: batch_from fresh (Datatypes.S i) rows meta).
      cbn [flat_map irow_acts app]. rewrite row_meta_of.
      set (e := (fresh i, (row, meta_of meta i))).
      assert (length row = dim) as Hrow by now inversion HF.
      assert (Forall (fun v => length v = dim) rows) as HF' by now inversion HF.
      assert (uuid_like (fresh i)) as Hui by (apply Hu; simpl; lia).
      pose proof (meta_of_ok (V := list F) meta i Hm) as Hmi.
      cbn [pbind atomic]. intros w recs Hg HP.
      destruct (so_store C p b sz A HC recs (snd w) (fresh i) row (meta_of meta i) (proj1 Hg) Hui Hmi)
        as (s1 & E & A1).
      unfold on_sb, zoom. rewrite E.
      eexists _, (sp_put (fresh i) (row, meta_of meta i) recs), P.
      split; [|split; [auto|split]].
      + right. left. exists e. split; [reflexivity|]. auto.
      + eapply HS; [|exact HP]. intros id Hid. exact Hid.
      + apply (follows_iwrite _ _ [IAppend e]); auto.
        { intros recs' w' _ _. right. right. left. exists e. auto. }
        change (ICache e :: flat_map irow_acts (batch_from fresh (Datatypes.S i) rows meta))
          with ([ICache e] ++ flat_map irow_acts (batch_from fresh (Datatypes.S i) rows meta)).
        (* after the cache write the vector is there *)
        cbn [pbind iwrite atomic app]. intros w' recs' Hg' HP'. unfold set_ix, modify.
        assert (ieff (ICache e :: flat_map irow_acts (batch_from fresh (Datatypes.S i) rows meta))
                  (flat_map irow_acts (batch_from fresh (Datatypes.S i) rows meta)) recs' w' recs'
                  (iset_cache (dset (fresh i) row (i_cache (fst w'))) (fst w'), snd w')) as He.
        { right. right. right. left. exists e. auto. }
        eexists _, recs', (fun g w => P g w /\ cached (fresh i) (fst w)).
        split; [exact He|]. split; [apply stays_and; auto; apply stays_cached|]. split.
        * split; [eapply HS; [eapply ieff_later; exact He|exact HP']|].
          exists row. split; auto. simpl. rewrite dget_dset. now rewrite eqb_refl.
        * cbn [pbind]. rewrite <- (app_nil_r (flat_map _ _)).
          eapply follows_bind; [apply ieff_app| | |].
          -- apply (IH (Datatypes.S i) (fun g w => P g w /\ cached (fresh i) (fst w))); auto.
             ++ apply stays_and; auto. apply stays_cached.
             ++ intros j Hj. apply Hu. simpl. lia.
          -- intros r g2 w2 _ (Hr & (HPw & Hc) & Hall). split; auto. injection Hr as ->.
             split; auto. split; auto. simpl. constructor; auto.
          -- intros g2 w2 x (Hr & _). discriminate.
  Qed.

  Lemma follows_recount (P : list ent -> W -> Prop) : Stays P ->
    Follows (irecount_steps (F := F) (S := S)) [] P (fun g w r => r = Ok tt /\ P g w).
  Proof.
    intros HS. unfold irecount_steps. apply follows_iread; auto.
    intros recs w Hg HP. unfold iwrite, atomic. intros w' recs' Hg' HP'.
    unfold set_ix, modify.
    assert (ieff [] [] recs' w' recs' (iput_count (ilen (fst w)) (fst w'), snd w')) as He.
    { left. split; auto. split; auto. eauto. }
    exists [], recs', P. split; [exact He|]. split; auto. split.
    - eapply HS; [eapply ieff_later; exact He|exact HP'].
    - intros g2 w2 _ HP2. auto.
  Qed.

  Lemma follows_put id c (P : list ent -> W -> Prop) : Stays P -> tr = true ->
    (forall cs, ocs = Some cs -> c < length cs) ->
    Follows (cluster_add_steps (F := F) (S := S) c id) [IPut id] P (fun g w r => r = Ok tt /\ P g w).
  Proof.
    intros HS Ht Hc. unfold cluster_add_steps. apply follows_iread; auto.
    intros recs w Hg HP. destruct (Htr Ht) as (cs & Eo & _ & _).
    assert (Hin : forall recs w, igood recs w -> exists l, dget c (i_clusters (fst w)) = Some l /\
              In c (dkeys (i_clusters (fst w)))).
    { intros recs' w' (_ & _ & _ & _ & Hk & _). specialize (Hk Ht cs c Eo (Hc cs Eo)).
      destruct (dget c (i_clusters (fst w'))) as [l|] eqn:E; eauto.
      now apply dget_None in E. }
    destruct (Hin recs w Hg) as (l0 & El0 & _). unfold dmem. rewrite El0. cbn [pbind].
    unfold atomic. intros w' recs' Hg' HP'. unfold bind, get_ix.
    destruct (Hin recs' w' Hg') as (l & El & Hk). rewrite El. unfold set_ix, modify.
    assert (ieff [IPut id] [] recs' w' recs'
              (iset_clusters (dset c (l ++ [id]) (i_clusters (fst w'))) (fst w'), snd w')) as He.
    { right. right. right. right. exists id, c. split; auto. split; auto. split; auto.
      unfold cluster_add. now rewrite El. }
    exists [], recs', P. split; [exact He|]. split; auto. split.
    - eapply HS; [eapply ieff_later; exact He|exact HP'].
    - intros g2 w2 _ HP2. auto.
  Qed.

  Lemma follows_add id v (P : list ent -> W -> Prop) : Stays P -> tr = true -> length v = dim ->
    Follows (add_to_cluster_steps mt (S := S) id v) [IPut id] P (fun g w r => r = Ok tt /\ P g w).
  Proof.
    intros HS Ht Hv. destruct (Htr Ht) as (cs & Eo & Hpos & Hcd).
    unfold add_to_cluster_steps. apply follows_iread; auto. intros r1 w1 (_ & _ & -> & _) _.
    rewrite Ht. cbn [negb]. apply follows_iread; auto. intros r2 w2 (_ & _ & _ & -> & _) _.
    rewrite Eo. apply follows_iread; auto. intros r3 w3 (_ & _ & _ & -> & _) _. rewrite Eo.
    destruct (ivf_closest_bound mt dim Hmt Hdim v cs Hv 0 None 0 Hcd) as (c & E & Hc).
    { left. simpl. lia. }
    rewrite E. apply follows_put; auto. intros cs' Ecs. assert (cs' = cs) as -> by congruence. lia.
  Qed.

  Lemma follows_adds ids : forall P, Stays P -> tr = true ->
    (forall g w, P g w -> Forall (fun id => cached id (fst w)) ids) ->
    Follows (pforM ids (fun id => pbind (icached id) (add_to_cluster_steps mt (S := S) id)))
      (map IPut ids) P (fun g w r => r = Ok tt /\ P g w).
  Proof.
    induction ids as [|id ids IH]; intros P HS Ht Hall.
    - simpl. auto.
    - cbn [pforM map]. change (IPut id :: map IPut ids) with ([IPut id] ++ map IPut ids).
      eapply follows_bind with (Q1 := fun g w r => r = Ok tt /\ P g w); [apply ieff_app| | |].
      2:{ intros []. eapply follows_weaken; [|apply (IH P); auto].
          - intros g w _ [_ HP]. exact HP.
          - intros g w HP. specialize (Hall g w HP). now inversion Hall. }
      2:{ intros g w e [E _]. discriminate. }
      cbn [pbind icached atomic]. intros w recs Hg HP. unfold bind, get_ix.
      specialize (Hall recs w HP). destruct (Forall_inv Hall) as (v & Ev & Hv). rewrite Ev.
      unfold ret. exists [IPut id], recs, P. split; [|split; [auto|split; [auto|]]].
      + left. split; auto. split; auto. exists (i_count (fst w)). destruct w as [[] s]. reflexivity.
      + apply follows_add; auto.
  Qed.

  Lemma follows_after rounds kmeans ids (P : list ent -> W -> Prop) : Stays P ->
    (forall g w, P g w -> Forall (fun id => cached id (fst w)) ids) ->
    Follows (after_insert_steps C n_clusters mt rounds kmeans ids)
      (if tr then map IPut ids else []) P (fun g w r => r = Ok tt /\ P g w).
  Proof.
    intros HS Hall. unfold after_insert_steps. apply follows_iread; auto.
    intros r1 w1 Hg1 HP1.
    assert (Hrest : Follows (trained <~ iread i_trained ;;
                       if trained
                       then pforM ids (fun id => vector <~ icached id ;; add_to_cluster_steps mt (S := S) id vector)
                       else Return (Ok tt)) (if tr then map IPut ids else []) P
                     (fun g w r => r = Ok tt /\ P g w)).
    { apply follows_iread; auto. intros r2 w2 (_ & _ & -> & _) _.
      destruct (Bool.bool_dec tr true) as [Et|Et];
        [|apply Bool.not_true_is_false in Et]; rewrite Et.
      - apply follows_adds; auto.
      - intros g w _ HP. auto. }
    destruct (Z.leb_spec n_clusters (ilen (fst w1))) as [Hge|Hlt].
    - assert (tr = true) as Et.
      { apply Bool.not_false_is_true. intros Et. destruct Hg1 as (_ & _ & _ & _ & _ & Hl). specialize (Hl Et).
        unfold ilen in Hge. lia. }
      cbn [pbind iread atomic]. intros w recs Hg HP. unfold bind, get_ix, ret.
      pose proof Hg as (_ & _ & Etr & _). rewrite Etr, Et. cbn [negb pbind].
      exists (map IPut ids), recs, P. split; [|split; [auto|split; [auto|]]].
      + left. split; auto. split; auto. exists (i_count (fst w)). destruct w as [[] s]. reflexivity.
      + rewrite Et in Hrest. exact Hrest.
    - cbn [pbind]. exact Hrest.
  Qed.

  (** All writes of an insertion. *)
  Definition ins_acts (l : list ent) : list iact :=
    flat_map irow_acts l ++ (if tr then map IPut (map fst l) else []).

  Lemma follows_insert rounds kmeans fresh rows meta :
    (forall j, j < length rows -> uuid_like (fresh j)) ->
    (forall l m, meta = Some l -> In m l -> meta_ok m) ->
    Forall (fun v => length v = dim) rows ->
    Follows (ivf_insert_steps C n_clusters mt rounds kmeans fresh rows meta)
      (ins_acts (batch_from fresh 0 rows meta)) (fun _ _ => True)
      (fun _ _ r => r = Ok (map fresh (seq 0 (length rows)))).
  Proof.
    intros Hu Hm HF. unfold ivf_insert_steps.
    assert (Stays (fun _ _ => True)) as HT by (intros ? ? ? ? _ _; exact I).
    apply follows_iread; auto.
    intros recs w (_ & -> & _) _. cbn [negb].
    eapply follows_wrap with (Q := fun _ _ r => r = Ok (map fresh (seq 0 (length rows)))).
    { auto. }
    { intros ? ? e E. discriminate. }
    set (ids := map fresh (seq 0 (length rows))).
    set (P := fun (_ : list ent) (w : W) => Forall (fun id => cached id (fst w)) ids).
    unfold ins_acts. rewrite batch_from_keys. fold ids.
    eapply follows_bind; [apply ieff_app| | |].
    - apply (follows_rows fresh meta rows 0 (fun _ _ => True)); auto. intros j Hj. apply Hu. lia.
    - intros r. change (if tr then _ else _) with ([] ++ (if tr then map IPut ids else [])).
      apply follows_weaken with (P := fun g w => P g w /\ r = ids).
      { intros g w' _ (E & _ & Hall). injection E as ->. auto. }
      assert (Stays (fun g w => P g w /\ r = ids)) as HS.
      { intros g1 w1 g2 w2 HL [HP Er]. split; auto. eapply stays_all; eauto. }
      eapply follows_bind; [apply ieff_app| | |].
      + apply follows_recount. exact HS.
      + intros []. rewrite <- (app_nil_r (if tr then _ else _)).
        apply follows_weaken with (P := fun g w => P g w /\ r = ids); [tauto|].
        eapply follows_bind; [apply ieff_app| | |].
        * assert (Hr : r = ids -> Follows (after_insert_steps C n_clusters mt rounds kmeans r)
                     (if tr then map IPut ids else []) (fun g w => P g w /\ r = ids)
                     (fun g w r0 => r0 = Ok tt /\ (P g w /\ r = ids))).
          { intros ->. apply follows_after; auto. intros g w' [HP _]. exact HP. }
          destruct (list_eq_dec (list_eq_dec N.eq_dec) r ids) as [Er|Er]; [auto|].
          clear - Er. destruct (after_insert_steps _ _ _ _ _ _); simpl.
          -- intros g w' _ [_ E]. contradiction.
          -- intros w' g _ [_ E]. contradiction.
        * intros [] g w' _ (_ & _ & ->). auto.
        * intros g w' e [E _]. discriminate.
      + intros g w' e [E _]. discriminate.
    - intros g w' e (E & _). discriminate.
  Qed.

  (** ** All threads together *)

  (** Whole rows, then entries into clusters. *)
  Inductive iwhole : list iact -> Prop :=
  | iwhole_puts ids : iwhole (map IPut ids)
  | iwhole_row e l : iwhole l -> iwhole (IStore e :: IAppend e :: ICache e :: l).

  Definition ishape recs (acts : list iact) : Prop :=
    iwhole acts \/
    (exists e l, acts = IAppend e :: ICache e :: l /\ sp_find (fst e) recs = Some (snd e) /\ iwhole l) \/
    (exists e l, acts = ICache e :: l /\ sp_find (fst e) recs = Some (snd e) /\ iwhole l).

  (** Records still to be stored, ids stored but not yet listed, ids still to be put. *)
  Definition ifuture (acts : list iact) : list ent :=
    flat_map (fun a => match a with IStore e => [e] | _ => [] end) acts.
  Definition ipending (acts : list iact) : list pystr :=
    match acts with IAppend e :: _ => [fst e] | _ => [] end.
  Definition iputs (acts : list iact) : list pystr :=
    flat_map (fun a => match a with IPut id => [id] | _ => [] end) acts.

  Lemma ifuture_acts l : ifuture (ins_acts l) = l.
  Proof.
    unfold ins_acts, ifuture. rewrite flat_map_app.
    assert (flat_map (fun a => match a with IStore e => [e] | _ => [] end)
              (if tr then map IPut (map fst l) else []) = []) as ->.
    { destruct tr; auto. induction (map fst l); auto. }
    rewrite app_nil_r. induction l as [|e l IH]; auto. simpl. now rewrite IH.
  Qed.

  Lemma iputs_acts l : iputs (ins_acts l) = if tr then map fst l else [].
  Proof.
    unfold ins_acts, iputs. rewrite flat_map_app.
    assert (flat_map (fun a => match a with IPut id => [id] | _ => [] end) (flat_map irow_acts l) = []) as ->.
    { induction l; auto. }
    destruct tr; auto. simpl. induction (map fst l) as [|a r IH]; auto. simpl. now rewrite IH.
  Qed.

  Lemma iwhole_acts l : iwhole (ins_acts l).
  Proof.
    unfold ins_acts. induction l as [|e l IH].
    - simpl. destruct tr; apply (iwhole_puts []).
    - cbn [flat_map irow_acts app]. 
      assert (forall r, iwhole (flat_map irow_acts r ++ (if tr then map IPut (map fst (e :: l)) else []))) as Hg.
      { intros r. induction r; simpl; [|constructor; auto].
        destruct tr; [apply (iwhole_puts (fst e :: map fst l))|apply (iwhole_puts [])]. }
      constructor. apply Hg.
  Qed.

  Lemma ipending_whole l : iwhole l -> ipending l = [].
  Proof. destruct 1 as [ids|]; auto. now destruct ids. Qed.

  Lemma ishape_grow recs more acts : ishape recs acts -> ishape (recs ++ more) acts.
  Proof.
    intros [Hw|[(e & l & -> & E & Hw)|(e & l & -> & E & Hw)]].
    - now left.
    - right. left. exists e, l. repeat split; auto. now rewrite sp_find_app, E.
    - right. right. exists e, l. repeat split; auto. now rewrite sp_find_app, E.
  Qed.

  Context (ts : list nat) (Hts : NoDup ts).
  Context (total : list ent) (Htotal : NoDup (map fst total)).
  Context (Hfew : tr = false -> (Z.of_nat (length total) < n_clusters)%Z).

  Record iinv recs (w : W) (todo : nat -> list iact) : Prop := {
    ii_A : A (MkS true recs) (snd w);
    ii_init : i_init (fst w) = true;
    ii_trained : i_trained (fst w) = tr;
    ii_centroids : i_centroids (fst w) = ocs;
    ii_coh : icoh recs (i_cache (fst w));
    ii_keys : tr = true -> NoDup (dkeys (i_clusters (fst w))) /\
      forall cs c, ocs = Some cs -> (In c (dkeys (i_clusters (fst w))) <-> c < length cs);
    ii_total : Permutation (concat (map (fun t => ifuture (todo t)) ts) ++ recs) total;
    ii_ids : Permutation (concat (map (fun t => ipending (todo t)) ts) ++ i_ids (fst w))
                         (map fst recs);
    ii_puts : tr = true ->
      Permutation (concat (map (fun t => iputs (todo t)) ts) ++ concat (dvals (i_clusters (fst w))))
                  (map fst total);
    ii_shape : forall t, ishape recs (todo t);
    ii_idle : forall t, ~ In t ts -> todo t = [];
    ii_new : forall t e, In e (ifuture (todo t)) -> dmem (fst e) (i_cache (fst w)) = false
  }.

  Lemma iinv_good recs w todo : iinv recs w todo -> igood recs w.
  Proof.
    intros I. split; [apply (ii_A _ _ _ I)|]. split; [apply (ii_init _ _ _ I)|].
    split; [apply (ii_trained _ _ _ I)|]. split; [apply (ii_centroids _ _ _ I)|]. split.
    - intros Ht cs c Eo Hc. now apply (proj2 (ii_keys _ _ _ I Ht) cs c Eo).
    - intros Ht. specialize (Hfew Ht).
      pose proof (Permutation_length (ii_ids _ _ _ I)) as El1. rewrite app_length, map_length in El1.
      pose proof (Permutation_length (ii_total _ _ _ I)) as El2. rewrite app_length in El2. lia.
  Qed.

  Lemma ifuture_new recs w todo t e : iinv recs w todo -> In e (ifuture (todo t)) ->
    ~ In (fst e) (map fst recs).
  Proof.
    intros I Hin.
    assert (NoDup (map fst (concat (map (fun t => ifuture (todo t)) ts) ++ recs))) as Hnd.
    { eapply Permutation_NoDup; [|exact Htotal]. apply Permutation_map. symmetry. apply (ii_total _ _ _ I). }
    rewrite map_app in Hnd.
    apply (NoDup_apart _ _ _ Hnd). apply in_map. apply in_concat. exists (ifuture (todo t)).
    split; auto. apply in_map_iff. exists t. split; auto.
    destruct (in_dec Nat.eq_dec t ts) as [|Hn]; auto.
    rewrite (ii_idle _ _ _ I t Hn) in Hin. destruct Hin.
  Qed.

  Lemma iinv_step recs w todo t acts' recs' w' :
    iinv recs w todo -> ieff (todo t) acts' recs w recs' w' ->
    iinv recs' w' (upd todo t acts') /\ ilater recs w recs' w'.
  Proof.
    intros I He. split; [|eapply ieff_later; eauto].
    assert (Hin : acts' <> todo t -> In t ts).
    { intros Hne. destruct (in_dec Nat.eq_dec t ts) as [|Hn]; auto. exfalso. apply Hne.
      rewrite (ii_idle _ _ _ I t Hn) in *.
      destruct He as [(-> & _)|[(e & E & _)|[(e & E & _)|[(e & E & _)|(id & c & E & _)]]]]; auto; discriminate. }
    assert (Hidle : acts' <> todo t -> forall u, ~ In u ts -> upd todo t acts' u = []).
    { intros Hne u Hu. rewrite upd_other; [apply (ii_idle _ _ _ I u Hu)|].
      intros ->. auto. }
    assert (Hother : forall X (f : list iact -> list X) u, u <> t -> f (upd todo t acts' u) = f (todo u))
      by (intros X f u Hu; now rewrite upd_other).
    assert (Hlen : forall a, todo t = a :: acts' -> acts' <> todo t).
    { intros a E. rewrite E. intros Ea. apply (f_equal (@length iact)) in Ea. simpl in Ea. lia. }
    destruct He as [(-> & -> & n & ->)|
                   [(e & E & -> & Ex & HA)|[(e & E & -> & ->)|[(e & E & -> & Edim & ->)|
                    (id & c & E & -> & Hc & ->)]]]].
    - (* silent *)
      assert (forall u, upd todo t (todo t) u = todo u) as Eu.
      { intros u. unfold upd. destruct (Nat.eqb_spec u t); congruence. }
      constructor; simpl; try apply I.
      + erewrite map_ext; [apply (ii_total _ _ _ I)|]. intros u. simpl. now rewrite Eu.
      + erewrite map_ext; [apply (ii_ids _ _ _ I)|]. intros u. simpl. now rewrite Eu.
      + intros Ht. erewrite map_ext; [apply (ii_puts _ _ _ I Ht)|]. intros u. simpl. now rewrite Eu.
      + intros u. rewrite Eu. apply (ii_shape _ _ _ I).
      + intros u Hu. rewrite Eu. now apply (ii_idle _ _ _ I).
      + intros u e Hu. rewrite Eu in Hu. eapply (ii_new _ _ _ I); eauto.
    - (* store *)
      pose proof (Hlen _ E) as Hne. pose proof (Hin Hne) as Ht.
      assert (iwhole (todo t)) as Hw.
      { destruct (ii_shape _ _ _ I t) as [Hw|[(e' & l & E' & _)|(e' & l & E' & _)]]; auto;
          rewrite E in E'; discriminate. }
      rewrite E in Hw. inversion Hw as [ids Ee|e' l Hl Ee]; [destruct ids; discriminate|].
      subst e' acts'.
      assert (In e (ifuture (todo t))) as Hfe by (rewrite E; now left).
      pose proof (ifuture_new _ _ _ t e I Hfe) as Hnew.
      rewrite sp_put_fresh in * by auto.
      assert ((fst e, snd e) = e) as Ee by now destruct e. rewrite Ee in *.
      constructor; auto; try rewrite Ex; try apply I.
      + intros id v r Hd Hr. rewrite sp_find_app in Hr.
        destruct (sp_find id recs) eqn:Ef.
        * injection Hr as <-. eapply (ii_coh _ _ _ I); eauto.
        * simpl in Hr. destruct e as [k [v' m]]. simpl in *.
          destruct (eqb_spec id k) as [->|]; [|discriminate].
          pose proof (ii_new _ _ _ I t _ Hfe) as Hn. unfold dmem in Hn. simpl in Hn.
          rewrite Hd in Hn. discriminate.
      + eapply perm_trans; [|apply (ii_total _ _ _ I)]. symmetry.
        apply concat_map_upd with (t := t); auto.
        rewrite upd_same, E. simpl.
        change (flat_map _ l) with (ifuture l).
        eapply perm_trans; [apply Permutation_cons_append|]. rewrite <- app_assoc. reflexivity.
      + rewrite map_app. simpl.
        eapply perm_trans; [|apply Permutation_app_tail, (ii_ids _ _ _ I)].
        rewrite <- app_assoc. symmetry.
        apply concat_map_upd with (t := t); auto.
        rewrite upd_same, E. simpl. symmetry. apply Permutation_cons_append.
      + intros Htr'. eapply perm_trans; [|apply (ii_puts _ _ _ I Htr')]. symmetry.
        apply concat_map_upd with (t := t); auto. rewrite upd_same, E. reflexivity.
      + intros u. unfold upd. destruct (Nat.eqb_spec u t).
        * right. left. exists e, l. repeat split; auto. rewrite sp_find_app.
          apply sp_find_None in Hnew. rewrite Hnew. destruct e as [k r]. simpl.
          now rewrite eqb_refl.
        * apply ishape_grow, (ii_shape _ _ _ I).
      + intros u e' Hu. unfold upd in Hu. destruct (Nat.eqb_spec u t).
        * apply (ii_new _ _ _ I t). rewrite E. simpl. right. exact Hu.
        * eapply (ii_new _ _ _ I); eauto.
    - (* append *)
      pose proof (Hlen _ E) as Hne. pose proof (Hin Hne) as Ht.
      assert (exists l, acts' = ICache e :: l /\ sp_find (fst e) recs = Some (snd e) /\ iwhole l)
        as (l & -> & Ef & Hl).
      { destruct (ii_shape _ _ _ I t) as [Hw|[(e' & l & E' & Ef & Hl)|(e' & l & E' & _)]];
          rewrite E in *.
        - inversion Hw as [ids Ee|]. destruct ids; discriminate.
        - injection E' as <- ->. eauto.
        - discriminate. }
      constructor; simpl; auto; try apply I.
      + eapply perm_trans; [|apply (ii_total _ _ _ I)]. symmetry.
        apply concat_map_upd with (t := t); auto. rewrite upd_same, E. reflexivity.
      + eapply perm_trans; [|apply (ii_ids _ _ _ I)]. symmetry.
        apply concat_map_upd with (t := t); auto. rewrite upd_same, E. simpl.
        apply Permutation_cons_append.
      + intros Htr'. eapply perm_trans; [|apply (ii_puts _ _ _ I Htr')]. symmetry.
        apply concat_map_upd with (t := t); auto. rewrite upd_same, E. reflexivity.
      + intros u. unfold upd. destruct (Nat.eqb_spec u t); [|apply (ii_shape _ _ _ I)].
        right. right. eauto.
      + intros u e' Hu. unfold upd in Hu. destruct (Nat.eqb_spec u t).
        * apply (ii_new _ _ _ I t). rewrite E. simpl in *. exact Hu.
        * eapply (ii_new _ _ _ I); eauto.
    - (* cache *)
      pose proof (Hlen _ E) as Hne. pose proof (Hin Hne) as Ht.
      assert (sp_find (fst e) recs = Some (snd e) /\ iwhole acts') as [Ef Hl].
      { destruct (ii_shape _ _ _ I t) as [Hw|[(e' & l & E' & _)|(e' & l & E' & Ef & Hl)]];
          rewrite E in *.
        - inversion Hw as [ids Ee|]. destruct ids; discriminate.
        - discriminate.
        - injection E' as <- ->. eauto. }
      constructor; simpl; auto; try apply I.
      + intros id v r Hd Hr. rewrite dget_dset in Hd.
        destruct (eqb_spec id (fst e)) as [->|].
        * injection Hd as <-. rewrite Ef in Hr. now injection Hr as <-.
        * eapply (ii_coh _ _ _ I); eauto.
      + eapply perm_trans; [|apply (ii_total _ _ _ I)]. symmetry.
        apply concat_map_upd with (t := t); auto. rewrite upd_same, E. reflexivity.
      + eapply perm_trans; [|apply (ii_ids _ _ _ I)]. symmetry.
        apply concat_map_upd with (t := t); auto. rewrite upd_same, E. simpl.
        now rewrite ipending_whole.
      + intros Htr'. eapply perm_trans; [|apply (ii_puts _ _ _ I Htr')]. symmetry.
        apply concat_map_upd with (t := t); auto. rewrite upd_same, E. reflexivity.
      + intros u. unfold upd. destruct (Nat.eqb_spec u t); [|apply (ii_shape _ _ _ I)].
        now left.
      + intros u e' Hu. unfold dmem. rewrite dget_dset.
        assert (In e' (ifuture (todo u))) as Hu'.
        { unfold upd in Hu. destruct (Nat.eqb_spec u t); auto. subst. rewrite E. exact Hu. }
        destruct (eqb_spec (fst e') (fst e)) as [Ee|].
        * exfalso. apply (ifuture_new _ _ _ u e' I Hu'). rewrite Ee. apply In_keys_find. eauto.
        * apply (ii_new _ _ _ I u e' Hu').
    - (* put *)
      pose proof (Hlen _ E) as Hne. pose proof (Hin Hne) as Ht.
      assert (exists ids, acts' = map IPut ids) as [ids ->].
      { destruct (ii_shape _ _ _ I t) as [Hw|[(e' & l & E' & _)|(e' & l & E' & _)]];
          rewrite E in *; try discriminate.
        inversion Hw as [ids Ee|]. destruct ids as [|i ids]; [discriminate|].
        injection Ee as _ <-. eauto. }
      constructor; simpl; auto; try apply I.
      + intros Htr'. destruct (ii_keys _ _ _ I Htr') as [Hnd Hk]. split.
        * now apply nodup_cluster_add.
        * intros cs j Eo. rewrite keys_cluster_add, <- (Hk cs j Eo). split; [intros [->|]; auto|auto].
      + eapply perm_trans; [|apply (ii_total _ _ _ I)]. symmetry.
        apply concat_map_upd with (t := t); auto. rewrite upd_same, E. reflexivity.
      + eapply perm_trans; [|apply (ii_ids _ _ _ I)]. symmetry.
        apply concat_map_upd with (t := t); auto. rewrite upd_same, E. simpl.
        now rewrite ipending_whole by constructor.
      + intros Htr'. eapply perm_trans; [|apply (ii_puts _ _ _ I Htr')]. symmetry.
        apply concat_map_upd with (t := t); auto. rewrite upd_same, E. simpl.
        change (flat_map _ (map IPut ids)) with (iputs (map IPut ids)).
        eapply perm_trans; [|apply Permutation_app_head; symmetry; apply concat_cluster_add].
        eapply perm_trans; [apply Permutation_cons_append|]. rewrite <- app_assoc. reflexivity.
      + intros u. unfold upd. destruct (Nat.eqb_spec u t); [|apply (ii_shape _ _ _ I)].
        left. constructor.
      + intros u e' Hu. unfold upd in Hu. destruct (Nat.eqb_spec u t).
        * apply (ii_new _ _ _ I t). rewrite E. exact Hu.
        * eapply (ii_new _ _ _ I); eauto.
  Qed.

  (** Every schedule. *)
  Lemma ithreads {R} (Q : nat -> list ent -> W -> result R -> Prop) sched
      (ps : nat -> prog W R) w recs todo :
    iinv recs w todo ->
    (forall t, Follows (ps t) (todo t) (fun _ _ => True) (Q t)) ->
    match threads sched ps w with
    | (ps', w') => exists recs' todo',
        iinv recs' w' todo' /\
        (forall t r, ps' t = Return r -> todo' t = [] /\ Q t recs' w' r)
    end.
  Proof.
    intros I Hps.
    pose proof (threads_follow igood ieff ilater ilater_refl ilater_trans iinv iinv_good iinv_step
                  Q sched ps w recs todo I) as Hthr.
    destruct (threads sched ps w) as [ps' w'].
    destruct Hthr as (recs' & todo' & I' & _ & Hps').
    - intros t. exists (fun _ _ => True). split; [|split]; auto. intros ? ? ? ? _ _. exact Logic.I.
    - exists recs', todo'. split; auto. intros t r Er.
      destruct (Hps' t) as (P & _ & HP & Hr). rewrite Er in Hr. cbn [follows] in Hr.
      apply (Hr recs' w'); auto. eapply iinv_good; eauto.
  Qed.
End IvfRace.

(** ** The count is not looked at by a search *)

Section Blind.
  Context {F Mt S : Type} `{Num F}.
  Context (C : storage_class S (list F) Mt) (n_probes : Z) (mt : metric).
  Notation W := (ivf F * S)%type.

  (** The same up to the count. *)
  Definition recounted (n : Z) (w : W) : W := (iput_count n (fst w), snd w).

  Definition blind {R} (m : M W R) : Prop :=
    forall n w, m (recounted n w) = (fst (m w), recounted n (snd (m w))).

  Lemma blind_ret {R} (r : R) : blind (ret r).
  Proof. intros n w. reflexivity. Qed.

  Lemma blind_bind {R T} (m : M W R) (k : R -> M W T) :
    blind m -> (forall r, blind (k r)) -> blind (bind m k).
  Proof.
    intros Hm Hk n w. unfold bind. rewrite Hm. destruct (m w) as [[r|e] w1]; simpl; auto.
    apply Hk.
  Qed.

  Lemma blind_lift {R} (r : result R) : blind (lift r).
  Proof. intros n w. reflexivity. Qed.

  Lemma blind_wrap {R} E (m : M W R) : blind m -> blind (wrap E m).
  Proof. intros Hm n w. unfold wrap. rewrite Hm. now destruct (m w) as [[r|e] w1]. Qed.

  Lemma blind_sb {R} (m : M S R) : blind (on_sb m).
  Proof. intros n [x s]. unfold on_sb, zoom. simpl. now destruct (m s) as [r s1]. Qed.

  Lemma blind_fetch id : blind (ivf_fetch C id).
  Proof.
    intros n [x s]. unfold ivf_fetch, bind, get_ix, recounted. cbn [fst snd].
    change (i_cache (iput_count n x)) with (i_cache x).
    destruct (dget id (i_cache x)) as [v|]; [reflexivity|].
    unfold on_sb, zoom. simpl. destruct (sc_retrieve C id s) as [[[[v m]|]|e] s1]; reflexivity.
  Qed.

  Lemma blind_candidates q ids : blind (ivf_candidates C mt q ids).
  Proof.
    induction ids as [|id ids IH]; cbn [ivf_candidates]; [apply blind_ret|].
    apply blind_bind; [apply blind_fetch|]. intros [v|]; auto.
    apply blind_bind; [apply blind_lift|]. intros d.
    apply blind_bind; auto. intros l. apply blind_ret.
  Qed.

  Lemma blind_answer cands k : blind (ivf_answer C cands k).
  Proof.
    unfold ivf_answer. induction (slice_to k _) as [|c l IH]; cbn [mapM]; [apply blind_ret|].
    apply blind_bind.
    - unfold ivf_result. apply blind_bind; [apply blind_sb|]. intros [[v m]|]; [apply blind_ret|].
      intros n w. reflexivity.
    - intros h. apply blind_bind; auto. intros l'. apply blind_ret.
  Qed.

  Lemma blind_search q k : blind (ivf_search C n_probes mt (Vec q) k).
  Proof.
    intros n [x s].
    assert (Hb : exists body, blind body /\
              (forall n', ivf_search C n_probes mt (Vec q) k (iput_count n' x, s) = body (iput_count n' x, s)) /\
              ivf_search C n_probes mt (Vec q) k (x, s) = body (x, s)).
    { exists (if negb (i_init x) then raise EIndex
              else wrap EIndex
                (if Nat.eqb (length (i_ids x)) 0 then ret []
                 else if negb (i_trained x) then
                   candidates <- ivf_candidates C mt q (i_ids x) ;; ivf_answer C candidates k
                 else match i_centroids x with
                      | None => raise EType
                      | Some cs =>
                          ds <- lift (pair_distances mt q cs) ;;
                          candidates <- ivf_candidates C mt q
                            (probed_ids (i_clusters x) (ivf_probes n_probes ds)) ;;
                          ivf_answer C candidates k
                      end)).
      split; [|split; [intros n'; reflexivity|reflexivity]].
      destruct (negb (i_init x)); [intros n' w'; reflexivity|]. apply blind_wrap.
      destruct (length (i_ids x) =? 0); [apply blind_ret|].
      destruct (negb (i_trained x)).
      - apply blind_bind; [apply blind_candidates|]. intros l. apply blind_answer.
      - destruct (i_centroids x) as [cs|]; [|intros n' w'; reflexivity].
        apply blind_bind; [apply blind_lift|]. intros ds.
        apply blind_bind; [apply blind_candidates|]. intros l. apply blind_answer. }
    destruct Hb as (body & Hb & E1 & E2). rewrite E2. unfold recounted at 1. simpl fst. simpl snd.
    rewrite E1. apply (Hb n (x, s)).
  Qed.

  Lemma search_count q k x s n :
    fst (ivf_search C n_probes mt (Vec q) k (iput_count n x, s)) =
    fst (ivf_search C n_probes mt (Vec q) k (x, s)).
  Proof.
    change (iput_count n x, s) with (recounted n (x, s)). now rewrite (blind_search q k n (x, s)).
  Qed.
End Blind.
