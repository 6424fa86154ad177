(** Several storage objects or clients over one data directory (C128, C129). *)

From Coq Require Import String List Arith ZArith NArith Lia Bool Permutation.
From Verif Require Import PyBase BaseLemmas Payload StorageModel StorageSpec StorageRun StorageProofs.
From Verif Require Import Num ClientModel DbSpec ClientRun FlatModel SharedModel Demo DemoIndex.
Import ListNotations.
Open Scope nat_scope.
Open Scope py_scope.

(** ** Specification: one record list, and per process whether it is in service and how many
    records it knows of. *)
Section Spec.
  Context {V Mt : Type} (key : pystr -> pystr).

  Record common : Type := MkCommon {
    cm_recs : list (entry V Mt);
    cm_open : nat -> bool;
    cm_seen : nat -> nat
  }.

  (** The store as process [p] is to see it. *)
  Definition cm_store (s : common) (p : nat) : sstate V Mt := MkS (cm_open s p) (cm_recs s).

  (** Calls after which the caller knows the number of records: coming into service, storing,
      deleting something. *)
  Definition counts (s : sstate V Mt) (o : sop V Mt) : bool :=
    match o with
    | OInit => true
    | OStore id _ _ => s_open s && negb (Nat.eqb (length id) 0)
    | ODelete id =>
        s_open s && match sp_find (key id) (s_recs s) with Some _ => true | None => false end
    | _ => false
    end.

  Definition cm_next (s : common) (c : nat * sop V Mt) : common :=
    let (p, o) := c in
    let s' := sp_next true key (cm_store s p) o in
    MkCommon (s_recs s')
      (fun q => if Nat.eqb q p then s_open s' else cm_open s q)
      (fun q => if Nat.eqb q p && counts (cm_store s p) o then length (s_recs s') else cm_seen s q).

  (** The answers one store shared by all would give; the statistics tell what the caller knows. *)
  Definition cm_ans (s : common) (c : nat * sop V Mt) (r : sret V Mt) : Prop :=
    let (p, o) := c in
    match o with
    | OStats => r = RStats (if cm_open s p then Some (Z.of_nat (cm_seen s p), None) else None)
    | _ => sp_ans false None key (cm_store s p) o r
    end.

  Fixpoint cm_conforms (s : common) (h : list (nat * sop V Mt)) (rs : list (sret V Mt)) : Prop :=
    match h, rs with
    | [], [] => True
    | c :: h', r :: rs' => cm_ans s c r /\ cm_conforms (cm_next s c) h' rs'
    | _, _ => False
    end.

  (** Nothing recorded, nobody in service. *)
  Definition cm_new : common := MkCommon [] (fun _ => false) (fun _ => 0).

  (** Calls that never make or remove a record. *)
  Definition quiet (o : sop V Mt) : Prop :=
    match o with OStore _ _ _ | ODelete _ => False | _ => True end.

  (** Calls that take an object out of service. *)
  Definition leaves (o : sop V Mt) : Prop :=
    match o with OClose | OReopen => True | _ => False end.
End Spec.
Arguments common : clear implicits.

Section Proofs.
  Context {V Mt : Type} `{Payload V Mt} `{Unicode}.
  Context (dirorder : list pystr -> list pystr) (Hdir : forall l, Permutation (dirorder l) l).

  Notation stp := (sc_step (disk_class (V:=V) (Mt:=Mt) dirorder)).

  (** The cached count decides nothing but the statistics. *)
  Lemma count_free v m c c' i o :
    let x := stp (MkDisk v m c i) o in let y := stp (MkDisk v m c' i) o in
    (match o with OStats => True | _ => fst x = fst y end) /\
    d_vectors (snd x) = d_vectors (snd y) /\
    d_metadata (snd x) = d_metadata (snd y) /\
    d_init (snd x) = d_init (snd y) /\
    (d_count (snd x) = d_count (snd y) \/
     (match o with OReopen => d_init (snd x) = false | _ => d_count (snd x) = c end)).
  Proof.
    destruct o as [|id w x|id|id|id w x|l| | |]; cbn [sc_step disk_class sc_init sc_store
      sc_retrieve sc_delete sc_update sc_list sc_stats sc_close sc_reopen].
    - cbn. tauto.
    - destruct id as [|a id]; [cbn; tauto|].
      unfold disk_store, bind, get, wrap. cbn [d_init]. destruct i; [|cbn; tauto].
      unfold disk_write_vec, disk_write_meta, disk_recount, bind, modify, ret, raise.
      destruct x as [x|]; [destruct (picklable x)|]; cbn; tauto.
    - unfold disk_retrieve, bind, get, wrap. cbn [d_init]. destruct i; [|cbn; tauto].
      cbn. destruct (dget _ v) as [[w|]|]; cbn; try tauto.
      destruct (dget _ m) as [[w'|]|]; cbn; tauto.
    - unfold disk_delete, bind, get, wrap. cbn [d_init]. destruct i; [|cbn; tauto].
      cbn. destruct (dmem _ v); cbn; tauto.
    - unfold disk_update, bind, get, wrap. cbn [d_init]. destruct i; [|cbn; tauto].
      cbn [negb d_vectors]. destruct (dmem _ v); [|cbn; tauto].
      unfold disk_write_vec, disk_write_meta, disk_recount, bind, modify, ret, raise.
      destruct x as [x|]; [destruct (picklable x)|]; cbn; tauto.
    - unfold disk_list, bind, get. cbn [d_init]. destruct i; [|cbn; tauto].
      destruct l; cbn; tauto.
    - unfold disk_get_stats, bind, get. cbn [d_init]. destruct i; cbn; tauto.
    - cbn. tauto.
    - cbn. tauto.
  Qed.

  (** What the cached count becomes. *)
  Lemma count_after recs d c o :
    Rdisk recs d -> op_pickle o ->
    let a := MkS (d_init d) recs in
    let x := stp (MkDisk (d_vectors d) (d_metadata d) c (d_init d)) o in
    d_init (snd x) = true ->
    d_count (snd x) = if counts sanitize_id a o
                      then Z.of_nat (length (s_recs (sp_next true sanitize_id a o))) else c.
  Proof.
    intros R Ho. cbv zeta. intros Hin.
    pose proof (count_free (d_vectors d) (d_metadata d) c (Z.of_nat (length recs)) (d_init d) o) as E.
    cbv zeta in E. destruct E as (_ & _ & _ & Ei & _).
    assert (A : Adisk (MkS (d_init d) recs)
                  (MkDisk (d_vectors d) (d_metadata d) (Z.of_nat (length recs)) (d_init d))).
    { split; [apply Rdisk_fields; exact R|]. now split. }
    pose proof (disk_step_refines dirorder Hdir _ _ _ A Ho) as Hs.
    destruct (stp (MkDisk (d_vectors d) (d_metadata d) (Z.of_nat (length recs)) (d_init d)) o) as [r s'] eqn:Es.
    destruct Hs as (_ & _ & Hi & Hc). cbn [snd] in Ei. rewrite Ei in Hin. rewrite Hin in Hi.
    specialize (Hc (eq_sym Hi)). revert Es Hin Hc Ei. clear Hi.
    generalize (sp_next true sanitize_id (MkS (d_init d) recs) o) as a'. intros a' Es Hin Hc Ei.
    pose proof (rd_vec _ _ R) as Rv.
    assert (Hm : forall id, dmem (npy_name (sanitize_id id)) (d_vectors d) =
              match sp_find (sanitize_id id) recs with Some _ => true | None => false end).
    { intros id. rewrite sp_find_dget. unfold dmem. rewrite Rv. clear.
      induction recs as [|[k x] l IH]; [reflexivity|]. cbn [map fst snd dget].
      destruct (eqb_spec (sanitize_id id) k) as [->|Hn].
      - now rewrite eqb_refl.
      - rewrite eqb_neq; [exact IH|]. intros E. apply app_inj_tail_py in E. contradiction. }
    revert Es Hin. destruct o as [|id w x|id|id|id w x|l| | |]; cbn [sc_step disk_class sc_init sc_store
      sc_retrieve sc_delete sc_update sc_list sc_stats sc_close sc_reopen counts s_open s_recs].
    - cbn. intros Es _. injection Es as <- <-. exact Hc.
    - destruct id as [|z id].
      + cbn. rewrite andb_false_r. reflexivity.
      + unfold disk_store, bind, get, wrap. cbn [d_init]. destruct (d_init d); [|reflexivity].
        unfold disk_write_vec, disk_write_meta, disk_recount, bind, modify, ret, raise.
        destruct x as [x|].
        * cbn in Ho. rewrite Ho. cbn. intros Es _. injection Es as <- <-. exact Hc.
        * cbn. intros Es _. injection Es as <- <-. exact Hc.
    - unfold disk_retrieve, bind, get, wrap. cbn [d_init]. destruct (d_init d); [|reflexivity].
      cbn. destruct (dget _ (d_vectors d)) as [[w|]|]; cbn; try reflexivity.
      destruct (dget _ (d_metadata d)) as [[w'|]|]; reflexivity.
    - unfold disk_delete, bind, get, wrap. cbn [d_init]. destruct (d_init d); [|reflexivity].
      cbn [negb d_vectors]. rewrite Hm. cbn [andb].
      destruct (sp_find _ recs); cbn; [|reflexivity].
      intros Es _. injection Es as <- <-. exact Hc.
    - unfold disk_update, bind, get, wrap. cbn [d_init]. destruct (d_init d); [|reflexivity].
      cbn [negb d_vectors]. destruct (dmem _ (d_vectors d)); [|reflexivity].
      unfold disk_write_vec, disk_write_meta, disk_recount, bind, modify, ret, raise.
      destruct x as [x|]; [destruct (picklable x)|]; reflexivity.
    - unfold disk_list, bind, get. cbn [d_init]. destruct (d_init d); [|reflexivity].
      destruct l; reflexivity.
    - unfold disk_get_stats, bind, get. cbn [d_init]. destruct (d_init d); reflexivity.
    - reflexivity.
    - cbn. intros Es. injection Es as <- <-. discriminate.
  Qed.

  (** The directory holds the records, the objects what the specification says. *)
  Definition Rsh (a : common V Mt) (s : shared V Mt) : Prop :=
    Rdisk (cm_recs a) (sh_disk s 0) /\
    (forall p, snd (sh_own s p) = cm_open a p) /\
    (forall p, cm_open a p = true -> fst (sh_own s p) = Z.of_nat (cm_seen a p)).

  Lemma sh_step_refines a s c :
    Rsh a s -> op_pickle (snd c) ->
    let (r, s') := sh_step dirorder s c in
    cm_ans sanitize_id a c r /\ Rsh (cm_next sanitize_id a c) s'.
  Proof.
    intros (R & Ho & Hc) Hp. destruct c as [p o]. cbn [snd] in Hp.
    unfold sh_step, sh_disk. cbn [fst snd].
    assert (R' : Rdisk (cm_recs a) (MkDisk (sh_vectors s) (sh_metadata s) 0%Z (cm_open a p))).
    { exact (Rdisk_fields _ _ _ _ R). }
    pose proof (count_after (cm_recs a) _ (fst (sh_own s p)) o R' Hp) as Hcnt.
    cbv zeta in Hcnt. cbn [d_vectors d_metadata d_init] in Hcnt.
    pose proof (count_free (sh_vectors s) (sh_metadata s) (fst (sh_own s p))
                  (Z.of_nat (length (cm_recs a))) (cm_open a p) o) as E.
    cbv zeta in E.
    assert (A : Adisk (cm_store a p)
                  (MkDisk (sh_vectors s) (sh_metadata s) (Z.of_nat (length (cm_recs a))) (cm_open a p))).
    { split; [exact (Rdisk_fields _ _ _ _ R)|]. now split. }
    pose proof (disk_step_refines dirorder Hdir _ _ _ A Hp) as Hs.
    destruct (stp (MkDisk (sh_vectors s) (sh_metadata s) (Z.of_nat (length (cm_recs a))) (cm_open a p)) o)
      as [r1 d1].
    rewrite (Ho p).
    destruct (stp (MkDisk (sh_vectors s) (sh_metadata s) (fst (sh_own s p)) (cm_open a p)) o)
      as [r d] eqn:Ed.
    cbn [fst snd] in *. destruct E as (Er & Ev & Em & Ei & _).
    destruct Hs as (Hans & HR & Hi & Hn).
    split.
    - unfold cm_ans. destruct o; try (rewrite Er; exact Hans).
      cbn in Ed. unfold disk_get_stats, bind, get in Ed. cbn [d_init] in Ed.
      destruct (cm_open a p) eqn:Eo; cbn in Ed; injection Ed as <- _; [|reflexivity].
      now rewrite (Hc p Eo).
    - unfold cm_next. split; [|split].
      + cbn [cm_recs]. unfold sh_disk. cbn [sh_vectors sh_metadata].
        rewrite Ev, Em. apply Rdisk_fields. exact HR.
      + intros q. cbn [sh_own cm_open]. destruct (Nat.eqb q p); [|apply Ho].
        cbn [snd]. rewrite Ei. exact Hi.
      + intros q. cbn [sh_own cm_open cm_seen]. destruct (Nat.eqb_spec q p) as [->|Hq].
        * cbn [fst andb]. intros Hop. rewrite Hcnt by (rewrite Ei, Hi; exact Hop).
          change (MkS (cm_open a p) (cm_recs a)) with (cm_store a p).
          destruct (counts sanitize_id (cm_store a p) o) eqn:Ec; [reflexivity|].
          apply Hc. revert Hop Ec. unfold cm_store. clear.
          destruct o as [|id w x|id|id|id w x|l| | |]; cbn; try congruence;
            destruct (cm_open a p); try reflexivity; try discriminate.
        * cbn [andb]. apply Hc.
  Qed.

  Lemma sh_run_refines h : forall a s,
    Rsh a s -> Forall (fun c => op_pickle (snd c)) h ->
    cm_conforms sanitize_id a h (fst (sh_run dirorder s h)).
  Proof.
    induction h as [|c h IH]; intros a s R Hf; cbn; [exact I|].
    inversion Hf as [|? ? Hc Hh]; subst.
    pose proof (sh_step_refines a s c R Hc) as Hst.
    destruct (sh_step dirorder s c) as [r s']. destruct Hst as [Ha R'].
    specialize (IH _ s' R' Hh). destruct (sh_run dirorder s' h) as [rs s'']. cbn in *. tauto.
  Qed.

  Lemma Rsh_new : Rsh cm_new sh_new.
  Proof.
    split; [|split; [reflexivity|discriminate]].
    constructor; cbn; [constructor|reflexivity|reflexivity].
  Qed.

  (** C128: processes that share a directory and call one after another act on one store. *)
  Theorem C128_one_store_partial h :
    Forall (fun c => op_pickle (snd c)) h ->
    cm_conforms sanitize_id cm_new h (fst (sh_run dirorder sh_new h)).
  Proof. intros Hf. exact (sh_run_refines h _ _ Rsh_new Hf). Qed.

  Lemma cm_conforms_app h1 : forall (a : common V Mt) h2 rs,
    cm_conforms sanitize_id a (h1 ++ h2) rs ->
    exists r1 r2, rs = r1 ++ r2 /\ length r1 = length h1 /\
      cm_conforms sanitize_id (fold_left (cm_next sanitize_id) h1 a) h2 r2.
  Proof.
    induction h1 as [|c h1 IH]; intros a h2 rs Hc; cbn in *.
    - now exists [], rs.
    - destruct rs as [|r rs]; [contradiction|]. destruct Hc as [_ Hc].
      destruct (IH _ _ _ Hc) as (r1 & r2 & -> & Hl & Hr). exists (r :: r1), r2. cbn. auto.
  Qed.

  Lemma sp_find_put_length (k : pystr) (x y : V * option Mt) recs :
    sp_find k recs = Some y -> length (sp_put k x recs) = length recs.
  Proof. intros E. unfold sp_put. rewrite E. apply map_length. Qed.

  Lemma knows_next (a : common V Mt) p c :
    cm_open a p = true -> cm_seen a p = length (cm_recs a) ->
    (fst c = p -> ~ leaves (snd c)) -> (fst c <> p -> quiet (snd c)) ->
    cm_open (cm_next sanitize_id a c) p = true /\
    cm_seen (cm_next sanitize_id a c) p = length (cm_recs (cm_next sanitize_id a c)).
  Proof.
    intros Ho Hs Hl Hq. destruct c as [q o]. cbn [fst snd] in *. unfold cm_next, cm_store.
    cbn [cm_open cm_seen cm_recs]. destruct (Nat.eqb_spec p q) as [->|Hn].
    - specialize (Hl eq_refl). rewrite Ho. cbn [andb].
      destruct o as [|id w x|id|id|id w x|l| | |]; cbn in Hl |- *; try tauto.
      + destruct id as [|z id]; [cbn; now split|]. cbn. now split.
      + destruct (sp_find (sanitize_id id) (cm_recs a)) eqn:E; [cbn; now split|]. cbn. split; [reflexivity|].
        rewrite Hs. f_equal. unfold sp_del. symmetry.
        enough (forall l : list (entry V Mt), sp_find (sanitize_id id) l = None ->
                filter (fun e => negb (eqb (sanitize_id id) (fst e))) l = l) as Hx by now apply Hx.
        clear. induction l as [|[k x] l IH]; [reflexivity|]. cbn.
        destruct (eqb (sanitize_id id) k); [discriminate|]. cbn. intros E. now rewrite IH.
      + destruct (sp_find (sanitize_id id) (cm_recs a)) as [y|] eqn:E; [|cbn; now split].
        cbn. split; [reflexivity|]. now rewrite (sp_find_put_length _ _ _ _ E).
    - cbn [andb]. split; [exact Ho|]. rewrite Hs.
      assert (q <> p) as Hn' by congruence. specialize (Hq Hn').
      destruct o as [|id w x|id|id|id w x|l| | |]; cbn in Hq |- *; try reflexivity; try contradiction.
      destruct (cm_open a q); [|reflexivity].
      destruct (sp_find (sanitize_id id) (cm_recs a)) as [y|] eqn:E; [|reflexivity].
      cbn [s_recs]. now rewrite (sp_find_put_length _ _ _ _ E).
  Qed.

  (** C128: the statistics of a process count the records while no other process makes or removes
      any. *)
  Theorem C128_count_partial h0 h p :
    Forall (fun c => op_pickle (snd c)) h0 -> Forall (fun c => op_pickle (snd c)) h ->
    Forall (fun c => (fst c = p -> ~ leaves (snd c)) /\ (fst c <> p -> quiet (snd c))) h ->
    exists rs l,
      fst (sh_run dirorder sh_new ((h0 ++ (p, OInit) :: h) ++ [(p, OStats); (p, OList None)])) =
      rs ++ [RStats (Some (Z.of_nat (length l), None)); RIds l].
  Proof.
    intros Hh0 Hh1 Hq.
    assert (Hp : Forall (fun c => op_pickle (snd c))
                   ((h0 ++ (p, OInit) :: h) ++ [(p, OStats); (p, OList None)])).
    { apply Forall_app. split; [apply Forall_app; split; [exact Hh0|]|]; repeat constructor; auto. }
    pose proof (C128_one_store_partial _ Hp) as Hc.
    destruct (cm_conforms_app _ _ _ _ Hc) as (r1 & r2 & -> & _ & Hr). exists r1.
    clear Hc Hp. rewrite fold_left_app in Hr. cbn [fold_left] in Hr.
    revert Hr. generalize (fold_left (cm_next sanitize_id) h0 cm_new) as a0. intros a0.
    assert (Hk : cm_open (cm_next sanitize_id a0 (p, OInit)) p = true /\
                 cm_seen (cm_next sanitize_id a0 (p, OInit)) p =
                 length (cm_recs (cm_next sanitize_id a0 (p, OInit)))).
    { cbn. now rewrite Nat.eqb_refl. }
    revert Hk. generalize (cm_next sanitize_id a0 (p, OInit)) as a. clear Hh1.
    induction Hq as [|c h [Hc1 Hc2] Hq IH]; intros a [Ho Hs].
    - cbn [fold_left]. intros Hr.
      destruct r2 as [|r [|r' [|? ?]]]; cbn in Hr; try tauto.
      rewrite Nat.eqb_refl, Ho in Hr. cbn in Hr. destruct Hr as (-> & (l & Hl & _ & ->) & _).
      exists l. unfold cut. rewrite Hs. now rewrite (Permutation_length Hl), map_length.
    - cbn [fold_left]. apply IH. now apply knows_next.
  Qed.
End Proofs.

(** ** C128, statistics *)

(** Process 1 stores a record after process 0 has come into service: process 0 lists it, and
    reports that there are none. *)
Theorem C128_stats_refuted :
  exists h, Forall (fun c => op_pickle (snd c)) h /\
    fst (sh_run (Mt:=Z) demo_order sh_new (h ++ [(0, OList None); (0, OStats)])) =
    map (fun _ => RUnit) [1; 2] ++ [RBool true; RIds [py "a"]; RStats (Some (0%Z, None))].
Proof.
  exists [(0, OInit); (1, OInit); (1, OStore (py "a") [1; 2]%Z (Some 3%Z))]. split.
  - repeat constructor.
  - vm_compute. reflexivity.
Qed.

Example C128_hypotheses_met :
  let h0 := [(1, OInit); (1, OStore (py "a") [1; 2]%Z (Some 3%Z))] in
  let h := [(1, OUpdate (py "a") [4; 5]%Z None); (0, OStore (py "b") [6]%Z None); (1, OList None);
            (0, OUpdate (py "b") [7]%Z (Some 8%Z)); (1, OClose)] in
  Forall (fun c : nat * sop (list Z) Z => op_pickle (snd c)) h0 /\
  Forall (fun c : nat * sop (list Z) Z => op_pickle (snd c)) h /\
  Forall (fun c : nat * sop (list Z) Z => (fst c = 0 -> ~ leaves (snd c)) /\ (fst c <> 0 -> quiet (snd c))) h /\
  fst (sh_run demo_order sh_new ((h0 ++ (0, OInit) :: h) ++ [(0, OStats); (0, OList None); (0, ORetrieve (py "a"))])) =
  [RUnit; RBool true; RUnit; RBool true; RBool true; RIds [py "b"; py "a"]; RBool true; RUnit;
   RStats (Some (2%Z, None)); RIds [py "b"; py "a"]; RRec (Some ([4; 5]%Z, None))].
Proof.
  cbv zeta. repeat split; try (repeat constructor; cbn; tauto || congruence || lia).
  all: try (vm_compute; reflexivity).
Qed.

(** ** C129: clients *)

Section Clients.
  Context {F Mt : Type} `{Num F} `{Payload (list F) Mt} `{Unicode}.
  Context (dirorder : list pystr -> list pystr) (mt : metric).

  (** What the directory holds under an id: vector and metadata. *)
  Definition held (s : shclients F Mt) (id : pystr) (v : list F) (m : option Mt) : Prop :=
    dget (sanitize_id id ++ py ".npy") (shc_vectors s) = Some (FGood v) /\
    dget (sanitize_id id ++ py ".pkl") (shc_metadata s) =
      match m with Some m => Some (FGood m) | None => None end.

  Notation C := (disk_class (V:=list F) (Mt:=Mt) dirorder).

  Lemma retrieve_same (id : pystr) (d : disk (list F) Mt) : snd (disk_retrieve id d) = d.
  Proof.
    unfold disk_retrieve, bind, get, wrap. destruct (d_init d); [|reflexivity]. cbn [negb].
    destruct (dget _ (d_vectors d)) as [[v|]|]; try reflexivity.
    destruct (dget _ (d_metadata d)) as [[m|]|]; reflexivity.
  Qed.

  Lemma retrieve_held id (d : disk (list F) Mt) v m :
    fst (disk_retrieve id d) = Ok (Some (v, m)) ->
    dget (npy_name (sanitize_id id)) (d_vectors d) = Some (FGood v) /\
    dget (pkl_name (sanitize_id id)) (d_metadata d) =
      match m with Some m => Some (FGood m) | None => None end.
  Proof.
    unfold disk_retrieve, bind, get, wrap. destruct (d_init d); [|discriminate]. cbn [negb].
    destruct (dget _ (d_vectors d)) as [[v'|]|]; try discriminate.
    destruct (dget _ (d_metadata d)) as [[m'|]|]; try discriminate; cbn; intros E;
      injection E as <- <-; now split.
  Qed.

  Lemma load_same ids : forall w : flat F * disk (list F) Mt, snd (snd (flat_load C ids w)) = snd w.
  Proof.
    induction ids as [|k ids IH]; intros [x d]; [reflexivity|].
    cbn [flat_load]. unfold bind at 1. unfold get_ix. cbn [fst].
    destruct (dget k (f_cache x)) as [v|].
    - unfold bind. specialize (IH (x, d)). destruct (flat_load C ids (x, d)) as [[l|e] w]; exact IH.
    - unfold bind at 1. unfold on_sb, zoom. cbn [snd sc_retrieve disk_class].
      pose proof (retrieve_same k d) as E. destruct (disk_retrieve k d) as [[[[v m]|]|e] d'];
        cbn in E; subst d'.
      + unfold bind, set_ix, modify. cbn [fst snd].
        match goal with |- context [flat_load C ids ?w] => specialize (IH w); destruct (flat_load C ids w) as [[l|e] w'] end;
        exact IH.
      + apply IH.
      + reflexivity.
  Qed.

  Lemma results_held ids ds idxs : forall (w w' : flat F * disk (list F) Mt) hits,
    flat_results C ids ds idxs w = (Ok hits, w') ->
    Forall (fun h => exists v, fst (disk_retrieve (h_id h) (snd w)) = Ok (Some (v, h_meta h))) hits.
  Proof.
    unfold flat_results. induction idxs as [|i idxs IH]; intros [x d] w' hits; cbn [mapM].
    - intros E. injection E as <- _. constructor.
    - unfold bind at 1. unfold flat_result at 1.
      destruct (nth_error ids i) as [k|]; [|discriminate].
      destruct (nth_error ds i) as [dd|]; [|discriminate].
      unfold bind at 1. unfold on_sb, zoom. cbn [snd sc_retrieve disk_class].
      pose proof (retrieve_same k d) as E. destruct (disk_retrieve k d) as [[[[v m]|]|e] d'] eqn:Er;
        cbn in E; subst d'; try discriminate.
      unfold ret at 1. unfold bind. cbn [fst snd].
      destruct (mapM idxs (flat_result C ids ds) (x, d)) as [[l|e] w''] eqn:Em; [|discriminate].
      intros E. injection E as <- _. constructor.
      + exists v. cbn [h_id h_meta snd]. now rewrite Er.
      + exact (IH (x, d) _ _ Em).
  Qed.

  Lemma search_held argsort q k x (d : disk (list F) Mt) hits w' :
    flat_search C mt argsort q k (x, d) = (Ok hits, w') ->
    Forall (fun h => exists v, fst (disk_retrieve (h_id h) d) = Ok (Some (v, h_meta h))) hits.
  Proof.
    unfold flat_search, bind at 1, get_ix. cbn [fst]. destruct (f_init x); [|discriminate].
    cbn [negb]. destruct q as [q|rows|]; try discriminate.
    unfold wrap. destruct (Nat.eqb (length (f_ids x)) 0).
    { intros E. injection E as <- _. constructor. }
    cbv zeta. unfold bind at 1. pose proof (load_same (f_ids x) (x, d)) as El.
    destruct (flat_load C (f_ids x) (x, d)) as [[l|e] w]; [|discriminate].
    destruct (Nat.eqb (length l) 0).
    { intros E. injection E as <- _. constructor. }
    unfold bind, lift. destruct (matrix_distances mt q (map snd l)) as [ds|e]; [|discriminate].
    cbn [snd] in El.
    pose proof (results_held (map fst l) ds (slice_to (Z.min k (Z.of_nat (length (f_ids x)))) (argsort ds)) w) as Hr.
    destruct (flat_results C _ ds _ w) as [[hs|e] w'']; [|discriminate].
    specialize (Hr w'' hs eq_refl) as Hh. rewrite El in Hh.
    intros E. injection E as <- _. exact Hh.
  Qed.

  (** C129: whatever the processes have done before, every hit of a search is a record of the
      directory at the time of the search, with the metadata it has then. *)
  Theorem C129_hits_held_partial h p argsort q k hits :
    let s := snd (shc_run dirorder mt shc_new h) in
    fst (shc_step dirorder mt s (p, CSearch argsort q k)) = AHits hits ->
    Forall (fun x => exists v, held s (h_id x) v (h_meta x)) hits.
  Proof.
    cbv zeta. generalize (snd (shc_run dirorder mt shc_new h)) as s. intros s.
    unfold shc_step. cbn [fst snd cl_step]. unfold cl_search, guarded, on_index, bind, get, zoom.
    unfold shc_client. destruct (shc_own s p) as [[x [c i]] op].
    cbn [c_init c_index c_storage]. destruct op; cbn [negb]; [|cbn; discriminate].
    cbn [ix_search flat_class c_index c_storage].
    pose proof (search_held argsort q k x (MkDisk (shc_vectors s) (shc_metadata s) c i)) as Hh.
    destruct (flat_search _ _ _ _ _ _) as [[hs|e] w]; [|cbn; discriminate].
    cbn. intros E. injection E as <-. eapply Forall_impl; [|exact (Hh _ _ eq_refl)].
    intros a [v Hv]. exists v. exact (retrieve_held _ _ _ _ Hv).
  Qed.
End Clients.

(** What another process inserts after a client has come into service is never found by that
    client. *)
Theorem C129_unseen_refuted :
  exists h : list (nat * cop Z Z (list Z -> list nat)),
    let s := snd (shc_run demo_order MEuclidean shc_new h) in
    held s (demo_ids 97 0) [1; 2]%Z (Some 7%Z) /\
    fst (shc_step demo_order MEuclidean s (0, CSearch stable_argsort (Vec [1; 2]%Z) 5)) = AHits [] /\
    fst (shc_step demo_order MEuclidean s (1, CSearch stable_argsort (Vec [1; 2]%Z) 5)) =
      AHits [MkHit (demo_ids 97 0) 0%Z (Some 7%Z)].
Proof.
  exists [(0, CInit stable_argsort []); (1, CInit stable_argsort []);
          (1, CInsert stable_argsort (demo_ids 97) (Mat [[1; 2]%Z]) (Some [Some 7%Z]))].
  cbv zeta. split; [split|split]; vm_compute; reflexivity.
Qed.

(** What another process deletes makes every later search of a client that knew it raise, though
    the other records are there. *)
Theorem C129_deleted_elsewhere_refuted :
  exists h : list (nat * cop Z Z (list Z -> list nat)),
    let s := snd (shc_run demo_order MEuclidean shc_new h) in
    held s (demo_ids 97 1) [3; 4]%Z None /\
    fst (shc_step demo_order MEuclidean s (0, CSearch stable_argsort (Vec [3; 4]%Z) 2)) = AExn EIndex.
Proof.
  exists [(0, CInit stable_argsort []); (1, CInit stable_argsort []);
          (0, CInsert stable_argsort (demo_ids 97) (Mat [[1; 2]%Z; [3; 4]%Z]) None);
          (1, CDelete [demo_ids 97 0])].
  cbv zeta. split; [split|]; vm_compute; reflexivity.
Qed.

(** What another process updates is ranked by the old vector and shown with the new metadata. *)
Theorem C129_updated_elsewhere_refuted :
  exists h : list (nat * cop Z Z (list Z -> list nat)),
    let s := snd (shc_run demo_order MEuclidean shc_new h) in
    held s (demo_ids 97 0) [9; 2]%Z (Some 7%Z) /\
    fst (shc_step demo_order MEuclidean s (0, CSearch stable_argsort (Vec [1; 2]%Z) 2)) =
      AHits [MkHit (demo_ids 97 0) 0%Z (Some 7%Z)].
Proof.
  exists [(0, CInit stable_argsort []); (1, CInit stable_argsort []);
          (0, CInsert stable_argsort (demo_ids 97) (Mat [[1; 2]%Z]) None);
          (1, CUpdate stable_argsort (demo_ids 97 0) [9; 2]%Z (Some 7%Z))].
  cbv zeta. split; [split|]; vm_compute; reflexivity.
Qed.

Example C129_hypotheses_met :
  let h := [(0, CInit stable_argsort []);
            (0, CInsert stable_argsort (demo_ids 97) (Mat [[1; 2]%Z; [3; 4]%Z]) (Some [Some 5%Z]));
            (1, CInit stable_argsort []);
            (1, CUpdate stable_argsort (demo_ids 97 1) [3; 4]%Z (Some 6%Z))] in
  fst (shc_step demo_order MEuclidean (snd (shc_run demo_order MEuclidean shc_new h))
         (0, CSearch stable_argsort (Vec [3; 4]%Z) 1)) =
  AHits [MkHit (demo_ids 97 1) 0%Z (Some 6%Z)].
Proof. vm_compute. reflexivity. Qed.

Print Assumptions C128_one_store_partial.
Print Assumptions C128_count_partial.
Print Assumptions C128_stats_refuted.
Print Assumptions C129_hits_held_partial.
Print Assumptions C129_unseen_refuted.
Print Assumptions C129_deleted_elsewhere_refuted.
Print Assumptions C129_updated_elsewhere_refuted.
