(** A flat database on disk whose process died: what its directory looks like, and why a directory
    without unreadable records is as good as a database that never crashed. *)

From Coq Require Import List Arith ZArith NArith Lia Bool Permutation.
From Coq Require String.
Import (notations) Coq.Strings.String.
From Verif Require Import PyBase BaseLemmas Payload StorageModel StorageSpec StorageRun
  StorageProofs StorageThms StorageOk Num ClientModel DbSpec ClientRun ClientProofs FlatModel
  FlatProofs StepModel StepProofs FlatSteps FlatDiskSteps PropsCrash.
Import ListNotations.
Open Scope py_scope.

(** ** Invariants of running programs *)

Section Hold.
  Context {S : Type} (Q : S -> Prop).

  (** [Q] holds in every state the program passes through. *)
  Fixpoint hold {A} (p : prog S A) (s : S) : Prop :=
    Q s /\
    match p with
    | Return _ => True
    | Step f => match f s with (p', s') => hold p' s' end
    end.

  Lemma hold_now {A} (p : prog S A) s : hold p s -> Q s.
  Proof. destruct p; apply proj1. Qed.

  Lemma hold_run {A} (p : prog S A) s n : hold p s -> Q (run_for n p s).
  Proof.
    revert p s. induction n as [|n IH]; intros p s Ha; simpl; destruct p as [r|f]; try apply Ha.
    destruct Ha as [_ Ha]. destruct (f s) as [p' s']. auto.
  Qed.

  Lemma hold_finish {A} (p : prog S A) s : hold p s -> Q (snd (finish p s)).
  Proof.
    revert s. induction p as [r|f IH] using prog_induction; intros s; simpl; [tauto|].
    intros [_ Ha]. specialize (IH s). destruct (f s) as [p' s']. simpl in *. auto.
  Qed.

  Lemma hold_bind {A B} (p : prog S A) (k : A -> prog S B) s :
    hold p s -> (forall a s', finish p s = (Ok a, s') -> Q s' -> hold (k a) s') ->
    hold (pbind p k) s.
  Proof.
    revert s. induction p as [[a|e]|f IH] using prog_induction; intros s Ha Hk; simpl in *; auto.
    - apply Hk; tauto.
    - destruct Ha as [Hq Ha]. split; auto. specialize (IH s). destruct (f s) as [p' s'].
      simpl in IH. auto.
  Qed.

  Lemma hold_wrap {A} E (p : prog S A) s : hold p s -> hold (pwrap E p) s.
  Proof.
    revert s. induction p as [[a|e]|f IH] using prog_induction; intros s Ha; simpl in *; auto.
    destruct Ha as [Hq Ha]. split; auto. specialize (IH s). destruct (f s) as [p' s'].
    simpl in IH. auto.
  Qed.

  Lemma hold_atomic {A} (m : M S A) s : Q s -> Q (snd (m s)) -> hold (atomic m) s.
  Proof. intros H1 H2. simpl. split; auto. destruct (m s) as [r s']. simpl. auto. Qed.
End Hold.

(** A program cut short inside [p ;; k] was cut in [p], or [p] had finished. *)
Lemma run_bind {S A B} (p : prog S A) (k : A -> prog S B) n s :
  run_for n (pbind p k) s = run_for n p s \/
  exists a s' m, finish p s = (Ok a, s') /\ run_for n (pbind p k) s = run_for m (k a) s'.
Proof.
  revert n s. induction p as [[a|e]|f IH] using prog_induction; intros n s.
  - right. exists a, s, n. auto.
  - left. now destruct n.
  - destruct n as [|n]; [left; reflexivity|]. simpl. specialize (IH s n (snd (f s))).
    destruct (f s) as [p' s']. exact IH.
Qed.

Lemma run_wrap {S A} E (p : prog S A) n s : run_for n (pwrap E p) s = run_for n p s.
Proof.
  revert p s. induction n as [|n IH]; intros [[a|e]|f] s; try reflexivity.
  simpl. specialize (IH (fst (f s))). destruct (f s) as [p' s']. apply IH.
Qed.

Section Zoomed.
  Context {F Mt : Type} `{Num F} `{Payload (list F) Mt} `{Unicode}.
  Notation D := (disk (list F) Mt).
  Notation W := (flat F * disk (list F) Mt)%type.
  Notation Cl := (client (flat F) (disk (list F) Mt)).

  Lemma finish_sb {A} (p : prog D A) (w : W) :
    finish (sb_steps p) w = on_sb (finish p) w.
  Proof.
    unfold on_sb, zoom. destruct w as [x d]. revert d.
    induction p as [r|f IH] using prog_induction; intros d; simpl; [reflexivity|].
    specialize (IH d). destruct (f d) as [p' d']. apply IH.
  Qed.

  Lemma run_sb {A} (p : prog D A) n (w : W) :
    run_for n (sb_steps p) w = (fst w, run_for n p (snd w)).
  Proof.
    destruct w as [x d]. revert p d. induction n as [|n IH]; intros [r|f] d; try reflexivity.
    simpl. specialize (IH (fst (f d)) (snd (f d))). destruct (f d) as [p' d']. apply IH.
  Qed.

  Lemma finish_index {A} (p : prog W A) (c : Cl) :
    finish (index_steps p) c = on_index (finish p) c.
  Proof.
    unfold on_index, zoom. destruct c as [x d b]. simpl. revert x d.
    induction p as [r|f IH] using prog_induction; intros x d; simpl; [reflexivity|].
    specialize (IH (x, d)). destruct (f (x, d)) as [p' [x' d']]. apply IH.
  Qed.

  Lemma run_index {A} (p : prog W A) n (c : Cl) :
    run_for n (index_steps p) c =
    (let w := run_for n p (c_index c, c_storage c) in MkClient (fst w) (snd w) (c_init c)).
  Proof.
    destruct c as [x d b]. revert p x d.
    induction n as [|n IH]; intros [r|f] x d; try reflexivity.
    simpl. specialize (IH (fst (f (x, d)))). destruct (f (x, d)) as [p' [x' d']]. apply IH.
  Qed.

  Lemma finish_seen {S A} (f : A -> cret F Mt) (p : prog S A) s :
    finish (seen f p) s =
    match finish p s with
    | (Ok a, s') => (Ok (f a), s')
    | (Raise e, s') => (Ok (AExn e), s')
    end.
  Proof.
    revert s. induction p as [[a|e]|g IH] using prog_induction; intros s; simpl; auto.
    specialize (IH s). destruct (g s) as [p' s']. apply IH.
  Qed.

  Lemma run_seen {S A} (f : A -> cret F Mt) (p : prog S A) n s :
    run_for n (seen f p) s = run_for n p s.
  Proof.
    revert p s. induction n as [|n IH]; intros [[a|e]|g] s; try reflexivity.
    simpl. specialize (IH (fst (g s))). destruct (g s) as [p' s']. apply IH.
  Qed.

  Lemma finish_fwrite (f : flat F -> flat F) (w : W) :
    finish (fwrite f) w = (Ok tt, (f (fst w), snd w)).
  Proof. reflexivity. Qed.

  Lemma finish_fread {A} (f : flat F -> A) (w : W) : finish (fread f) w = (Ok (f (fst w)), w).
  Proof. reflexivity. Qed.

  Context (dirorder : list pystr -> list pystr) (mt : metric).
  Notation C := (disk_class dirorder).

  Lemma finish_rows fresh meta rows : forall i (w : W),
    finish (rows_disk_steps dirorder fresh meta i rows) w = flat_insert_rows C fresh meta i rows w.
  Proof.
    induction rows as [|row rows IH]; intros i w; [reflexivity|].
    cbn [rows_disk_steps flat_insert_rows]. rewrite finish_bind, finish_sb.
    unfold bind at 1. unfold on_sb, zoom. rewrite finish_store. cbn [sc_store disk_class].
    destruct (disk_store dirorder (fresh i) row (row_meta meta i) (snd w)) as [[b|e] d];
      [|reflexivity].
    rewrite finish_bind, finish_fwrite, finish_bind, finish_fwrite, finish_bind, IH.
    unfold bind, set_ix, modify. cbn [fst snd].
    destruct (flat_insert_rows _ _ _ _ _ _) as [[l|e] w']; reflexivity.
  Qed.

  Lemma finish_ids ids : forall ok (w : W),
    finish (ids_disk_steps dirorder ids ok) w = flat_delete_ids C ids ok w.
  Proof.
    induction ids as [|id ids IH]; intros ok w; [reflexivity|].
    cbn [ids_disk_steps flat_delete_ids]. rewrite finish_bind, finish_sb.
    unfold bind at 1. unfold on_sb, zoom. rewrite finish_delete. cbn [sc_delete disk_class].
    destruct (disk_delete dirorder id (snd w)) as [[b|e] d]; [|reflexivity].
    rewrite finish_bind, finish_fwrite, finish_bind, finish_fwrite, IH.
    unfold bind, set_ix, modify. cbn [fst snd]. reflexivity.
  Qed.

  (** The steps, run to the end, are the call. *)
  Lemma finish_client o (c : Cl) :
    finish (client_steps dirorder mt o) c =
    (let (r, c') := cl_step C (flat_class C mt) c o in (Ok r, c')).
  Proof.
    assert (Hg : forall A (f : A -> cret F Mt) (p : prog W A) (m : M W A),
      (forall w, finish p w = m w) ->
      finish (seen f (guard_steps (index_steps p))) c =
      (let (r, c') := cobs f (guarded (on_index m) c) in (Ok r, c'))).
    { intros A f p m E. rewrite finish_seen. unfold guard_steps. rewrite finish_bind, finish_atomic.
      unfold guarded, bind, get, ret. destruct (c_init c) eqn:Hi; [|reflexivity].
      cbn [negb]. rewrite finish_index. unfold on_index, zoom. rewrite E.
      destruct (m _) as [[a|e] w]; reflexivity. }
    destruct o as [o extra|o fresh arr meta|o q k|ids|o id v m| |extra|];
      try (cbn [client_steps finish]; destruct (cl_step _ _ c _) as [r c']; reflexivity).
    - destruct arr as [v|rows|];
        try (cbn [client_steps finish]; destruct (cl_step _ _ c _) as [r c']; reflexivity).
      cbn [client_steps cl_step]. unfold cl_insert. apply Hg. intros w.
      cbn [ix_insert flat_class]. unfold insert_disk_steps, flat_insert.
      rewrite finish_bind, finish_fread. unfold bind at 1. unfold get_ix.
      destruct (f_init (fst w)); [|reflexivity]. cbn [negb]. rewrite finish_wrap.
      unfold wrap. rewrite finish_bind, finish_rows. unfold bind at 1.
      destruct (flat_insert_rows _ _ _ _ _ _) as [[l|e] w']; [|reflexivity].
      rewrite finish_bind, finish_fwrite. reflexivity.
    - cbn [client_steps cl_step]. unfold cl_delete. apply Hg. intros w.
      cbn [ix_delete flat_class]. unfold delete_disk_steps, flat_delete.
      rewrite finish_bind, finish_fread. unfold bind at 1. unfold get_ix.
      destruct (f_init (fst w)); [|reflexivity]. cbn [negb]. rewrite finish_wrap.
      unfold wrap. rewrite finish_bind, finish_ids. unfold bind at 1.
      destruct (flat_delete_ids _ _ _ _) as [[l|e] w']; [|reflexivity].
      rewrite finish_bind, finish_fwrite. reflexivity.
    - cbn [client_steps cl_step]. unfold cl_update. apply Hg. intros w.
      cbn [ix_update flat_class]. unfold update_disk_steps, flat_update.
      rewrite finish_bind, finish_fread. unfold bind at 1. unfold get_ix.
      destruct (f_init (fst w)); [|reflexivity]. cbn [negb]. rewrite finish_wrap.
      unfold wrap. rewrite finish_bind, finish_sb. unfold bind at 1. unfold on_sb, zoom.
      rewrite finish_update. cbn [sc_update disk_class].
      destruct (disk_update id v m (snd w)) as [[b|e] d]; [|reflexivity].
      destruct b; [|reflexivity]. cbn [negb]. rewrite finish_bind, finish_fwrite. reflexivity.
  Qed.
End Zoomed.

(** ** Directories *)

Section Directory.
  Context {V Mt : Type} `{Payload V Mt} `{Unicode}.
  Implicit Types d : disk V Mt.

  (** The ids a new process finds. *)
  Definition listing d : list pystr := map stem4 (dkeys (d_vectors d)).

  (** Every vector file is named by a uuid, and no name occurs twice. *)
  Definition tidy d : Prop :=
    NoDup (dkeys (d_vectors d)) /\
    Forall (fun n => exists k, uuid_like k /\ n = npy_name k) (dkeys (d_vectors d)).

  (** The record of an id can be read. *)
  Definition readable d (k : pystr) : Prop := exists x, reading (files k d) = Ok (Some x).

  (** All ids found can be read. *)
  Definition whole d : Prop := forall k, In k (listing d) -> readable d k.

  (** The readable records, in directory order. *)
  Definition records d : list (entry V Mt) :=
    flat_map (fun k => match reading (files k d) with Ok (Some x) => [(k, x)] | _ => [] end)
             (listing d).

  Lemma tidy_npy d : tidy d -> dkeys (d_vectors d) = map npy_name (listing d).
  Proof.
    intros [_ HF]. unfold listing. rewrite map_map. rewrite <- (map_id (dkeys (d_vectors d))) at 1.
    apply map_ext_in. intros n Hn. rewrite Forall_forall in HF. destruct (HF n Hn) as (k & _ & ->).
    now rewrite stem4_npy.
  Qed.

  Lemma listing_In d k : tidy d -> (In k (listing d) <-> dmem (npy_name k) (d_vectors d) = true).
  Proof.
    intros T. split; intros Hk.
    - destruct (dmem _ _) eqn:E; auto. exfalso. apply dmem_false, dget_None in E. apply E.
      rewrite tidy_npy by auto. now apply in_map.
    - assert (In (npy_name k) (dkeys (d_vectors d))) as Hn.
      { unfold dmem in Hk. destruct (dget _ _) eqn:E; [|discriminate]. apply dget_In. eauto. }
      rewrite tidy_npy in Hn by auto. apply in_map_iff in Hn as (k' & E & Hk').
      apply app_inj_tail_py in E. congruence.
  Qed.

  Lemma listing_uuid d k : tidy d -> In k (listing d) -> uuid_like k.
  Proof.
    intros [_ HF] Hk. unfold listing in Hk. apply in_map_iff in Hk as (n & E & Hn).
    rewrite Forall_forall in HF. destruct (HF n Hn) as (k' & Hu & ->).
    rewrite stem4_npy in E. congruence.
  Qed.

  Lemma listing_NoDup d : tidy d -> NoDup (listing d).
  Proof.
    intros T. pose proof (proj1 T) as Hnd. rewrite tidy_npy in Hnd by auto.
    now apply NoDup_map_inv in Hnd.
  Qed.

  Lemma listing_length d : length (listing d) = length (d_vectors d).
  Proof. unfold listing, dkeys. now rewrite !map_length. Qed.

  Lemma flat_map_keys {B} (f : pystr -> option B) (l : list pystr) :
    map fst (flat_map (fun k => match f k with Some x => [(k, x)] | None => [] end) l) =
    filter (fun k => match f k with Some _ => true | None => false end) l.
  Proof.
    induction l as [|k l IH]; simpl; auto. destruct (f k); simpl; now rewrite IH.
  Qed.

  Definition found d (k : pystr) : option (V * option Mt) :=
    match reading (files k d) with Ok (Some x) => Some x | _ => None end.

  Lemma records_found d :
    records d = flat_map (fun k => match found d k with Some x => [(k, x)] | None => [] end) (listing d).
  Proof.
    unfold records, found. apply flat_map_ext. intros k.
    now destruct (reading (files k d)) as [[x|]|e].
  Qed.

  Lemma records_keys d : map fst (records d) =
    filter (fun k => match found d k with Some _ => true | None => false end) (listing d).
  Proof. rewrite records_found. apply flat_map_keys. Qed.

  Lemma records_nd d : tidy d -> NoDup (map fst (records d)).
  Proof. intros T. rewrite records_keys. apply NoDup_filter. now apply listing_NoDup. Qed.

  Lemma records_In d k x : In (k, x) (records d) <-> In k (listing d) /\ found d k = Some x.
  Proof.
    rewrite records_found, in_flat_map. split.
    - intros (k' & Hk & Hx). destruct (found d k') eqn:E; [|destruct Hx].
      destruct Hx as [Hx|[]]. injection Hx as -> ->. auto.
    - intros [Hk E]. exists k. split; auto. rewrite E. now left.
  Qed.

  (** The records are what is read, id by id. *)
  Lemma records_find d k : tidy d -> sp_find k (records d) = found d k.
  Proof.
    intros T. destruct (found d k) as [x|] eqn:E.
    - rewrite sp_find_dget. apply In_dget; [now apply records_nd|].
      apply records_In. split; auto. apply listing_In; auto.
      unfold found, reading, files in E. unfold dmem.
      destruct (dget (npy_name k) (d_vectors d)); [auto|discriminate].
    - apply sp_find_None. intros Hin. apply in_map_iff in Hin as ([k' x] & Ek & Hin).
      simpl in Ek. subst. apply records_In in Hin as [_ Hf]. congruence.
  Qed.

  Lemma whole_keys d : whole d -> map fst (records d) = listing d.
  Proof.
    intros Hw. rewrite records_keys. unfold whole in Hw. induction (listing d) as [|k l IH]; auto.
    simpl. destruct (Hw k (or_introl eq_refl)) as [x Ex]. unfold found at 1. rewrite Ex.
    f_equal. apply IH. intros k' Hk. apply Hw. now right.
  Qed.

  (** *** Metadata files without a vector file do not matter *)

  (** [d] may have metadata files that [d0] has not, under names without a vector. *)
  Definition orphans d0 d : Prop :=
    d_vectors d0 = d_vectors d /\ d_count d0 = d_count d /\ d_init d0 = d_init d /\
    forall k, dmem (npy_name k) (d_vectors d) = true ->
      dget (pkl_name k) (d_metadata d0) = dget (pkl_name k) (d_metadata d).

  Context (dirorder : list pystr -> list pystr)
          (Hdir : forall l, Permutation (dirorder l) l).
  Notation DC := (disk_class dirorder).

  Lemma orphans_write k v (m : option Mt) d0 d : orphans d0 d ->
    let (r0, e0) := (disk_write_vec k v ;;; disk_write_meta k m) d0 in
    let (r, e) := (disk_write_vec k v ;;; disk_write_meta k m) d in
    r0 = r /\ orphans e0 e.
  Proof.
    intros (Ev & Ec & Ei & Em). destruct d0 as [v0 m0 c0 i0], d as [v1 m1 c1 i1]. simpl in *. subst.
    unfold bind, disk_write_vec, modify. simpl.
    assert (Hm : forall m0' m1',
      (forall k', k' <> k -> dget (pkl_name k') m0 = dget (pkl_name k') m1 ->
                  dget (pkl_name k') m0' = dget (pkl_name k') m1') ->
      dget (pkl_name k) m0' = dget (pkl_name k) m1' ->
      orphans (MkDisk (dset (npy_name k) (FGood v) v1) m0' c1 i1)
              (MkDisk (dset (npy_name k) (FGood v) v1) m1' c1 i1)).
    { intros m0' m1' Ho Hk. repeat split; simpl. intros k'. destruct (eqb_spec k' k) as [->|Hn]; auto.
      unfold dmem. rewrite dget_dset_other by now apply npy_other. intros Hin.
      apply Ho; auto. }
    destruct m as [m|]; simpl; unfold bind, modify; simpl.
    - destruct (picklable m); simpl; split; auto; apply Hm; intros;
        rewrite ?dget_dset_same, ?dget_dset_other by (now apply pkl_other); auto.
    - split; auto. apply Hm; intros; rewrite ?dget_ddel_same, ?dget_ddel_other by (now apply pkl_other); auto.
  Qed.

  Lemma orphans_recount d0 d : orphans d0 d ->
    orphans (snd (disk_recount dirorder d0)) (snd (disk_recount dirorder d)).
  Proof.
    intros (Ev & Ec & Ei & Em). repeat split; simpl; auto. unfold glob_npy. now rewrite Ev.
  Qed.

  Lemma orphans_step d0 d o : orphans d0 d ->
    let (r0, e0) := sc_step DC d0 o in
    let (r, e) := sc_step DC d o in
    r0 = r /\ orphans e0 e.
  Proof.
    intros HO. pose proof HO as (Ev & Ec & Ei & Em).
    destruct o as [|id v m|id|id|id v m|limit| | |]; cbn [sc_step].
    - cbn. split; auto. repeat split; simpl; auto. unfold glob_npy. now rewrite Ev.
    - cbn [sc_store disk_class]. destruct id as [|c id]; [split; auto|]. unfold disk_store.
      unfold bind, get, wrap. rewrite Ei. destruct (negb (d_init d)); [split; auto|].
      pose proof (orphans_write (sanitize_id (c :: id)) v m d0 d HO) as Hw.
      unfold wrap, bind in *. unfold disk_write_vec, modify in *.
      destruct (disk_write_meta _ m _) as [[u0|x0] e0], (disk_write_meta _ m _) as [[u|x] e];
        destruct Hw as [Er Hw]; try discriminate; cbn.
      + split; auto. apply (orphans_recount _ _ Hw).
      + split; auto.
    - cbn. unfold disk_retrieve, bind, get. rewrite Ei. destruct (negb (d_init d)); [split; auto|].
      unfold wrap. rewrite Ev.
      destruct (dget (npy_name (sanitize_id id)) (d_vectors d)) as [[v|]|] eqn:E; try (split; auto; fail).
      rewrite Em by (unfold dmem; now rewrite E).
      destruct (dget (pkl_name _) _) as [[m|]|]; split; auto.
    - cbn. unfold disk_delete, bind, get, wrap. rewrite Ei. destruct (negb (d_init d)); [split; auto|].
      unfold modify. cbn. rewrite Ev.
      assert (orphans (MkDisk (ddel (npy_name (sanitize_id id)) (d_vectors d))
                         (ddel (pkl_name (sanitize_id id)) (d_metadata d0)) (d_count d0) (d_init d))
                      (MkDisk (ddel (npy_name (sanitize_id id)) (d_vectors d))
                         (ddel (pkl_name (sanitize_id id)) (d_metadata d)) (d_count d) (d_init d))) as HO'.
      { repeat split; simpl; auto. intros k. unfold dmem.
        destruct (eqb_spec k (sanitize_id id)) as [->|Hn]; [now rewrite dget_ddel_same|].
        rewrite dget_ddel_other by now apply npy_other. intros Hin.
        rewrite !dget_ddel_other by now apply pkl_other. now apply Em. }
      destruct (dmem _ _); cbn; rewrite ?Ei; split; auto.
      apply (orphans_recount _ _ HO').
    - cbn. unfold disk_update, bind, get, wrap. rewrite Ei. destruct (negb (d_init d)); [split; auto|].
      rewrite Ev. destruct (dmem (npy_name (sanitize_id id)) (d_vectors d)); [|split; auto].
      cbn [negb]. pose proof (orphans_write (sanitize_id id) v m d0 d HO) as Hw.
      unfold bind in *. unfold disk_write_vec, modify in *.
      destruct (disk_write_meta _ m _) as [[u0|x0] e0], (disk_write_meta _ m _) as [[u|x] e];
        destruct Hw as [Er Hw]; try discriminate; cbn; split; auto.
    - cbn. unfold disk_list, bind, get. rewrite Ei. destruct (negb (d_init d)); [split; auto|].
      unfold glob_npy. rewrite Ev. destruct limit; split; auto.
    - cbn. unfold disk_get_stats, bind, get. rewrite Ei. destruct (negb (d_init d)); [split; auto|].
      cbn. rewrite Ec. split; auto.
    - cbn. split; auto. repeat split; simpl; auto.
    - cbn. split; auto. repeat split; simpl; auto.
  Qed.

  (** The abstraction of the disk backend, up to orphans. *)
  Definition Adisk_o (a : sstate V Mt) d : Prop := exists d0, orphans d0 d /\ Adisk_u a d0.

  Lemma disk_ok_o : storage_ok DC true false None Adisk_o.
  Proof.
    destruct (disk_ok dirorder Hdir) as [Hnd Hst]. split.
    - intros a d (d0 & _ & HA). eauto.
    - intros a d o (d0 & HO & HA) Ho Hu. specialize (Hst a d0 o HA Ho Hu).
      pose proof (orphans_step d0 d o HO) as Hs.
      destruct (sc_step DC d0 o) as [r0 e0], (sc_step DC d o) as [r e].
      destruct Hs as [<- HO']. destruct Hst as [Ha HA']. split; auto. exists e0. auto.
  Qed.

  (** A tidy directory without unreadable records is in order. *)
  Lemma whole_Adisk d : tidy d -> whole d ->
    (d_init d = true -> d_count d = Z.of_nat (length (d_vectors d))) ->
    Adisk_o (MkS (d_init d) (records d)) d.
  Proof.
    intros T Hw Hc.
    pose (live := fun e : pystr * fcontent Mt => existsb (fun k => eqb (fst e) (pkl_name k)) (listing d)).
    exists (MkDisk (d_vectors d) (filter live (d_metadata d)) (d_count d) (d_init d)).
    assert (Hf : forall k, dget (pkl_name k) (filter live (d_metadata d)) =
                           if memb k (listing d) then dget (pkl_name k) (d_metadata d) else None).
    { intros k. assert (Hlive : forall x, live (pkl_name k, x) = memb k (listing d)).
      { intros x. unfold live. simpl. induction (listing d) as [|k' l IH]; simpl; auto.
        destruct (eqb_spec k k') as [->|Hn].
        - now rewrite eqb_refl.
        - rewrite eqb_neq by now apply pkl_other. exact IH. }
      induction (d_metadata d) as [|[n x] l IH]; simpl; [now destruct (memb _ _)|].
      destruct (eqb_spec (pkl_name k) n) as [<-|Hn].
      - rewrite Hlive. destruct (memb k (listing d)) eqn:E; simpl.
        + now rewrite eqb_refl.
        + exact IH.
      - destruct (live (n, x)); simpl; [rewrite eqb_neq by auto|]; exact IH. }
    split.
    - repeat split; simpl; auto. intros k Hk. rewrite Hf. apply listing_In in Hk; auto.
      apply memb_In in Hk. now rewrite Hk.
    - split.
      + split; [|split; simpl; auto].
        * constructor; simpl.
          -- now apply records_nd.
          -- assert (Hg : forall k, In k (listing d) -> exists x, found d k = Some x /\
                       dget (npy_name k) (d_vectors d) = Some (FGood (fst x))).
             { intros k Hk. destruct (Hw k Hk) as [x Ex]. exists x. unfold found. rewrite Ex.
               split; auto. unfold reading, files in Ex.
               destruct (dget (npy_name k) (d_vectors d)) as [[v|]|]; try discriminate.
               destruct (dget (pkl_name k) (d_metadata d)) as [[m|]|]; try discriminate;
                 injection Ex as <-; reflexivity. }
             rewrite records_found. unfold listing.
             assert (Hsub : forall l, incl l (d_vectors d) -> l =
               map (fun e => (npy_name (fst e), FGood (fst (snd e))))
                 (flat_map (fun k => match found d k with Some x => [(k, x)] | None => [] end)
                    (map stem4 (dkeys l)))).
             { induction l as [|[n y] l IH]; intros Hl; simpl; auto.
               assert (In (n, y) (d_vectors d)) as Hn by (apply Hl; now left).
               assert (In (stem4 n) (listing d) /\ n = npy_name (stem4 n)) as [Hin En].
               { assert (In n (dkeys (d_vectors d))) as Hn' by (apply (in_map fst) in Hn; exact Hn).
                 split; [now apply in_map|]. destruct T as [_ HF]. rewrite Forall_forall in HF.
                 destruct (HF n Hn') as (k & _ & ->). now rewrite stem4_npy. }
               destruct (Hg _ Hin) as (x & Ex & Ed). rewrite Ex. simpl. rewrite <- En in *.
               apply In_dget in Hn; [|apply T]. rewrite Hn in Ed. injection Ed as ->.
               f_equal. apply IH. intros z Hz. apply Hl. now right. }
             apply Hsub. apply incl_refl.
          -- intros k. rewrite Hf. rewrite <- sp_find_dget, records_find by auto.
             destruct (memb k (listing d)) eqn:E.
             ++ apply memb_In in E. destruct (Hw k E) as [x Ex]. unfold found. rewrite Ex.
                unfold reading, files in Ex. destruct (dget (npy_name k) (d_vectors d)) as [[v|]|]; try discriminate.
                destruct (dget (pkl_name k) (d_metadata d)) as [[m|]|]; try discriminate;
                  injection Ex as <-; reflexivity.
             ++ replace (found d k) with (@None (V * option Mt)); auto. unfold found, reading, files.
                assert (dmem (npy_name k) (d_vectors d) = false) as Em.
                { destruct (dmem _ _) eqn:E'; auto. apply listing_In in E'; auto.
                  apply memb_In in E'. congruence. }
                apply dmem_false in Em. now rewrite Em.
        * intros Ho. rewrite Hc by auto. f_equal. rewrite <- listing_length, <- whole_keys by auto.
          now rewrite map_length.
      + unfold keys_uuid. simpl. rewrite whole_keys by auto. rewrite Forall_forall. intros k Hk.
        now apply listing_uuid in Hk.
  Qed.

  Lemma glob_tidy d : tidy d ->
    Permutation (map stem4 (glob_npy dirorder d)) (listing d) /\
    length (glob_npy dirorder d) = length (d_vectors d).
  Proof.
    intros T. unfold glob_npy.
    assert (Hf : filter (ends_with (py ".npy")) (dirorder (dkeys (d_vectors d))) =
                 dirorder (dkeys (d_vectors d))).
    { assert (Forall (fun x => ends_with (py ".npy") x = true) (dirorder (dkeys (d_vectors d)))) as HF.
      { eapply Permutation_Forall; [symmetry; apply Hdir|].
        eapply Forall_impl; [|apply T]. intros n (k & _ & ->). apply ends_with_npy. }
      revert HF. generalize (dirorder (dkeys (d_vectors d))). induction l as [|x l IH]; simpl; auto.
      intros HF. inversion HF as [|? ? Hx Hl]; subst. rewrite Hx. f_equal. auto. }
    rewrite Hf. split.
    - apply Permutation_map, Hdir.
    - rewrite (Permutation_length (Hdir _)). unfold dkeys. now rewrite map_length.
  Qed.

  (** *** Deletion *)

  Lemma tidy_ddel d k m c b : tidy d ->
    tidy (MkDisk (ddel (npy_name k) (d_vectors d)) m c b).
  Proof.
    intros [Hnd HF]. split; simpl; [now apply NoDup_dkeys_ddel|].
    rewrite Forall_forall in *. intros n Hn. apply In_dkeys_ddel in Hn as [_ Hn]. auto.
  Qed.

  Lemma dkeys_ddel (k : pystr) {B} (l : dict pystr B) :
    dkeys (ddel k l) = filter (fun n => negb (eqb k n)) (dkeys l).
  Proof.
    unfold ddel, dkeys. induction l as [|[n x] l IH]; simpl; auto.
    destruct (eqb k n); simpl; [exact IH|]. f_equal. exact IH.
  Qed.
End Directory.
