(** Properties C08 and C09: the process dies inside a call of the disk backend. *)

From Coq Require Import List Arith ZArith NArith Lia Bool Permutation.
From Coq Require String.
Import (notations) Coq.Strings.String.
From Verif Require Import PyBase BaseLemmas Payload StorageModel StorageSpec StorageRun
  StorageProofs StorageThms StepModel StepProofs Demo.
Import ListNotations.

(** ** Histories with crashes *)

(** What happens to a disk backend: a call that runs to its end, or a call in which the process
    dies after [n] steps, followed by the start of a new process over the same directory. *)
Inductive happening (V Mt : Type) : Type :=
| Call (o : sop V Mt)
| Crash (o : sop V Mt) (n : nat).
Arguments Call {V Mt} o.
Arguments Crash {V Mt} o n.

Section Crash.
  Context {V Mt : Type} `{Payload V Mt} `{Unicode}.
  Context (dirorder : list pystr -> list pystr).

  (** The steps of a call; only store, update and delete change files. *)
  Definition steps_of (o : sop V Mt) : prog (disk V Mt) bool :=
    match o with
    | OStore id v m => store_steps dirorder id v m
    | OUpdate id v m => update_steps id v m
    | ODelete id => delete_steps dirorder id
    | _ => Return (Ok true)
    end.

  (** The backend object after a happening, after a history. *)
  Definition happens (s : disk V Mt) (h : happening V Mt) : disk V Mt :=
    match h with
    | Call o => snd (sc_step (disk_class dirorder) s o)
    | Crash o n => restart (run_for n (steps_of o) s)
    end.

  Definition happened (hs : list (happening V Mt)) : disk V Mt :=
    fold_left happens hs (disk_new [] []).

  (** ** What is certain about one id

      Whether the backend accepts calls, and the record of the id if it is certain.  A crashed
      write of the id makes it uncertain; a completed store or delete makes it certain again.
      Happenings to other ids do not matter. *)
  Definition certain_next (same : pystr -> bool)
      (st : bool * option (option (V * option Mt))) (h : happening V Mt)
      : bool * option (option (V * option Mt)) :=
    let (open, cur) := st in
    match h with
    | Call OInit => (true, cur)
    | Call OClose | Call OReopen => (false, cur)
    | Call (OStore [] _ _) => st
    | Call (OStore j v m) => if open && same j then (open, Some (Some (v, m))) else st
    | Call (OUpdate j v m) =>
        match cur with
        | Some (Some _) => if open && same j then (open, Some (Some (v, m))) else st
        | _ => st
        end
    | Call (ODelete j) => if open && same j then (open, Some None) else st
    | Call (ORetrieve _) | Call (OList _) | Call OStats => st
    | Crash (OStore j _ _) _ | Crash (OUpdate j _ _) _ | Crash (ODelete j) _ =>
        (false, if open && same j then None else cur)
    | Crash _ _ => (false, cur)
    end.

  Definition certain (same : pystr -> bool) (hs : list (happening V Mt))
      : bool * option (option (V * option Mt)) :=
    fold_left (certain_next same) hs (false, Some None).

  (** Completed calls get metadata that can be pickled. *)
  Definition fine (h : happening V Mt) : Prop :=
    match h with Call o => op_pickle o | Crash _ _ => True end.

  (** ** Proofs *)

  (** The files of one name. *)
  Definition files (k : pystr) (s : disk V Mt) :=
    (dget (npy_name k) (d_vectors s), dget (pkl_name k) (d_metadata s)).

  (** What [retrieve] makes of them. *)
  Definition reading (f : option (fcontent V) * option (fcontent Mt))
      : result (option (V * option Mt)) :=
    match f with
    | (None, _) => Ok None
    | (Some (FGood v), None) => Ok (Some (v, None))
    | (Some (FGood v), Some (FGood m)) => Ok (Some (v, Some m))
    | _ => Raise EStorage
    end.

  Lemma read_reading s id : d_init s = true ->
    read (disk_class dirorder) s id = reading (files (sanitize_id id) s).
  Proof.
    intros Hi. unfold read. simpl. unfold disk_retrieve, bind, get, wrap. rewrite Hi. simpl.
    unfold files, reading.
    destruct (dget (npy_name _) _) as [[v|]|]; auto.
    destruct (dget (pkl_name _) _) as [[m|]|]; auto.
  Qed.

  Lemma read_closed s id : d_init s = false ->
    read (disk_class dirorder) s id = Raise EStorage.
  Proof.
    intros Hi. unfold read. simpl. unfold disk_retrieve, bind, get. rewrite Hi. reflexivity.
  Qed.

  Lemma steps_others o n s :
    match o with
    | OStore id _ _ | OUpdate id _ _ | ODelete id =>
        others (sanitize_id id) s (run_for n (steps_of o) s)
    | _ => run_for n (steps_of o) s = s
    end.
  Proof.
    destruct o; simpl steps_of; try (now destruct n).
    - apply (frame_run _ (others_refl _) (others_trans _)). apply frame_store.
    - apply (frame_run _ (others_refl _) (others_trans _)). apply frame_delete.
    - apply (frame_run _ (others_refl _) (others_trans _)). apply frame_update.
  Qed.

  Lemma files_others k k' s s' : others k s s' -> k' <> k -> files k' s' = files k' s.
  Proof. intros [_ Ho] Hk. unfold files. destruct (Ho k' Hk) as [-> ->]. reflexivity. Qed.

  (** The effect of completed calls on the files of one name. *)
  Definition put_files (v : V) (m : option Mt) : option (fcontent V) * option (fcontent Mt) :=
    (Some (FGood v), option_map FGood m).

  Lemma write_files k v (m : option Mt) s : meta_pickle m ->
    exists s', (_ <- disk_write_vec k v ;; disk_write_meta k m) s = (Ok tt, s') /\
      files k s' = put_files v m /\ d_init s' = d_init s.
  Proof.
    intros Hm. unfold bind, disk_write_vec, modify. destruct m as [m|]; simpl in *.
    - unfold bind, modify. rewrite Hm. eexists. split; [reflexivity|]. simpl. split; auto.
      unfold files, put_files. simpl. now rewrite !dget_dset_same.
    - unfold modify. eexists. split; [reflexivity|]. simpl. split; auto.
      unfold files, put_files. simpl. now rewrite !dget_dset_same, dget_ddel_same.
  Qed.

  Lemma store_files id v (m : option Mt) s :
    meta_pickle m -> d_init s = true -> id <> [] ->
    files (sanitize_id id) (snd (disk_store dirorder id v m s)) = put_files v m.
  Proof.
    intros Hm Hi Hn. destruct id as [|c id]; [congruence|].
    unfold disk_store, bind at 1, get. rewrite Hi. cbv beta iota delta [negb].
    destruct (write_files (sanitize_id (c :: id)) v m s Hm) as [s' [E [Ef Ei]]].
    revert E. unfold wrap, bind. destruct (disk_write_vec _ v s) as [[u|e] s1]; [|discriminate].
    intros ->. simpl. exact Ef.
  Qed.

  Lemma update_files id v (m : option Mt) s : meta_pickle m -> d_init s = true ->
    files (sanitize_id id) (snd (disk_update id v m s)) =
    match fst (files (sanitize_id id) s) with
    | Some _ => put_files v m
    | None => files (sanitize_id id) s
    end.
  Proof.
    intros Hm Hi. unfold disk_update, bind at 1, get. rewrite Hi. cbv beta iota delta [negb].
    unfold files at 2 3. simpl fst. unfold dmem.
    destruct (dget (npy_name (sanitize_id id)) (d_vectors s)) eqn:E; simpl; auto.
    - destruct (write_files (sanitize_id id) v m s Hm) as [s' [E' [Ef Ei]]].
      revert E'. unfold wrap, bind.
      destruct (disk_write_vec _ v s) as [[u|e] s1]; [|discriminate]. intros ->. exact Ef.
    - unfold files. now rewrite E.
  Qed.

  Lemma delete_files id (s : disk V Mt) : d_init s = true ->
    files (sanitize_id id) (snd (disk_delete dirorder id s)) = (None, None).
  Proof.
    intros Hi. unfold disk_delete, bind at 1, get. rewrite Hi. cbv beta iota delta [negb].
    unfold wrap, bind, modify. destruct (dmem _ _); simpl; unfold files; simpl;
      now rewrite !dget_ddel_same.
  Qed.


  (** The flag and the other files after a completed call. *)
  Lemma finish_others {A} k (p : prog (disk V Mt) A) s :
    frame (others k) p -> others k s (snd (finish p s)).
  Proof.
    revert s. induction p as [r|f IH] using prog_induction; intros s Hp; simpl.
    - apply others_refl.
    - simpl in Hp. specialize (Hp s). specialize (IH s). destruct (f s) as [p' s'].
      destruct Hp as [HR Hp]. eapply others_trans; eauto.
  Qed.

  Lemma store_others id v m (s : disk V Mt) :
    others (sanitize_id id) s (snd (disk_store dirorder id v m s)).
  Proof. rewrite <- finish_store. apply finish_others, frame_store. Qed.

  Lemma update_others id v m (s : disk V Mt) : others (sanitize_id id) s (snd (disk_update id v m s)).
  Proof. rewrite <- finish_update. apply finish_others, frame_update. Qed.

  Lemma delete_others id (s : disk V Mt) : others (sanitize_id id) s (snd (disk_delete dirorder id s)).
  Proof. rewrite <- finish_delete. apply finish_others, frame_delete. Qed.

  (** What [certain] says holds of the files. *)
  Definition holds (k : pystr) (st : bool * option (option (V * option Mt))) (s : disk V Mt)
      : Prop :=
    d_init s = fst st /\
    match snd st with
    | None => True
    | Some None => fst (files k s) = None
    | Some (Some (v, m)) => files k s = put_files v m
    end.

  Lemma holds_same k st s s' :
    holds k st s -> d_init s' = d_init s -> files k s' = files k s -> holds k st s'.
  Proof. intros [Hi Hh] E1 E2. split; [congruence|]. now rewrite E2. Qed.

  Lemma holds_next id same st s h :
    (forall j, same j = true <-> sanitize_id j = sanitize_id id) -> fine h ->
    holds (sanitize_id id) st s ->
    holds (sanitize_id id) (certain_next same st h) (happens s h).
  Proof.
    intros Hs Hf Hh.
    assert (forall j (b : bool), same j = b -> b = false -> sanitize_id id <> sanitize_id j) as Hne.
    { intros j b E1 E2 E3. subst b. symmetry in E3. apply Hs in E3. congruence. }
    destruct st as [open cur]. destruct h as [o|o n].
    - simpl in Hf. pose proof Hh as [Hi Hc]. simpl in Hi, Hc.
      destruct o as [|j v m|j|j|j v m|limit| | |]; simpl happens; simpl certain_next.
      + (* init *) split; simpl; auto.
      + (* store *)
        destruct j as [|c j]; [exact Hh|].
        pose proof (store_others (c :: j) v m s) as Ho.
        assert (snd (obs (RBool (V:=V) (Mt:=Mt)) (disk_store dirorder (c :: j) v m s)) =
                snd (disk_store dirorder (c :: j) v m s)) as ->
          by (destruct (disk_store _ _ _ _ _) as [[u|e] s']; reflexivity).
        destruct open; cbn [andb].
        * destruct (same (c :: j)) eqn:E.
          -- apply Hs in E. split; [destruct Ho as [Ho _]; rewrite Ho; exact Hi|]. cbn [snd].
             rewrite <- E. apply store_files; auto. congruence.
          -- eapply holds_same; [exact Hh|exact (proj1 Ho)|].
             eapply files_others; eauto.
        * unfold disk_store, bind, get. rewrite Hi. exact Hh.
      + (* retrieve *)
        assert (snd (obs (RRec (V:=V) (Mt:=Mt)) (disk_retrieve j s)) = s) as ->.
        { clear. unfold disk_retrieve, bind, get, wrap. destruct (negb _); auto.
          destruct (dget (npy_name _) _) as [[v|]|]; auto.
          destruct (dget (pkl_name _) _) as [[m|]|]; auto. }
        exact Hh.
      + (* delete *)
        pose proof (delete_others j s) as Ho.
        assert (snd (obs (RBool (V:=V) (Mt:=Mt)) (disk_delete dirorder j s)) =
                snd (disk_delete dirorder j s)) as ->
          by (destruct (disk_delete _ _ _) as [[u|e] s']; reflexivity).
        destruct open; cbn [andb].
        * destruct (same j) eqn:E.
          -- apply Hs in E. split; [destruct Ho as [Ho _]; rewrite Ho; exact Hi|]. cbn [snd].
             rewrite <- E, delete_files by auto. reflexivity.
          -- eapply holds_same; [exact Hh|exact (proj1 Ho)|].
             eapply files_others; eauto.
        * unfold disk_delete, bind, get. rewrite Hi. exact Hh.
      + (* update *)
        pose proof (update_others j v m s) as Ho.
        assert (snd (obs (RBool (V:=V) (Mt:=Mt)) (disk_update j v m s)) =
                snd (disk_update j v m s)) as ->
          by (destruct (disk_update _ _ _ _) as [[u|e] s']; reflexivity).
        destruct open; cbn [andb].
        * destruct (same j) eqn:E.
          -- apply Hs in E. pose proof (update_files j v m s Hf Hi) as Eu. rewrite E in Eu.
             destruct cur as [[[v0 m0]|]|]; (split; [destruct Ho as [Ho _]; rewrite Ho; exact Hi|]); cbn [snd fst]; auto.
             ++ rewrite Eu, Hc. reflexivity.
             ++ rewrite Eu. unfold files in *. simpl in Hc. rewrite Hc. reflexivity.
          -- assert (holds (sanitize_id id) (true, cur) (snd (disk_update j v m s))) as G.
             { eapply holds_same; [exact Hh|exact (proj1 Ho)|].
               eapply files_others; eauto. }
             destruct cur as [[r|]|]; exact G.
        * unfold disk_update, bind, get. rewrite Hi. destruct cur as [[r|]|]; exact Hh.
      + (* list *)
        assert (snd (obs (RIds (V:=V) (Mt:=Mt)) (disk_list dirorder limit s)) = s) as ->.
        { unfold disk_list, bind, get. destruct (negb _); auto. destruct limit; auto. }
        exact Hh.
      + (* stats *)
        unfold bind, disk_get_stats, bind, get, ret. destruct (negb (d_init s)); exact Hh.
      + (* close *) split; simpl; auto.
      + (* reopen *) split; simpl; auto.
    - pose proof Hh as [Hi Hc]. simpl in Hi, Hc. pose proof (steps_others o n s) as Ho.
      assert (forall j (cur' : option (option (V * option Mt))),
                others (sanitize_id j) s (run_for n (steps_of o) s) ->
                holds (sanitize_id id) (false, if open && same j then None else cur)
                      (restart (run_for n (steps_of o) s))) as G.
      { intros j cur' Ho'. split; [reflexivity|]. simpl.
        destruct open; cbn [andb].
        - destruct (same j) eqn:E; [exact I|].
          pose proof (files_others _ _ _ _ Ho' (Hne j false E eq_refl)) as Ef.
          unfold files in *. simpl. injection Ef as -> ->. exact Hc.
        - (* closed: nothing has happened *)
          assert (run_for n (steps_of o) s = s) as ->; [|exact Hc].
          clear - Hi. destruct n; [reflexivity|].
          assert (forall (k : prog (disk V Mt) bool), run_for (S n) (check_open ;~ k) s = s) as Gk.
          { intros k. simpl. unfold bind, get. rewrite Hi. simpl. now destruct n. }
          destruct o as [|[|c id0] v m|id0|id0|id0 v m|limit| | |]; simpl steps_of;
            try reflexivity; apply Gk. }
      destruct o as [|j v m|j|j|j v m|limit| | |]; simpl certain_next; cbn [happens];
        try (apply (G j cur Ho)); rewrite Ho; split; auto.
  Qed.

  Lemma certain_holds id same hs :
    (forall j, same j = true <-> sanitize_id j = sanitize_id id) -> Forall fine hs ->
    holds (sanitize_id id) (certain same hs) (happened hs).
  Proof.
    intros Hs Hf. unfold certain, happened.
    assert (holds (sanitize_id id) (false, Some None) (disk_new [] [])) as H0'.
    { split; reflexivity. }
    revert H0'. generalize (false, Some (@None (V * option Mt))), (@disk_new V Mt [] []).
    induction Hf as [|h hs Hh Hf IH]; intros st s Hst; simpl; auto.
    apply IH. now apply holds_next.
  Qed.

  Lemma certain_read key hs id open cur :
    (forall i, file_safe isalnum i (key i)) -> Forall fine hs ->
    certain (fun j => eqb (key j) (key id)) hs = (open, Some cur) ->
    read (disk_class dirorder) (happened hs) id = if open then Ok cur else Raise EStorage.
  Proof.
    intros Hk Hf E.
    assert (forall j, eqb (key j) (key id) = true <-> sanitize_id j = sanitize_id id) as Hs.
    { intros j. rewrite eqb_eq. now rewrite <- !(fun i => file_safe_sanitize i _ (Hk i)). }
    destruct (certain_holds id _ hs Hs Hf) as [Hi Hc]. rewrite E in Hi, Hc. simpl in Hi, Hc.
    destruct open; [|now apply read_closed].
    rewrite read_reading by auto. destruct cur as [[v m]|].
    - rewrite Hc. destruct m; reflexivity.
    - unfold files. rewrite Hc. reflexivity.
  Qed.

  (** ** Inside a call *)

  (** Every state a program passes through. *)
  Fixpoint always {A} (Q : disk V Mt -> Prop) (p : prog (disk V Mt) A) (s : disk V Mt) : Prop :=
    Q s /\
    match p with
    | Return _ => True
    | Step f => match f s with (p', s') => always Q p' s' end
    end.

  Lemma always_run {A} Q (p : prog (disk V Mt) A) s n : always Q p s -> Q (run_for n p s).
  Proof.
    revert p s. induction n as [|n IH]; intros p s Ha; simpl; destruct p as [r|f]; try apply Ha.
    destruct Ha as [_ Ha]. destruct (f s) as [p' s']. auto.
  Qed.

  Lemma always_bind {A B} (Q : disk V Mt -> Prop) (p : prog (disk V Mt) A)
      (k : A -> prog (disk V Mt) B) s :
    always Q p s -> (forall a s', finish p s = (Ok a, s') -> always Q (k a) s') ->
    always Q (pbind p k) s.
  Proof.
    revert s. induction p as [[a|e]|f IH] using prog_induction; intros s Ha Hk; simpl in *; auto.
    destruct Ha as [Hq Ha]. split; auto. specialize (IH s). destruct (f s) as [p' s'].
    simpl in IH. auto.
  Qed.

  Lemma always_wrap {A} Q E (p : prog (disk V Mt) A) s : always Q p s -> always Q (pwrap E p) s.
  Proof.
    revert s. induction p as [[a|e]|f IH] using prog_induction; intros s Ha; simpl in *; auto.
    destruct Ha as [Hq Ha]. split; auto. specialize (IH s). destruct (f s) as [p' s'].
    simpl in IH. auto.
  Qed.

  Lemma always_atomic {A} (Q : disk V Mt -> Prop) (m : M (disk V Mt) A) s :
    Q s -> Q (snd (m s)) -> always Q (atomic m) s.
  Proof. intros H1 H2. simpl. split; auto. destruct (m s) as [r s']. simpl. auto. Qed.

  (** The files of the id while a store or update with [v] and [m] runs. *)
  Definition half (ff : option (fcontent V) * option (fcontent Mt)) (v : V) (m : option Mt)
      (x : option (fcontent V) * option (fcontent Mt)) : Prop :=
    x = ff \/ x = (Some FBad, snd ff) \/ x = (Some (FGood v), snd ff) \/
    (x = (Some (FGood v), Some FBad) /\ m <> None) \/ x = put_files v m.

  Lemma always_put ff k v (m : option Mt) s :
    files k s = (Some (FGood v), snd ff) ->
    always (fun t => half ff v m (files k t)) (put_metadata k m) s.
  Proof.
    intros Ef. assert (half ff v m (files k s)) as Hs by (right; right; left; exact Ef).
    destruct m as [m|]; simpl put_metadata.
    - unfold save_metadata. apply always_bind.
      + apply always_atomic; auto. simpl. right; right; right; left. split; [|congruence].
        unfold files in *. simpl. rewrite dget_dset_same. congruence.
      + intros a s'. rewrite finish_atomic. unfold modify. intros [= _ <-].
        assert (files k (set_mfiles (dset (pkl_name k) FBad (d_metadata s)) s) =
                (Some (FGood v), Some FBad)) as E1.
        { unfold files in *. simpl. rewrite dget_dset_same. congruence. }
        destruct (picklable m).
        * apply always_atomic.
          -- right; right; right; left. split; [exact E1|congruence].
          -- simpl. rewrite dmem_dset_same. right; right; right; right.
             unfold files, put_files in *. simpl. rewrite dget_dset_same. simpl. congruence.
        * simpl. split; auto. right; right; right; left. split; [exact E1|congruence].
    - unfold drop_metadata. apply always_bind.
      + apply always_atomic; auto.
      + intros b s'. unfold has_metadata. rewrite finish_atomic. unfold bind, get, ret.
        intros [= <- <-]. destruct (dmem _ _) eqn:E; [|simpl; auto].
        apply always_atomic; auto. unfold bind, get. rewrite E. simpl.
        right; right; right; right. unfold files, put_files in *. simpl.
        rewrite dget_ddel_same. congruence.
  Qed.

  (** The count is not a file. *)
  Lemma files_recount k s : files k (snd (disk_recount dirorder s)) = files k s.
  Proof. reflexivity. Qed.

  Lemma always_save ff k v (m : option Mt) s (B : Type) (rest : prog (disk V Mt) B) :
    files k s = ff ->
    (forall s', half ff v m (files k s') -> always (fun t => half ff v m (files k t)) rest s') ->
    always (fun t => half ff v m (files k t))
           (save_vector k v ;~ put_metadata k m ;~ rest) s.
  Proof.
    intros Ef Hr. assert (half ff v m (files k s)) as Hs by (left; exact Ef).
    apply always_bind.
    - unfold save_vector. apply always_bind.
      + apply always_atomic; auto. simpl. right; left. unfold files in *. simpl.
        rewrite dget_dset_same. now rewrite <- Ef.
      + intros a s'. rewrite finish_atomic. unfold modify. intros [= _ <-].
        apply always_atomic.
        * right; left. unfold files in *. simpl. rewrite dget_dset_same. now rewrite <- Ef.
        * simpl. rewrite dmem_dset_same. right; right; left. unfold files in *. simpl.
          rewrite dget_dset_same. now rewrite <- Ef.
    - intros a s'. rewrite finish_save_vector. unfold disk_write_vec, modify. intros [= _ <-].
      set (s1 := MkDisk _ _ _ _).
      assert (files k s1 = (Some (FGood v), snd ff)) as E1.
      { unfold files in *. simpl. rewrite dget_dset_same. now rewrite <- Ef. }
      apply always_bind; [now apply always_put|].
      intros a2 s2 E2. apply Hr.
      pose proof (always_put ff k v m s1 E1) as Ha.
      assert (forall A (p : prog (disk V Mt) A) Q s0, always Q p s0 -> Q (snd (finish p s0))) as Hfin.
      { clear. intros A p Q. induction p as [r|f IH] using prog_induction; intros s0 Ha;
          simpl in *; [apply Ha|].
        destruct Ha as [_ Ha]. specialize (IH s0). destruct (f s0) as [p' s']. auto. }
      apply Hfin in Ha. rewrite E2 in Ha. exact Ha.
  Qed.

  Lemma store_half id v (m : option Mt) s n :
    half (files (sanitize_id id) s) v m
         (files (sanitize_id id) (run_for n (store_steps dirorder id v m) s)).
  Proof.
    apply (always_run (fun t => half (files (sanitize_id id) s) v m (files (sanitize_id id) t))).
    destruct id as [|c id]; [simpl; split; auto; left; reflexivity|].
    unfold store_steps. set (k := sanitize_id (c :: id)).
    assert (half (files k s) v m (files k s)) as Hs by (left; reflexivity).
    apply always_bind.
    - apply always_atomic; auto. unfold bind, get. destruct (negb (d_init s)); exact Hs.
    - intros a s'. unfold check_open. rewrite finish_atomic. unfold bind, get.
      destruct (negb (d_init s)); [discriminate|]. intros [= _ <-].
      apply always_wrap. apply always_save; auto.
      intros s' Hh. apply always_bind; [apply always_atomic; auto|].
      intros a1 s1. unfold recount. rewrite finish_atomic. unfold disk_recount, modify.
      intros [= _ <-]. simpl. auto.
  Qed.

  Lemma update_half id v (m : option Mt) s n :
    let x := files (sanitize_id id) (run_for n (update_steps id v m) s) in
    half (files (sanitize_id id) s) v m x /\
    (fst (files (sanitize_id id) s) = None -> x = files (sanitize_id id) s).
  Proof.
    intros x.
    apply (always_run (fun t => half (files (sanitize_id id) s) v m (files (sanitize_id id) t) /\
             (fst (files (sanitize_id id) s) = None ->
              files (sanitize_id id) t = files (sanitize_id id) s))).
    clear x. set (k := sanitize_id id).
    assert (half (files k s) v m (files k s)) as Hs by (left; reflexivity).
    unfold update_steps. apply always_bind.
    - apply always_atomic; auto. unfold bind, get. destruct (negb (d_init s)); auto.
    - intros a s'. unfold check_open. rewrite finish_atomic. unfold bind, get.
      destruct (negb (d_init s)); [discriminate|]. intros [= _ <-].
      apply always_wrap. apply always_bind; [apply always_atomic; auto|].
      intros b s1. unfold has_vector. rewrite finish_atomic. unfold bind, get, ret.
      intros [= <- <-]. destruct (dmem _ _) eqn:E; [|simpl; auto].
      assert (fst (files k s) <> None) as Hn.
      { unfold files. simpl. unfold dmem in E. fold k in E. now destruct (dget _ _). }
      assert (forall A (p : prog (disk V Mt) A) (Q Q' : disk V Mt -> Prop) s0,
                (forall t, Q t -> Q' t) -> always Q p s0 -> always Q' p s0) as Himp.
      { clear. intros A p Q Q'. induction p as [r|f IH] using prog_induction; intros s0 Hq Ha;
          simpl in *; destruct Ha as [Ha1 Ha2]; split; auto.
        specialize (IH s0). destruct (f s0) as [p' s']. auto. }
      apply (Himp _ _ (fun t => half (files k s) v m (files k t))).
      { intros t Ht. split; [exact Ht|]. intros E'. now elim Hn. }
      apply always_save; auto. intros s' Hh. simpl. auto.
  Qed.

  Lemma delete_half id (s : disk V Mt) n :
    let x := files (sanitize_id id) (run_for n (delete_steps dirorder id) s) in
    x = files (sanitize_id id) s \/ fst x = None.
  Proof.
    intros x.
    apply (always_run (fun t => files (sanitize_id id) t = files (sanitize_id id) s \/
                                fst (files (sanitize_id id) t) = None)).
    clear x. set (k := sanitize_id id).
    set (Q := fun t : disk V Mt => files k t = files k s \/ fst (files k t) = None).
    assert (Q s) as Hs by (left; reflexivity).
    unfold delete_steps. apply always_bind.
    - apply always_atomic; auto. unfold bind, get. destruct (negb (d_init s)); auto.
    - intros a s'. unfold check_open. rewrite finish_atomic. unfold bind, get.
      destruct (negb (d_init s)); [discriminate|]. intros [= _ <-].
      apply always_wrap. apply always_bind; [apply always_atomic; auto|].
      intros b s1. unfold has_vector. rewrite finish_atomic. unfold bind, get, ret.
      intros [= <- <-]. fold k.
      assert (forall t, fst (files k t) = None -> always Q (drop_metadata k) t) as Hd.
      { intros t Ht. assert (Q t) as Qt by (right; exact Ht). unfold drop_metadata.
        apply always_bind; [apply always_atomic; auto|].
        intros b s'. unfold has_metadata. rewrite finish_atomic. unfold bind, get, ret.
        intros [= <- <-]. destruct (dmem _ _) eqn:E; [|simpl; auto].
        apply always_atomic; auto. unfold bind, get. rewrite E. simpl. right. exact Ht. }
      destruct (dmem (npy_name k) (d_vectors s)) eqn:E.
      + apply always_bind.
        * apply always_atomic; auto. unfold bind, get. rewrite E. simpl. right.
          unfold files. simpl. apply dget_ddel_same.
        * intros a1 s1. unfold unlink_vector. rewrite finish_atomic. unfold bind, get.
          rewrite E. unfold modify. intros [= _ <-].
          set (t := set_vfiles _ s).
          assert (fst (files k t) = None) as Ht.
          { unfold files. simpl. apply dget_ddel_same. }
          apply always_bind; [now apply Hd|].
          intros a2 s2. rewrite finish_drop. intros [= _ <-].
          apply always_bind; [apply always_atomic|].
          -- right. exact Ht.
          -- right. exact Ht.
          -- intros a3 s3. unfold recount. rewrite finish_atomic. unfold disk_recount, modify.
             intros [= _ <-]. simpl. split; auto. right. exact Ht.
      + assert (fst (files k s) = None) as Ht.
        { unfold files. simpl. unfold dmem in E. now destruct (dget _ _). }
        apply always_bind; [simpl; auto|]. intros a1 s1 [= <- <-].
        apply always_bind; [now apply Hd|].
        intros a2 s2. rewrite finish_drop. intros [= _ <-]. simpl. split; auto. right. exact Ht.
  Qed.

  (** The files after a completed history. *)
  Lemma files_hist (Hdir : forall l, Permutation (dirorder l) l) key ops id :
    (forall i, file_safe isalnum i (key i)) -> Forall op_pickle ops ->
    let s := after (disk_class dirorder) (disk_new [] []) ops in
    let st := one_hist true (fun j => eqb (key id) (key j)) ops in
    d_init s = fst st /\
    files (sanitize_id id) s =
    match snd st with Some (v, m) => put_files v m | None => (None, None) end.
  Proof.
    intros Hk Ho s st.
    destruct (disk_run_refines dirorder Hdir ops (MkS false []) _ (Adisk_new) Ho) as [_ A].
    fold (after (disk_class dirorder) (disk_new (V := V) (Mt := Mt) [] []) ops) in A.
    fold s in A.
    assert (st = (s_open (fold_left (sp_next true sanitize_id) ops (MkS false [])),
                  sp_find (sanitize_id id)
                    (s_recs (fold_left (sp_next true sanitize_id) ops (MkS false []))))) as Est.
    { unfold st, one_hist.
      rewrite (one_next_ext true _ (fun j => eqb (sanitize_id id) (sanitize_id j)))
        by (intros j; now rewrite <- !(fun i => file_safe_sanitize i _ (Hk i))).
      change (false, None) with (s_open (MkS (V := V) (Mt := Mt) false []),
        sp_find (sanitize_id id) (s_recs (MkS (V := V) (Mt := Mt) false []))).
      rewrite (one_hist_spec true sanitize_id id ops (MkS false [])) by (simpl; auto; constructor). reflexivity. }
    rewrite Est. cbn [fst snd].
    destruct A as [R [Hi _]]. split; [exact Hi|].
    unfold files. rewrite (rd_vec _ _ R), dget_npy, (rd_meta _ _ R), sp_find_dget.
    destruct (dget (sanitize_id id) _) as [[v [m|]]|]; reflexivity.
  Qed.
End Crash.

(** ** C08: other records *)

(** Whatever calls completed and whatever calls crashed, an id whose record is certain reads as
    that record: crashes inside writes of other ids leave no trace. *)
Theorem C08_crashes_leave_others_alone :
  forall (V Mt : Type) `{Payload V Mt} `{Unicode} (dirorder : list pystr -> list pystr)
         (key : pystr -> pystr) (hs : list (happening V Mt)) (id : pystr)
         (open : bool) (cur : option (V * option Mt)),
  (forall i, file_safe isalnum i (key i)) -> Forall fine hs ->
  certain (fun j => eqb (key j) (key id)) hs = (open, Some cur) ->
  read (disk_class dirorder) (happened dirorder hs) id =
  if open then Ok cur else Raise EStorage.
Proof. intros; eapply certain_read; eauto. Qed.

(** In the words of the property: one crash inside a write of [i], after any completed history,
    then a new process; ids with another file-safe form read as before. *)
Theorem C08_one_crash :
  forall (V Mt : Type) `{Payload V Mt} `{Unicode} (dirorder : list pystr -> list pystr),
  (forall l, Permutation (dirorder l) l) ->
  forall (ops : list (sop V Mt)) (o : sop V Mt) (i j : pystr) (n : nat),
  Forall op_pickle ops ->
  (o = ODelete i \/ (exists v m, o = OStore i v m \/ o = OUpdate i v m)) ->
  (forall t, file_safe isalnum i t -> ~ file_safe isalnum j t) ->
  let s := after (disk_class dirorder) (disk_new [] []) ops in
  let s' := restart (run_for n (steps_of dirorder o) s) in
  read (disk_class dirorder) (after (disk_class dirorder) s' [OInit]) j =
  read (disk_class dirorder) (after (disk_class dirorder) s [OReopen; OInit]) j /\
  (d_init s = true ->
   read (disk_class dirorder) (after (disk_class dirorder) s' [OInit]) j =
   read (disk_class dirorder) s j).
Proof.
  intros V Mt HP HU dirorder Hdir ops o i j n Ho Hop Hij s s'.
  assert (sanitize_id j <> sanitize_id i) as Hne.
  { intros E. apply (Hij (sanitize_id i)); [|rewrite <- E]; apply sanitize_file_safe. }
  assert (files (sanitize_id j) s' = files (sanitize_id j) s) as Ef.
  { unfold s'. pose proof (steps_others dirorder o n s) as Hs.
    destruct Hop as [->|[v [m [->| ->]]]]; apply (files_others _ _ _ _ Hs Hne). }
  unfold after. cbn [sc_run sc_step snd obs].
  clearbody s. clear Hop. unfold s' in *. clear s'. simpl.
  rewrite !read_reading by reflexivity. unfold files in *. simpl in *. injection Ef as -> ->.
  split; [reflexivity|]. intros Hi. now rewrite read_reading by auto.
Qed.

(** Two ids with different file-safe forms and a third that shares a form; a store dies after
    emptying a file, a delete after removing one. *)
Definition crash_history : list (happening (list Z) Z) :=
  [Call OInit; Call (OStore (py "a b") [1%Z] (Some 7%Z)); Call (OStore (py "c") [2%Z] None);
   Crash (OStore (py "c") [9%Z] (Some 1%Z)) 2; Call OInit; Crash (ODelete (py "a/b")) 3;
   Call OInit; Call (OStore (py "a_b") [3%Z] (Some 4%Z)); Crash (OUpdate (py "d") [5%Z] None) 3;
   Call OInit].

Example C08_case :
  Forall fine crash_history /\
  certain (fun j => eqb (sanitize_id j) (sanitize_id (py "a b"))) crash_history =
    (true, Some (Some ([3%Z], Some 4%Z))) /\
  certain (fun j => eqb (sanitize_id j) (sanitize_id (py "c"))) crash_history = (true, None) /\
  certain (fun j => eqb (sanitize_id j) (sanitize_id (py "c"))) (firstn 3 crash_history) =
    (true, Some (Some ([2%Z], None))) /\
  read (disk_class demo_order) (happened demo_order crash_history) (py "a b") =
    Ok (Some ([3%Z], Some 4%Z)) /\
  read (disk_class demo_order) (happened demo_order crash_history) (py "c") = Raise EStorage /\
  (* and a crash inside a write of another id, in the words of the property *)
  (forall t, file_safe isalnum (py "c") t -> ~ file_safe isalnum (py "a b") t).
Proof.
  split; [repeat constructor|]. do 5 (split; [vm_compute; reflexivity|]).
  intros t H1 H2. apply file_safe_sanitize in H1. apply file_safe_sanitize in H2.
  rewrite H1 in H2. vm_compute in H2. discriminate.
Qed.

(** ** C09: the record itself *)

(** What an id reads as when the process died inside a write of it, after any completed
    history: the old pair, the new pair, or - only inside store and update - nothing readable
    or the new vector with the old metadata.  A delete is all or nothing. *)
Theorem C09_outcomes_partial :
  forall (V Mt : Type) `{Payload V Mt} `{Unicode} (dirorder : list pystr -> list pystr),
  (forall l, Permutation (dirorder l) l) ->
  forall (key : pystr -> pystr) (ops : list (sop V Mt)) (o : sop V Mt) (id : pystr) (n : nat),
  (forall i, file_safe isalnum i (key i)) -> Forall op_pickle ops ->
  (o = ODelete id \/ (exists v m, o = OStore id v m \/ o = OUpdate id v m)) ->
  let st := one_hist true (fun j => eqb (key id) (key j)) ops in
  let before := snd st in
  let completed := snd (one_next true (fun j => eqb (key id) (key j)) st o) in
  let s := after (disk_class dirorder) (disk_new [] []) ops in
  let r := read (disk_class dirorder)
             (after (disk_class dirorder) (restart (run_for n (steps_of dirorder o) s)) [OInit])
             id in
  r = Ok before \/ r = Ok completed \/
  (exists v m, (o = OStore id v m \/ o = OUpdate id v m) /\
     (r = Raise EStorage \/
      r = Ok (Some (v, match before with Some (_, m0) => m0 | None => None end)))).
Proof.
  intros V Mt HP HU dirorder Hdir key ops o id n Hk Ho Hop st before completed s r.
  destruct (files_hist dirorder Hdir key ops id Hk Ho) as [Hi Hf]. fold s in Hi, Hf.
  fold st in Hi, Hf.
  assert (r = reading (files (sanitize_id id) (run_for n (steps_of dirorder o) s))) as Er.
  { unfold r, after. cbn [sc_run sc_step snd obs]. simpl. rewrite read_reading by reflexivity.
    reflexivity. }
  assert (reading (files (sanitize_id id) s) = Ok before) as Eb.
  { rewrite Hf. unfold before. destruct (snd st) as [[v [m|]]|]; reflexivity. }
  assert (eqb (key id) (key id) = true) as Erefl by apply eqb_refl.
  assert (d_init s = false -> run_for n (steps_of dirorder o) s = s) as Hclosed.
  { clear - Hop. intros Hi. destruct n; [reflexivity|].
    assert (forall (k : prog (disk V Mt) bool), run_for (S n) (check_open ;~ k) s = s) as Gk.
    { intros k. simpl. unfold bind, get. rewrite Hi. simpl. now destruct n. }
    destruct Hop as [->|[v [m [->| ->]]]]; try apply Gk.
    destruct id; [reflexivity|]. apply Gk. }
  destruct (d_init s) eqn:Ed.
  2: { left. rewrite Er, Hclosed by auto. exact Eb. }
  assert (forall v m x, o = OStore id v m \/ o = OUpdate id v m ->
            completed = Some (v, m) \/ before = completed /\ x = files (sanitize_id id) s ->
            half (files (sanitize_id id) s) v m x ->
            r = reading x ->
            r = Ok before \/ r = Ok completed \/
            (exists v0 m0, (o = OStore id v0 m0 \/ o = OUpdate id v0 m0) /\
              (r = Raise EStorage \/
               r = Ok (Some (v0, match before with Some (_, m1) => m1 | None => None end))))) as G.
  { intros v m x Hvm Hc Hh Hr.
    destruct Hc as [Hc|[_ Hx]]; [|left; rewrite Hr, Hx; exact Eb].
    destruct Hh as [->|[->|[->|[[-> Hm]| ->]]]].
    - left. now rewrite Hr.
    - right; right. exists v, m. split; [exact Hvm|]. left. exact Hr.
    - right; right. exists v, m. split; [exact Hvm|]. right. rewrite Hr, Hf.
      unfold before. destruct (snd st) as [[v0 [m0|]]|]; reflexivity.
    - right; right. exists v, m. split; [exact Hvm|]. left. exact Hr.
    - right; left. rewrite Hr, Hc. destruct m; reflexivity. }
  destruct Hop as [->|[v [m Hvm]]].
  - (* delete *)
    destruct (delete_half dirorder id s n) as [E|E].
    + left. rewrite Er. simpl steps_of. rewrite E. exact Eb.
    + right; left. rewrite Er. simpl steps_of. unfold completed. clearbody st.
      destruct st as [open cur]. simpl in Hi. subst open. cbn [one_next]. rewrite Erefl. simpl.
      set (x := files _ _) in *. destruct x as [a b]. simpl in E. rewrite E. reflexivity.
  - destruct Hvm as [->| ->].
    + apply (G v m (files (sanitize_id id) (run_for n (store_steps dirorder id v m) s)));
        auto; [|apply store_half].
      destruct id as [|c id].
      * right. split; [|now destruct n]. unfold before, completed. clearbody st. now destruct st.
      * left. unfold completed. clearbody st. destruct st as [open cur]. simpl in Hi. subst open.
        cbn [one_next]. rewrite Erefl. reflexivity.
    + destruct (update_half id v m s n) as [Hh Hn].
      apply (G v m (files (sanitize_id id) (run_for n (update_steps id v m) s))); auto.
      unfold completed, before in *. clear completed before. clearbody st.
      destruct st as [open [[v0 m0]|]]; simpl in Hi; subst open;
        cbn [one_next snd] in *.
      * left. rewrite Erefl. reflexivity.
      * right. split; [reflexivity|]. apply Hn. now rewrite Hf.
Qed.

(** Both bad outcomes occur: a record whose vector is new and whose metadata is old, and a record
    that can no longer be read although the old one was complete. *)
Theorem C09_refuted :
  exists (ops : list (sop (list Z) Z)) (o : sop (list Z) Z) (id : pystr) (n1 n2 : nat),
    Forall op_pickle (ops ++ [o]) /\
    let s := after (disk_class demo_order) (disk_new [] []) ops in
    let now n := read (disk_class demo_order)
                   (after (disk_class demo_order)
                          (restart (run_for n (steps_of demo_order o) s)) [OInit]) id in
    read (disk_class demo_order) s id = Ok (Some ([1%Z], Some 7%Z)) /\
    read (disk_class demo_order) (after (disk_class demo_order) s [o]) id =
      Ok (Some ([2%Z], Some 8%Z)) /\
    now n1 = Raise EStorage /\ now n2 = Ok (Some ([2%Z], Some 7%Z)).
Proof.
  exists [OInit; OStore (py "a") [1%Z] (Some 7%Z)], (OStore (py "a") [2%Z] (Some 8%Z)), (py "a"),
    2, 3.
  split; [repeat constructor|]. vm_compute. auto.
Qed.

(** Repeating the call after the restart gives the record of the completed call, wherever the
    crash was. *)
Theorem C09_retry :
  forall (V Mt : Type) `{Payload V Mt} `{Unicode} (dirorder : list pystr -> list pystr),
  (forall l, Permutation (dirorder l) l) ->
  forall (key : pystr -> pystr) (ops : list (sop V Mt)) (o : sop V Mt) (id : pystr) (n : nat),
  (forall i, file_safe isalnum i (key i)) -> Forall op_pickle ops -> op_pickle o ->
  (o = ODelete id \/ (exists v m, o = OStore id v m \/ o = OUpdate id v m)) ->
  let st := one_hist true (fun j => eqb (key id) (key j)) (ops ++ [OInit]) in
  let s := after (disk_class dirorder) (disk_new [] []) ops in
  read (disk_class dirorder)
    (after (disk_class dirorder) (restart (run_for n (steps_of dirorder o) s)) [OInit; o]) id =
  Ok (snd (one_next true (fun j => eqb (key id) (key j)) st o)).
Proof.
  intros V Mt HP HU dirorder Hdir key ops o id n Hk Ho Hpo Hop st s.
  destruct (files_hist dirorder Hdir key ops id Hk Ho) as [Hi Hf]. fold s in Hi, Hf.
  assert (exists cur, st = (true, cur) /\
            files (sanitize_id id) s =
            match cur with Some (v, m) => put_files v m | None => (None, None) end)
    as [cur [Est Ef]].
  { exists (snd (one_hist true (fun j => eqb (key id) (key j)) ops)). split; [|exact Hf].
    unfold st, one_hist. rewrite fold_left_app. simpl.
    now destruct (fold_left _ ops _) as [open cur]. }
  rewrite Est. clear Hf Hi.
  set (s1 := run_for n (steps_of dirorder o) s).
  set (s2 := after (disk_class dirorder) (restart s1) [OInit]).
  assert (d_init s2 = true) as Hi2 by reflexivity.
  assert (files (sanitize_id id) s2 = files (sanitize_id id) s1) as Ef2 by reflexivity.
  assert (forall t o', after (disk_class dirorder) (restart t) [OInit; o'] =
            snd (sc_step (disk_class dirorder) (after (disk_class dirorder) (restart t) [OInit]) o'))
    as Eaf.
  { intros t o'. unfold after. simpl. destruct (sc_step _ _ o') as [x y]. reflexivity. }
  rewrite Eaf. fold s2. clear Eaf.
  assert (eqb (key id) (key id) = true) as Erefl by apply eqb_refl.
  destruct Hop as [->|[v [m [->| ->]]]]; cbn [one_next sc_step].
  - rewrite Erefl. simpl andb. cbv iota. cbn [snd].
    assert (snd (obs (RBool (V:=V) (Mt:=Mt)) (sc_delete (disk_class dirorder) id s2)) =
            snd (disk_delete dirorder id s2)) as ->
      by (simpl; destruct (disk_delete _ _ _) as [[u|e] s']; reflexivity).
    rewrite read_reading.
    + rewrite delete_files by auto. reflexivity.
    + now rewrite (proj1 (delete_others dirorder id s2)).
  - assert (snd (obs (RBool (V:=V) (Mt:=Mt)) (sc_store (disk_class dirorder) id v m s2)) =
            snd (disk_store dirorder id v m s2)) as ->
      by (cbn [sc_store disk_class]; destruct (disk_store _ _ _ _ _) as [[u|e] s']; reflexivity).
    rewrite read_reading by now rewrite (proj1 (store_others dirorder id v m s2)).
    destruct id as [|c id].
    + simpl disk_store. cbn [snd ret]. rewrite Ef2. unfold s1. simpl steps_of.
      replace (run_for n (store_steps dirorder [] v m) s) with s by now destruct n.
      rewrite Ef. destruct cur as [[v0 [m0|]]|]; reflexivity.
    + rewrite store_files by (auto; congruence). rewrite Erefl. cbn [andb snd].
      destruct m; reflexivity.
  - assert (snd (obs (RBool (V:=V) (Mt:=Mt)) (sc_update (disk_class dirorder) id v m s2)) =
            snd (disk_update id v m s2)) as ->
      by (cbn [sc_update disk_class]; destruct (disk_update _ _ _ _) as [[u|e] s']; reflexivity).
    rewrite read_reading by now rewrite (proj1 (update_others id v m s2)).
    rewrite update_files by auto. rewrite Ef2.
    destruct (update_half id v m s n) as [Hh Hn]. fold s1 in Hh, Hn. unfold s1 in *.
    simpl steps_of.
    set (x := files (sanitize_id id) (run_for n (update_steps id v m) s)) in *.
    destruct cur as [[v0 m0]|]; cbn [one_next].
    + rewrite Erefl. cbn [andb snd].
      assert (exists c, fst x = Some c) as [c ->].
      { rewrite Ef in Hh. clear - Hh. unfold half in Hh.
        destruct Hh as [->|[->|[->|[[-> _]| ->]]]]; simpl; eauto. }
      destruct m; reflexivity.
    + rewrite (Hn ltac:(now rewrite Ef)), Ef. reflexivity.
Qed.

Example C09_case :
  let ops := [OInit; OStore (py "a") [1%Z] (Some 7%Z); OStore (py "b") [5%Z] None] in
  let s := after (disk_class demo_order) (disk_new [] []) ops in
  let ends o n := after (disk_class demo_order)
                    (restart (run_for n (steps_of demo_order o) s)) [OInit] in
  let now o n := read (disk_class demo_order) (ends o n) (py "a") in
  Forall op_pickle ops /\
  map (now (OUpdate (py "a") [2%Z] None)) (seq 0 8) =
    [Ok (Some ([1%Z], Some 7%Z)); Ok (Some ([1%Z], Some 7%Z)); Ok (Some ([1%Z], Some 7%Z));
     Raise EStorage; Ok (Some ([2%Z], Some 7%Z)); Ok (Some ([2%Z], Some 7%Z));
     Ok (Some ([2%Z], None)); Ok (Some ([2%Z], None))] /\
  map (now (ODelete (py "a"))) (seq 0 6) =
    [Ok (Some ([1%Z], Some 7%Z)); Ok (Some ([1%Z], Some 7%Z)); Ok (Some ([1%Z], Some 7%Z));
     Ok None; Ok None; Ok None] /\
  read (disk_class demo_order)
    (after (disk_class demo_order) (ends (OUpdate (py "a") [2%Z] None) 3)
           [OUpdate (py "a") [2%Z] None]) (py "a") = Ok (Some ([2%Z], None)).
Proof. split; [repeat constructor|]. vm_compute. auto. Qed.

Print Assumptions C08_crashes_leave_others_alone.
Print Assumptions C08_one_crash.
Print Assumptions C09_outcomes_partial.
Print Assumptions C09_refuted.
Print Assumptions C09_retry.
