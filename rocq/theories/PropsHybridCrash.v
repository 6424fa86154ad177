(** C117: the process dies inside a call of the hybrid backend.  With ids that do not share a file
    name, the hybrid backend is the disk backend, answer by answer and file by file, through any
    history of calls and crashes, also where a crash has left unreadable files. *)

From Coq Require Import List Arith ZArith NArith Lia Bool Permutation.
From Coq Require String.
Import (notations) Coq.Strings.String.
From Verif Require Import PyBase BaseLemmas Payload StorageModel StorageSpec StorageRun
  StorageProofs StorageThms StepModel StepProofs ConcModel LockModel HybridSteps Demo PropsCrash.
Import ListNotations.

Section HCrash.
  Context {V Mt : Type} `{Payload V Mt} `{Unicode}.
  Context (dirorder : list pystr -> list pystr).
  Let HC := @hybrid_class V Mt _ _ dirorder.
  Let DC := @disk_class V Mt _ _ dirorder.

  (** A new process over the files of a dead one; hybrid.py:26-39. *)
  Definition hybrid_restart (s : hybrid V Mt) : hybrid V Mt :=
    hybrid_new (h_limit s) (d_vectors (h_disk s)) (d_metadata (h_disk s)).

  (** The answer that is seen, if any, and the backend after a happening. *)
  Definition hyb_happens (s : hybrid V Mt) (h : happening V Mt) : list (sret V Mt) * hybrid V Mt :=
    match h with
    | Call o => let (r, s') := sc_step HC s o in ([r], s')
    | Crash o n =>
        ([], hybrid_restart (match hybrid_early o s with
                             | Some _ => s
                             | None => run_for n (hybrid_body dirorder o) s
                             end))
    end.

  (** The same of the disk backend. *)
  Definition disk_happens (s : disk V Mt) (h : happening V Mt) : list (sret V Mt) * disk V Mt :=
    match h with
    | Call o => let (r, s') := sc_step DC s o in ([r], s')
    | Crash o n => ([], restart (run_for n (steps_of dirorder o) s))
    end.

  (** A whole history: the answers seen, and the backend in the end. *)
  Definition history {S} (f : S -> happening V Mt -> list (sret V Mt) * S) (s : S)
      (hs : list (happening V Mt)) : list (sret V Mt) * S :=
    fold_left (fun x h => let (rs, s') := f (snd x) h in (fst x ++ rs, s')) hs ([], s).

  (** The same calls, complete or crashed, wherever the crash was. *)
  Definition same_call (h h' : happening V Mt) : Prop :=
    match h, h' with
    | Call o, Call o' => o = o'
    | Crash o _, Crash o' _ => o = o'
    | _, _ => False
    end.

  (** The call that happens satisfies [P]. *)
  Definition of_call (P : sop V Mt -> Prop) (h : happening V Mt) : Prop :=
    match h with Call o => P o | Crash o _ => P o end.

  (** ** A crashed hybrid write is a crashed disk write *)

  Lemma run_wrap {S X} E (p : prog S X) : forall n s, run_for n (pwrap E p) s = run_for n p s.
  Proof.
    intros n. revert p. induction n as [|n IH]; intros [[a|e]|f] s; try reflexivity.
    simpl. specialize (IH (fst (f s))). destruct (f s) as [p' s']. apply IH.
  Qed.

  Lemma run_disk_steps {X} (p : prog (disk V Mt) X) : forall n s,
    h_disk (run_for n (disk_steps p) s) = run_for n p (h_disk s).
  Proof.
    intros n. revert p. induction n as [|n IH]; intros [r|f] s; try reflexivity.
    simpl. specialize (IH (fst (f (h_disk s)))). destruct (f (h_disk s)) as [p' d]. apply IH.
  Qed.

  Definition same_disk (s s' : hybrid V Mt) : Prop := h_disk s' = h_disk s.

  Lemma sd_refl s : same_disk s s.  Proof. reflexivity. Qed.
  Lemma sd_trans a b c : same_disk a b -> same_disk b c -> same_disk a c.
  Proof. unfold same_disk. congruence. Qed.

  (** Steps after [p] that leave the disk alone do not count. *)
  Lemma run_bind_quiet {X Y} (k : X -> prog (hybrid V Mt) Y) : (forall a, frame same_disk (k a)) ->
    forall n (p : prog (hybrid V Mt) X) s, exists j,
      h_disk (run_for n (pbind p k) s) = h_disk (run_for j p s).
  Proof.
    intros Hk. induction n as [|n IH]; intros p s; [exists 0; destruct p as [[a|e]|f]; reflexivity|].
    destruct p as [[a|e]|f].
    - exists 0. cbn [pbind]. apply (frame_run _ sd_refl sd_trans _ (Hk a)).
    - exists 0. reflexivity.
    - specialize (IH (fst (f s)) (snd (f s))). destruct IH as [j IH]. exists (S j). simpl.
      destruct (f s) as [p' s']. exact IH.
  Qed.

  Lemma run_mem_first {A Y} (x : M (mem V Mt) A) (k : A -> prog (hybrid V Mt) Y) n s :
    h_disk (run_for n (pbind (atomic (on_mem x)) k) s) = h_disk s \/
    exists a s' j, h_disk s' = h_disk s /\ h_disk (run_for n (pbind (atomic (on_mem x)) k) s) = h_disk (run_for j (k a) s').
  Proof.
    destruct n as [|n]; [left; reflexivity|]. simpl. unfold on_mem, zoom.
    destruct (x (h_memory s)) as [[a|e] t].
    - right. eexists a, _, n. split; [|reflexivity]. reflexivity.
    - left. now destruct n.
  Qed.

  Lemma quiet_mem {A} (x : M (mem V Mt) A) : frame same_disk (atomic (on_mem x)).
  Proof.
    apply frame_atomic. intros s. unfold on_mem, zoom. destruct (x (h_memory s)) as [r t]. reflexivity.
  Qed.

  Lemma quiet_cache id v m : frame same_disk (cache_steps (V := V) (Mt := Mt) id v m).
  Proof.
    unfold cache_steps. apply frame_bind.
    - apply frame_atomic. intros s. unfold bind, on_mem, zoom, mem_get_stats, bind, get, ret.
      destruct (negb _); reflexivity.
    - intros b. apply frame_bind.
      + destruct b; [exact I|]. unfold evict_steps. apply frame_bind; [apply quiet_mem|].
        intros [|? ?]; [exact I|]. apply frame_bind; [apply quiet_mem|exact (fun _ => I)].
      + intros _. apply frame_bind; [apply quiet_mem|exact (fun _ => I)].
  Qed.

  Definition same_files (s s' : hybrid V Mt) : Prop :=
    d_vectors (h_disk s') = d_vectors (h_disk s) /\ d_metadata (h_disk s') = d_metadata (h_disk s).

  Lemma sf_refl s : same_files s s.  Proof. split; reflexivity. Qed.
  Lemma sf_trans a b c : same_files a b -> same_files b c -> same_files a c.
  Proof. intros [? ?] [? ?]. split; congruence. Qed.

  Lemma sf_mem {A} (x : M (mem V Mt) A) : frame same_files (atomic (on_mem x)).
  Proof.
    apply frame_atomic. intros s. unfold on_mem, zoom. destruct (x (h_memory s)) as [r t]. split; reflexivity.
  Qed.

  Lemma frame_weaken {S X} (Q R : S -> S -> Prop) (p : prog S X) : (forall s s', Q s s' -> R s s') ->
    frame Q p -> frame R p.
  Proof.
    intros HQ. induction p as [r|f IH] using prog_induction; simpl; auto. intros Hp s.
    specialize (Hp s). specialize (IH s). destruct (f s). simpl in IH. destruct Hp. auto.
  Qed.

  Lemma sd_sf s s' : same_disk s s' -> same_files s s'.
  Proof. unfold same_disk. intros E. split; now rewrite E. Qed.

  (** Other calls change no files. *)
  Lemma reads_keep_files o : steps_of dirorder o = Return (Ok true) -> frame same_files (hybrid_body dirorder o).
  Proof.
    intros Hs. destruct o as [|id v m|id|id|id v m|limit| | |]; unfold hybrid_body.
    - apply frame_wrap. apply frame_bind; [apply sf_mem|]. intros _.
      apply frame_bind; [apply frame_atomic; split; reflexivity|]. intros _.
      apply frame_bind; [apply frame_atomic; split; reflexivity|]. exact (fun _ => I).
    - destruct id; [exact I|discriminate].
    - apply frame_wrap. apply frame_bind; [apply sf_mem|]. intros [x|]; [exact I|].
      apply frame_bind.
      + apply frame_atomic. intros s. unfold on_disk, zoom, disk_retrieve, bind, get.
        destruct (negb _); [split; reflexivity|]. unfold wrap.
        destruct (dget _ _) as [[?|]|]; try (split; reflexivity).
        destruct (dget _ _) as [[?|]|]; split; reflexivity.
      + intros [[v m]|]; [|exact I]. apply frame_bind; [|exact (fun _ => I)].
        exact (frame_weaken _ _ _ sd_sf (quiet_cache id v m)).
    - discriminate.
    - discriminate.
    - apply frame_bind; [|exact (fun _ => I)]. apply frame_atomic. intros s.
      unfold on_disk, zoom, disk_list, bind, get. destruct (negb _); [split; reflexivity|].
      destruct limit; split; reflexivity.
    - apply frame_bind; [apply sf_mem|]. intros a. apply frame_bind; [|exact (fun _ => I)].
      apply frame_atomic. intros s. unfold on_disk, zoom, disk_get_stats, bind, get.
      destruct (negb _); split; reflexivity.
    - apply frame_bind; [apply sf_mem|]. intros _.
      apply frame_bind; [apply frame_atomic; split; reflexivity|]. intros _.
      apply frame_bind; [apply frame_atomic; split; reflexivity|]. exact (fun _ => I).
    - apply frame_bind; [apply sf_mem|]. intros _.
      apply frame_bind; [apply frame_atomic; split; reflexivity|]. intros _.
      apply frame_bind; [apply frame_atomic; split; reflexivity|]. exact (fun _ => I).
  Qed.

  Lemma crash_is_crash o n s : exists j,
    restart (h_disk (run_for n (hybrid_body dirorder o) s)) = restart (run_for j (steps_of dirorder o) (h_disk s)).
  Proof.
    assert (Hread : steps_of dirorder o = Return (Ok true) -> exists j,
      restart (h_disk (run_for n (hybrid_body dirorder o) s)) = restart (run_for j (steps_of dirorder o) (h_disk s))).
    { intros E. exists 0. cbn [run_for].
      destruct (frame_run _ sf_refl sf_trans _ (reads_keep_files o E) n s) as [E1 E2].
      unfold restart. now rewrite E1, E2. }
    destruct o as [|id v m|id|id|id v m|limit| | |]; try (now apply Hread); clear Hread; unfold hybrid_body; cbn [steps_of].
    - rewrite run_wrap.
      destruct (run_bind_quiet (fun b : bool => (if b then cache_steps id v m else Return (Ok tt)) ;~ Return (Ok (RBool (V:=V) (Mt:=Mt) b)))%py
                  ltac:(intros [|]; (apply frame_bind; [|exact (fun _ => I)]); [apply quiet_cache|exact I])
                  n (disk_steps (store_steps dirorder id v m)) s) as [j E].
      exists j. rewrite E, run_disk_steps. reflexivity.
    - rewrite run_wrap.
      destruct (run_mem_first (mem_delete id) (fun a => b <~ disk_steps (delete_steps dirorder id) ;;
                  Return (Ok (RBool (V:=V) (Mt:=Mt) (a || b))))%py n s) as [E|(a & s' & k & E1 & E2)].
      + exists 0. rewrite E. reflexivity.
      + rewrite E2. destruct (run_bind_quiet (fun b : bool => Return (Ok (RBool (V:=V) (Mt:=Mt) (a || b))))
                          (fun _ => I) k (disk_steps (delete_steps dirorder id)) s') as [j E].
        exists j. rewrite E, run_disk_steps, E1. reflexivity.
    - rewrite run_wrap.
      destruct (run_bind_quiet (fun b : bool =>
                  (if b then atomic (on_mem (mem_update id v m)) ;~ Return (Ok tt) else Return (Ok tt)) ;~
                  Return (Ok (RBool (V:=V) (Mt:=Mt) b)))%py
                  ltac:(intros [|]; (apply frame_bind; [|exact (fun _ => I)]);
                        [apply frame_bind; [apply quiet_mem|exact (fun _ => I)]|exact I])
                  n (disk_steps (update_steps id v m)) s) as [j E].
      exists j. rewrite E, run_disk_steps. reflexivity.
  Qed.

  (** Metadata on disk can be copied, also in the middle of a call. *)
  Lemma steps_copy o n (d : disk V Mt) : op_copy o -> Dcopy d -> Dcopy (run_for n (steps_of dirorder o) d).
  Proof.
    intros Ho. set (R := fun d d' : disk V Mt => Dcopy d -> Dcopy d').
    assert (Rr : forall d, R d d) by (intros d0 X; exact X).
    assert (Rt : forall a b c, R a b -> R b c -> R a c) by (unfold R; auto).
    assert (Hsv : forall k v, frame R (save_vector (V := V) (Mt := Mt) k v)).
    { intros k v. apply frame_bind; [apply frame_atomic; intros s X; exact X|]. intros _. apply frame_atomic.
      intros s X. unfold modify. simpl. destruct (dmem _ _); exact X. }
    assert (Hdel : forall k (s : disk V Mt), Dcopy s -> Dcopy (set_mfiles (ddel (pkl_name k) (d_metadata s)) s)).
    { intros k s X i x. simpl. rewrite dget_ddel. destruct (eqb i _); [discriminate|apply X]. }
    assert (Hdm : forall k, frame R (drop_metadata (V := V) (Mt := Mt) k)).
    { intros k. apply frame_bind; [apply frame_atomic; intros s X; exact X|]. intros [|]; [|exact I].
      apply frame_atomic. intros s X. unfold bind, get. destruct (dmem _ _); [|exact X]. now apply Hdel. }
    assert (Hpm : forall k m, meta_copy m -> frame R (put_metadata (V := V) (Mt := Mt) k m)).
    { intros k [x|] Hm; [|apply Hdm]. apply frame_bind.
      - apply frame_atomic. intros s X i y. simpl. rewrite dget_dset. destruct (eqb i _); [discriminate|apply X].
      - intros _. destruct (picklable x); [|exact I]. apply frame_atomic. intros s X. unfold modify. simpl.
        destruct (dmem _ _); [|exact X]. intros i y. simpl. rewrite dget_dset.
        destruct (eqb i _); [|apply X]. intros E. injection E as <-. exact Hm. }
    assert (Hck : frame R (check_open (V := V) (Mt := Mt))).
    { apply frame_atomic. intros s X. unfold bind, get. destruct (negb _); exact X. }
    assert (Hrc : frame R (recount (V := V) (Mt := Mt) dirorder)) by (apply frame_atomic; intros s X; exact X).
    assert (frame R (steps_of dirorder o)) as Hf.
    { destruct o as [|[|c id] v m|id|id|id v m|limit| | |]; try exact I; cbn [steps_of].
      - apply frame_bind; [exact Hck|]. intros _. apply frame_wrap. apply frame_bind; [apply Hsv|]. intros _.
        apply frame_bind; [apply Hpm, Ho|]. intros _. apply frame_bind; [exact Hrc|]. exact (fun _ => I).
      - apply frame_bind; [exact Hck|]. intros _. apply frame_wrap.
        apply frame_bind; [apply frame_atomic; intros s X; exact X|]. intros b.
        apply frame_bind.
        + destruct b; [|exact I]. apply frame_atomic. intros s X. unfold bind, get. destruct (dmem _ _); exact X.
        + intros _. apply frame_bind; [apply Hdm|]. intros _. destruct b; [|exact I].
          apply frame_bind; [exact Hrc|]. exact (fun _ => I).
      - apply frame_bind; [exact Hck|]. intros _. apply frame_wrap.
        apply frame_bind; [apply frame_atomic; intros s X; exact X|]. intros [|]; [|exact I].
        apply frame_bind; [apply Hsv|]. intros _.
        apply frame_bind; [apply Hpm, Ho|]. exact (fun _ => I). }
    exact (frame_run R Rr Rt _ Hf n d).
  Qed.

  (** ** Completed calls: the memory tier never shows *)

  Context (I : pystr -> Prop) (HS : separated I).

  (** Every record of the memory tier is what the files of its id say. *)
  Definition mirrors (mrecs : list (entry V Mt)) (d : disk V Mt) : Prop :=
    forall i x, dget i mrecs = Some x -> I i /\ reading (files (sanitize_id i) d) = Ok (Some x).

  Definition Ch (s : hybrid V Mt) : Prop :=
    Dcopy (h_disk s) /\
    if h_init s
    then d_init (h_disk s) = true /\ m_init (h_memory s) = true /\
         exists mrecs, Rmem mrecs (h_memory s) /\ mirrors mrecs (h_disk s)
    else d_init (h_disk s) = false.

  Lemma cache_sub mrecs s id v m :
    Rmem mrecs (h_memory s) -> m_init (h_memory s) = true -> meta_copy m ->
    exists mrecs' ms, hybrid_cache id v m s = (Ok tt, MkHybrid ms (h_disk s) (h_limit s) (h_init s)) /\
      Rmem mrecs' ms /\ m_init ms = true /\
      forall i x, dget i mrecs' = Some x -> (i = id /\ x = (v, m)) \/ (i <> id /\ dget i mrecs = Some x) \/
                                           (id = [] /\ dget i mrecs = Some x).
  Proof.
    intros Rm Hi Hm. unfold hybrid_cache.
    assert (mem_get_stats (h_memory s) =
            (Ok (Some {| ms_count := m_count (h_memory s); ms_bytes := m_usage (h_memory s) |}),
             h_memory s)) as Est.
    { unfold mem_get_stats, bind, get. now rewrite Hi. }
    rewrite (bind_Ok _ _ _ _ _ (on_mem_Ok _ _ _ _ Est)). rewrite set_mem_id.
    unfold bind at 1, get at 1. cbn [ms_count]. clear Est.
    assert (forall mr s1, Rmem mr (h_memory s1) -> m_init (h_memory s1) = true ->
      (forall i x, dget i mr = Some x -> dget i mrecs = Some x) ->
      exists mrecs' ms,
        (_ <- on_mem (mem_store id v m);; ret tt)%py s1 =
          (Ok tt, MkHybrid ms (h_disk s1) (h_limit s1) (h_init s1)) /\
        Rmem mrecs' ms /\ m_init ms = true /\
        forall i x, dget i mrecs' = Some x -> (i = id /\ x = (v, m)) \/ (i <> id /\ dget i mrecs = Some x) \/
                                           (id = [] /\ dget i mrecs = Some x)) as Hstore.
    { intros mr s1 Rm1 Hi1 Hsub. assert (id = [] \/ id <> []) as [->|Hid] by (destruct id; auto; right; discriminate).
      - exists mr, (h_memory s1). rewrite set_mem_id. split.
        { unfold bind, on_mem, zoom, mem_store, ret. now rewrite set_mem_id. }
        split; [exact Rm1|]. split; [exact Hi1|]. auto.
      - destruct (mem_store_Rmem mr (h_memory s1) id v m Rm1 Hi1 Hid Hm) as [s' [E [R' Hi']]].
        unfold bind, on_mem, zoom. rewrite E. unfold ret.
        exists (dset id (v, m) mr), s'. split; [reflexivity|].
        split; [exact R'|]. split; auto. intros i x Hg. rewrite dget_dset in Hg. destruct (eqb_spec i id).
        + left. split; congruence.
        + right. left. auto. }
    destruct (m_count (h_memory s) <? h_limit s)%Z.
    - apply (Hstore mrecs s); auto.
    - unfold hybrid_evict.
      assert (on_mem (mem_list (Some 1%Z)) s = (Ok (firstn 1 (dkeys mrecs)), s)) as El.
      { rewrite (on_mem_Ok _ _ _ _ (mem_list_Rmem mrecs _ (Some 1%Z) Rm Hi)).
        now rewrite set_mem_id. }
      destruct mrecs as [|[k0 x0] mrest].
      + erewrite bind_Ok; [|erewrite bind_Ok; [|exact El]; reflexivity].
        apply (Hstore [] s); simpl; auto.
      + destruct (mem_delete_Rmem _ _ k0 Rm Hi) as [s' [E [R' Hi']]].
        erewrite bind_Ok; [|erewrite bind_Ok; [|exact El]; simpl;
                            erewrite bind_Ok; [|apply on_mem_Ok; exact E]; reflexivity].
        destruct (Hstore (ddel k0 ((k0, x0) :: mrest))
                    (MkHybrid s' (h_disk s) (h_limit s) (h_init s)) R' Hi') as (mr' & ms' & E' & P).
        * intros i x Hg. rewrite dget_ddel in Hg. destruct (eqb_spec i k0); [discriminate|exact Hg].
        * exists mr', ms'. simpl in E'. rewrite E'. split; [reflexivity|exact P].
  Qed.

  (** Writing the files of one id leaves what the memory tier says about other ids right. *)
  Lemma mirrors_others mrecs mrecs' d d' id :
    mirrors mrecs d -> others (sanitize_id id) d d' -> I id ->
    (forall i x, i <> id -> dget i mrecs' = Some x -> dget i mrecs = Some x) ->
    (forall x, dget id mrecs' = Some x -> reading (files (sanitize_id id) d') = Ok (Some x)) ->
    mirrors mrecs' d'.
  Proof.
    intros Hm Ho Hid Hsub Hx i x Hg. destruct (eqb_spec i id) as [->|Hne]; [auto|].
    destruct (Hm i x (Hsub i x Hne Hg)) as [Hi Hr]. split; [exact Hi|].
    rewrite (files_others _ (sanitize_id i) d d' Ho); [exact Hr|].
    intros E. apply Hne. now apply (separated_inj I).
  Qed.

  Lemma reading_put (v : V) (m : option Mt) : reading (put_files v m) = Ok (Some (v, m)).
  Proof. now destruct m. Qed.

  Lemma disk_store_ok id v m (d : disk V Mt) : d_init d = true -> meta_pickle m -> id <> [] ->
    fst (disk_store dirorder id v m d) = Ok true.
  Proof.
    intros Hi Hm Hid. destruct id as [|c id]; [congruence|]. unfold disk_store, bind at 1, get. rewrite Hi. cbn [negb].
    unfold wrap, bind, disk_write_vec, modify. destruct m as [m|]; [|reflexivity].
    unfold disk_write_meta, bind, modify. simpl in Hm. now rewrite Hm.
  Qed.

  Lemma disk_update_fst id v m (d : disk V Mt) : d_init d = true -> meta_pickle m ->
    fst (disk_update id v m d) = Ok (dmem (npy_name (sanitize_id id)) (d_vectors d)).
  Proof.
    intros Hi Hm. unfold disk_update, bind at 1, get. rewrite Hi. cbn [negb].
    unfold wrap, bind, disk_write_vec, modify. destruct (dmem _ _); [|reflexivity]. cbn [negb].
    destruct m as [m|]; [|reflexivity].
    unfold disk_write_meta, bind, modify. simpl in Hm. now rewrite Hm.
  Qed.

  Lemma disk_update_ok id v m (d : disk V Mt) : d_init d = true -> meta_pickle m ->
    disk_update id v m d = (Ok (dmem (npy_name (sanitize_id id)) (d_vectors d)), snd (disk_update id v m d)).
  Proof. intros Hi Hm. rewrite <- (disk_update_fst id v m d Hi Hm). apply surjective_pairing. Qed.

  Lemma disk_delete_ok id (d : disk V Mt) : d_init d = true ->
    disk_delete dirorder id d = (Ok (dmem (npy_name (sanitize_id id)) (d_vectors d)), snd (disk_delete dirorder id d)).
  Proof.
    intros Hi. rewrite (surjective_pairing (disk_delete dirorder id d)) at 1. f_equal.
    unfold disk_delete, bind at 1, get. rewrite Hi. cbn [negb].
    unfold wrap, bind, modify. now destruct (dmem _ _).
  Qed.

  Lemma step_is_disk s o : Ch s -> op_ok o -> op_id_in I o ->
    let (r, s') := sc_step HC s o in Ch s' /\ sc_step DC (h_disk s) o = (r, h_disk s').
  Proof.
    intros HCh Hok HI. pose proof HCh as [Hc Hs].
    destruct (h_init s) eqn:Eh; [destruct Hs as (Hd & Hmi & mr & Rm & Hmir)|].
    - destruct o as [|id v m|id|id|id v m|limit| | |]; unfold HC, DC;
        cbn [sc_step hybrid_class disk_class sc_store sc_retrieve sc_delete sc_update sc_list sc_reopen].
      + (* init *)
        cbn. split; [|reflexivity]. split; [exact Hc|]. cbn. split; [reflexivity|]. split; [reflexivity|].
        exists []. split; [apply Rmem_empty|]. intros i x. discriminate.
      + (* store *)
        destruct id as [|c id0]; [cbn; auto|]. set (id := c :: id0) in *.
        assert (Hid : id <> []) by discriminate.
        assert (E0 : hybrid_store dirorder id v m s =
          wrap EStorage (disk_success <- on_disk (disk_store dirorder id v m) ;;
                (if disk_success then hybrid_cache id v m else ret tt) ;;; ret disk_success)%py s).
        { unfold id. unfold hybrid_store, bind at 1, get. now rewrite Eh. }
        rewrite E0. clear E0.
        pose proof (disk_store_ok id v m (h_disk s) Hd (proj2 Hok) Hid) as Es.
        pose proof (store_files dirorder id v m (h_disk s) (proj2 Hok) Hd Hid) as Ef.
        pose proof (store_others dirorder id v m (h_disk s)) as Ho.
        pose proof (disk_store_copy dirorder id v m (h_disk s) Hc (proj1 Hok)) as Hc'.
        unfold wrap, bind at 1, on_disk, zoom.
        destruct (disk_store dirorder id v m (h_disk s)) as [r d']. cbn [fst snd] in *. subst r.
        destruct (cache_sub mr (MkHybrid (h_memory s) d' (h_limit s) (h_init s)) id v m Rm Hmi (proj1 Hok))
          as (mr' & ms & Ec & Rm' & Hmi' & Hsub).
        unfold bind. rewrite Ec. cbn. split; [|reflexivity]. split; [exact Hc'|]. cbn. rewrite Eh.
        split; [rewrite (proj1 Ho); exact Hd|]. split; [exact Hmi'|]. exists mr'. split; [exact Rm'|].
        apply (mirrors_others mr mr' (h_disk s) d' id Hmir Ho HI).
        * intros i x Hne Hg. destruct (Hsub i x Hg) as [[? ?]|[[? ?]|[? ?]]]; tauto.
        * intros x Hg. rewrite Ef. destruct (Hsub id x Hg) as [[_ ->]|[[? ?]|[? ?]]]; try tauto. apply reading_put.
      + (* retrieve *)
        pose proof (disk_retrieve_copy id (h_disk s)) as Hrc.
        assert (Hr : disk_retrieve id (h_disk s) = (reading (files (sanitize_id id) (h_disk s)), h_disk s)).
        { pose proof (read_reading dirorder (h_disk s) id Hd) as E. unfold read in E. cbn [sc_retrieve disk_class] in E.
          destruct (disk_retrieve id (h_disk s)) as [r d'] eqn:E1. destruct (Hrc _ _ eq_refl Hc) as [-> _].
          cbn [fst] in E. now rewrite E. }
        rewrite Hr. unfold hybrid_retrieve, bind at 1, get. rewrite Eh. cbn [negb].
        unfold wrap, bind at 1, on_mem, zoom. rewrite (mem_retrieve_Rmem mr (h_memory s) id Rm Hmi).
        rewrite set_mem_id. destruct (dget id mr) as [x|] eqn:Eg.
        * destruct (Hmir id x Eg) as [_ ->]. cbn. auto.
        * unfold bind at 1, on_disk, zoom. rewrite Hr, set_mem_id.
          destruct (reading (files (sanitize_id id) (h_disk s))) as [[[v m]|]|e] eqn:Erd.
          -- assert (Hmc : meta_copy m) by (destruct (Hrc _ _ Hr Hc) as [_ X]; exact (X v m eq_refl)).
             destruct (cache_sub mr s id v m Rm Hmi Hmc) as (mr' & ms & Ec & Rm' & Hmi' & Hsub).
             unfold bind. rewrite Ec. cbn. split; [|reflexivity]. split; [exact Hc|]. cbn. rewrite Eh.
             split; [exact Hd|]. split; [exact Hmi'|]. exists mr'. split; [exact Rm'|].
             intros i x Hg. destruct (Hsub i x Hg) as [[-> ->]|[[_ Hg']|[_ Hg']]]; auto.
          -- cbn. auto.
          -- assert (e = EStorage) as ->; [|cbn; auto].
             revert Erd. unfold reading. destruct (files _ _) as [[[?|]|] [[?|]|]]; congruence.
      + (* delete *)
        unfold hybrid_delete, bind at 1, get. rewrite Eh. cbn [negb].
        destruct (mem_delete_Rmem mr (h_memory s) id Rm Hmi) as [ms [E [Rm' Hmi']]].
        pose proof (disk_delete_ok id (h_disk s) Hd) as Ed.
        pose proof (delete_files dirorder id (h_disk s) Hd) as Ef.
        pose proof (delete_others dirorder id (h_disk s)) as Ho.
        pose proof (disk_delete_copy dirorder id (h_disk s) Hc) as Hc'.
        unfold wrap, bind, on_mem, on_disk, zoom. rewrite E. cbn [h_disk h_memory h_limit h_init].
        rewrite Ed. set (d' := snd (disk_delete dirorder id (h_disk s))) in *. cbn.
        split; [|f_equal; f_equal].
        * split; [exact Hc'|]. cbn. rewrite Eh. split; [rewrite (proj1 Ho); exact Hd|]. split; [exact Hmi'|].
          exists (ddel id mr). split; [exact Rm'|].
          apply (mirrors_others mr (ddel id mr) (h_disk s) d' id Hmir Ho HI).
          -- intros i x Hne. rewrite dget_ddel. destruct (eqb_spec i id); [congruence|auto].
          -- intros x. rewrite dget_ddel_same. discriminate.
        * destruct (dmem id mr) eqn:Em; [|reflexivity]. unfold dmem in Em |- *.
          destruct (dget id mr) as [x|] eqn:Eg; [|discriminate]. destruct (Hmir id x Eg) as [_ Hr].
          unfold files in Hr. destruct (dget (npy_name _) _); [reflexivity|discriminate].
      + (* update *)
        unfold hybrid_update, bind at 1, get. rewrite Eh. cbn [negb].
        pose proof (disk_update_ok id v m (h_disk s) Hd (proj2 Hok)) as Ed.
        pose proof (update_files id v m (h_disk s) (proj2 Hok) Hd) as Ef.
        pose proof (update_others id v m (h_disk s)) as Ho.
        pose proof (disk_update_copy id v m (h_disk s) Hc (proj1 Hok)) as Hc'.
        unfold wrap, bind, on_disk, zoom. rewrite Ed.
        set (d' := snd (disk_update id v m (h_disk s))) in *.
        unfold files in Ef at 2. cbn [fst] in Ef. unfold dmem.
        destruct (dget (npy_name (sanitize_id id)) (d_vectors (h_disk s))) as [fv|] eqn:Efv.
        * destruct (mem_update_Rmem mr (h_memory s) id v m Rm Hmi (proj1 Hok)) as [ms [E [Rm' Hmi']]].
          unfold on_mem, zoom. cbn [h_memory]. rewrite E. cbn. split; [|reflexivity].
          split; [exact Hc'|]. cbn. rewrite Eh. split; [rewrite (proj1 Ho); exact Hd|]. split; [exact Hmi'|].
          eexists. split; [exact Rm'|].
          apply (mirrors_others mr _ (h_disk s) d' id Hmir Ho HI).
          -- intros i x Hne. destruct (dmem id mr); [|auto]. rewrite dget_dset. destruct (eqb_spec i id); [congruence|auto].
          -- intros x. rewrite Ef, reading_put. destruct (dmem id mr) eqn:Em.
             ++ rewrite dget_dset_same. congruence.
             ++ unfold dmem in Em. intros Eg. rewrite Eg in Em. discriminate.
        * cbn. split; [|reflexivity]. split; [exact Hc'|]. cbn. rewrite Eh.
          split; [rewrite (proj1 Ho); exact Hd|]. split; [exact Hmi|]. exists mr. split; [exact Rm|].
          apply (mirrors_others mr mr (h_disk s) d' id Hmir Ho HI); [auto|].
          intros x Eg. destruct (Hmir id x Eg) as [_ Hr]. rewrite Ef. exact Hr.
      + (* list *)
        unfold hybrid_list, bind, get. rewrite Eh. cbn [negb]. unfold on_disk, zoom.
        assert (El : exists l, disk_list dirorder limit (h_disk s) = (Ok l, h_disk s)).
        { unfold disk_list, bind, get. rewrite Hd. cbn [negb]. destruct limit; eexists; reflexivity. }
        destruct El as [l ->]. cbn. rewrite set_mem_id. auto.
      + (* stats *)
        destruct s as [[mv mm mc mu mi] [dv dm dc di] lim hi]. cbn in Eh, Hd, Hmi. subst.
        cbn. split; [|reflexivity]. exact HCh.
      + (* close *) cbn. split; [|reflexivity]. split; [exact Hc|reflexivity].
      + (* reopen *) cbn. split; [|reflexivity]. split; [exact Hc|reflexivity].
    - destruct s as [[mv mm mc mu mi] [dv dm dc di] lim hi]. cbn in Eh, Hs. subst.
      destruct o as [|[|c id] v m|id|id|id v m|limit| | |]; cbn; (split; [|reflexivity]); try exact HCh.
      + split; [exact Hc|]. cbn. split; [reflexivity|]. split; [reflexivity|].
        exists []. split; [apply Rmem_empty|]. intros i x. discriminate.
  Qed.

  Lemma Ch_restart s : Dcopy (h_disk s) -> Ch (hybrid_restart s).
  Proof. intros Hc. split; [exact Hc|reflexivity]. Qed.

  Lemma restart_copy (d d' : disk V Mt) : restart d = restart d' -> Dcopy d' -> Dcopy d.
  Proof. intros E Hc n m. injection E as _ E. rewrite E. apply Hc. Qed.

  Lemma happens_is_disk s h : Ch s -> of_call op_ok h -> of_call (op_id_in I) h ->
    exists h', same_call h h' /\ Ch (snd (hyb_happens s h)) /\
      disk_happens (h_disk s) h' = (fst (hyb_happens s h), h_disk (snd (hyb_happens s h))).
  Proof.
    intros HCh Hok HI. destruct h as [o|o n]; cbn [of_call] in Hok, HI.
    - exists (Call o). split; [reflexivity|]. cbn [hyb_happens disk_happens].
      pose proof (step_is_disk s o HCh Hok HI) as Hst. destruct (sc_step HC s o) as [r s'].
      destruct Hst as [HC' E]. split; [exact HC'|]. now rewrite E.
    - assert (Hcp : op_copy o) by (destruct o; cbn in Hok |- *; try exact Logic.I; exact (proj1 Hok)).
      cbn [hyb_happens fst snd].
      assert (Hgo : forall s', (exists j, restart (h_disk s') = restart (run_for j (steps_of dirorder o) (h_disk s))) ->
        exists h', same_call (Crash o n) h' /\ Ch (hybrid_restart s') /\
          disk_happens (h_disk s) h' = ([], h_disk (hybrid_restart s'))).
      { intros s' [j E]. exists (Crash o j). split; [reflexivity|]. split.
        - apply Ch_restart. apply (restart_copy _ _ E). apply steps_copy; [exact Hcp|exact (proj1 HCh)].
        - cbn [disk_happens]. rewrite <- E. reflexivity. }
      destruct (hybrid_early o s); apply Hgo.
      + exists 0. reflexivity.
      + apply crash_is_crash.
  Qed.

  Lemma history_cons {S} (f : S -> happening V Mt -> list (sret V Mt) * S) s h hs :
    history f s (h :: hs) =
    (fst (f s h) ++ fst (history f (snd (f s h)) hs), snd (history f (snd (f s h)) hs)).
  Proof.
    unfold history. cbn [fold_left fst snd]. destruct (f s h) as [rs s']. cbn [fst snd app].
    assert (forall hs acc s, fold_left (fun x h0 => let (rs, s') := f (snd x) h0 in (fst x ++ rs, s')) hs (acc, s) =
      (acc ++ fst (fold_left (fun x h0 => let (rs, s') := f (snd x) h0 in (fst x ++ rs, s')) hs ([], s)),
       snd (fold_left (fun x h0 => let (rs, s') := f (snd x) h0 in (fst x ++ rs, s')) hs ([], s)))) as G.
    { clear. induction hs as [|h hs IH]; intros acc s; cbn [fold_left fst snd].
      - now rewrite app_nil_r.
      - destruct (f s h) as [rs s']. rewrite IH. rewrite (IH ([] ++ rs)). cbn [fst snd app]. now rewrite app_assoc. }
    apply G.
  Qed.

  Lemma history_is_disk hs : forall s, Ch s -> Forall (of_call op_ok) hs -> Forall (of_call (op_id_in I)) hs ->
    exists hs', Forall2 same_call hs hs' /\ Ch (snd (history hyb_happens s hs)) /\
      history disk_happens (h_disk s) hs' =
      (fst (history hyb_happens s hs), h_disk (snd (history hyb_happens s hs))).
  Proof.
    induction hs as [|h hs IH]; intros s HCh Ho Hi.
    - exists []. split; [constructor|]. split; [exact HCh|reflexivity].
    - inversion Ho; subst. inversion Hi; subst.
      destruct (happens_is_disk s h HCh H3 H5) as (h' & Hsame & HCh' & E).
      destruct (IH _ HCh' H4 H6) as (hs' & Hs' & HC' & E').
      exists (h' :: hs'). split; [constructor; auto|]. rewrite !history_cons, E. cbn [fst snd].
      rewrite E'. cbn [fst snd]. split; [exact HC'|reflexivity].
  Qed.

  Lemma Ch_new limit : Ch (hybrid_new limit [] []).
  Proof. split; [intros n m; discriminate|reflexivity]. Qed.

  Lemma read_is_disk s id : Ch s -> I id -> read HC s id = read DC (h_disk s) id.
  Proof.
    intros HCh Hid. pose proof (step_is_disk s (ORetrieve id) HCh Logic.I Hid) as Hst.
    unfold read. cbn [sc_step] in Hst. destruct (sc_retrieve HC id s) as [[r|e] s'];
      destruct (sc_retrieve DC id (h_disk s)) as [[r'|e'] d']; cbn in Hst |- *; destruct Hst as [_ E]; congruence.
  Qed.

  Lemma happened_history hs : forall s : disk V Mt,
    fold_left (happens dirorder) hs s = snd (history disk_happens s hs).
  Proof.
    induction hs as [|h hs IH]; intros s; [reflexivity|]. rewrite history_cons. cbn [fold_left snd]. rewrite IH.
    f_equal. f_equal. destruct h as [o|o n]; cbn; [|reflexivity]. now destruct (sc_step _ s o).
  Qed.
End HCrash.

(** C117: any history of completed calls and of crashes inside calls is, answer by answer and file
    by file, a history of the disk backend with the same calls. *)
Theorem C117_hybrid_is_disk {V Mt} `{Payload V Mt} `{Unicode} dirorder (I : pystr -> Prop) limit
    (hs : list (happening V Mt)) :
  separated I -> Forall (of_call op_ok) hs -> Forall (of_call (op_id_in I)) hs ->
  exists hs', Forall2 same_call hs hs' /\
    let (rs, s) := history (hyb_happens dirorder) (hybrid_new limit [] []) hs in
    history (disk_happens dirorder) (disk_new [] []) hs' = (rs, h_disk s).
Proof.
  intros HS Ho Hi. destruct (history_is_disk dirorder I HS hs _ (Ch_new I limit) Ho Hi) as (hs' & Hs & _ & E).
  exists hs'. split; [exact Hs|]. destruct (history (hyb_happens dirorder) _ hs) as [rs s]. exact E.
Qed.

(** C117, for one id: whatever the completed calls and the crashes inside calls on other ids were,
    the last completed store, update or delete of the id is what a read finds ([certain] is the
    specification used for the disk backend in C08). *)
Theorem C117_crashes_leave_others_alone {V Mt} `{Payload V Mt} `{Unicode} dirorder (I : pystr -> Prop) key limit
    (hs : list (happening V Mt)) id open cur :
  separated I -> (forall i, file_safe isalnum i (key i)) ->
  Forall (of_call op_ok) hs -> Forall (of_call (op_id_in I)) hs -> I id ->
  certain (fun j => eqb (key j) (key id)) hs = (open, Some cur) ->
  read (hybrid_class dirorder) (snd (history (hyb_happens dirorder) (hybrid_new limit [] []) hs)) id =
  if open then Ok cur else Raise EStorage.
Proof.
  intros HS Hk Ho Hi Hid Hc.
  destruct (history_is_disk dirorder I HS hs _ (Ch_new I limit) Ho Hi) as (hs' & Hs & HCh & E).
  rewrite (read_is_disk dirorder I HS _ id HCh Hid).
  replace (h_disk (snd (history (hyb_happens dirorder) (hybrid_new limit [] []) hs)))
    with (happened dirorder hs').
  - apply (C08_crashes_leave_others_alone V Mt dirorder key hs' id open cur Hk).
    + clear - Hs Ho. induction Hs as [|h h' hs hs' Hh Hs IH]; constructor.
      * inversion Ho as [|? ? X Y]; subst.
        destruct h as [o|o n], h' as [o'|o' n']; cbn in Hh; try tauto; subst; [|exact Logic.I].
        destruct o'; try exact Logic.I; exact (proj2 X).
      * inversion Ho; subst. auto.
    + rewrite <- Hc. unfold certain. clear - Hs. generalize (false, Some (@None (V * option Mt))).
      induction Hs as [|h h' hs hs' Hh Hs IH]; intros st; [reflexivity|]. cbn [fold_left]. rewrite IH. f_equal.
      destruct h as [o|o n], h' as [o'|o' n']; cbn in Hh; try tauto; subst; reflexivity.
  - unfold happened. rewrite happened_history.
    change (disk_new [] []) with (h_disk (@hybrid_new V Mt limit [] [])). now rewrite E.
Qed.

(** Two records; a crash between emptying and filling the vector file of "a" in a store, before the
    memory tier is told; the new process reads "b", not "a"; storing "a" again repairs it.  The
    first read of "b" is answered from the disk, the second one from memory. *)
Example C117_example :
  let hs := [Call OInit; Call (OStore (py "a") [1%Z] (Some 7%Z)); Call (OStore (py "b") [2%Z] None);
             Crash (OStore (py "a") [3%Z] None) 2; Call OInit;
             Call (ORetrieve (py "a")); Call (ORetrieve (py "b")); Call (ORetrieve (py "b"));
             Call (OStore (py "a") [4%Z] None); Call (ORetrieve (py "a"))] in
  let I := fun i => i = py "a" \/ i = py "b" in
  separated I /\ Forall (of_call op_ok) hs /\ Forall (of_call (op_id_in I)) hs /\
  fst (history (hyb_happens demo_order) (hybrid_new 1 [] []) hs) =
  [RUnit; RBool true; RBool true; RUnit; RExn EStorage; RRec (Some ([2%Z], None)); RRec (Some ([2%Z], None));
   RBool true; RRec (Some ([4%Z], None))] /\
  certain (fun j => eqb (sanitize_id j) (sanitize_id (py "b"))) hs = (true, Some (Some ([2%Z], None))).
Proof.
  cbv zeta. split.
  { intros i j t Hi Hj E1 E2. apply file_safe_sanitize in E1, E2. subst.
    destruct Hi as [-> | ->], Hj as [-> | ->]; try reflexivity; discriminate. }
  split; [repeat constructor|]. split; [repeat (constructor; [cbn; auto|]); constructor|].
  split; vm_compute; reflexivity.
Qed.

Print Assumptions C117_hybrid_is_disk.
Print Assumptions C117_crashes_leave_others_alone.
