(** Properties C172 and C173: several threads use one disk backend. *)

From Coq Require Import List Arith ZArith NArith Lia Bool Permutation.
From Coq Require String.
Import (notations) Coq.Strings.String.
From Verif Require Import PyBase BaseLemmas Payload StorageModel StorageSpec StorageRun
  StorageProofs StorageThms StepModel StepProofs LshSteps OwnProofs DiskThreads Demo.
Import ListNotations.

(** ** Specification *)

Section Spec.
  Context {V Mt : Type} `{Unicode}.

  (** The calls about one id. *)
  Definition about_id (o : sop V Mt) : option pystr :=
    match o with
    | OStore id _ _ | ORetrieve id | ODelete id | OUpdate id _ _ => Some id
    | _ => None
    end.

  (** The file-safe forms of the ids that a list of calls is about. *)
  Definition call_names (ops : list (sop V Mt)) : list pystr :=
    flat_map (fun o => match about_id o with Some id => [sanitize_id id] | None => [] end) ops.

  (** No two threads use ids with the same file-safe form. *)
  Definition names_apart (jobs : list (list (sop V Mt))) : Prop :=
    forall t u ops ops' k, nth_error jobs t = Some ops -> nth_error jobs u = Some ops' ->
      In k (call_names ops) -> In k (call_names ops') -> t = u.
End Spec.

Section Own.
  Context {V Mt : Type} `{Payload V Mt} `{Unicode}.
  Context (dirorder : list pystr -> list pystr).
  Notation D := (disk V Mt).
  Notation C := (disk_class (V := V) (Mt := Mt) dirorder).

  (** ** Run without interruption, the steps are the calls *)

  Lemma finish_retrieve id (s : D) : finish (retrieve_steps id) s = disk_retrieve id s.
  Proof.
    unfold retrieve_steps, check_open. rewrite finish_bind, finish_atomic.
    unfold disk_retrieve, bind at 1 2, get. destruct (negb (d_init s)); [reflexivity|].
    unfold ret at 1. rewrite finish_wrap. unfold wrap.
    rewrite finish_bind. unfold has_vector. rewrite finish_atomic. unfold bind, get, ret, dmem.
    destruct (dget (npy_name (sanitize_id id)) (d_vectors s)) as [[v|]|] eqn:Ev; simpl negb; cbv iota.
    - rewrite finish_bind. unfold load_vector. rewrite finish_atomic. unfold bind, get, ret. rewrite Ev.
      rewrite finish_bind. unfold has_metadata. rewrite finish_atomic. unfold bind, get, ret, dmem.
      destruct (dget (pkl_name (sanitize_id id)) (d_metadata s)) as [[m|]|] eqn:Em.
      + rewrite finish_bind. unfold load_metadata. rewrite finish_atomic. unfold bind, get, ret.
        rewrite Em. reflexivity.
      + rewrite finish_bind. unfold load_metadata. rewrite finish_atomic. unfold bind, get, ret.
        rewrite Em. reflexivity.
      + reflexivity.
    - rewrite finish_bind. unfold load_vector. rewrite finish_atomic. unfold bind, get, ret. rewrite Ev.
      reflexivity.
    - reflexivity.
  Qed.

  Lemma finish_answer {A} (f : A -> sret V Mt) (p : prog D A) : forall s,
    finish (answer f p) s = match obs f (finish p s) with (r, s') => (Ok r, s') end.
  Proof.
    induction p as [[a|e]|g IH] using prog_induction; intros s; try reflexivity.
    cbn [answer finish]. specialize (IH s). destruct (g s) as [p' s']. simpl in IH. apply IH.
  Qed.

  Lemma finish_call o s : about_id o <> None ->
    finish (call_steps dirorder o) s = match sc_step C s o with (r, s') => (Ok r, s') end.
  Proof.
    destruct o; simpl about_id; intros Ho; try congruence; cbn [call_steps sc_step];
      rewrite finish_answer.
    - now rewrite finish_store.
    - now rewrite finish_retrieve.
    - now rewrite finish_delete.
    - now rewrite finish_update.
  Qed.

  (** C172: run without interruption, a thread's steps are its calls. *)
  Theorem C172_steps_are_the_calls ops s : (forall o, In o ops -> about_id o <> None) ->
    finish (calls_steps dirorder ops) s = (Ok (answers C s ops), after C s ops).
  Proof.
    unfold calls_steps, answers, after. revert s. induction ops as [|o ops IH]; intros s Ho; [reflexivity|].
    cbn [pmapM sc_run]. rewrite finish_bind, finish_call by (apply Ho; simpl; auto).
    destruct (sc_step C s o) as [r s1]. rewrite finish_bind, IH by (intros; apply Ho; simpl; auto).
    destruct (sc_run C s1 ops) as [rs s2]. reflexivity.
  Qed.

  (** ** Each thread works on the files of its own names *)

  Definition is_open (_ : unit) (s : D) : Prop := d_init s = true.

  (** The two files of a name. *)
  Definition files (k : pystr) (_ : unit) (s : D) : option (fcontent V) * option (fcontent Mt) :=
    (dget (npy_name k) (d_vectors s), dget (pkl_name k) (d_metadata s)).

  Notation lock := (locked is_open files).
  Implicit Types own : pystr -> Prop.

  (** A step whose result and effect are those of [f] on the files of [k]. *)
  Lemma lock_files {A} own k (m : M D A)
      (f : option (fcontent V) * option (fcontent Mt) ->
           result A * (option (fcontent V) * option (fcontent Mt))) :
    own k ->
    (forall s, d_init s = true ->
       d_init (snd (m s)) = true /\ fst (m s) = fst (f (files k tt s)) /\
       files k tt (snd (m s)) = snd (f (files k tt s)) /\
       forall k', k' <> k -> files k' tt (snd (m s)) = files k' tt s) ->
    lock own eq (atomic m) (atomic m).
  Proof.
    intros Hk Hm. apply locked_atomic. intros w [] w2 [] Hg Hg2 Ha. exists tt, tt.
    destruct (Hm w Hg) as (Hi & Hr & Hc & Ho). destruct (Hm w2 Hg2) as (Hi2 & Hr2 & Hc2 & Ho2).
    split; [exact Hi|]. split; [exact Hi2|]. split; [|split].
    - intros k' Hk'. destruct (eqb_spec k' k) as [->|Hne].
      + rewrite Hc, Hc2. now rewrite (Ha k Hk).
      + rewrite Ho, Ho2 by auto. apply Ha. exact Hk'.
    - intros k' Hk'. symmetry. apply Ho. intros ->. auto.
    - rewrite Hr, Hr2, (Ha k Hk). generalize (fst (f (files k tt w2))). intros []; simpl; auto.
  Qed.

  Lemma npy_inj k k' : npy_name k = npy_name k' -> k = k'.
  Proof. unfold npy_name. apply app_inv_tail. Qed.
  Lemma pkl_inj k k' : pkl_name k = pkl_name k' -> k = k'.
  Proof. unfold pkl_name. apply app_inv_tail. Qed.

  Lemma npy_eqb k k' : k' <> k -> eqb (npy_name k') (npy_name k) = false.
  Proof. intros Hne. apply eqb_neq. intros E. apply npy_inj in E. auto. Qed.
  Lemma pkl_eqb k k' : k' <> k -> eqb (pkl_name k') (pkl_name k) = false.
  Proof. intros Hne. apply eqb_neq. intros E. apply pkl_inj in E. auto. Qed.

  Ltac others := intros k' Hne; unfold files; simpl;
    rewrite ?dget_dset, ?dget_ddel, ?npy_eqb, ?pkl_eqb by auto; reflexivity.

  Lemma lock_check own : lock own eq check_open check_open.
  Proof.
    apply locked_atomic. intros w [] w2 [] Hg Hg2 Ha. exists tt, tt. unfold is_open in *.
    unfold bind, get. rewrite Hg, Hg2. simpl.
    split; [auto|split; [auto|split; [auto|split; [|reflexivity]]]]. intros ? ?. reflexivity.
  Qed.

  Lemma lock_recount own : lock own eq (recount dirorder) (recount dirorder).
  Proof.
    apply locked_atomic. intros w [] w2 [] Hg Hg2 Ha. exists tt, tt. unfold is_open in *.
    unfold disk_recount, modify. simpl.
    split; [auto|split; [auto|split; [exact Ha|split; [|reflexivity]]]]. intros ? ?. reflexivity.
  Qed.

  Lemma lock_has_vector own k : own k -> lock own eq (has_vector k) (has_vector k).
  Proof.
    intros Hk. apply (lock_files own k _
      (fun c => (Ok (match fst c with Some _ => true | None => false end), c)) Hk).
    intros s Hs. unfold bind, get, ret, dmem. simpl. auto.
  Qed.

  Lemma lock_has_metadata own k : own k -> lock own eq (has_metadata k) (has_metadata k).
  Proof.
    intros Hk. apply (lock_files own k _
      (fun c => (Ok (match snd c with Some _ => true | None => false end), c)) Hk).
    intros s Hs. unfold bind, get, ret, dmem. simpl. auto.
  Qed.

  Lemma lock_load_vector own k : own k -> lock own eq (load_vector k) (load_vector k).
  Proof.
    intros Hk. apply (lock_files own k _
      (fun c => (match fst c with
                 | None => Raise EOs
                 | Some FBad => Raise EValue
                 | Some (FGood v) => Ok v
                 end, c)) Hk).
    intros s Hs. unfold bind, get, files, raise, ret. simpl.
    destruct (dget (npy_name k) (d_vectors s)) as [[v|]|] eqn:Ev; simpl; rewrite ?Ev; auto 8.
  Qed.

  Lemma lock_load_metadata own k : own k -> lock own eq (load_metadata k) (load_metadata k).
  Proof.
    intros Hk. apply (lock_files own k _
      (fun c => (match snd c with
                 | None => Raise EOs
                 | Some FBad => Raise EValue
                 | Some (FGood v) => Ok v
                 end, c)) Hk).
    intros s Hs. unfold bind, get, files, raise, ret. simpl.
    destruct (dget (pkl_name k) (d_metadata s)) as [[v|]|] eqn:Ev; simpl; rewrite ?Ev; auto 8.
  Qed.

  Lemma lock_save_vector own k v : own k -> lock own eq (save_vector k v) (save_vector k v).
  Proof.
    intros Hk. unfold save_vector. eapply (locked_bind _ _ own eq); [|intros _ _ _].
    - apply (lock_files own k _ (fun c => (Ok tt, (Some FBad, snd c))) Hk).
      intros s Hs. unfold modify, files. simpl. rewrite dget_dset, eqb_refl.
      split; [auto|split; [auto|split; [auto|others]]].
    - apply (lock_files own k _
        (fun c => (Ok tt, (match fst c with Some _ => Some (FGood v) | None => None end, snd c))) Hk).
      intros s Hs. unfold modify, dmem, files. simpl.
      destruct (dget (npy_name k) (d_vectors s)) eqn:Ev; simpl.
      + rewrite dget_dset, eqb_refl. split; [auto|split; [auto|split; [auto|others]]].
      + rewrite Ev. auto.
  Qed.

  Lemma lock_unlink_vector own k : own k -> lock own eq (unlink_vector k) (unlink_vector k).
  Proof.
    intros Hk. apply (lock_files own k _
      (fun c => match fst c with Some _ => (Ok tt, (None, snd c)) | None => (Raise EOs, c) end) Hk).
    intros s Hs. unfold bind, get, dmem, files, raise, modify. simpl.
    destruct (dget (npy_name k) (d_vectors s)) eqn:Ev; simpl.
    - rewrite dget_ddel, eqb_refl. split; [auto|split; [auto|split; [auto|others]]].
    - rewrite Ev. auto.
  Qed.

  Lemma lock_drop own k : own k -> lock own eq (drop_metadata k) (drop_metadata k).
  Proof.
    intros Hk. unfold drop_metadata. eapply (locked_bind _ _ own eq); [now apply lock_has_metadata|].
    intros [] ? <-; [|reflexivity].
    apply (lock_files own k _
      (fun c => match snd c with Some _ => (Ok tt, (fst c, None)) | None => (Raise EOs, c) end) Hk).
    intros s Hs. unfold bind, get, dmem, files, raise, modify. simpl.
    destruct (dget (pkl_name k) (d_metadata s)) eqn:Ev; simpl.
    - rewrite dget_ddel, eqb_refl. split; [auto|split; [auto|split; [auto|others]]].
    - rewrite Ev. auto.
  Qed.

  Lemma lock_put_metadata own k m : own k -> lock own eq (put_metadata k m) (put_metadata k m).
  Proof.
    intros Hk. destruct m as [m|]; [|now apply lock_drop]. unfold put_metadata, save_metadata.
    eapply (locked_bind _ _ own eq); [|intros _ _ _].
    - apply (lock_files own k _ (fun c => (Ok tt, (fst c, Some FBad))) Hk).
      intros s Hs. unfold modify, files. simpl. rewrite dget_dset, eqb_refl.
      split; [auto|split; [auto|split; [auto|others]]].
    - destruct (picklable m); [|reflexivity]. apply (lock_files own k _
        (fun c => (Ok tt, (fst c, match snd c with Some _ => Some (FGood m) | None => None end))) Hk).
      intros s Hs. unfold modify, dmem, files. simpl.
      destruct (dget (pkl_name k) (d_metadata s)) eqn:Ev; simpl.
      + rewrite dget_dset, eqb_refl. split; [auto|split; [auto|split; [auto|others]]].
      + rewrite Ev. auto.
  Qed.

  Lemma locked_answer {A} own (f : A -> sret V Mt) p : forall q : prog D A,
    lock own eq p q -> lock own eq (answer f p) (answer f q).
  Proof.
    induction p as [r|g IH] using prog_induction; intros [r'|g2] Hl; try (simpl in Hl; tauto).
    - destruct r as [a|e], r' as [a'|e']; simpl in Hl; try contradiction; subst; simpl; auto.
    - cbn [answer locked]. intros w u w2 u2 Hg Hg2 Ha. specialize (Hl w u w2 u2 Hg Hg2 Ha).
      specialize (IH w). destruct (g w) as [p' w'], (g2 w2) as [q' w2'].
      destruct Hl as (g' & g2' & ? & ? & ? & ? & Hl). exists g', g2'. simpl in IH. auto 7.
  Qed.

  Lemma lock_call own o : (forall id, about_id o = Some id -> own (sanitize_id id)) ->
    lock own eq (call_steps dirorder o) (call_steps dirorder o).
  Proof.
    intros Ho. destruct o as [|id v m|id|id|id v m| | | |]; try reflexivity; cbn [call_steps];
      simpl in Ho; specialize (Ho id eq_refl); apply locked_answer.
    - destruct id as [|c id]; [reflexivity|]. unfold store_steps.
      eapply locked_bind; [apply lock_check|]. intros _ _ _. apply locked_wrap.
      eapply locked_bind; [now apply lock_save_vector|]. intros _ _ _.
      eapply locked_bind; [now apply lock_put_metadata|]. intros _ _ _.
      eapply locked_bind; [apply lock_recount|]. intros _ _ _. reflexivity.
    - unfold retrieve_steps. eapply locked_bind; [apply lock_check|]. intros _ _ _. apply locked_wrap.
      eapply locked_bind; [now apply lock_has_vector|]. intros [] ? <-; [|reflexivity]. simpl negb.
      cbv iota. eapply locked_bind; [now apply lock_load_vector|]. intros v ? <-.
      eapply locked_bind; [now apply lock_has_metadata|]. intros [] ? <-; [|reflexivity].
      eapply locked_bind; [now apply lock_load_metadata|]. intros m ? <-. reflexivity.
    - unfold delete_steps. eapply locked_bind; [apply lock_check|]. intros _ _ _. apply locked_wrap.
      eapply locked_bind; [now apply lock_has_vector|]. intros b ? <-.
      eapply (locked_bind _ _ own eq); [destruct b; [now apply lock_unlink_vector|reflexivity]|].
      intros _ _ _. eapply locked_bind; [now apply lock_drop|]. intros _ _ _.
      destruct b; [|reflexivity]. eapply locked_bind; [apply lock_recount|]. intros _ _ _. reflexivity.
    - unfold update_steps. eapply locked_bind; [apply lock_check|]. intros _ _ _. apply locked_wrap.
      eapply locked_bind; [now apply lock_has_vector|]. intros [] ? <-; [|reflexivity].
      eapply locked_bind; [now apply lock_save_vector|]. intros _ _ _.
      eapply locked_bind; [now apply lock_put_metadata|]. intros _ _ _. reflexivity.
  Qed.

  Lemma lock_calls own ops :
    (forall o id, In o ops -> about_id o = Some id -> own (sanitize_id id)) ->
    lock own eq (calls_steps dirorder ops) (calls_steps dirorder ops).
  Proof.
    unfold calls_steps. induction ops as [|o ops IH]; intros Ho; [reflexivity|]. cbn [pmapM].
    eapply (locked_bind _ _ own eq).
    - apply lock_call. intros id E. apply (Ho o id); simpl; auto.
    - intros r ? <-. eapply (locked_bind _ _ own eq).
      + apply IH. intros o' id Hin. apply Ho. simpl. auto.
      + intros rs ? <-. reflexivity.
  Qed.

  Definition name_owner (jobs : list (list (sop V Mt))) (t : nat) (k : pystr) : Prop :=
    exists ops, nth_error jobs t = Some ops /\ In k (call_names ops).

  Lemma read_files s s' id : d_init s = true -> d_init s' = true ->
    files (sanitize_id id) tt s = files (sanitize_id id) tt s' -> StorageRun.read C s id = StorageRun.read C s' id.
  Proof.
    unfold files. intros Hs Hs' E. injection E as E1 E2. unfold StorageRun.read. simpl.
    unfold disk_retrieve, bind at 1 2, get. rewrite Hs, Hs'. simpl.
    rewrite E1, E2. unfold wrap.
    destruct (dget (npy_name _) (d_vectors s')) as [[v|]|]; auto.
    destruct (dget (pkl_name _) (d_metadata s')) as [[m|]|]; auto.
  Qed.

  (** C172: threads store, retrieve, delete and update in one open disk backend, in whatever state
      its files are, each as many calls as it likes, no two threads ids with the same file-safe
      form.  Whatever the schedule, every thread that is through has got the answers it would have
      got alone; what is read under an id of none of them is at every moment what it was; and
      what is read under a thread's ids when it is through is what its calls alone leave. *)
  Theorem C172_threads_with_different_ids s jobs sched :
    d_init s = true -> names_apart jobs ->
    (forall ops o, In ops jobs -> In o ops -> about_id o <> None) ->
    match threads sched (disk_pool dirorder jobs) s with
    | (ps', s') =>
        (forall t ops r, nth_error jobs t = Some ops -> ps' t = Return r ->
           r = Ok (answers C s ops) /\
           forall id, In (sanitize_id id) (call_names ops) -> StorageRun.read C s' id = StorageRun.read C (after C s ops) id) /\
        (forall id, (forall ops, In ops jobs -> ~ In (sanitize_id id) (call_names ops)) ->
           StorageRun.read C s' id = StorageRun.read C s id)
    end.
  Proof.
    intros Hs Hapart Hcalls.
    pose proof (threads_own is_open files (name_owner jobs) (disk_pool dirorder jobs) s tt) as Hthr.
    specialize (Hthr ltac:(intros t u k (ops & E & Hin) (ops' & E' & Hin'); eapply Hapart; eauto)).
    assert (Hlock : forall t, lock (name_owner jobs t) eq (disk_pool dirorder jobs t)
                                   (disk_pool dirorder jobs t)).
    { intros t. unfold disk_pool. destruct (nth_error jobs t) as [ops|] eqn:Ej; [|reflexivity].
      apply lock_calls. intros o id Hin E. exists ops. split; auto. unfold call_names.
      apply in_flat_map. exists o. split; auto. rewrite E. simpl. auto. }
    specialize (Hthr Hlock Hs sched). destruct (threads sched _ _) as [ps' s'].
    destruct Hthr as ([] & Hs' & Hrest & Hall). split.
    - intros t ops r Ej Er. destruct (Hall t) as (q & st & [] & Hgt & Ha & Hl & Hf).
      rewrite Er in Hl. destruct q as [r'|f]; [|now simpl in Hl]. cbn [locked] in Hl.
      assert (r = r') as <- by (destruct r, r'; simpl in Hl; try contradiction; now subst).
      assert (disk_pool dirorder jobs t = calls_steps dirorder ops) as Ep
        by (unfold disk_pool; now rewrite Ej).
      rewrite Ep in Hf. cbn [finish] in Hf. rewrite C172_steps_are_the_calls in Hf.
      2:{ intros o Hin. apply (Hcalls ops); auto. eapply nth_error_In; eauto. }
      injection Hf as -> ->. split; auto. intros id Hid. apply read_files; auto.
      apply Ha. exists ops. auto.
    - intros id Hno. apply read_files; auto. symmetry. apply Hrest. intros t (ops & E & Hin).
      apply (Hno ops); auto. eapply nth_error_In; eauto.
  Qed.
End Own.

(** ** Threads that use the same ids *)

(** Programs whose steps keep an invariant and whose answer satisfies [Q]. *)
Section Safe.
  Context {W : Type} (Inv : W -> Prop).

  Fixpoint safe {A} (p : prog W A) (Q : result A -> Prop) : Prop :=
    match p with
    | Return r => Q r
    | Step f => forall w, Inv w -> match f w with (p', w') => Inv w' /\ safe p' Q end
    end.

  Lemma safe_bind {A B} (p : prog W A) (k : A -> prog W B) (Q : result A -> Prop) R :
    safe p Q -> (forall a, Q (Ok a) -> safe (k a) R) -> (forall e, Q (Raise e) -> R (Raise e)) ->
    safe (pbind p k) R.
  Proof.
    intros Hp Hk He. induction p as [[a|e]|f IH] using prog_induction; simpl in *; auto.
    intros w Hw. specialize (Hp w Hw). specialize (IH w). destruct (f w) as [p' w'].
    destruct Hp as [Hi Hp]. auto.
  Qed.

  Lemma safe_wrap {A} E (p : prog W A) (Q R : result A -> Prop) :
    safe p Q -> (forall a, Q (Ok a) -> R (Ok a)) -> R (Raise E) -> safe (pwrap E p) R.
  Proof.
    intros Hp Hk He. induction p as [[a|e]|f IH] using prog_induction; simpl in *; auto.
    intros w Hw. specialize (Hp w Hw). specialize (IH w). destruct (f w) as [p' w'].
    destruct Hp as [Hi Hp]. auto.
  Qed.

  Lemma safe_atomic {A} (m : M W A) (Q : result A -> Prop) :
    (forall w, Inv w -> Inv (snd (m w)) /\ Q (fst (m w))) -> safe (atomic m) Q.
  Proof. intros Hm w Hw. specialize (Hm w Hw). destruct (m w) as [r w']. exact Hm. Qed.

  Lemma safe_threads {A} (Q : nat -> result A -> Prop) sched : forall (ps : nat -> prog W A) w,
    Inv w -> (forall t, safe (ps t) (Q t)) ->
    match threads sched ps w with
    | (ps', w') => Inv w' /\ forall t, safe (ps' t) (Q t)
    end.
  Proof.
    induction sched as [|t sched IH]; intros ps w Hw Hps; cbn [threads]; [auto|].
    destruct (ps t) as [r|f] eqn:E; [now apply IH|].
    pose proof (Hps t) as Ht. rewrite E in Ht. specialize (Ht w Hw).
    destruct (f w) as [p' w']. destruct Ht as [Hw' Hp']. apply IH; auto.
    intros u. destruct (Nat.eqb_spec u t); [subst; auto|apply Hps].
  Qed.
End Safe.

Section Same.
  Context {V Mt : Type} `{Payload V Mt} `{Unicode}.
  Context (dirorder : list pystr -> list pystr).
  Notation D := (disk V Mt).
  Notation C := (disk_class (V := V) (Mt := Mt) dirorder).
  Context (s0 : D) (jobs : list (list (sop V Mt))).

  (** One of the calls writes this vector, this metadata, under an id with this file-safe form. *)
  Definition writes (k : pystr) (v : V) (m : option Mt) : Prop :=
    exists ops id, In ops jobs /\ sanitize_id id = k /\
                   (In (OStore id v m) ops \/ In (OUpdate id v m) ops).

  (** It was in the file at the start or is written by one of the calls. *)
  Definition vector_given (k : pystr) (v : V) : Prop :=
    dget (npy_name k) (d_vectors s0) = Some (FGood v) \/ exists m, writes k v m.
  Definition metadata_given (k : pystr) (m : Mt) : Prop :=
    dget (pkl_name k) (d_metadata s0) = Some (FGood m) \/ exists v, writes k v (Some m).

  (** What a retrieval may answer. *)
  Definition plausible (id : pystr) (r : sret V Mt) : Prop :=
    r = RExn EStorage \/ r = RRec None \/
    exists v om, r = RRec (Some (v, om)) /\ vector_given (sanitize_id id) v /\
                 forall m, om = Some m -> metadata_given (sanitize_id id) m.

  Definition from_calls (s : D) : Prop :=
    (forall k v, dget (npy_name k) (d_vectors s) = Some (FGood v) -> vector_given k v) /\
    (forall k m, dget (pkl_name k) (d_metadata s) = Some (FGood m) -> metadata_given k m).

  Notation ok := (safe from_calls).

  Lemma ok_true {A} (m : M D A) : (forall s, from_calls s -> from_calls (snd (m s))) ->
    ok (atomic m) (fun _ => True).
  Proof. intros Hm. apply safe_atomic. auto. Qed.

  Lemma ok_check : ok check_open (fun r => r = Ok tt \/ r = Raise EStorage).
  Proof.
    apply safe_atomic. intros s Hs. unfold bind, get. destruct (negb (d_init s)); simpl; auto.
  Qed.

  Lemma keeps_vfile k c (s : D) : (forall v, c = FGood v -> vector_given k v) -> from_calls s ->
    from_calls (set_vfiles (dset (npy_name k) c (d_vectors s)) s).
  Proof.
    intros Hc [Hv Hm]. split; simpl; auto. intros k' v. rewrite dget_dset.
    destruct (eqb_spec (npy_name k') (npy_name k)) as [E|]; auto.
    apply npy_inj in E as ->. intros E. injection E as ->. auto.
  Qed.

  Lemma keeps_mfile k c (s : D) : (forall m, c = FGood m -> metadata_given k m) -> from_calls s ->
    from_calls (set_mfiles (dset (pkl_name k) c (d_metadata s)) s).
  Proof.
    intros Hc [Hv Hm]. split; simpl; auto. intros k' v. rewrite dget_dset.
    destruct (eqb_spec (pkl_name k') (pkl_name k)) as [E|]; auto.
    apply pkl_inj in E as ->. intros E. injection E as ->. auto.
  Qed.

  Lemma ok_save_vector k v : vector_given k v -> ok (save_vector k v) (fun _ => True).
  Proof.
    intros Hv. unfold save_vector. eapply safe_bind; [apply ok_true| |auto].
    - intros s Hs. apply keeps_vfile; auto. discriminate.
    - intros _ _. apply ok_true. intros s Hs. unfold modify. simpl. destruct (dmem _ _); auto.
      apply keeps_vfile; auto. intros v' E. injection E as <-. exact Hv.
  Qed.

  Lemma ok_unlink_metadata k : ok (unlink_metadata k) (fun _ => True).
  Proof.
    apply ok_true. intros s Hs. unfold bind, get. destruct (dmem _ _); simpl; auto.
    destruct Hs as [Hv Hm]. split; simpl; auto. intros k' m. rewrite dget_ddel.
    destruct (eqb _ _); [discriminate|auto].
  Qed.

  Lemma ok_unlink_vector k : ok (unlink_vector k) (fun _ => True).
  Proof.
    apply ok_true. intros s Hs. unfold bind, get. destruct (dmem _ _); simpl; auto.
    destruct Hs as [Hv Hm]. split; simpl; auto. intros k' m. rewrite dget_ddel.
    destruct (eqb _ _); [discriminate|auto].
  Qed.

  Lemma ok_drop k : ok (drop_metadata k) (fun _ => True).
  Proof.
    unfold drop_metadata. eapply safe_bind; [apply ok_true| |auto].
    - intros s Hs. exact Hs.
    - intros [] _; [apply ok_unlink_metadata|exact I].
  Qed.

  Lemma ok_put_metadata k m : (forall x, m = Some x -> metadata_given k x) ->
    ok (put_metadata k m) (fun _ => True).
  Proof.
    intros Hm. destruct m as [x|]; [|apply ok_drop]. unfold put_metadata, save_metadata.
    eapply safe_bind; [apply ok_true| |auto].
    - intros s Hs. apply keeps_mfile; auto. discriminate.
    - intros _ _. destruct (picklable x); [|exact I]. apply ok_true. intros s Hs. unfold modify. simpl.
      destruct (dmem _ _); auto. apply keeps_mfile; auto. intros y E. injection E as <-. auto.
  Qed.

  Lemma ok_answer {A} (f : A -> sret V Mt) (p : prog D A) Q (R : result (sret V Mt) -> Prop) :
    ok p Q -> (forall a, Q (Ok a) -> R (Ok (f a))) -> (forall e, Q (Raise e) -> R (Ok (RExn e))) ->
    ok (answer f p) R.
  Proof.
    intros Hp Hk He. induction p as [[a|e]|g IH] using prog_induction; simpl in *; auto.
    intros w Hw. specialize (Hp w Hw). specialize (IH w). destruct (g w) as [p' w'].
    destruct Hp as [Hi Hp]. auto.
  Qed.

  Lemma ok_retrieve id : ok (retrieve_steps id)
    (fun r => match r with
              | Ok a => plausible id (RRec a)
              | Raise e => e = EStorage
              end).
  Proof.
    unfold retrieve_steps. eapply safe_bind; [apply ok_check| |].
    2:{ intros e [E|E]; congruence. }
    intros _ _.
    eapply (safe_wrap from_calls EStorage _
              (fun r => match r with Ok a => plausible id (RRec a) | Raise _ => True end)); auto.
    eapply safe_bind; [apply ok_true| |auto]; [intros s Hs; exact Hs|].
    intros [] _; simpl negb; cbv iota; [|right; left; reflexivity].
    eapply (safe_bind from_calls _ _
              (fun r => match r with Ok v => vector_given (sanitize_id id) v | _ => True end)); [| |auto].
    { apply safe_atomic. intros s Hs. unfold bind, get.
      destruct (dget _ (d_vectors s)) as [[v|]|] eqn:E; simpl; auto. split; auto. now apply Hs. }
    intros v Hv. eapply safe_bind; [apply ok_true| |auto]; [intros s Hs; exact Hs|].
    intros [] _.
    - eapply (safe_bind from_calls _ _
                (fun r => match r with Ok m => metadata_given (sanitize_id id) m | _ => True end)); [| |auto].
      { apply safe_atomic. intros s Hs. unfold bind, get.
        destruct (dget _ (d_metadata s)) as [[m|]|] eqn:E; simpl; auto. split; auto. now apply Hs. }
      intros m Hm. right. right. exists v, (Some m). split; auto. split; auto.
      intros m' E. now injection E as <-.
    - right. right. exists v, None. split; auto. split; auto. discriminate.
  Qed.

  Lemma ok_call ops o : In ops jobs -> In o ops ->
    ok (call_steps dirorder o)
       (fun r => exists a, r = Ok a /\ match o with ORetrieve id => plausible id a | _ => True end).
  Proof.
    intros Hops Ho.
    destruct o as [|id v m|id|id|id v m| | | |]; cbn [call_steps]; try (exists RUnit; split; auto; fail).
    - assert (vector_given (sanitize_id id) v) as Hv.
      { right. exists m, ops, id. auto. }
      assert (forall x, m = Some x -> metadata_given (sanitize_id id) x) as Hm.
      { intros x ->. right. exists v, ops, id. auto. }
      apply (ok_answer _ _ (fun _ => True)); eauto. destruct id as [|c id]; [exact I|].
      unfold store_steps. eapply safe_bind; [apply ok_check| |auto]. intros _ _.
      eapply (safe_wrap _ _ _ (fun _ => True)); auto.
      eapply safe_bind; [now apply ok_save_vector| |auto]. intros _ _.
      eapply safe_bind; [now apply ok_put_metadata| |auto]. intros _ _.
      eapply safe_bind; [apply ok_true| |auto]; [|intros _ _; exact I].
      intros s Hs. exact Hs.
    - eapply ok_answer; [apply ok_retrieve| |].
      + intros a Ha. eauto.
      + intros e ->. exists (RExn EStorage). split; auto. left. reflexivity.
    - apply (ok_answer _ _ (fun _ => True)); eauto.
      unfold delete_steps. eapply safe_bind; [apply ok_check| |auto]. intros _ _.
      eapply (safe_wrap _ _ _ (fun _ => True)); auto.
      eapply safe_bind; [apply ok_true| |auto]; [intros s Hs; exact Hs|]. intros b _.
      eapply (safe_bind _ _ _ (fun _ => True)); [destruct b; [apply ok_unlink_vector|exact I]| |auto].
      intros _ _. eapply safe_bind; [apply ok_drop| |auto]. intros _ _.
      destruct b; [|exact I]. eapply safe_bind; [apply ok_true| |auto]; [|intros _ _; exact I].
      intros s Hs. exact Hs.
    - assert (vector_given (sanitize_id id) v) as Hv.
      { right. exists m, ops, id. auto. }
      assert (forall x, m = Some x -> metadata_given (sanitize_id id) x) as Hm.
      { intros x ->. right. exists v, ops, id. auto. }
      apply (ok_answer _ _ (fun _ => True)); eauto.
      unfold update_steps. eapply safe_bind; [apply ok_check| |auto]. intros _ _.
      eapply (safe_wrap _ _ _ (fun _ => True)); auto.
      eapply safe_bind; [apply ok_true| |auto]; [intros s Hs; exact Hs|]. intros [] _; [|exact I].
      eapply safe_bind; [now apply ok_save_vector| |auto]. intros _ _.
      eapply safe_bind; [now apply ok_put_metadata| |auto]. intros _ _. exact I.
  Qed.

  Lemma ok_calls ops : In ops jobs -> forall l, incl l ops ->
    ok (calls_steps dirorder l)
       (fun r => exists rs, r = Ok rs /\
          Forall2 (fun o a => match o with ORetrieve id => plausible id a | _ => True end) l rs).
  Proof.
    intros Hops. unfold calls_steps. induction l as [|o l IH]; intros Hincl.
    - exists []. auto.
    - cbn [pmapM]. eapply safe_bind; [apply (ok_call ops o Hops); apply Hincl; simpl; auto| |].
      + intros a (a' & E & Ha). injection E as <-. eapply safe_bind; [apply IH| |].
        * intros x Hx. apply Hincl. simpl. auto.
        * intros rs (rs' & E & Hrs). injection E as <-. exists (a :: rs). auto.
        * intros e (rs & E & _). discriminate.
      + intros e (a & E & _). discriminate.
  Qed.

  (** C173, the part that holds: whatever threads do to whatever ids of a disk backend, a
      retrieval raises the storage error, finds nothing, or answers with a vector that the id had at
      the start or that one of the calls writes under it, and with no metadata or such a metadata
      dictionary; half-written contents are never returned.  The same holds of what is read later.
      Missing (refuted below): that both belong to one record, and that there is no error while
      the record is only being replaced. *)
  Theorem C173_retrieval_beside_writes_partial sched :
    match threads sched (disk_pool dirorder jobs) s0 with
    | (ps', s') =>
        (forall t ops r, nth_error jobs t = Some ops -> ps' t = Return r ->
           exists rs, r = Ok rs /\ length rs = length ops /\
             forall i id a, nth_error ops i = Some (ORetrieve id) -> nth_error rs i = Some a ->
               plausible id a) /\
        (forall id, plausible id (fst (obs RRec (disk_retrieve id s'))))
    end.
  Proof.
    pose proof (safe_threads from_calls
      (fun t r => match nth_error jobs t with
                  | Some ops => exists rs, r = Ok rs /\
                      Forall2 (fun o a => match o with ORetrieve id => plausible id a | _ => True end) ops rs
                  | None => True
                  end) sched (disk_pool dirorder jobs) s0) as Hthr.
    destruct (threads sched _ _) as [ps' s']. destruct Hthr as [Hs' Hps].
    - split; intros; now left.
    - intros t. unfold disk_pool. destruct (nth_error jobs t) as [ops|] eqn:E; [|exact I].
      apply (ok_calls ops); [eapply nth_error_In; eauto|apply incl_refl].
    - split.
      + intros t ops r Ej Er. specialize (Hps t). rewrite Er, Ej in Hps. simpl in Hps.
        destruct Hps as (rs & -> & HF). exists rs. split; auto. split.
        * clear -HF. induction HF; simpl; congruence.
        * intros i id a Ei Ea. clear -HF Ei Ea. revert i Ei Ea. induction HF as [|o a' ops' rs' Ho HF IH];
            intros [|i] Ei Ea; simpl in *; try discriminate.
          -- injection Ei as ->. injection Ea as ->. exact Ho.
          -- eapply IH; eauto.
      + intros id. unfold disk_retrieve, bind at 1, get. destruct (negb (d_init s')).
        { left. reflexivity. }
        unfold wrap. destruct (dget _ (d_vectors s')) as [[v|]|] eqn:Ev.
        * destruct (dget _ (d_metadata s')) as [[m|]|] eqn:Em; simpl.
          -- right. right. exists v, (Some m). split; auto. split; [now apply Hs'|].
             intros m' E. injection E as <-. now apply Hs'.
          -- left. reflexivity.
          -- right. right. exists v, None. split; auto. split; [now apply Hs'|discriminate].
        * left. reflexivity.
        * right. left. reflexivity.
  Qed.
End Same.

(** ** Concrete runs *)

(** An open backend that holds a record under "a" and one under "c". *)
Definition demo_disk : disk (list Z) Z :=
  after (disk_class (V := list Z) (Mt := Z) demo_order) (disk_new [] [])
    [OInit; OStore (py "a") [1%Z] (Some 10%Z); OStore (py "c") [3%Z] (Some 30%Z)].

(** Three threads with ids of their own: the first replaces the record of "a" and reads it, the
    second stores, reads and deletes "b/", which is no file name as it stands, the third reads
    an id that is not there. *)
Definition demo_jobs : list (list (sop (list Z) Z)) :=
  [ [OUpdate (py "a") [5%Z; 6%Z] (Some 50%Z); ORetrieve (py "a")];
    [OStore (py "b/") [7%Z] None; ORetrieve (py "b/"); ODelete (py "b/"); ORetrieve (py "b/")];
    [ORetrieve (py "d"); ODelete (py "d")] ].

(** Turn by turn. *)
Definition round_robin (n : nat) : list nat := concat (repeat [0; 1; 2] n).

Example C172_hypotheses_met :
  d_init demo_disk = true /\ names_apart demo_jobs /\
  (forall ops o, In ops demo_jobs -> In o ops -> about_id o <> None).
Proof.
  split; [vm_compute; reflexivity|]. split.
  - intros t u ops ops' k Et Eu Hk Hk'.
    destruct t as [|[|[|t]]]; simpl in Et; try (destruct t; discriminate);
      destruct u as [|[|[|u]]]; simpl in Eu; try (destruct u; discriminate);
      try reflexivity; injection Et as <-; injection Eu as <-; exfalso;
      vm_compute in Hk; vm_compute in Hk';
      repeat (destruct Hk as [Hk|Hk]; [subst k|]); try contradiction;
      repeat (destruct Hk' as [Hk'|Hk']; [discriminate|]); contradiction.
  - intros ops o Hops Ho. simpl in Hops.
    repeat (destruct Hops as [Hops|Hops]; [subst ops|]); try contradiction; simpl in Ho;
      repeat (destruct Ho as [Ho|Ho]; [subst o; discriminate|]); contradiction.
Qed.

Example C172_run :
  match threads (round_robin 40) (disk_pool demo_order demo_jobs) demo_disk with
  | (ps', s') =>
      ps' 0 = Return (Ok [RBool true; RRec (Some ([5%Z; 6%Z], Some 50%Z))]) /\
      ps' 1 = Return (Ok [RBool true; RRec (Some ([7%Z], None)); RBool true; RRec None]) /\
      ps' 2 = Return (Ok [RRec None; RBool false]) /\
      disk_retrieve (py "c") s' = (Ok (Some ([3%Z], Some 30%Z)), s')
  end.
Proof. vm_compute. repeat split. Qed.

(** One thread replaces the record of "a", another one reads it. *)
Definition demo_update_and_read : list (list (sop (list Z) Z)) :=
  [ [OUpdate (py "a") [2%Z] (Some 20%Z)]; [ORetrieve (py "a")] ].

(** C173, refuted: the record is read between the two saves and is neither the old nor the new
    one but the new vector with the old metadata. *)
Theorem C173_mixed_record_refuted :
  exists (s : disk (list Z) Z) sched,
    d_init s = true /\
    fst (disk_retrieve (py "a") s) = Ok (Some ([1%Z], Some 10%Z)) /\
    match threads sched (disk_pool demo_order demo_update_and_read) s with
    | (ps', s') =>
        ps' 0 = Return (Ok [RBool true]) /\
        fst (disk_retrieve (py "a") s') = Ok (Some ([2%Z], Some 20%Z)) /\
        ps' 1 = Return (Ok [RRec (Some ([2%Z], Some 10%Z))])
    end.
Proof.
  exists demo_disk, [0; 0; 0; 0; 1; 1; 1; 1; 1; 0; 0; 0]. vm_compute. repeat split.
Qed.

(** C173, refuted: the reader gets the storage error although the id has a record before, after
    and, for its owner, all the time: the vector file is just being written. *)
Theorem C173_error_while_replacing_refuted :
  exists (s : disk (list Z) Z) sched,
    d_init s = true /\
    fst (disk_retrieve (py "a") s) = Ok (Some ([1%Z], Some 10%Z)) /\
    match threads sched (disk_pool demo_order demo_update_and_read) s with
    | (ps', s') =>
        ps' 0 = Return (Ok [RBool true]) /\
        fst (disk_retrieve (py "a") s') = Ok (Some ([2%Z], Some 20%Z)) /\
        ps' 1 = Return (Ok [RExn EStorage])
    end.
Proof.
  exists demo_disk, [0; 0; 0; 1; 1; 1; 1; 1; 0; 0; 0; 0]. vm_compute. repeat split.
Qed.

(** The theorem on the true part speaks of such runs: the mixed answer is plausible, an answer
    with contents that nobody wrote is not. *)
Example C173_plausible_says_something :
  plausible demo_disk demo_update_and_read (py "a") (RRec (Some ([2%Z], Some 10%Z))) /\
  ~ plausible demo_disk demo_update_and_read (py "a") (RRec (Some ([3%Z], Some 10%Z))) /\
  ~ plausible demo_disk demo_update_and_read (py "a") (RExn EOs).
Proof.
  assert (forall k v m, writes demo_update_and_read k v m -> v = [2%Z]) as Hw.
  { intros k v m (ops & id & [<-|[<-|[]]] & _ & [Hin|Hin]); simpl in Hin;
      destruct Hin as [E|[]]; try discriminate; injection E as <- <- <-; reflexivity. }
  repeat split.
  - right. right. exists [2%Z], (Some 10%Z). split; [reflexivity|]. split.
    + right. exists (Some 20%Z), [OUpdate (py "a") [2%Z] (Some 20%Z)], (py "a").
      split; [left; reflexivity|]. split; [reflexivity|]. right. left. reflexivity.
    + intros m E. injection E as <-. left. vm_compute. reflexivity.
  - intros [E|[E|(v & om & E & [Hv|(m & Hv)] & _)]]; try discriminate; injection E as <- <-.
    + vm_compute in Hv. discriminate.
    + apply Hw in Hv. discriminate.
  - intros [E|[E|(v & om & E & _)]]; discriminate.
Qed.

Print Assumptions C172_steps_are_the_calls.
Print Assumptions C172_threads_with_different_ids.
Print Assumptions C173_retrieval_beside_writes_partial.
Print Assumptions C173_mixed_record_refuted.
Print Assumptions C173_error_while_replacing_refuted.
