(** From the refinement lemmas to the statements of [PropsStorage.v]. *)

From Coq Require Import List Arith ZArith NArith Lia Bool Permutation.
From Coq Require String.
Import (notations) Coq.Strings.String.
From Verif Require Import PyBase BaseLemmas Payload StorageModel StorageSpec StorageRun
  StorageProofs.
Import ListNotations.

#[local] Arguments sanitize_id : simpl never.
#[local] Arguments npy_name : simpl never.
#[local] Arguments pkl_name : simpl never.
#[local] Arguments dkeys : simpl never.

Lemma plain_ok `{Unicode} i : sanitize_id i = i -> file_safe isalnum i i.
Proof. intros E. rewrite <- E at 2. apply sanitize_file_safe. Qed.

(** Prove that every id of a literal history is its own safe form. *)
Ltac plain_ids :=
  repeat apply Forall_cons; try apply Forall_nil; simpl; try exact Logic.I;
  try (apply plain_ok; vm_compute; reflexivity).

Section OneId.
  Context {V Mt : Type}.

  Lemma sp_find_put (k j : pystr) (x : V * option Mt) recs :
    sp_find j (sp_put k x recs) = if eqb j k then Some x else sp_find j recs.
  Proof.
    rewrite !sp_find_dget. unfold sp_put. rewrite sp_find_dget.
    destruct (dget k recs) eqn:Eg.
    - assert (In k (dkeys recs)) as Hin by (apply dget_In; eauto). clear Eg.
      induction recs as [|[k' y] recs IH]; simpl in *; [tauto|].
      destruct (eqb_spec k k').
      + subst k'. simpl. destruct (eqb_spec j k); auto.
        clear IH Hin. induction recs as [|[k' z] recs IH]; simpl; auto.
        destruct (eqb_spec k k'); simpl.
        * subst k'. rewrite eqb_neq; auto.
        * destruct (eqb j k'); auto.
      + simpl. destruct Hin as [E|Hin]; [congruence|].
        destruct (eqb_spec j k'); auto. subst. rewrite eqb_neq; auto.
    - induction recs as [|[k' y] recs IH]; simpl in *.
      + destruct (eqb_spec j k); auto.
      + destruct (eqb_spec k k'); [discriminate|].
        destruct (eqb_spec j k'); auto. subst. rewrite eqb_neq; auto.
  Qed.

  Lemma one_hist_spec p key (id : pystr) (ops : list (sop V Mt)) : forall a,
    (s_open a = false -> p = true \/ s_recs a = []) ->
    fold_left (one_next p (fun j => eqb (key id) (key j))) ops
              (s_open a, sp_find (key id) (s_recs a)) =
    (s_open (fold_left (sp_next p key) ops a),
     sp_find (key id) (s_recs (fold_left (sp_next p key) ops a))).
  Proof.
    induction ops as [|o ops IH]; intros a Ha; simpl; auto.
    rewrite <- IH.
    - f_equal. destruct a as [op recs]. simpl in *.
      destruct o as [|j v m|j|j|j v m|limit| | |]; simpl; try (now destruct p); auto.
      + destruct j as [|c j0]; [now destruct op|]. destruct op; simpl; auto.
        rewrite sp_find_put. destruct (eqb _ _); auto.
      + destruct op; simpl; auto. rewrite sp_del_ddel, !sp_find_dget, dget_ddel.
        destruct (eqb _ _); auto.
      + destruct op; simpl.
        * destruct (eqb_spec (key id) (key j)) as [E|E].
          -- rewrite <- E. destruct (sp_find (key id) recs) eqn:Ef; simpl.
             ++ now rewrite sp_find_put, eqb_refl.
             ++ now rewrite Ef.
          -- destruct (sp_find (key j) recs) eqn:Ef; simpl.
             ++ rewrite sp_find_put, eqb_neq by auto. now destruct (sp_find (key id) recs).
             ++ now destruct (sp_find (key id) recs).
        * now destruct (sp_find (key id) recs).
    - destruct a as [op recs]. simpl in *.
      destruct o as [|j v m|j|j|j v m|limit| | |]; simpl; auto.
      all: try (intros; discriminate).
      + destruct op; auto. destruct j; simpl; auto. discriminate.
      + destruct op; simpl; auto. discriminate.
      + destruct op; auto. destruct (sp_find (key j) recs); simpl; auto. discriminate.
      + intros _. destruct p; auto.
      + intros _. destruct p; auto.
  Qed.

  Lemma conforms_key_ext p b sz key key' (ops : list (sop V Mt)) :
    Forall (op_id_in (fun i : pystr => key i = key' i)) ops -> forall a rets,
    conforms p b sz key a ops rets -> conforms p b sz key' a ops rets.
  Proof.
    induction ops as [|o ops IH]; intros HF a [|r rets]; simpl; auto.
    intros [Ha Hc]. inversion HF as [|? ? Hk HF']; subst.
    assert (sp_next p key a o = sp_next p key' a o) as En.
    { destruct o as [|j v m|j|j|j v m|limit| | |]; simpl; auto; simpl in Hk; now rewrite Hk. }
    split.
    - destruct o as [|j v m|j|j|j v m|limit| | |]; simpl in *; auto; now rewrite <- Hk.
    - rewrite <- En. auto.
  Qed.

  Lemma one_next_ext p f g (ops : list (sop V Mt)) :
    (forall j, f j = g j) -> forall st,
    fold_left (one_next p f) ops st = fold_left (one_next p g) ops st.
  Proof.
    intros E. induction ops as [|o ops IH]; intros st; simpl; auto.
    assert (one_next p f st o = one_next p g st o) as ->; auto.
    unfold one_next. destruct st, o as [|[] v m|j|j|j v m|limit| | |]; auto; now rewrite E.
  Qed.
End OneId.

Lemma sc_run_app {S V Mt} (C : storage_class S V Mt) ops1 : forall s ops2,
  sc_run C s (ops1 ++ ops2) =
  (fst (sc_run C s ops1) ++ fst (sc_run C (after C s ops1) ops2),
   after C (after C s ops1) ops2).
Proof.
  unfold after. induction ops1 as [|o ops1 IH]; intros s ops2; simpl.
  - now destruct (sc_run C s ops2).
  - destruct (sc_step C s o) as [r s1]. rewrite IH.
    now destruct (sc_run C s1 ops1) as [rs s2].
Qed.

Lemma after_app {S V Mt} (C : storage_class S V Mt) s ops1 ops2 :
  after C s (ops1 ++ ops2) = after C (after C s ops1) ops2.
Proof. unfold after at 1. now rewrite sc_run_app. Qed.

Section Thms.
  Context {V Mt : Type} `{Payload V Mt} `{Unicode}.
  Context (dirorder : list pystr -> list pystr)
          (Hdir : forall l, Permutation (dirorder l) l).

  Let S0 : sstate V Mt := MkS false [].

  (** *** Memory *)

  Lemma Amem_new : Amem S0 (@mem_new V Mt).
  Proof. split; [apply Rmem_empty|]. split; auto. Qed.

  Lemma mem_conforms ops : Forall op_copy ops ->
    conforms false true (Some rec_size) (fun i => i) S0 ops (fst (sc_run mem_class mem_new ops)).
  Proof. intros Ho. now apply (mem_run_refines ops S0 mem_new Amem_new). Qed.

  Lemma mem_read_hist ops id : Forall op_copy ops ->
    read mem_class (after mem_class mem_new ops) id =
    match one_hist false (eqb id) ops with
    | (true, r) => Ok r
    | (false, _) => Raise EStorage
    end.
  Proof.
    intros Ho. destruct (mem_run_refines ops S0 mem_new Amem_new Ho) as [_ A].
    fold (after mem_class mem_new ops) in A. set (s := after _ _ _) in *.
    unfold one_hist.
    rewrite (one_next_ext false (eqb id) (fun j => eqb id j)) by auto.
    change (false, None) with (s_open S0, sp_find id (s_recs S0)).
    pose proof (one_hist_spec false (fun i => i) id ops S0) as E. cbv beta in E.
    rewrite E by auto. clear E.
    destruct A as [R [Hi Hc]]. unfold read. simpl.
    set (a := fold_left _ _ _) in *. destruct (s_open a) eqn:Eo.
    - rewrite (mem_retrieve_Rmem (s_recs a) s id R Hi). now rewrite sp_find_dget.
    - unfold mem_retrieve, bind, get. now rewrite Hi.
  Qed.

  (** Size of what [retrieve] returns for an id. *)
  Definition read_size {S} (C : storage_class S V Mt) (s : S) (id : pystr) : N :=
    match read C s id with
    | Ok (Some x) => rec_size x
    | _ => 0%N
    end.

  Lemma mem_stats_exact ops n b : Forall op_copy ops ->
    let s := after mem_class mem_new ops in
    fst (sc_stats mem_class s) = Ok (Some (n, b)) ->
    exists ids : list pystr,
      NoDup ids /\
      (forall id, In id ids <-> exists x, read mem_class s id = Ok (Some x)) /\
      n = Z.of_nat (length ids) /\
      b = Some (fold_right (fun id a => read_size mem_class s id + a)%N 0%N ids).
  Proof.
    intros Ho s. destruct (mem_run_refines ops S0 mem_new Amem_new Ho) as [_ A].
    change (snd (sc_run mem_class mem_new ops)) with s in A.
    set (a := fold_left _ _ _) in *. destruct A as [R [Hi Hc]].
    simpl. unfold mem_get_stats, bind, get. rewrite Hi.
    destruct (s_open a) eqn:Eo; simpl; [|discriminate].
    intros E. inversion E; subst n b. clear E.
    assert (forall id, read mem_class s id = Ok (dget id (s_recs a))) as Hr.
    { intros id. unfold read. simpl. now rewrite (mem_retrieve_Rmem (s_recs a) s id R Hi). }
    exists (dkeys (s_recs a)). split; [apply (rm_nd _ _ R)|]. split; [|split].
    - intros id. rewrite <- dget_In, Hr. split; intros [x Hx]; exists x; congruence.
    - rewrite (rm_count _ _ R). unfold dkeys. now rewrite map_length.
    - f_equal. rewrite (rm_usage _ _ R).
      pose proof (rm_nd _ _ R) as Hnd. unfold read_size.
      assert (forall id, match read mem_class s id with Ok (Some x) => rec_size x | _ => 0%N end
              = match dget id (s_recs a) with Some x => rec_size x | None => 0%N end) as Hr2.
      { intros id. now rewrite Hr. }
      clear Hr. revert Hr2 Hnd. generalize (s_recs a) as recs. intros recs Hr2 Hnd.
      assert (forall l, (forall k x, In (k, x) l -> dget k recs = Some x) ->
        total_bytes rec_size l =
        fold_right (fun id a => (match read mem_class s id with
                                 | Ok (Some x) => rec_size x | _ => 0 end + a)%N) 0%N (dkeys l)) as Hl.
      { induction l as [|[k x] l IH]; simpl; auto. intros Hl.
        rewrite Hr2, (Hl k x) by auto. simpl. f_equal. apply IH. auto. }
      apply Hl. intros k x Hin. now apply In_dget.
  Qed.

  (** *** Disk *)

  Lemma Adisk_new : Adisk S0 (@disk_new V Mt [] []).
  Proof.
    split; [|split; auto; discriminate]. constructor; simpl; auto. constructor.
  Qed.

  Let DC := @disk_class V Mt _ _ dirorder.

  Lemma disk_conforms key ops : (forall i, file_safe isalnum i (key i)) ->
    Forall op_pickle ops ->
    conforms true false None key S0 ops (fst (sc_run DC (disk_new [] []) ops)).
  Proof.
    intros Hk Ho. apply conforms_key_ext with (key := sanitize_id).
    - rewrite Forall_forall. intros o _.
      destruct o; simpl; auto; symmetry; now apply file_safe_sanitize.
    - now apply (disk_run_refines dirorder Hdir ops S0 _ Adisk_new).
  Qed.

  Lemma disk_read_hist key ops id : (forall i, file_safe isalnum i (key i)) ->
    Forall op_pickle ops ->
    read DC (after DC (disk_new [] []) ops) id =
    match one_hist true (fun j => eqb (key id) (key j)) ops with
    | (true, r) => Ok r
    | (false, _) => Raise EStorage
    end.
  Proof.
    intros Hk Ho.
    destruct (disk_run_refines dirorder Hdir ops S0 _ Adisk_new Ho) as [_ A].
    fold DC in A. fold (after DC (disk_new [] []) ops) in A. set (s := after _ _ _) in *.
    unfold one_hist.
    rewrite (one_next_ext true _ (fun j => eqb (sanitize_id id) (sanitize_id j)))
      by (intros j; now rewrite <- !(fun i => file_safe_sanitize i _ (Hk i))).
    change (false, None) with (s_open S0, sp_find (sanitize_id id) (s_recs S0)).
    rewrite (one_hist_spec true sanitize_id id ops S0) by auto.
    destruct A as [R [Hi Hc]]. unfold read. simpl.
    set (a := fold_left _ _ _) in *. destruct (s_open a) eqn:Eo.
    - rewrite (disk_retrieve_Rdisk (s_recs a) s id R Hi). now rewrite sp_find_dget.
    - unfold disk_retrieve, bind, get. now rewrite Hi.
  Qed.

  (** Ids that are their own file-safe form: the map is keyed by the id itself. *)
  Lemma disk_conforms_plain ops : Forall op_pickle ops ->
    Forall (op_id_in (fun i => file_safe isalnum i i)) ops ->
    conforms true false None (fun i => i) S0 ops (fst (sc_run DC (disk_new [] []) ops)).
  Proof.
    intros Ho Hi. apply conforms_key_ext with (key := sanitize_id).
    - rewrite Forall_forall in *. intros o Hin. specialize (Hi o Hin).
      destruct o; simpl in *; auto; symmetry; now apply file_safe_sanitize.
    - now apply (disk_run_refines dirorder Hdir ops S0 _ Adisk_new).
  Qed.

  Lemma disk_state ops : Forall op_pickle ops ->
    exists a, Adisk a (after DC (disk_new [] []) ops).
  Proof.
    intros Ho. eexists. now apply (disk_run_refines dirorder Hdir ops S0 _ Adisk_new).
  Qed.

  Lemma Adisk_read a s id : Adisk a s ->
    read DC s id = if s_open a then Ok (dget (sanitize_id id) (s_recs a)) else Raise EStorage.
  Proof.
    intros [R [Hi Hc]]. unfold read. simpl. destruct (s_open a) eqn:Eo.
    - now rewrite (disk_retrieve_Rdisk (s_recs a) s id R Hi).
    - unfold disk_retrieve, bind, get. now rewrite Hi.
  Qed.

  Lemma Adisk_after a s ops : Adisk a s -> Forall op_pickle ops ->
    Adisk (fold_left (sp_next true sanitize_id) ops a) (after DC s ops).
  Proof. intros A Ho. now apply (disk_run_refines dirorder Hdir ops a s A). Qed.

  Lemma disk_reopen ops id r : Forall op_pickle ops ->
    let s := after DC (disk_new [] []) ops in
    read DC s id = Ok r ->
    read DC (after DC s [OClose; OReopen; OInit]) id = Ok r /\
    read DC (after DC s [OReopen; OInit]) id = Ok r.
  Proof.
    intros Ho s. destruct (disk_state ops Ho) as [a A]. fold s in A.
    rewrite (Adisk_read a s id A). destruct (s_open a); [|discriminate]. intros E.
    split.
    - rewrite (Adisk_read _ _ id (Adisk_after a s [OClose; OReopen; OInit] A ltac:(repeat constructor))).
      exact E.
    - rewrite (Adisk_read _ _ id (Adisk_after a s [OReopen; OInit] A ltac:(repeat constructor))).
      exact E.
  Qed.

  Lemma Adisk_keys_safe ops : forall a s,
    Adisk a s -> Forall op_pickle ops ->
    (forall k, In k (dkeys (s_recs a)) -> sanitize_id k = k) ->
    forall k, In k (dkeys (s_recs (fold_left (sp_next true sanitize_id) ops a))) ->
              sanitize_id k = k.
  Proof.
    assert (forall i, sanitize_id (sanitize_id i) = sanitize_id i) as Hidem.
    { intros i. unfold sanitize_id. rewrite map_map. apply map_ext. intros c.
      destruct (isalnum c || memb c (py "._-")) eqn:E; [now rewrite E|].
      now rewrite (orb_comm (isalnum 95)). }
    induction ops as [|o ops IH]; simpl; auto.
    intros a s A Ho Hk. inversion Ho; subst.
    pose proof (disk_step_refines dirorder Hdir a s o A H3) as Hst.
    destruct (sc_step (disk_class dirorder) s o) as [r s']. destruct Hst as [_ A'].
    apply (IH _ s'); auto.
    destruct A as [R _]. destruct a as [op recs]. simpl in *.
    destruct o as [|[|c j0] v m|j|j|j v m|limit| | |]; simpl; auto; destruct op; simpl; auto;
      intros k.
    - rewrite sp_put_dset by apply (rd_nd _ _ R).
      intros Hin. apply (In_dkeys_dset k (sanitize_id (c :: j0))) in Hin.
      destruct Hin as [->|]; auto.
    - rewrite sp_del_ddel. intros Hin. apply In_dkeys_ddel in Hin. now apply Hk.
    - destruct (sp_find (sanitize_id j) recs); simpl; auto.
      rewrite sp_put_dset by apply (rd_nd _ _ R).
      intros Hin. apply In_dkeys_dset in Hin. destruct Hin as [->|]; auto.
  Qed.

  Lemma disk_count_exact ops n b : Forall op_pickle ops ->
    let s := after DC (disk_new [] []) ops in
    fst (sc_stats DC s) = Ok (Some (n, b)) ->
    exists names : list pystr,
      NoDup names /\ n = Z.of_nat (length names) /\
      (forall id t, file_safe isalnum id t ->
                    (In t names <-> exists x, read DC s id = Ok (Some x))) /\
      (forall t, In t names -> file_safe isalnum t t).
  Proof.
    intros Ho s.
    pose proof (Adisk_after _ _ ops Adisk_new Ho) as A. fold s in A.
    pose proof (Adisk_keys_safe ops _ _ Adisk_new Ho ltac:(simpl; tauto)) as Hk.
    set (a := fold_left _ _ _) in *.
    pose proof (fun id => Adisk_read a s id A) as Hr.
    destruct A as [R [Hi Hc]].
    simpl. unfold disk_get_stats, bind, get. rewrite Hi.
    destruct (s_open a) eqn:Eo; simpl; [|discriminate].
    intros E. inversion E; subst. exists (dkeys (s_recs a)).
    split; [apply (rd_nd _ _ R)|]. split; [|split].
    - rewrite Hc by auto. unfold dkeys. now rewrite map_length.
    - intros id t Ht. rewrite Hr, <- dget_In, (file_safe_sanitize id t Ht).
      split; intros [x Hx]; exists x; congruence.
    - intros t Hin. rewrite <- (Hk t Hin) at 2. apply sanitize_file_safe.
  Qed.

  (** Storing under one id and reading another, in any reachable state. *)
  Lemma disk_store_read ops i j v m : Forall op_pickle ops -> meta_pickle m -> i <> [] ->
    let s := after DC (disk_new [] []) ops in
    d_init s = true ->
    let s' := after DC s [OStore i v m] in
    (forall t, file_safe isalnum i t -> file_safe isalnum j t -> read DC s' j = Ok (Some (v, m))) /\
    ((forall t, file_safe isalnum i t -> ~ file_safe isalnum j t) -> read DC s' j = read DC s j).
  Proof.
    intros Ho Hm Hi s Hd s'.
    destruct (disk_state ops Ho) as [a A]. fold s in A.
    pose proof (Adisk_after a s [OStore i v m] A ltac:(repeat constructor; auto)) as A'.
    fold s' in A'. rewrite (Adisk_read _ _ j A'), (Adisk_read _ _ j A).
    destruct A as [R [Hi' Hc]]. rewrite Hd in Hi'. simpl. rewrite <- Hi'.
    destruct i as [|c i0]; [congruence|]. set (i := c :: i0) in *. cbn [s_open s_recs].
    rewrite sp_put_dset by apply (rd_nd _ _ R). rewrite dget_dset. split.
    - intros t Ht1 Ht2. rewrite <- (file_safe_sanitize _ _ Ht1), <- (file_safe_sanitize _ _ Ht2).
      now rewrite eqb_refl.
    - intros Hne. rewrite eqb_neq; auto. intros E.
      apply (Hne (sanitize_id i)); [apply sanitize_file_safe|]. rewrite <- E. apply sanitize_file_safe.
  Qed.

  (** *** File names *)

  (** A file name that denotes a direct child of its directory. *)
  Definition child_name (n : pystr) : Prop :=
    n <> [] /\ ~ In 47%N n /\ ~ In 0%N n /\ n <> [46%N] /\ n <> [46%N; 46%N].

  Lemma sanitize_chars id c : In c (sanitize_id id) -> c <> 47%N /\ c <> 0%N.
  Proof.
    unfold sanitize_id. rewrite in_map_iff. intros [d [E Hin]].
    destruct (isalnum d || memb d (py "._-")) eqn:Ed; [|subst; split; discriminate].
    subst d. split; intros ->; revert Ed; vm_compute; discriminate.
  Qed.

  Lemma child_npy id : child_name (npy_name (sanitize_id id)).
  Proof.
    unfold child_name, npy_name. set (t := py ".npy"). vm_compute in t.
    assert (length t = 4) by reflexivity.
    repeat split; try (intros E; apply (f_equal (@length N)) in E;
                       rewrite app_length in E; simpl in E; lia).
    - intros Hin. apply in_app_or in Hin. destruct Hin as [Hin|Hin].
      + now apply sanitize_chars in Hin.
      + simpl in Hin. intuition discriminate.
    - intros Hin. apply in_app_or in Hin. destruct Hin as [Hin|Hin].
      + now apply sanitize_chars in Hin.
      + simpl in Hin. intuition discriminate.
  Qed.

  Lemma child_pkl id : child_name (pkl_name (sanitize_id id)).
  Proof.
    unfold child_name, pkl_name. set (t := py ".pkl"). vm_compute in t.
    assert (length t = 4) by reflexivity.
    repeat split; try (intros E; apply (f_equal (@length N)) in E;
                       rewrite app_length in E; simpl in E; lia).
    - intros Hin. apply in_app_or in Hin. destruct Hin as [Hin|Hin].
      + now apply sanitize_chars in Hin.
      + simpl in Hin. intuition discriminate.
    - intros Hin. apply in_app_or in Hin. destruct Hin as [Hin|Hin].
      + now apply sanitize_chars in Hin.
      + simpl in Hin. intuition discriminate.
  Qed.

  (** Every file name of both directories is a child name. *)
  Definition names_ok (s : disk V Mt) : Prop :=
    Forall child_name (dkeys (d_vectors s)) /\ Forall child_name (dkeys (d_metadata s)).

  Lemma Forall_dset {A} (P : pystr -> Prop) k (x : A) d :
    Forall P (dkeys d) -> P k -> Forall P (dkeys (dset k x d)).
  Proof.
    intros Hf Hk. rewrite Forall_forall in *. intros j Hj.
    apply In_dkeys_dset in Hj. destruct Hj; subst; auto.
  Qed.

  Lemma Forall_ddel {A} (P : pystr -> Prop) k (d : dict pystr A) :
    Forall P (dkeys d) -> Forall P (dkeys (ddel k d)).
  Proof.
    intros Hf. rewrite Forall_forall in *. intros j Hj.
    apply In_dkeys_ddel in Hj. now apply Hf.
  Qed.

  (** One call, on any directory and with any arguments, keeps the names inside. *)
  Lemma disk_step_names s o : names_ok s -> names_ok (snd (sc_step DC s o)).
  Proof.
    intros [H1 H2].
    destruct o as [|[|c j0] v m|j|j|j v m|limit| | |]; simpl; try (split; assumption).
    - unfold disk_store, bind at 1, get. destruct (d_init s); simpl negb; cbn iota;
        [|split; assumption].
      set (i := c :: j0).
      unfold wrap, bind, disk_write_vec, modify, disk_write_meta, disk_recount, ret, raise.
      destruct m as [m|]; [destruct (picklable m)|]; simpl; split; simpl;
        repeat apply Forall_dset; auto using child_npy, child_pkl, Forall_ddel.
    - unfold disk_retrieve, bind, get, wrap, ret, raise. destruct (d_init s); simpl; [|now split].
      destruct (dget _ (d_vectors s)) as [[]|]; try now split.
      destruct (dget _ (d_metadata s)) as [[]|]; now split.
    - unfold disk_delete, bind, get, wrap, ret, raise, modify. destruct (d_init s); simpl; [|now split].
      destruct (dmem _ (d_vectors s)); simpl; split; simpl; auto using Forall_ddel.
    - unfold disk_update, bind, get, wrap, ret, raise. destruct (d_init s); simpl; [|now split].
      destruct (dmem _ (d_vectors s)); simpl; [|now split].
      unfold disk_write_vec, modify, disk_write_meta, bind.
      destruct m as [m|]; [destruct (picklable m)|]; simpl; split; simpl;
        repeat apply Forall_dset; auto using child_npy, child_pkl, Forall_ddel.
    - unfold disk_list, bind, get, ret, raise. destruct (d_init s); simpl; [|now split].
      destruct limit; now split.
    - unfold disk_get_stats, bind, get, ret. destruct (d_init s); simpl; now split.
  Qed.

  Lemma disk_names ops : forall s, names_ok s -> names_ok (after DC s ops).
  Proof.
    unfold after. induction ops as [|o ops IH]; intros s Hs; simpl; auto.
    pose proof (disk_step_names s o Hs) as Hs'.
    destruct (sc_step DC s o) as [r s']. simpl in Hs'.
    specialize (IH s' Hs'). now destruct (sc_run DC s' ops).
  Qed.

  (** Two directories that agree on the child names (and on whatever listing does). *)
  Definition agree (s1 s2 : disk V Mt) : Prop :=
    d_init s1 = d_init s2 /\
    (forall n, child_name n -> dget n (d_vectors s1) = dget n (d_vectors s2) /\
                               dget n (d_metadata s1) = dget n (d_metadata s2)).

  (** Entries under names that are not child names are the same in both. *)
  Definition outside_same (s1 s2 : disk V Mt) : Prop :=
    forall n, ~ child_name n -> dget n (d_vectors s1) = dget n (d_vectors s2) /\
                                dget n (d_metadata s1) = dget n (d_metadata s2).

  (** The calls that carry an id. *)
  Definition id_op (o : sop V Mt) : Prop :=
    match o with
    | OStore _ _ _ | ORetrieve _ | ODelete _ | OUpdate _ _ _ => True
    | _ => False
    end.

  Lemma agree_set k v (s1 s2 : disk V Mt) :
    (forall n, child_name n -> dget n (d_vectors s1) = dget n (d_vectors s2)) ->
    forall n, child_name n ->
    dget n (dset k v (d_vectors s1)) = dget n (dset k v (d_vectors s2)).
  Proof. intros Ha n Hn. rewrite !dget_dset. destruct (eqb n k); auto. Qed.

  Lemma disk_step_local s1 s2 o : id_op o -> agree s1 s2 ->
    fst (sc_step DC s1 o) = fst (sc_step DC s2 o) /\
    agree (snd (sc_step DC s1 o)) (snd (sc_step DC s2 o)) /\
    outside_same s1 (snd (sc_step DC s1 o)).
  Proof.
    intros Hid [Ei Ha].
    assert (outside_same s1 s1) as Hsame by (intros n _; auto).
    assert (agree s1 s2) as Hag by (split; auto).
    assert (forall id n, ~ child_name n -> eqb n (npy_name (sanitize_id id)) = false) as Hnn.
    { intros id n Hn. apply eqb_neq. intros ->. apply Hn, child_npy. }
    assert (forall id n, ~ child_name n -> eqb n (pkl_name (sanitize_id id)) = false) as Hpn.
    { intros id n Hn. apply eqb_neq. intros ->. apply Hn, child_pkl. }
    destruct o as [|[|c j0] v m|j|j|j v m|limit| | |]; simpl in Hid; try tauto;
      simpl sc_step.
    - set (i := c :: j0).
      unfold disk_store. fold i.
      unfold wrap, bind, get, disk_write_vec, modify, disk_write_meta, disk_recount, ret, raise.
      rewrite <- Ei. destruct (d_init s1) eqn:Ed; simpl negb; cbn iota; [|simpl; auto].
      destruct m as [m|]; [destruct (picklable m)|]; simpl;
        (split; [reflexivity|]; split;
         [ split; [simpl; congruence|]; intros n Hn; simpl;
           rewrite ?dget_dset, ?dget_ddel, !(proj1 (Ha n Hn)), !(proj2 (Ha n Hn)); auto
         | intros n Hn; simpl; rewrite ?dget_dset, ?dget_ddel, ?Hnn, ?Hpn; auto ]).
    - unfold disk_retrieve, bind, get, wrap, ret, raise. rewrite <- Ei.
      destruct (d_init s1); simpl; auto.
      rewrite <- (proj1 (Ha _ (child_npy j))), <- (proj2 (Ha _ (child_pkl j))).
      destruct (dget _ (d_vectors s1)) as [[]|]; simpl; auto.
      destruct (dget _ (d_metadata s1)) as [[]|]; simpl; auto.
    - unfold disk_delete, bind, get, wrap, ret, raise, modify. rewrite <- Ei.
      destruct (d_init s1) eqn:Ed; simpl; auto.
      assert (dmem (npy_name (sanitize_id j)) (d_vectors s2) =
              dmem (npy_name (sanitize_id j)) (d_vectors s1)) as ->
          by (unfold dmem; now rewrite (proj1 (Ha _ (child_npy j)))).
      destruct (dmem _ (d_vectors s1)); simpl;
        (split; [reflexivity|]; split;
         [ split; [simpl; congruence|]; intros n Hn; simpl;
           rewrite ?dget_ddel, !(proj1 (Ha n Hn)), !(proj2 (Ha n Hn)); auto
         | intros n Hn; simpl; rewrite ?dget_ddel, ?Hnn, ?Hpn; auto ]).
    - unfold disk_update, bind, get, wrap, ret, raise. rewrite <- Ei.
      destruct (d_init s1) eqn:Ed; simpl; auto.
      assert (dmem (npy_name (sanitize_id j)) (d_vectors s2) =
              dmem (npy_name (sanitize_id j)) (d_vectors s1)) as ->
          by (unfold dmem; now rewrite (proj1 (Ha _ (child_npy j)))).
      destruct (dmem _ (d_vectors s1)); simpl; auto.
      unfold disk_write_vec, modify, disk_write_meta, bind.
      destruct m as [m|]; [destruct (picklable m)|]; simpl;
        (split; [reflexivity|]; split;
         [ split; [simpl; congruence|]; intros n Hn; simpl;
           rewrite ?dget_dset, ?dget_ddel, !(proj1 (Ha n Hn)), !(proj2 (Ha n Hn)); auto
         | intros n Hn; simpl; rewrite ?dget_dset, ?dget_ddel, ?Hnn, ?Hpn; auto ]).
  Qed.

  (** *** Hybrid *)

  Lemma set_disk_id (s : hybrid V Mt) :
    MkHybrid (h_memory s) (h_disk s) (h_limit s) (h_init s) = s.
  Proof. now destruct s. Qed.

  Let HC := @hybrid_class V Mt _ _ dirorder.

  Lemma Ahyb_new I limit : Ahyb I S0 (@hybrid_new V Mt limit [] []).
  Proof.
    split; [intros k v m; discriminate|]. simpl. split; auto.
    constructor; simpl; auto. constructor.
  Qed.

  Lemma hybrid_conforms I limit ops :
    separated I -> Forall op_ok ops -> Forall (op_id_in I) ops ->
    conforms true false None sanitize_id S0 ops (fst (sc_run HC (hybrid_new limit [] []) ops)) /\
    fst (sc_run HC (hybrid_new limit [] []) ops) = fst (sc_run DC (disk_new [] []) ops).
  Proof.
    intros HS Ho Hi.
    pose proof (hybrid_run_refines dirorder Hdir I ops S0 _ (Ahyb_new I limit) Ho Hi) as Hr.
    fold HC in Hr. fold DC in Hr.
    destruct (sc_run HC (hybrid_new limit [] []) ops) as [rs s'].
    destruct Hr as (Q1 & Q2 & _). simpl. split; auto.
    change (h_disk (hybrid_new limit [] [])) with (@disk_new V Mt [] []) in Q2.
    now rewrite Q2.
  Qed.

  Lemma hybrid_conforms_key I key limit ops :
    separated I -> (forall i, file_safe isalnum i (key i)) ->
    Forall op_ok ops -> Forall (op_id_in I) ops ->
    conforms true false None key S0 ops (fst (sc_run HC (hybrid_new limit [] []) ops)).
  Proof.
    intros HS Hk Ho Hi. apply conforms_key_ext with (key := sanitize_id).
    - rewrite Forall_forall. intros o _.
      destruct o; simpl; auto; symmetry; now apply file_safe_sanitize.
    - now apply (hybrid_conforms I).
  Qed.

  Lemma Ahyb_after I a s ops : Ahyb I a s -> Forall op_ok ops -> Forall (op_id_in I) ops ->
    Ahyb I (fold_left (sp_next true sanitize_id) ops a) (after HC s ops).
  Proof.
    intros A Ho Hi. pose proof (hybrid_run_refines dirorder Hdir I ops a s A Ho Hi) as Hr.
    unfold after. fold HC in Hr. destruct (sc_run HC s ops). tauto.
  Qed.

  Lemma Ahyb_read I a s id : Ahyb I a s -> separated I -> I id ->
    read HC s id = if s_open a then Ok (dget (sanitize_id id) (s_recs a)) else Raise EStorage.
  Proof.
    intros [Hrok A] HS HIid. unfold read. simpl. destruct (s_open a).
    - destruct A as [mr R].
      destruct (hybrid_retrieve_R I (s_recs a) mr s id R HIid) as (r & mr' & s' & E & Er & _).
      + intros m0 v0 Hg. now apply (Hrok _ _ _ Hg).
      + intros Hn. destruct (dget (sanitize_id id) (s_recs a)) as [[v0 m0]|] eqn:Eg; [|congruence].
        intros ->. now apply (proj2 (Hrok _ _ _ Eg)).
      + rewrite E. simpl. now rewrite Er.
    - destruct A as [_ [Hi _]]. unfold hybrid_retrieve, bind, get. now rewrite Hi.
  Qed.

  Lemma hybrid_reopen I limit ops id r :
    separated I -> Forall op_ok ops -> Forall (op_id_in I) ops -> I id ->
    let s := after HC (hybrid_new limit [] []) ops in
    read HC s id = Ok r ->
    read HC (after HC s [OClose; OReopen; OInit]) id = Ok r /\
    read HC (after HC s [OReopen; OInit]) id = Ok r.
  Proof.
    intros HS Ho Hi HIid s.
    pose proof (Ahyb_after I _ _ ops (Ahyb_new I limit) Ho Hi) as A. fold s in A.
    set (a := fold_left _ _ _) in A.
    rewrite (Ahyb_read I a s id A HS HIid). destruct (s_open a); [|discriminate]. intros E.
    assert (Ahyb I (MkS true (s_recs a)) (after HC s [OClose; OReopen; OInit])) as A1.
    { apply (Ahyb_after I a s [OClose; OReopen; OInit] A); repeat constructor. }
    assert (Ahyb I (MkS true (s_recs a)) (after HC s [OReopen; OInit])) as A2.
    { apply (Ahyb_after I a s [OReopen; OInit] A); repeat constructor. }
    split.
    - now rewrite (Ahyb_read I _ _ id A1 HS HIid).
    - now rewrite (Ahyb_read I _ _ id A2 HS HIid).
  Qed.

  (** The memory tier on its own: exact bookkeeping, bounded size, copyable metadata on disk. *)
  Definition Bmem (limit : Z) (b : bool) (ms : mem V Mt) : Prop :=
    exists mrecs, Rmem mrecs ms /\ m_init ms = b /\
                  (Z.of_nat (length mrecs) <= Z.max 1 limit)%Z.

  Definition Dcopy (ds : disk V Mt) : Prop :=
    forall n m, dget n (d_metadata ds) = Some (FGood m) -> copyable m = true.

  Definition Bhyb (s : hybrid V Mt) : Prop :=
    Bmem (h_limit s) (h_init s) (h_memory s) /\ Dcopy (h_disk s).

  Lemma not_separated_all : ~ separated (fun _ => True).
  Proof.
    intros HS. assert ([32%N] = [95%N]) as E; [|discriminate].
    apply (HS [32%N] [95%N] [95%N]); auto.
    - apply fs_replace; try discriminate; [reflexivity|constructor].
    - apply fs_keep; auto. constructor.
  Qed.

  Lemma hybrid_cache_B s id v m : Bhyb s -> h_init s = true -> meta_copy m ->
    exists ms, hybrid_cache id v m s = (Ok tt, MkHybrid ms (h_disk s) (h_limit s) (h_init s)) /\
               Bmem (h_limit s) true ms.
  Proof.
    intros [(mr & R & Hi & Hl) Hd] Hh Hm. rewrite Hh in Hi.
    destruct id as [|c id0].
    - (* the empty id is refused by the memory tier *)
      unfold hybrid_cache.
      assert (mem_get_stats (h_memory s) =
            (Ok (Some {| ms_count := m_count (h_memory s); ms_bytes := m_usage (h_memory s) |}),
             h_memory s)) as Est.
      { unfold mem_get_stats, bind, get. now rewrite Hi. }
      rewrite (bind_Ok _ _ _ _ _ (on_mem_Ok _ _ _ _ Est)). rewrite set_mem_id.
      unfold bind at 1, get. cbn [ms_count].
      assert (forall t, on_mem (mem_store [] v m) t = (Ok false, t)) as Est0.
      { intros t. unfold on_mem, zoom, mem_store, ret. now destruct t. }
      destruct (m_count (h_memory s) <? h_limit s)%Z.
      + erewrite bind_Ok by apply Est0. exists (h_memory s). unfold ret.
        rewrite set_mem_id. split; auto. exists mr. auto.
      + unfold hybrid_evict.
        assert (on_mem (mem_list (Some 1%Z)) s = (Ok (firstn 1 (dkeys mr)), s)) as El.
        { rewrite (on_mem_Ok _ _ _ _ (mem_list_Rmem mr _ (Some 1%Z) R Hi)).
          now rewrite set_mem_id. }
        destruct mr as [|[k0 x0] mrest].
        * erewrite bind_Ok; [|erewrite bind_Ok; [|exact El]; reflexivity].
          erewrite bind_Ok by apply Est0. exists (h_memory s). unfold ret.
          rewrite set_mem_id. split; auto. exists []. auto.
        * destruct (mem_delete_Rmem _ _ k0 R Hi) as [s' [E [R' Hi']]].
          erewrite bind_Ok; [|erewrite bind_Ok; [|exact El]; simpl;
                              erewrite bind_Ok; [|apply on_mem_Ok; exact E]; reflexivity].
          erewrite bind_Ok by apply Est0. exists s'. split; [reflexivity|].
          exists (ddel k0 ((k0, x0) :: mrest)). split; auto. split; auto.
          pose proof (length_ddel_le k0 ((k0, x0) :: mrest)). lia.
    - destruct (hybrid_cache_R (fun _ => True) [(sanitize_id (c :: id0), (v, m))] mr s
                  (c :: id0) v m) as (mr' & ms & E & Q1 & Q2 & Q3 & _); auto; try discriminate.
      + intros HS. exfalso. now apply not_separated_all.
      + simpl. now rewrite eqb_refl.
      + exists ms. split; auto. exists mr'. auto.
  Qed.

  Lemma disk_write_meta_copy k m ds :
    Dcopy ds -> meta_copy m -> Dcopy (snd (disk_write_meta k m ds)).
  Proof.
    intros Hd Hm. unfold disk_write_meta, bind, modify, raise.
    destruct m as [m|]; [destruct (picklable m)|]; simpl; intros n x; simpl;
      rewrite ?dget_dset, ?dget_ddel; destruct (eqb n (pkl_name k)); try discriminate; eauto.
    intros E. inversion E; subst. exact Hm.
  Qed.

  Lemma disk_store_copy id v m ds :
    Dcopy ds -> meta_copy m -> Dcopy (snd (disk_store dirorder id v m ds)).
  Proof.
    intros Hd Hm. unfold disk_store. destruct id as [|c i]; auto.
    unfold bind at 1, get. destruct (d_init ds); cbn [negb]; auto.
    set (k := sanitize_id (c :: i)). unfold wrap, bind, disk_write_vec, modify.
    match goal with |- context [disk_write_meta k m ?d] =>
      assert (Dcopy (snd (disk_write_meta k m d))) as Hc by (apply disk_write_meta_copy; auto);
      destruct (disk_write_meta k m d) as [[[]|e] ds'] end; auto.
  Qed.

  Lemma disk_update_copy id v m ds :
    Dcopy ds -> meta_copy m -> Dcopy (snd (disk_update id v m ds)).
  Proof.
    intros Hd Hm. unfold disk_update.
    unfold bind at 1, get. destruct (d_init ds); cbn [negb]; auto.
    unfold wrap. destruct (dmem _ (d_vectors ds)); cbn [negb]; auto.
    unfold bind, disk_write_vec, modify.
    match goal with |- context [disk_write_meta ?k m ?d] =>
      assert (Dcopy (snd (disk_write_meta k m d))) as Hc by (apply disk_write_meta_copy; auto);
      destruct (disk_write_meta k m d) as [[[]|e] ds'] end; auto.
  Qed.

  Lemma disk_delete_copy id ds : Dcopy ds -> Dcopy (snd (disk_delete dirorder id ds)).
  Proof.
    intros Hd. unfold disk_delete, bind, get, wrap, modify, ret, raise.
    destruct (d_init ds); cbn [negb]; auto.
    assert (forall c b, Dcopy (MkDisk (ddel (npy_name (sanitize_id id)) (d_vectors ds))
                        (ddel (pkl_name (sanitize_id id)) (d_metadata ds)) c b)) as Hx.
    { intros c b n x. simpl. rewrite dget_ddel.
      destruct (eqb n _); [discriminate|]. apply Hd. }
    destruct (dmem _ (d_vectors ds)); simpl; apply Hx.
  Qed.

  Lemma disk_retrieve_copy id ds r ds' :
    disk_retrieve id ds = (r, ds') -> Dcopy ds ->
    ds' = ds /\ forall v m, r = Ok (Some (v, m)) -> meta_copy m.
  Proof.
    unfold disk_retrieve, bind, get, wrap, ret, raise. intros E Hd.
    destruct (d_init ds); cbn [negb] in E; [|inversion E; split; auto; discriminate].
    destruct (dget _ (d_vectors ds)) as [[v|]|]; try (inversion E; subst; split; auto; discriminate).
    destruct (dget _ (d_metadata ds)) as [[m|]|] eqn:Eg;
      inversion E; subst; split; auto; intros v' m' E'; inversion E'; subst; simpl; eauto.
  Qed.

  Definition okB (limit : Z) {A} (x : A * hybrid V Mt) : Prop :=
    Bhyb (snd x) /\ h_limit (snd x) = limit.

  Lemma okB_obs limit {A} (f : A -> sret V Mt) (x : result A * hybrid V Mt) :
    okB limit x -> okB limit (obs f x).
  Proof. now destruct x as [[]]. Qed.

  Lemma hybrid_step_B s o : Bhyb s -> op_copy o -> okB (h_limit s) (sc_step HC s o).
  Proof.
    intros HB Ho. pose proof HB as [(mr & R & Hi & Hl) Hd].
    assert (Bmem (h_limit s) (h_init s) (h_memory s)) as HM by (exists mr; auto).
    assert (Rmem_new : forall b, Bmem (h_limit s) b (MkMem [] [] 0 0 b)).
    { intros b. exists []. split; [apply Rmem_empty|]. split; auto. simpl. lia. }
    assert (forall A (r : A), okB (h_limit s) (r, s)) as Hsame by (intros; split; auto).
    assert (forall A (r : A) ms ds, Bmem (h_limit s) (h_init s) ms -> Dcopy ds ->
             okB (h_limit s) (r, MkHybrid ms ds (h_limit s) (h_init s))) as Hnew
      by (intros; split; [split|]; auto).
    destruct o as [|id v m|id|id|id v m|limit| | |]; simpl sc_step; try apply okB_obs.
    - (* init *) split; [split|]; simpl; auto.
    - (* store *)
      destruct id as [|c id0]; [apply Hsame|]. unfold hybrid_store. set (id := c :: id0).
      unfold bind at 1, get. destruct (h_init s) eqn:Eh; cbn [negb]; [|apply Hsame].
      pose proof (disk_store_copy id v m (h_disk s) Hd Ho) as Hd'.
      unfold wrap, bind at 1, on_disk, zoom. rewrite Eh.
      destruct (disk_store dirorder id v m (h_disk s)) as [[[|]|e] ds]; simpl in Hd'.
      + set (s1 := MkHybrid (h_memory s) ds (h_limit s) true).
        destruct (hybrid_cache_B s1 id v m) as [ms [E HB']]; auto.
        { split; auto. }
        rewrite (bind_Ok _ _ _ _ _ E). apply Hnew; auto.
      + apply Hnew; auto.
      + apply Hnew; auto.
    - (* retrieve *)
      unfold hybrid_retrieve, bind at 1, get. destruct (h_init s) eqn:Eh; cbn [negb]; [|apply Hsame].
      unfold wrap. unfold bind at 1, on_mem, zoom.
      rewrite (mem_retrieve_Rmem mr (h_memory s) id R Hi). rewrite set_mem_id.
      destruct (dget id mr); [apply Hsame|].
      unfold bind at 1, on_disk, zoom.
      destruct (disk_retrieve id (h_disk s)) as [r ds] eqn:E.
      destruct (disk_retrieve_copy _ _ _ _ E Hd) as [-> Hm]. rewrite set_mem_id.
      destruct r as [[[v m]|]|e]; [|apply Hsame|apply Hsame].
      destruct (hybrid_cache_B s id v m) as [ms [E' HB']]; auto.
      { now apply (Hm v). }
      rewrite (bind_Ok _ _ _ _ _ E'). rewrite Eh. apply Hnew; auto.
    - (* delete *)
      unfold hybrid_delete, bind at 1, get. destruct (h_init s) eqn:Eh; cbn [negb]; [|apply Hsame].
      destruct (mem_delete_Rmem mr (h_memory s) id R Hi) as [ms [E [Rm Hmi]]].
      unfold wrap, bind, on_mem, on_disk, zoom. rewrite E. simpl h_disk. rewrite Eh.
      pose proof (disk_delete_copy id (h_disk s) Hd) as Hd'.
      assert (Bmem (h_limit s) true ms) as HM'.
      { exists (ddel id mr). split; auto. split; auto.
        pose proof (length_ddel_le id mr). lia. }
      destruct (disk_delete dirorder id (h_disk s)) as [[b|e] ds]; simpl in *;
        apply Hnew; auto.
    - (* update *)
      unfold hybrid_update, bind at 1, get. destruct (h_init s) eqn:Eh; cbn [negb]; [|apply Hsame].
      pose proof (disk_update_copy id v m (h_disk s) Hd Ho) as Hd'.
      unfold wrap, bind at 1, on_disk, zoom. rewrite Eh.
      destruct (disk_update id v m (h_disk s)) as [[[|]|e] ds]; simpl in Hd'.
      + destruct (mem_update_Rmem mr (h_memory s) id v m R Hi Ho) as [ms [E [Rm Hmi]]].
        unfold bind, on_mem, zoom. simpl h_memory. rewrite E. simpl.
        apply Hnew; auto. eexists. split; [exact Rm|]. split; auto.
        destruct (dmem id mr) eqn:Em; auto. now rewrite dset_length_in.
      + apply Hnew; auto.
      + apply Hnew; auto.
    - (* list *)
      unfold hybrid_list, bind, get. destruct (h_init s) eqn:Eh; cbn [negb]; [|apply Hsame].
      unfold on_disk, zoom, disk_list, bind, get, ret, raise.
      destruct (d_init (h_disk s)); cbn [negb]; [destruct limit|]; rewrite set_disk_id; apply Hsame.
    - (* stats *)
      unfold hybrid_get_stats, bind, get. simpl.
      destruct (h_init s) eqn:Eh; cbn [negb]; [|apply Hsame].
      unfold on_mem, on_disk, zoom, mem_get_stats, disk_get_stats, bind, get, ret. rewrite Hi.
      simpl. destruct (d_init (h_disk s)); simpl; rewrite Eh; apply Hnew; auto.
    - (* close *) split; [split|]; simpl; auto.
    - (* reopen *) split; [split|]; simpl; auto. apply Rmem_new.
  Qed.

  Lemma hybrid_bound limit ops : Forall op_copy ops -> forall s,
    Bhyb s -> h_limit s = limit ->
    (Z.of_nat (length (m_vectors (h_memory (after HC s ops)))) <= Z.max 1 limit)%Z.
  Proof.
    unfold after. induction 1 as [|o ops Ho _ IH]; intros s HB El; simpl.
    - destruct HB as [(mr & R & _ & Hl) _]. rewrite (rm_vec _ _ R), length_dmap. congruence.
    - pose proof (hybrid_step_B s o HB Ho) as Hst.
      destruct (sc_step HC s o) as [r s']. destruct Hst as [HB' El']. simpl in *.
      specialize (IH s' HB' ltac:(congruence)). now destruct (sc_run HC s' ops).
  Qed.

  Lemma Bhyb_new limit : Bhyb (@hybrid_new V Mt limit [] []).
  Proof.
    split; simpl.
    - exists []. split; [apply Rmem_empty|]. split; auto. simpl. lia.
    - intros n m. discriminate.
  Qed.
End Thms.
