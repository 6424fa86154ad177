(** Proofs about the storage backends: each refines the record-list specification. *)

From Coq Require Import List Arith ZArith NArith Lia Bool Permutation.
From Coq Require String.
Import (notations) Coq.Strings.String.
From Verif Require Import PyBase BaseLemmas Payload StorageModel StorageSpec StorageRun.
Import ListNotations.
Open Scope py_scope.

(** ** The specification's list operations are dictionary operations *)

Section SpecDict.
  Context {V Mt : Type}.
  Implicit Types recs : list (entry V Mt).

  Lemma sp_find_dget k recs : sp_find k recs = dget k recs.
  Proof. induction recs as [|[k' x] recs IH]; simpl; auto. Qed.

  Lemma sp_put_dset k x recs : NoDup (dkeys recs) -> sp_put k x recs = dset k x recs.
  Proof.
    intros Hnd. unfold sp_put. rewrite sp_find_dget.
    destruct (dget k recs) eqn:E.
    - revert E. induction recs as [|[k' y] recs IH]; simpl; try discriminate.
      simpl in Hnd. inversion Hnd; subst.
      destruct (eqb_spec k k'); intros E.
      + subst. f_equal. clear IH. rewrite <- (map_id recs) at 2. apply map_ext_in.
        intros [k2 y2] Hin. simpl. rewrite eqb_neq; auto. intros ->.
        apply H1. change k2 with (fst (k2, y2)). now apply in_map.
      + f_equal. now apply IH.
    - symmetry. apply dset_notin. now apply dget_None.
  Qed.

  Lemma sp_del_ddel k recs : sp_del k recs = ddel k recs.
  Proof.
    unfold sp_del. induction recs as [|[k' x] recs IH]; simpl; auto.
    destruct (eqb k k'); simpl; congruence.
  Qed.
End SpecDict.

Lemma cut_slice limit l :
  cut limit l = match limit with Some k => slice_to k l | None => l end.
Proof.
  destruct limit as [k|]; simpl; auto. destruct (Z.leb_spec 0 k).
  - now rewrite slice_to_nonneg.
  - rewrite slice_to_neg by lia. f_equal. lia.
Qed.

(** ** Dictionary projections *)

Section Proj.
  Context {K A B : Type} `{EqDec K} (f : A -> B).
  Definition dmap (d : dict K A) : dict K B := map (fun e => (fst e, f (snd e))) d.

  Lemma dget_dmap k d : dget k (dmap d) = option_map f (dget k d).
  Proof. induction d as [|[k' v] d IH]; simpl; auto. destruct (eqb k k'); auto. Qed.
  Lemma dset_dmap k v d : dset k (f v) (dmap d) = dmap (dset k v d).
  Proof. induction d as [|[k' w] d IH]; simpl; auto. destruct (eqb k k'); simpl; congruence. Qed.
  Lemma ddel_dmap k d : ddel k (dmap d) = dmap (ddel k d).
  Proof. induction d as [|[k' w] d IH]; simpl; auto. destruct (eqb k k'); simpl; congruence. Qed.
  Lemma dkeys_dmap d : dkeys (dmap d) = dkeys d.
  Proof. unfold dkeys, dmap. rewrite map_map. reflexivity. Qed.
  Lemma length_dmap d : length (dmap d) = length d.
  Proof. apply map_length. Qed.
End Proj.

Section DictSum.
  Context {K A : Type} `{EqDec K} (f : A -> N).
  Definition dsum (d : dict K A) : N := fold_right (fun v a => f v + a)%N 0%N (dvals d).

  Lemma dsum_extract k v d :
    NoDup (dkeys d) -> dget k d = Some v -> dsum d = (f v + dsum (ddel k d))%N.
  Proof.
    unfold dsum. induction d as [|[k' w] d IH]; simpl; try discriminate.
    intros Hnd Hg. inversion Hnd; subst. destruct (eqb_spec k k').
    - inversion Hg; subst. rewrite ddel_notin; auto.
    - simpl. rewrite IH; auto. lia.
  Qed.
End DictSum.

(** Sum over a metadata dictionary that agrees with the records. *)
Lemma meta_sum {V Mt} (f : Mt -> N) (recs : list (entry V Mt)) (d : dict pystr Mt) :
  NoDup (dkeys recs) -> NoDup (dkeys d) ->
  (forall id, dget id d = match dget id recs with Some (_, m) => m | None => None end) ->
  dsum f d = fold_right (fun e a => ((match snd (snd e) with Some m => f m | None => 0 end) + a)%N)
                        0%N recs.
Proof.
  revert d. induction recs as [|[k [v m]] recs IH]; intros d Hnr Hnd Hag; simpl.
  - destruct d as [|[k v] d]; auto. specialize (Hag k). simpl in Hag.
    rewrite eqb_refl in Hag. discriminate.
  - simpl in Hnr. inversion Hnr as [|? ? Hk Hnr']; subst.
    rewrite <- (IH (ddel k d)); auto.
    2: { intros id. rewrite dget_ddel. destruct (eqb_spec id k).
      - subst. rewrite (proj2 (dget_None k recs)); auto.
      - rewrite Hag. simpl. rewrite eqb_neq; auto. }
    pose proof (Hag k) as Hk'. simpl in Hk'. rewrite eqb_refl in Hk'.
    destruct m as [m|].
    + now apply dsum_extract.
    + rewrite ddel_notin; auto. now apply dget_None.
Qed.

Section Backends.
  Context {V Mt : Type} `{Payload V Mt} `{Unicode}.
  Implicit Types recs : list (entry V Mt).

  (** *** Memory *)

  (** The memory fields represent the records. *)
  Record Rmem (recs : list (entry V Mt)) (s : mem V Mt) : Prop := {
    rm_nd : NoDup (dkeys recs);
    rm_vec : m_vectors s = dmap fst recs;
    rm_mnd : NoDup (dkeys (m_metadata s));
    rm_meta : forall id, dget id (m_metadata s) =
                         match dget id recs with Some (_, m) => m | None => None end;
    rm_count : m_count s = Z.of_nat (length recs);
    rm_usage : m_usage s = total_bytes rec_size recs
  }.

  Lemma Rmem_bytes recs s :
    NoDup (dkeys recs) -> m_vectors s = dmap fst recs -> NoDup (dkeys (m_metadata s)) ->
    (forall id, dget id (m_metadata s) =
                match dget id recs with Some (_, m) => m | None => None end) ->
    mem_bytes s = total_bytes rec_size recs.
  Proof.
    intros H1 H2 H3 H4. unfold mem_bytes.
    pose proof (meta_sum strbytes recs (m_metadata s) H1 H3 H4) as E. unfold dsum in E.
    rewrite E, H2. clear. unfold total_bytes, dvals, dmap.
    induction recs as [|[k [v m]] recs IH]; simpl; auto.
    unfold rec_size at 1. simpl. rewrite <- IH. lia.
  Qed.

  Lemma Rmem_empty b : Rmem [] (MkMem [] [] 0 0 b).
  Proof. constructor; simpl; auto; constructor. Qed.

  Lemma dget_meta_set id v (m : Mt) recs d :
    (forall i, dget i d = match dget i recs with Some (_, m) => m | None => None end) ->
    forall i, dget i (dset id m d) =
              match dget i (dset id (v, Some m) recs) with Some (_, m) => m | None => None end.
  Proof. intros Hd i. rewrite !dget_dset. destruct (eqb i id); auto. Qed.

  Lemma dget_meta_del id (v : V) recs (d : dict pystr Mt) :
    (forall i, dget i d = match dget i recs with Some (_, m) => m | None => None end) ->
    forall i, dget i (ddel id d) =
              match dget i (dset id (v, None) recs) with Some (_, m) => m | None => None end.
  Proof. intros Hd i. rewrite dget_dset, dget_ddel. destruct (eqb i id); auto. Qed.

  Lemma mem_store_Rmem recs s id v m :
    Rmem recs s -> m_init s = true -> id <> [] -> meta_copy m ->
    exists s', mem_store id v m s = (Ok true, s') /\
               Rmem (dset id (v, m) recs) s' /\ m_init s' = true.
  Proof.
    intros R Hi Hid Hm. destruct R as [R1 R2 R3 R4 R5 R6].
    destruct id as [|c id0]; [congruence|]. unfold mem_store. set (id := c :: id0) in *.
    unfold bind, get. rewrite Hi. cbn [negb].
    unfold wrap, mem_write_vec, mem_set_count, mem_set_usage, modify, ret, mem_write_meta.
    destruct m as [m|].
    - simpl in Hm. rewrite Hm. simpl.
      eexists; split; [reflexivity|]. split; auto.
      constructor; simpl; auto.
      + rewrite R2. now rewrite <- (dset_dmap fst id (v, Some m)).
      + now apply dget_meta_set.
      + rewrite R2, (dset_dmap fst id (v, Some m)). now rewrite length_dmap.
      + apply Rmem_bytes; simpl; auto.
        * rewrite R2. now rewrite <- (dset_dmap fst id (v, Some m)).
        * now apply dget_meta_set.
    - simpl.
      eexists; split; [reflexivity|]. split; auto.
      constructor; simpl; auto.
      + rewrite R2. now rewrite <- (dset_dmap fst id (v, None)).
      + now apply dget_meta_del.
      + rewrite R2, (dset_dmap fst id (v, None)). now rewrite length_dmap.
      + apply Rmem_bytes; simpl; auto.
        * rewrite R2. now rewrite <- (dset_dmap fst id (v, None)).
        * now apply dget_meta_del.
  Qed.

  Lemma mem_retrieve_Rmem recs s id :
    Rmem recs s -> m_init s = true -> mem_retrieve id s = (Ok (dget id recs), s).
  Proof.
    intros R Hi. unfold mem_retrieve, bind, get. rewrite Hi. simpl.
    rewrite (rm_vec _ _ R), dget_dmap, (rm_meta _ _ R).
    destruct (dget id recs) as [[v m]|]; reflexivity.
  Qed.

  Lemma dmem_dmap {A B} (f : A -> B) k (d : dict pystr A) :
    dmem k (dmap f d) = dmem k d.
  Proof. unfold dmem. rewrite dget_dmap. now destruct (dget k d). Qed.

  Lemma mem_delete_Rmem recs s id :
    Rmem recs s -> m_init s = true ->
    exists s', mem_delete id s = (Ok (dmem id recs), s') /\
               Rmem (ddel id recs) s' /\ m_init s' = true.
  Proof.
    intros R Hi. destruct R as [R1 R2 R3 R4 R5 R6].
    unfold mem_delete, bind, get. rewrite Hi. cbn [negb].
    rewrite R2, dmem_dmap. unfold wrap.
    destruct (dmem id recs) eqn:E.
    - unfold bind, modify, mem_set_count, mem_set_usage, modify, ret. simpl.
      eexists; split; [reflexivity|]. split; auto.
      assert (forall i, dget i (ddel id (m_metadata s)) =
                        match dget i (ddel id recs) with Some (_, m) => m | None => None end) as Hd.
      { intros i. rewrite !dget_ddel. destruct (eqb i id); auto. }
      constructor; simpl; auto.
      + rewrite R2. now rewrite ddel_dmap.
      + now rewrite R2, ddel_dmap, length_dmap.
      + apply Rmem_bytes; simpl; auto.
        rewrite R2. now rewrite ddel_dmap.
    - exists s. split; [reflexivity|]. split; auto.
      apply dmem_false, dget_None in E. rewrite ddel_notin by auto. now constructor.
  Qed.

  Lemma dset_length_in (k : pystr) (x : V * option Mt) recs :
    dmem k recs = true -> length (dset k x recs) = length recs.
  Proof. intros E. rewrite length_dset. now rewrite E. Qed.

  Lemma mem_update_Rmem recs s id v m :
    Rmem recs s -> m_init s = true -> meta_copy m ->
    exists s', mem_update id v m s = (Ok (dmem id recs), s') /\
               Rmem (if dmem id recs then dset id (v, m) recs else recs) s' /\ m_init s' = true.
  Proof.
    intros R Hi Hm. destruct R as [R1 R2 R3 R4 R5 R6].
    unfold mem_update, bind, get. rewrite Hi. cbn [negb].
    rewrite R2, dmem_dmap. unfold wrap.
    destruct (dmem id recs) eqn:E; cbn [negb].
    - unfold mem_write_vec, mem_set_usage, modify, ret, mem_write_meta.
      destruct m as [m|].
      + simpl in Hm. rewrite Hm. simpl.
        eexists; split; [reflexivity|]. split; auto.
        constructor; simpl; auto.
        * rewrite R2. now rewrite <- (dset_dmap fst id (v, Some m)).
        * now apply dget_meta_set.
        * now rewrite dset_length_in.
        * apply Rmem_bytes; simpl; auto.
          -- rewrite R2. now rewrite <- (dset_dmap fst id (v, Some m)).
          -- now apply dget_meta_set.
      + simpl.
        eexists; split; [reflexivity|]. split; auto.
        constructor; simpl; auto.
        * rewrite R2. now rewrite <- (dset_dmap fst id (v, None)).
        * now apply dget_meta_del.
        * now rewrite dset_length_in.
        * apply Rmem_bytes; simpl; auto.
          -- rewrite R2. now rewrite <- (dset_dmap fst id (v, None)).
          -- now apply dget_meta_del.
    - exists s. split; [reflexivity|]. split; auto. now constructor.
  Qed.

  Lemma mem_list_Rmem recs s limit :
    Rmem recs s -> m_init s = true ->
    mem_list limit s = (Ok (cut limit (dkeys recs)), s).
  Proof.
    intros R Hi. unfold mem_list, bind, get. rewrite Hi. simpl.
    rewrite (rm_vec _ _ R), dkeys_dmap, cut_slice. now destruct limit.
  Qed.

  (** Abstraction relation for whole histories. *)
  Definition Amem (a : sstate V Mt) (s : mem V Mt) : Prop :=
    Rmem (s_recs a) s /\ m_init s = s_open a /\ (s_open a = false -> s_recs a = []).

  Lemma mem_step_refines a s o :
    Amem a s -> op_copy o ->
    let (r, s') := sc_step mem_class s o in
    sp_ans true (Some rec_size) (fun i => i) a o r /\
    Amem (sp_next false (fun i => i) a o) s'.
  Proof.
    intros [R [Hi Hc]] Ho. destruct a as [op recs]. simpl in *.
    destruct o as [|id v m|id|id|id v m|limit| | |]; simpl.
    - (* init *) split; auto. split; [apply Rmem_empty|]. split; auto.
    - (* store *)
      destruct id as [|c id0].
      { simpl. split; auto. destruct op; split; simpl; auto. }
      destruct op.
      + destruct (mem_store_Rmem recs s (c :: id0) v m R Hi ltac:(congruence) Ho)
          as [s' [E [R' Hi']]].
        rewrite E. simpl. split; auto. split; simpl.
        * rewrite sp_put_dset; auto. apply (rm_nd _ _ R).
        * split; auto. discriminate.
      + unfold mem_store, bind, get. rewrite Hi. simpl. split; auto. split; auto.
    - (* retrieve *)
      destruct op.
      + rewrite (mem_retrieve_Rmem recs s id R Hi). simpl. rewrite sp_find_dget.
        split; auto. split; auto.
      + unfold mem_retrieve, bind, get. rewrite Hi. simpl. split; auto. split; auto.
    - (* delete *)
      destruct op.
      + destruct (mem_delete_Rmem recs s id R Hi) as [s' [E [R' Hi']]].
        rewrite E. simpl. rewrite sp_find_dget. unfold dmem. split.
        * now destruct (dget id recs).
        * split; simpl; [now rewrite sp_del_ddel|]. split; auto. discriminate.
      + unfold mem_delete, bind, get. rewrite Hi. simpl. split; auto. split; auto.
    - (* update *)
      destruct op.
      + destruct (mem_update_Rmem recs s id v m R Hi Ho) as [s' [E [R' Hi']]].
        rewrite E. simpl. rewrite sp_find_dget. unfold dmem in *. split.
        * now destruct (dget id recs).
        * destruct (dget id recs); split; simpl; auto.
          -- rewrite sp_put_dset; auto. apply (rm_nd _ _ R).
          -- split; auto. discriminate.
      + unfold mem_update, bind, get. rewrite Hi. simpl. split; auto. split; auto.
    - (* list *)
      destruct op.
      + rewrite (mem_list_Rmem recs s limit R Hi). simpl. split.
        * exists (map fst recs). split; auto.
        * split; auto.
      + unfold mem_list, bind, get. rewrite Hi. simpl. split; auto. split; auto.
    - (* stats *)
      unfold mem_get_stats, bind, get. rewrite Hi. destruct op; simpl.
      + split.
        * rewrite (rm_count _ _ R), (rm_usage _ _ R). reflexivity.
        * split; auto.
      + split; auto. split; auto.
    - (* close *) split; auto. split; [apply Rmem_empty|]. split; auto.
    - (* reopen *) split; auto. split; [apply Rmem_empty|]. split; auto.
  Qed.

  Lemma mem_run_refines ops : forall a s,
    Amem a s -> Forall op_copy ops ->
    conforms false true (Some rec_size) (fun i => i) a ops (fst (sc_run mem_class s ops)) /\
    Amem (fold_left (sp_next false (fun i => i)) ops a) (snd (sc_run mem_class s ops)).
  Proof.
    induction ops as [|o ops IH]; intros a s R Hok; simpl; auto.
    inversion Hok; subst.
    pose proof (mem_step_refines a s o R H3) as Hst.
    destruct (sc_step mem_class s o) as [r s'].
    destruct Hst as [Hans HR].
    specialize (IH _ s' HR H4). destruct (sc_run mem_class s' ops) as [rs s''].
    simpl in *. tauto.
  Qed.

  (** *** Disk *)

  Lemma app_inj_tail_py (a b t : pystr) : a ++ t = b ++ t -> a = b.
  Proof. apply app_inv_tail. Qed.

  Lemma ends_with_npy k : ends_with (py ".npy") (npy_name k) = true.
  Proof.
    unfold ends_with, npy_name. rewrite app_length.
    replace (length k + length (py ".npy") - length (py ".npy")) with (length k) by lia.
    rewrite skipn_app, skipn_all, Nat.sub_diag. simpl skipn.
    apply eqb_refl.
  Qed.

  Lemma stem4_npy k : stem4 (npy_name k) = k.
  Proof.
    unfold stem4, npy_name. rewrite app_length. simpl length.
    replace (length k + 4 - 4) with (length k) by lia.
    rewrite firstn_app, firstn_all, Nat.sub_diag. simpl. apply app_nil_r.
  Qed.

  (** The files represent the records (keys of the records are file-safe names). *)
  Record Rdisk (recs : list (entry V Mt)) (s : disk V Mt) : Prop := {
    rd_nd : NoDup (dkeys recs);
    rd_vec : d_vectors s = map (fun e => (npy_name (fst e), FGood (fst (snd e)))) recs;
    rd_meta : forall k, dget (pkl_name k) (d_metadata s) =
                        match dget k recs with
                        | Some (_, Some m) => Some (FGood m)
                        | _ => None
                        end
  }.

  Lemma dget_npy k recs :
    dget (npy_name k) (map (fun e : entry V Mt => (npy_name (fst e), FGood (fst (snd e)))) recs)
    = option_map (fun x => FGood (fst x)) (dget k recs).
  Proof.
    induction recs as [|[k' x] recs IH]; simpl; auto.
    destruct (eqb_spec k k').
    - subst. now rewrite eqb_refl.
    - rewrite eqb_neq; auto. intros E. apply app_inj_tail_py in E. congruence.
  Qed.

  Lemma dset_npy k v (m : option Mt) recs :
    dset (npy_name k) (FGood v)
         (map (fun e : entry V Mt => (npy_name (fst e), FGood (fst (snd e)))) recs)
    = map (fun e => (npy_name (fst e), FGood (fst (snd e)))) (dset k (v, m) recs).
  Proof.
    induction recs as [|[k' x] recs IH]; simpl; auto.
    destruct (eqb_spec k k').
    - subst. rewrite eqb_refl. reflexivity.
    - rewrite eqb_neq.
      + simpl. now rewrite IH.
      + intros E. apply app_inj_tail_py in E. congruence.
  Qed.

  Lemma ddel_npy k recs :
    ddel (npy_name k)
         (map (fun e : entry V Mt => (npy_name (fst e), FGood (fst (snd e)))) recs)
    = map (fun e => (npy_name (fst e), FGood (fst (snd e)))) (ddel k recs).
  Proof.
    induction recs as [|[k' x] recs IH]; simpl; auto.
    destruct (eqb_spec k k').
    - subst. rewrite eqb_refl. apply IH.
    - rewrite eqb_neq.
      + simpl. now rewrite IH.
      + intros E. apply app_inj_tail_py in E. congruence.
  Qed.

  Context (dirorder : list pystr -> list pystr).
  Context (Hdir : forall l, Permutation (dirorder l) l).

  Lemma glob_Rdisk recs (s : disk V Mt) :
    d_vectors s = map (fun e => (npy_name (fst e), FGood (fst (snd e)))) recs ->
    Permutation (map stem4 (glob_npy dirorder s)) (dkeys recs) /\
    length (glob_npy dirorder s) = length recs.
  Proof.
    intros Hv. unfold glob_npy. rewrite Hv.
    assert (dkeys (map (fun e : entry V Mt => (npy_name (fst e), FGood (fst (snd e)))) recs)
            = map npy_name (dkeys recs)) as Hk.
    { unfold dkeys. rewrite !map_map. reflexivity. }
    rewrite Hk. set (l := map npy_name (dkeys recs)).
    assert (filter (ends_with (py ".npy")) (dirorder l) = dirorder l) as Hf.
    { assert (Forall (fun x => ends_with (py ".npy") x = true) (dirorder l)) as HF.
      { eapply Permutation_Forall; [symmetry; apply Hdir|].
        unfold l. rewrite Forall_map, Forall_forall. intros x _. apply ends_with_npy. }
      revert HF. generalize (dirorder l). induction l0 as [|x l0 IHl]; simpl; auto.
      intros HF. inversion HF as [|? ? Hx Hl]; subst. rewrite Hx. f_equal. auto. }
    rewrite Hf. split.
    - rewrite (Permutation_map stem4 (Hdir l)). unfold l. rewrite map_map.
      rewrite (map_ext _ (fun x => x)) by apply stem4_npy. now rewrite map_id.
    - rewrite (Permutation_length (Hdir l)). unfold l, dkeys. now rewrite !map_length.
  Qed.

  Lemma disk_write_meta_ok recs s k v m :
    Rdisk recs s -> meta_pickle m ->
    d_vectors s = map (fun e => (npy_name (fst e), FGood (fst (snd e)))) recs ->
    exists s', disk_write_meta k m (MkDisk (dset (npy_name k) (FGood v) (d_vectors s))
                                            (d_metadata s) (d_count s) (d_init s)) = (Ok tt, s') /\
               Rdisk (dset k (v, m) recs) s' /\ d_init s' = d_init s /\
               d_count s' = d_count s.
  Proof.
    intros [R1 R2 R3] Hm Hv.
    assert (forall (j : pystr), j <> k -> pkl_name j <> pkl_name k) as Hinj.
    { intros j Hj E. apply app_inj_tail_py in E. congruence. }
    destruct m as [m|]; simpl.
    - simpl in Hm. unfold bind, modify. rewrite Hm. simpl.
      eexists. split; [reflexivity|]. split; auto.
      constructor; simpl; auto.
      + rewrite R2. apply dset_npy.
      + intros j. rewrite (dget_dset k). destruct (eqb_spec j k).
        * subst. now rewrite dget_dset_same.
        * rewrite !dget_dset_other by (apply Hinj; auto). apply R3.
    - eexists. split; [reflexivity|]. split; auto.
      constructor; simpl; auto.
      + rewrite R2. apply dset_npy.
      + intros j. rewrite (dget_dset k). destruct (eqb_spec j k).
        * subst. now rewrite dget_ddel_same.
        * rewrite dget_ddel_other by (apply Hinj; auto). apply R3.
  Qed.

  Lemma disk_store_Rdisk recs s id v m :
    Rdisk recs s -> d_init s = true -> id <> [] -> meta_pickle m ->
    exists s', disk_store dirorder id v m s = (Ok true, s') /\
               Rdisk (dset (sanitize_id id) (v, m) recs) s' /\ d_init s' = true /\
               d_count s' = Z.of_nat (length (dset (sanitize_id id) (v, m) recs)).
  Proof.
    intros R Hi Hid Hm. destruct id as [|c id0]; [congruence|].
    unfold disk_store. set (id := c :: id0) in *. set (k := sanitize_id id).
    unfold bind at 1, get. rewrite Hi. cbn [negb].
    destruct (disk_write_meta_ok recs s k v m R Hm (rd_vec _ _ R)) as [s' [E [R' [Hi' Hc']]]].
    unfold wrap, bind, disk_write_vec, modify. rewrite E.
    unfold disk_recount, modify, ret. simpl.
    eexists. split; [reflexivity|].
    destruct (glob_Rdisk _ s' (rd_vec _ _ R')) as [_ Hl].
    split; [|split; [simpl; congruence | simpl; now rewrite Hl]].
    destruct R' as [Q1 Q2 Q3]. constructor; auto.
  Qed.

  Lemma disk_retrieve_Rdisk recs s id :
    Rdisk recs s -> d_init s = true ->
    disk_retrieve id s = (Ok (dget (sanitize_id id) recs), s).
  Proof.
    intros [R1 R2 R3] Hi. unfold disk_retrieve, bind, get. rewrite Hi. simpl.
    rewrite R2, dget_npy. unfold wrap. rewrite R3.
    destruct (dget (sanitize_id id) recs) as [[v [m|]]|]; reflexivity.
  Qed.

  Lemma disk_delete_Rdisk recs s id :
    Rdisk recs s -> d_init s = true -> d_count s = Z.of_nat (length recs) ->
    exists s', disk_delete dirorder id s = (Ok (dmem (sanitize_id id) recs), s') /\
               Rdisk (ddel (sanitize_id id) recs) s' /\ d_init s' = true /\
               d_count s' = Z.of_nat (length (ddel (sanitize_id id) recs)).
  Proof.
    intros [R1 R2 R3] Hi Hc. unfold disk_delete, bind at 1, get. rewrite Hi. cbn [negb].
    set (k := sanitize_id id).
    assert (forall (j : pystr), j <> k -> pkl_name j <> pkl_name k) as Hinj.
    { intros j Hj E. apply app_inj_tail_py in E. congruence. }
    assert (dmem (npy_name k) (d_vectors s) = dmem k recs) as Hm.
    { unfold dmem. rewrite R2, dget_npy. now destruct (dget k recs). }
    rewrite Hm. unfold wrap, bind, modify. cbv beta iota zeta. simpl.
    set (s1 := MkDisk (ddel (npy_name k) (d_vectors s)) (ddel (pkl_name k) (d_metadata s))
                      (d_count s) (d_init s)).
    assert (Rdisk (ddel k recs) s1) as R'.
    { constructor; simpl; auto.
      - rewrite R2. apply ddel_npy.
      - intros j. rewrite (dget_ddel k). destruct (eqb_spec j k).
        + subst. now rewrite dget_ddel_same.
        + rewrite dget_ddel_other by (apply Hinj; auto). apply R3. }
    destruct (dmem k recs) eqn:E.
    - unfold disk_recount, modify, ret.
      eexists. split; [reflexivity|].
      destruct (glob_Rdisk _ s1 (rd_vec _ _ R')) as [_ Hl].
      split; [|split; [simpl; congruence | simpl; now rewrite Hl]].
      destruct R' as [Q1 Q2 Q3]. constructor; auto.
    - eexists. split; [reflexivity|]. split; auto. split; [simpl; auto|].
      apply dmem_false, dget_None in E. rewrite ddel_notin by auto. simpl. auto.
  Qed.

  Lemma disk_update_Rdisk recs s id v m :
    Rdisk recs s -> d_init s = true -> meta_pickle m -> d_count s = Z.of_nat (length recs) ->
    exists s', disk_update id v m s = (Ok (dmem (sanitize_id id) recs), s') /\
               Rdisk (if dmem (sanitize_id id) recs
                      then dset (sanitize_id id) (v, m) recs else recs) s' /\
               d_init s' = true /\ d_count s' = Z.of_nat (length recs).
  Proof.
    intros R Hi Hm Hc. unfold disk_update, bind at 1, get. rewrite Hi. cbn [negb].
    set (k := sanitize_id id).
    assert (dmem (npy_name k) (d_vectors s) = dmem k recs) as Hk.
    { unfold dmem. rewrite (rd_vec _ _ R), dget_npy. now destruct (dget k recs). }
    rewrite Hk. destruct (dmem k recs) eqn:E; cbn [negb].
    - destruct (disk_write_meta_ok recs s k v m R Hm (rd_vec _ _ R)) as [s' [E' [R' [Hi' Hc']]]].
      unfold wrap, bind, disk_write_vec, modify. rewrite E'.
      exists s'. split; [reflexivity|]. repeat split; auto; try apply R'; congruence.
    - exists s. split; [reflexivity|]. auto.
  Qed.

  Lemma disk_list_Rdisk recs s limit :
    Rdisk recs s -> d_init s = true ->
    exists l, Permutation l (dkeys recs) /\ disk_list dirorder limit s = (Ok (cut limit l), s).
  Proof.
    intros R Hi. exists (map stem4 (glob_npy dirorder s)). split.
    - now apply glob_Rdisk with (1 := rd_vec _ _ R).
    - unfold disk_list, bind, get. rewrite Hi. simpl. rewrite cut_slice.
      now destruct limit.
  Qed.

  Definition Adisk (a : sstate V Mt) (s : disk V Mt) : Prop :=
    Rdisk (s_recs a) s /\ d_init s = s_open a /\
    (s_open a = true -> d_count s = Z.of_nat (length (s_recs a))).

  Lemma Rdisk_fields recs s c b :
    Rdisk recs s -> Rdisk recs (MkDisk (d_vectors s) (d_metadata s) c b).
  Proof. intros [R1 R2 R3]. constructor; auto. Qed.

  Lemma disk_step_refines a s o :
    Adisk a s -> op_pickle o ->
    let (r, s') := sc_step (disk_class dirorder) s o in
    sp_ans false None sanitize_id a o r /\
    Adisk (sp_next true sanitize_id a o) s'.
  Proof.
    intros [R [Hi Hc]] Ho. destruct a as [op recs]. simpl in *.
    destruct o as [|id v m|id|id|id v m|limit| | |]; simpl.
    - (* init *) split; auto. split; [|split]; simpl; auto.
      + repeat apply Rdisk_fields. exact R.
      + intros _. now rewrite (proj2 (glob_Rdisk _ s (rd_vec _ _ R))).
    - (* store *)
      destruct id as [|c id0].
      { simpl. split; auto. destruct op; split; simpl; auto. }
      destruct op.
      + destruct (disk_store_Rdisk recs s (c :: id0) v m R Hi ltac:(congruence) Ho)
          as [s' [E [R' [Hi' Hc']]]].
        rewrite E. simpl. split; auto.
        rewrite sp_put_dset by apply (rd_nd _ _ R).
        split; [|split]; simpl; auto.
      + unfold disk_store, bind, get. rewrite Hi. simpl. split; auto. split; auto.
    - (* retrieve *)
      destruct op.
      + rewrite (disk_retrieve_Rdisk recs s id R Hi). simpl. rewrite sp_find_dget.
        split; auto. split; auto.
      + unfold disk_retrieve, bind, get. rewrite Hi. simpl. split; auto. split; auto.
    - (* delete *)
      destruct op.
      + destruct (disk_delete_Rdisk recs s id R Hi (Hc eq_refl)) as [s' [E [R' [Hi' Hc']]]].
        rewrite E. simpl. rewrite sp_find_dget. unfold dmem. split.
        * now destruct (dget (sanitize_id id) recs).
        * split; [|split]; simpl; rewrite ?sp_del_ddel; auto.
      + unfold disk_delete, bind, get. rewrite Hi. simpl. split; auto. split; auto.
    - (* update *)
      destruct op.
      + destruct (disk_update_Rdisk recs s id v m R Hi Ho (Hc eq_refl)) as [s' [E [R' [Hi' Hc']]]].
        rewrite E. simpl. rewrite sp_find_dget. unfold dmem in *. split.
        * now destruct (dget (sanitize_id id) recs).
        * destruct (dget (sanitize_id id) recs) eqn:Eg; (split; [|split]); simpl; auto.
          -- rewrite sp_put_dset; auto. apply (rd_nd _ _ R).
          -- rewrite sp_put_dset by apply (rd_nd _ _ R). intros _.
             rewrite dset_length_in; auto. unfold dmem. now rewrite Eg.
      + unfold disk_update, bind, get. rewrite Hi. simpl. split; auto. split; auto.
    - (* list *)
      destruct op.
      + destruct (disk_list_Rdisk recs s limit R Hi) as [l [Hl E]]. rewrite E. simpl. split.
        * exists l. repeat split; auto. discriminate.
        * split; auto.
      + unfold disk_list, bind, get. rewrite Hi. simpl. split; auto. split; auto.
    - (* stats *)
      unfold disk_get_stats, bind, get. rewrite Hi. destruct op; simpl.
      + split.
        * now rewrite Hc.
        * split; auto.
      + split; auto. split; auto.
    - (* close *) split; auto. split; [|split]; simpl; auto; try discriminate.
      now apply Rdisk_fields.
    - (* reopen *) split; auto. split; [|split]; simpl; auto; try discriminate.
      destruct R as [R1 R2 R3]. constructor; auto.
  Qed.

  Lemma disk_run_refines ops : forall a s,
    Adisk a s -> Forall op_pickle ops ->
    conforms true false None sanitize_id a ops (fst (sc_run (disk_class dirorder) s ops)) /\
    Adisk (fold_left (sp_next true sanitize_id) ops a) (snd (sc_run (disk_class dirorder) s ops)).
  Proof.
    induction ops as [|o ops IH]; intros a s R Hok; simpl; auto.
    inversion Hok; subst.
    pose proof (disk_step_refines a s o R H3) as Hst.
    destruct (sc_step (disk_class dirorder) s o) as [r s'].
    destruct Hst as [Hans HR].
    specialize (IH _ s' HR H4). destruct (sc_run (disk_class dirorder) s' ops) as [rs s''].
    simpl in *. tauto.
  Qed.

  (** *** Hybrid *)

  Lemma sanitize_file_safe id : file_safe isalnum id (sanitize_id id).
  Proof.
    induction id as [|c id IH]; simpl; [constructor|].
    destruct (isalnum c) eqn:Ea; simpl; [constructor; auto|].
    destruct (eqb_spec c 46%N); simpl; [constructor; auto|].
    destruct (eqb_spec c 95%N); simpl; [constructor; auto|].
    destruct (eqb_spec c 45%N); simpl; constructor; auto.
  Qed.

  Lemma file_safe_sanitize id t : file_safe isalnum id t -> t = sanitize_id id.
  Proof.
    induction 1 as [|c s t Hc _ IH|c s t H1 H2 H3 H4 _ IH]; simpl; auto.
    - f_equal; auto. destruct Hc as [Hc|Hc]; [now rewrite Hc|].
      assert (memb c (py "._-") = true) as Hm.
      { apply memb_In. simpl. intuition. }
      simpl in Hm. rewrite Hm. now rewrite orb_true_r.
    - rewrite H1. rewrite !eqb_neq by auto. simpl. now f_equal.
  Qed.

  Lemma separated_inj I i j :
    separated I -> I i -> I j -> sanitize_id i = sanitize_id j -> i = j.
  Proof.
    intros Hs Hi Hj E. apply (Hs i j (sanitize_id i)); auto using sanitize_file_safe.
    rewrite E. apply sanitize_file_safe.
  Qed.

  Context (I : pystr -> Prop).

  (** Coherence of a memory tier with the disk records. *)
  Definition coh (recs mrecs : list (entry V Mt)) : Prop :=
    forall id x, dget id mrecs = Some x -> I id /\ dget (sanitize_id id) recs = Some x.

  Record Rhyb (recs mrecs : list (entry V Mt)) (s : hybrid V Mt) : Prop := {
    rh_mem : Rmem mrecs (h_memory s);
    rh_minit : m_init (h_memory s) = true;
    rh_disk : Rdisk recs (h_disk s);
    rh_dinit : d_init (h_disk s) = true;
    rh_dcount : d_count (h_disk s) = Z.of_nat (length recs);
    rh_coh : separated I -> coh recs mrecs;
    rh_lim : (Z.of_nat (length mrecs) <= Z.max 1 (h_limit s))%Z;
    rh_init : h_init s = true
  }.

  Lemma length_ddel_in (k : pystr) (recs : list (entry V Mt)) :
    NoDup (dkeys recs) -> dmem k recs = true -> S (length (ddel k recs)) = length recs.
  Proof.
    unfold dmem. induction recs as [|[k' x] recs IH]; simpl; try discriminate.
    intros Hnd. inversion Hnd; subst. destruct (eqb_spec k k').
    - subst. rewrite ddel_notin; auto.
    - simpl. intros E. rewrite IH; auto.
  Qed.

  Lemma length_ddel_le (k : pystr) (recs : list (entry V Mt)) :
    length (ddel k recs) <= length recs.
  Proof.
    induction recs as [|[k' x] recs IH]; simpl; auto.
    destruct (eqb k k'); simpl; lia.
  Qed.

  Lemma on_mem_Ok {A} (op : M (mem V Mt) A) (s : hybrid V Mt) a t :
    op (h_memory s) = (Ok a, t) ->
    on_mem op s = (Ok a, MkHybrid t (h_disk s) (h_limit s) (h_init s)).
  Proof. intros E. unfold on_mem, zoom. now rewrite E. Qed.

  Lemma set_mem_id (s : hybrid V Mt) :
    MkHybrid (h_memory s) (h_disk s) (h_limit s) (h_init s) = s.
  Proof. now destruct s. Qed.

  (** Caching a record that is already on disk keeps every invariant. *)
  Lemma hybrid_cache_R recs mrecs s id v m :
    Rmem mrecs (h_memory s) -> m_init (h_memory s) = true ->
    (Z.of_nat (length mrecs) <= Z.max 1 (h_limit s))%Z ->
    id <> [] -> meta_copy m -> I id ->
    (separated I -> forall i x, i <> id -> dget i mrecs = Some x ->
                    I i /\ dget (sanitize_id i) recs = Some x) ->
    dget (sanitize_id id) recs = Some (v, m) ->
    exists mrecs' ms, hybrid_cache id v m s =
        (Ok tt, MkHybrid ms (h_disk s) (h_limit s) (h_init s)) /\
      Rmem mrecs' ms /\ m_init ms = true /\
      (Z.of_nat (length mrecs') <= Z.max 1 (h_limit s))%Z /\
      (separated I -> coh recs mrecs').
  Proof.
    intros Rm Hi Hlim Hid Hm HIid Hoth Hget.
    unfold hybrid_cache.
    assert (mem_get_stats (h_memory s) =
            (Ok (Some {| ms_count := m_count (h_memory s); ms_bytes := m_usage (h_memory s) |}),
             h_memory s)) as Est.
    { unfold mem_get_stats, bind, get. now rewrite Hi. }
    rewrite (bind_Ok _ _ _ _ _ (on_mem_Ok _ _ _ _ Est)). rewrite set_mem_id.
    unfold bind at 1, get at 1. cbn [ms_count]. rewrite (rm_count _ _ Rm). clear Est.
    assert (forall mr s1, Rmem mr (h_memory s1) -> m_init (h_memory s1) = true ->
      (separated I -> forall i x, i <> id -> dget i mr = Some x ->
                      I i /\ dget (sanitize_id i) recs = Some x) ->
      (Z.of_nat (length (dset id (v, m) mr)) <= Z.max 1 (h_limit s1))%Z ->
      exists mrecs' ms,
        (_ <- on_mem (mem_store id v m);; ret tt) s1 =
          (Ok tt, MkHybrid ms (h_disk s1) (h_limit s1) (h_init s1)) /\
        Rmem mrecs' ms /\ m_init ms = true /\
        (Z.of_nat (length mrecs') <= Z.max 1 (h_limit s1))%Z /\
        (separated I -> coh recs mrecs')) as Hstore.
    { intros mr s1 Rm1 Hi1 Hoth1 Hl1.
      destruct (mem_store_Rmem mr (h_memory s1) id v m Rm1 Hi1 Hid Hm) as [s' [E [R' Hi']]].
      unfold bind, on_mem, zoom. rewrite E. unfold ret.
      exists (dset id (v, m) mr), s'. split; [reflexivity|].
      split; [exact R'|]. split; auto. split; auto.
      intros HS i x Hg. rewrite dget_dset in Hg. destruct (eqb_spec i id).
      - subst. inversion Hg; subst. auto.
      - now apply Hoth1. }
    destruct (Z.ltb_spec (Z.of_nat (length mrecs)) (h_limit s)).
    - (* room left *)
      apply (Hstore mrecs s); auto.
      rewrite length_dset. destruct (dmem id mrecs); lia.
    - (* evict first *)
      unfold hybrid_evict.
      assert (on_mem (mem_list (Some 1%Z)) s = (Ok (firstn 1 (dkeys mrecs)), s)) as El.
      { rewrite (on_mem_Ok _ _ _ _ (mem_list_Rmem mrecs _ (Some 1%Z) Rm Hi)).
        now rewrite set_mem_id. }
      destruct mrecs as [|[k0 x0] mrest].
      + erewrite bind_Ok; [|erewrite bind_Ok; [|exact El]; reflexivity].
        apply (Hstore [] s); simpl; auto. lia.
      + destruct (mem_delete_Rmem _ _ k0 Rm Hi) as [s' [E [R' Hi']]].
        erewrite bind_Ok; [|erewrite bind_Ok; [|exact El]; simpl;
                            erewrite bind_Ok; [|apply on_mem_Ok; exact E]; reflexivity].
        destruct (Hstore (ddel k0 ((k0, x0) :: mrest))
                    (MkHybrid s' (h_disk s) (h_limit s) (h_init s)) R' Hi') as (mr' & ms' & E' & P).
        * intros HS i x Hne Hg. rewrite dget_ddel in Hg. destruct (eqb_spec i k0); [discriminate|].
          now apply Hoth.
        * assert (S (length (ddel k0 ((k0, x0) :: mrest))) = length ((k0, x0) :: mrest)) as Hlen.
          { apply length_ddel_in; [apply (rm_nd _ _ Rm)|]. unfold dmem. simpl. now rewrite eqb_refl. }
          rewrite length_dset. simpl h_limit. destruct (dmem id _); lia.
        * exists mr', ms'. simpl in E'. rewrite E'. split; [reflexivity|exact P].
  Qed.

  Lemma hybrid_store_R recs mrecs s id v m :
    Rhyb recs mrecs s -> id <> [] -> meta_ok m -> I id ->
    exists mrecs' s', hybrid_store dirorder id v m s = (Ok true, s') /\
      Rhyb (dset (sanitize_id id) (v, m) recs) mrecs' s' /\ h_limit s' = h_limit s /\
      disk_store dirorder id v m (h_disk s) = (Ok true, h_disk s').
  Proof.
    intros R Hid Hm HIid. destruct R as [R1 R2 R3 R4 R5 R6 R7 R8].
    destruct id as [|c id0]; [congruence|]. unfold hybrid_store. set (id := c :: id0) in *.
    unfold bind at 1, get at 1. rewrite R8. cbn [negb].
    destruct (disk_store_Rdisk recs (h_disk s) id v m R3 R4 Hid (proj2 Hm)) as [ds [E [Rd [Hdi Hdc]]]].
    unfold wrap, bind at 1, on_disk at 1, zoom. rewrite E. cbv beta iota zeta.
    pose proof (proj1 Hm) as Hmc.
    destruct (hybrid_cache_R (dset (sanitize_id id) (v, m) recs) mrecs
                (MkHybrid (h_memory s) ds (h_limit s) (h_init s)) id v m)
      as (mr' & ms & E' & Q1 & Q2 & Q3 & Q4); simpl; auto.
    - intros HS i x Hne Hg. destruct (R6 HS i x Hg) as [HIi Hgi]. split; auto.
      rewrite dget_dset_other; auto. intros Eq. apply Hne. now apply (separated_inj I).
    - apply dget_dset_same.
    - unfold bind. rewrite E'. unfold ret. simpl.
      exists mr', (MkHybrid ms ds (h_limit s) (h_init s)). split; [reflexivity|].
      split; auto. constructor; simpl; auto.
  Qed.

  Lemma hybrid_retrieve_R recs mrecs s id :
    Rhyb recs mrecs s -> I id ->
    (forall m v, dget (sanitize_id id) recs = Some (v, m) -> meta_ok m) ->
    (dget (sanitize_id id) recs <> None -> id <> []) ->
    exists r mrecs' s', hybrid_retrieve id s = (Ok r, s') /\
      (separated I -> r = dget (sanitize_id id) recs) /\
      Rhyb recs mrecs' s' /\ h_limit s' = h_limit s /\ h_disk s' = h_disk s.
  Proof.
    intros R HIid Hm Hne. pose proof R as [R1 R2 R3 R4 R5 R6 R7 R8].
    unfold hybrid_retrieve. unfold bind at 1, get at 1. rewrite R8. cbn [negb].
    unfold wrap, bind at 1, on_mem at 1, zoom.
    rewrite (mem_retrieve_Rmem mrecs (h_memory s) id R1 R2).
    destruct (dget id mrecs) as [x|] eqn:Eg.
    - exists (Some x), mrecs, s. split; [destruct s; reflexivity|]. split; auto.
      intros HS. destruct (R6 HS id x Eg) as [_ Hd]. now rewrite Hd.
    - rewrite set_mem_id. unfold bind at 1, on_disk at 1, zoom.
      rewrite (disk_retrieve_Rdisk recs (h_disk s) id R3 R4). rewrite set_mem_id.
      destruct (dget (sanitize_id id) recs) as [[v m]|] eqn:Ed.
      + destruct (hybrid_cache_R recs mrecs s id v m) as (mr' & ms & E' & Q1 & Q2 & Q3 & Q4); auto.
        { apply Hne. congruence. }
        { now apply (Hm m v eq_refl). }
        { intros HS i x _ Hg. now apply R6. }
        unfold bind. rewrite E'. unfold ret.
        eexists _, mr', _. split; [reflexivity|]. split; auto. split; auto.
        constructor; simpl; auto.
      + exists None, mrecs, s. split; [destruct s; reflexivity|]. auto.
  Qed.

  Lemma hybrid_delete_R recs mrecs s id :
    Rhyb recs mrecs s -> I id ->
    exists r mrecs' s', hybrid_delete dirorder id s = (Ok r, s') /\
      (separated I -> r = dmem (sanitize_id id) recs) /\
      Rhyb (ddel (sanitize_id id) recs) mrecs' s' /\ h_limit s' = h_limit s /\
      disk_delete dirorder id (h_disk s) = (Ok (dmem (sanitize_id id) recs), h_disk s').
  Proof.
    intros R HIid. destruct R as [R1 R2 R3 R4 R5 R6 R7 R8].
    unfold hybrid_delete. unfold bind at 1, get at 1. rewrite R8. cbn [negb].
    destruct (mem_delete_Rmem mrecs (h_memory s) id R1 R2) as [ms [E [Rm Hmi]]].
    destruct (disk_delete_Rdisk recs (h_disk s) id R3 R4 R5) as [ds [E2 [Rd [Hdi Hdc]]]].
    unfold wrap, bind, on_mem, on_disk, zoom. rewrite E. simpl. rewrite E2. unfold ret.
    eexists _, (ddel id mrecs), _. split; [reflexivity|]. split.
    { intros HS. destruct (dmem id mrecs) eqn:Em; auto. unfold dmem in Em.
      destruct (dget id mrecs) eqn:Eg; try discriminate.
      destruct (R6 HS _ _ Eg) as [_ Hd]. unfold dmem. now rewrite Hd. }
    split; auto.
    constructor; simpl; auto.
    - intros HS i x Hg. rewrite dget_ddel in Hg. destruct (eqb_spec i id); [discriminate|].
      destruct (R6 HS _ _ Hg) as [HIi Hd]. split; auto. rewrite dget_ddel_other; auto.
      intros Eq. apply n. now apply (separated_inj I).
    - pose proof (length_ddel_le id mrecs). lia.
  Qed.

  Lemma hybrid_update_R recs mrecs s id v m :
    Rhyb recs mrecs s -> I id -> meta_ok m ->
    exists mrecs' s', hybrid_update id v m s = (Ok (dmem (sanitize_id id) recs), s') /\
      Rhyb (if dmem (sanitize_id id) recs
            then dset (sanitize_id id) (v, m) recs else recs) mrecs' s' /\
      h_limit s' = h_limit s /\
      disk_update id v m (h_disk s) = (Ok (dmem (sanitize_id id) recs), h_disk s').
  Proof.
    intros R HIid Hm. pose proof R as [R1 R2 R3 R4 R5 R6 R7 R8].
    unfold hybrid_update. unfold bind at 1, get at 1. rewrite R8. cbn [negb].
    destruct (disk_update_Rdisk recs (h_disk s) id v m R3 R4 (proj2 Hm) R5) as [ds [E2 [Rd [Hdi Hdc]]]].
    unfold wrap, bind, on_disk, zoom. rewrite E2.
    destruct (dmem (sanitize_id id) recs) eqn:Ed.
    - destruct (mem_update_Rmem mrecs (h_memory s) id v m R1 R2 (proj1 Hm)) as [ms [E [Rm Hmi]]].
      unfold on_mem, zoom. simpl h_memory. rewrite E. unfold ret.
      eexists _, _. split; [reflexivity|]. split; auto.
      constructor; simpl; eauto.
      + now rewrite dset_length_in.
      + intros HS i x Hg. destruct (dmem id mrecs) eqn:Em.
        * rewrite dget_dset in Hg. destruct (eqb_spec i id).
          -- subst. inversion Hg; subst. split; auto. apply dget_dset_same.
          -- destruct (R6 HS _ _ Hg) as [HIi Hd]. split; auto. rewrite dget_dset_other; auto.
             intros Eq. apply n. now apply (separated_inj I).
        * destruct (R6 HS _ _ Hg) as [HIi Hd]. split; auto. rewrite dget_dset_other; auto.
          intros Eq. assert (i = id) by now apply (separated_inj I). subst.
          unfold dmem in Em. rewrite Hg in Em. discriminate.
      + destruct (dmem id mrecs) eqn:Em; auto. now rewrite dset_length_in.
    - unfold ret. exists mrecs, (MkHybrid (h_memory s) ds (h_limit s) (h_init s)).
      split; [reflexivity|]. split; auto. constructor; simpl; auto.
  Qed.

  (** All recorded metadata are dictionaries, no record has the empty name. *)
  Definition recs_ok recs : Prop :=
    forall k v m, dget k recs = Some (v, m) -> meta_ok m /\ k <> [].

  Lemma sanitize_nil id : sanitize_id id = [] -> id = [].
  Proof. destruct id; simpl; congruence. Qed.

  Definition Ahyb (a : sstate V Mt) (s : hybrid V Mt) : Prop :=
    recs_ok (s_recs a) /\
    (if s_open a then exists mrecs, Rhyb (s_recs a) mrecs s
     else Rdisk (s_recs a) (h_disk s) /\ h_init s = false /\ d_init (h_disk s) = false).

  Lemma recs_ok_put recs k v m :
    recs_ok recs -> meta_ok m -> k <> [] -> recs_ok (dset k (v, m) recs).
  Proof.
    intros Hr Hm Hk j w n Hg. rewrite dget_dset in Hg. destruct (eqb_spec j k).
    - inversion Hg; subst; auto.
    - eapply Hr; eauto.
  Qed.

  Lemma hybrid_step_refines a s o :
    Ahyb a s -> op_ok o -> op_id_in I o ->
    let (r, s') := sc_step (hybrid_class dirorder) s o in
    (separated I -> sp_ans false None sanitize_id a o r) /\
    Ahyb (sp_next true sanitize_id a o) s' /\ h_limit s' = h_limit s /\
    (separated I -> sc_step (disk_class dirorder) (h_disk s) o = (r, h_disk s')).
  Proof.
    intros [Hrok A] Ho HIo. destruct a as [op recs]. simpl in *.
    destruct o as [|id v m|id|id|id v m|limit| | |]; simpl.
    - (* init *)
      split; auto. split; auto. split; simpl; auto.
      assert (Rdisk recs (h_disk s)) as Rd by (destruct op; [destruct A as [mr [? ? X]]; exact X | tauto]).
      exists []. constructor; simpl; auto.
      + apply Rmem_empty.
      + repeat apply Rdisk_fields. exact Rd.
      + now rewrite (proj2 (glob_Rdisk _ _ (rd_vec _ _ Rd))).
      + intros HS i x. simpl. discriminate.
      + lia.
    - (* store *)
      destruct id as [|c id0].
      { simpl. split; auto. split; auto. destruct op; split; simpl; auto. }
      destruct op.
      + destruct A as [mr R].
        destruct (hybrid_store_R recs mr s (c :: id0) v m R ltac:(congruence) Ho HIo)
          as (mr' & s' & E & R' & El & Ed).
        rewrite E. cbn -[disk_store sanitize_id]. split; auto. split.
        * rewrite sp_put_dset by apply (rd_nd _ _ (rh_disk _ _ _ R)).
          split; simpl; [|eauto]. apply recs_ok_put; auto. simpl. congruence.
        * split; auto. intros _. now rewrite Ed.
      + destruct A as [Rd [Hi Hdi]]. unfold hybrid_store, bind, get. rewrite Hi. simpl.
        split; auto. split; [split; simpl; auto|]. split; auto.
        intros _. unfold disk_store, bind, get. now rewrite Hdi.
    - (* retrieve *)
      destruct op.
      + destruct A as [mr R].
        destruct (hybrid_retrieve_R recs mr s id R HIo) as (r & mr' & s' & E & Er & R' & El & Ed).
        * intros m0 v0 Hg. now apply (Hrok _ _ _ Hg).
        * intros Hn. destruct (dget (sanitize_id id) recs) as [[v0 m0]|] eqn:Eg; [|congruence].
          intros ->. now apply (proj2 (Hrok _ _ _ Eg)).
        * rewrite E. simpl. rewrite sp_find_dget. split; [intros HS; now rewrite Er|].
          split; [split; simpl; eauto|]. split; auto.
          intros HS. rewrite (disk_retrieve_Rdisk recs _ id (rh_disk _ _ _ R) (rh_dinit _ _ _ R)).
          simpl. now rewrite Er, Ed.
      + destruct A as [Rd [Hi Hdi]]. unfold hybrid_retrieve, bind, get. rewrite Hi. simpl.
        split; auto. split; [split; simpl; auto|]. split; auto.
        intros _. unfold disk_retrieve, bind, get. now rewrite Hdi.
    - (* delete *)
      destruct op.
      + destruct A as [mr R].
        destruct (hybrid_delete_R recs mr s id R HIo) as (r & mr' & s' & E & Er & R' & El & Ed).
        rewrite E. simpl. rewrite sp_find_dget, sp_del_ddel. split; [|split; [|split; auto]].
        * intros HS. rewrite Er by auto. unfold dmem. now destruct (dget (sanitize_id id) recs).
        * split; simpl; [|eauto]. intros k w n Hg. rewrite dget_ddel in Hg.
          destruct (eqb k (sanitize_id id)); [discriminate|]. eapply Hrok; eauto.
        * intros HS. rewrite Ed. simpl. now rewrite Er.
      + destruct A as [Rd [Hi Hdi]]. unfold hybrid_delete, bind, get. rewrite Hi. simpl.
        split; auto. split; [split; simpl; auto|]. split; auto.
        intros _. unfold disk_delete, bind, get. now rewrite Hdi.
    - (* update *)
      destruct op.
      + destruct A as [mr R].
        destruct (hybrid_update_R recs mr s id v m R HIo Ho) as (mr' & s' & E & R' & El & Ed).
        rewrite E. simpl. rewrite sp_find_dget.
        split; [|split; [|split; auto]].
        * intros _. unfold dmem. now destruct (dget (sanitize_id id) recs).
        * unfold dmem in *.
          destruct (dget (sanitize_id id) recs) as [[w n]|] eqn:Eg; split; simpl; eauto.
          -- rewrite sp_put_dset by apply (rd_nd _ _ (rh_disk _ _ _ R)).
             apply recs_ok_put; auto. now apply (Hrok _ _ _ Eg).
          -- rewrite sp_put_dset by apply (rd_nd _ _ (rh_disk _ _ _ R)). eauto.
        * intros _. now rewrite Ed.
      + destruct A as [Rd [Hi Hdi]]. unfold hybrid_update, bind, get. rewrite Hi. simpl.
        split; auto. split; [split; simpl; auto|]. split; auto.
        intros _. unfold disk_update, bind, get. now rewrite Hdi.
    - (* list *)
      destruct op.
      + destruct A as [mr R].
        unfold hybrid_list, bind, get. rewrite (rh_init _ _ _ R). simpl.
        destruct (disk_list_Rdisk recs (h_disk s) limit (rh_disk _ _ _ R) (rh_dinit _ _ _ R))
          as [l [Hl E]].
        unfold on_disk, zoom. rewrite E. simpl. split; [|split; [|split; auto]].
        * intros _. exists l. repeat split; auto. discriminate.
        * split; simpl; auto. exists mr. destruct s; exact R.
      + destruct A as [Rd [Hi Hdi]]. unfold hybrid_list, bind, get. rewrite Hi. simpl.
        split; auto. split; [split; simpl; auto|]. split; auto.
        intros _. unfold disk_list, bind, get. now rewrite Hdi.
    - (* stats *)
      unfold hybrid_get_stats, bind, get. destruct op.
      + destruct A as [mr R]. rewrite (rh_init _ _ _ R). simpl.
        unfold on_mem, on_disk, zoom, mem_get_stats, disk_get_stats, bind, get. simpl.
        rewrite (rh_minit _ _ _ R). simpl. rewrite (rh_dinit _ _ _ R). simpl.
        split; [|split; [|split; auto]].
        * now rewrite (rh_dcount _ _ _ R).
        * split; simpl; auto. exists mr. destruct s; exact R.
      + destruct A as [Rd [Hi Hdi]]. rewrite Hi. simpl.
        split; auto. split; [split; simpl; auto|]. split; auto.
        intros _. unfold disk_get_stats, bind, get. now rewrite Hdi.
    - (* close *)
      split; auto. split; auto. split; simpl; auto. split; auto.
      apply Rdisk_fields. destruct op; [destruct A as [mr [? ? X]]; exact X | tauto].
    - (* reopen *)
      split; auto. split; auto. split; simpl; auto. split; auto.
      assert (Rdisk recs (h_disk s)) as [Q1 Q2 Q3]
        by (destruct op; [destruct A as [mr [? ? X]]; exact X | tauto]).
      constructor; auto.
  Qed.

  Lemma hybrid_run_refines ops : forall a s,
    Ahyb a s -> Forall op_ok ops -> Forall (op_id_in I) ops ->
    let (rs, s') := sc_run (hybrid_class dirorder) s ops in
    (separated I -> conforms true false None sanitize_id a ops rs) /\
    (separated I -> sc_run (disk_class dirorder) (h_disk s) ops = (rs, h_disk s')) /\
    Ahyb (fold_left (sp_next true sanitize_id) ops a) s' /\ h_limit s' = h_limit s.
  Proof.
    induction ops as [|o ops IH]; intros a s R Hok HIo; simpl; auto.
    inversion Hok; subst. inversion HIo; subst.
    pose proof (hybrid_step_refines a s o R H3 H5) as Hst.
    destruct (sc_step (hybrid_class dirorder) s o) as [r s'].
    destruct Hst as [Hans [HR [El Hd]]].
    specialize (IH _ s' HR H4 H6). destruct (sc_run (hybrid_class dirorder) s' ops) as [rs s''].
    destruct IH as (Q1 & Q2 & Q3 & Q4).
    split; [intros HS; split; auto|]. split; [|split; auto; congruence].
    intros HS. rewrite Hd by auto. now rewrite Q2.
  Qed.
End Backends.
