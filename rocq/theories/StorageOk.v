(** What an index may rely on, whichever of the three backends it is given.

    Index code stores only under ids drawn from [uuid.uuid4()] but passes arbitrary caller ids to
    retrieve, delete and update.  Under that discipline all three backends are the same
    record list keyed by the plain id. *)

From Coq Require Import List Arith ZArith NArith Lia Bool Permutation ZifyBool ZifyN ZifyNat.
From Coq Require String.
Import (notations) Coq.Strings.String.
From Verif Require Import PyBase BaseLemmas Payload StorageModel StorageSpec StorageRun
  StorageProofs StorageThms.
Import ListNotations.
Open Scope py_scope.

(** Shape of [str(uuid.uuid4())]: not empty, lower-case hexadecimal digits and '-'. *)
Definition uuid_like (id : pystr) : Prop :=
  id <> [] /\
  Forall (fun c => (48 <= c <= 57)%N \/ (97 <= c <= 102)%N \/ c = 45%N) id.

(** The ids stored by a call are uuids. *)
Definition op_store_uuid {V Mt} (o : sop V Mt) : Prop :=
  match o with OStore id _ _ => uuid_like id | _ => True end.

(** [C] behaves as the record list of [StorageSpec] keyed by the plain id, for calls with
    ordinary metadata that store under uuids only.  [A] relates abstract and concrete states. *)
Definition storage_ok {S V Mt} `{Payload V Mt} (C : storage_class S V Mt)
    (persistent ordered : bool) (sized : option (V * option Mt -> N))
    (A : sstate V Mt -> S -> Prop) : Prop :=
  (forall a s, A a s -> NoDup (map fst (s_recs a))) /\
  forall a s o, A a s -> op_ok o -> op_store_uuid o ->
    let (r, s') := sc_step C s o in
    sp_ans ordered sized (fun i => i) a o r /\
    A (sp_next persistent (fun i => i) a o) s'.

Section Uuid.
  Context `{Unicode}.

  Lemma uuid_char c : (48 <= c <= 57)%N \/ (97 <= c <= 102)%N \/ c = 45%N ->
    isalnum c || memb c (py "._-") = true /\ c <> 95%N.
  Proof.
    unfold isalnum. simpl. intros Hc. split.
    - destruct Hc as [Hc|[Hc|Hc]].
      + replace ((48 <=? c) && (c <=? 57))%N with true by lia. reflexivity.
      + replace ((97 <=? c) && (c <=? 122))%N with true by lia.
        rewrite !orb_true_r. reflexivity.
      + subst. now rewrite !orb_true_r.
    - lia.
  Qed.

  Lemma uuid_sanitize id : uuid_like id -> sanitize_id id = id.
  Proof.
    intros [_ HF]. induction HF as [|c id Hc HF IH]; simpl; auto.
    destruct (uuid_char c Hc) as [E _]. simpl in E. rewrite E, IH. reflexivity.
  Qed.

  Lemma sanitize_uuid id u : uuid_like u -> sanitize_id id = u -> id = u.
  Proof.
    intros [_ HF]. revert id. induction HF as [|c u Hc HF IH]; intros [|d id]; simpl;
      try congruence.
    intros E. injection E as E1 E2. f_equal; [|now apply IH].
    destruct (isalnum d || _); auto. subst. now destruct (uuid_char 95%N Hc) as [_ []].
  Qed.
End Uuid.

Section Instances.
  Context {V Mt : Type} `{Payload V Mt} `{Unicode}.
  Context (dirorder : list pystr -> list pystr)
          (Hdir : forall l, Permutation (dirorder l) l).

  Lemma mem_ok : storage_ok mem_class false true (Some rec_size) (@Amem V Mt _).
  Proof.
    split.
    - intros a s [R _]. apply (rm_nd _ _ R).
    - intros a s o HA Ho Hu. apply mem_step_refines; auto.
      destruct o; simpl in *; auto; apply Ho.
  Qed.

  (** Every record is under a uuid. *)
  Definition keys_uuid (a : sstate V Mt) : Prop := Forall uuid_like (map fst (s_recs a)).

  Lemma find_sanitize a id : keys_uuid a ->
    sp_find (sanitize_id id) (s_recs a) = sp_find id (s_recs a).
  Proof.
    unfold keys_uuid. induction (s_recs a) as [|[k x] recs IH]; simpl; auto.
    intros HF. inversion HF as [|? ? Hk HF']; subst. rewrite IH by auto.
    destruct (eqb_spec (sanitize_id id) k) as [E|E].
    - apply sanitize_uuid in E; auto. subst. now rewrite eqb_refl.
    - destruct (eqb_spec id k) as [->|]; auto. rewrite uuid_sanitize in E by auto. congruence.
  Qed.

  Lemma del_sanitize a id : keys_uuid a ->
    sp_del (sanitize_id id) (s_recs a) = sp_del id (s_recs a).
  Proof.
    unfold keys_uuid. induction (s_recs a) as [|[k x] recs IH]; simpl; auto.
    intros HF. inversion HF as [|? ? Hk HF']; subst. rewrite IH by auto.
    destruct (eqb_spec (sanitize_id id) k) as [E|E].
    - apply sanitize_uuid in E; auto. subst. now rewrite eqb_refl.
    - destruct (eqb_spec id k) as [->|]; auto. rewrite uuid_sanitize in E by auto. congruence.
  Qed.

  Lemma find_key (a : sstate V Mt) id x : sp_find id (s_recs a) = Some x -> In id (map fst (s_recs a)).
  Proof.
    rewrite sp_find_dget. intros E. apply dget_In. eauto.
  Qed.

  Lemma next_sanitize p a o : keys_uuid a -> op_store_uuid o ->
    sp_next p sanitize_id a o = sp_next p (fun i => i) a o.
  Proof.
    intros K U. destruct o as [|id v m|id|id|id v m|limit| | |]; simpl; auto.
    - simpl in U. now rewrite uuid_sanitize by auto.
    - destruct (s_open a); auto. now rewrite del_sanitize.
    - destruct (s_open a); auto. rewrite find_sanitize by auto.
      destruct (sp_find id (s_recs a)) eqn:E; auto.
      rewrite uuid_sanitize; auto.
      unfold keys_uuid in K. rewrite Forall_forall in K. apply K. eapply find_key; eauto.
  Qed.

  Lemma ans_sanitize b sz a o r : keys_uuid a ->
    sp_ans b sz sanitize_id a o r -> sp_ans b sz (fun i => i) a o r.
  Proof.
    intros K. destruct o as [|id v m|id|id|id v m|limit| | |]; simpl; auto;
      destruct (s_open a); auto; now rewrite find_sanitize.
  Qed.

  Lemma put_keys k x (recs : list (entry V Mt)) :
    uuid_like k -> Forall uuid_like (map fst recs) -> Forall uuid_like (map fst (sp_put k x recs)).
  Proof.
    intros Hk HF. unfold sp_put. destruct (sp_find k recs).
    - rewrite Forall_map in *. rewrite Forall_map. rewrite Forall_forall in *.
      intros e He. destruct (eqb_spec k (fst e)); auto.
    - rewrite map_app, Forall_app. split; simpl; auto.
  Qed.

  Lemma next_keys p a o : keys_uuid a -> op_store_uuid o ->
    keys_uuid (sp_next p (fun i => i) a o).
  Proof.
    unfold keys_uuid. intros K U. destruct o as [|id v m|id|id|id v m|limit| | |]; simpl; auto.
    - destruct p; simpl; auto.
    - destruct (s_open a); auto. destruct id; auto. apply put_keys; auto.
    - destruct (s_open a); auto. simpl. unfold sp_del. rewrite Forall_map in *.
      rewrite Forall_forall in *. intros e He. apply filter_In in He. now apply K.
    - destruct (s_open a); auto. destruct (sp_find id (s_recs a)) eqn:E; auto.
      apply put_keys; auto. rewrite Forall_forall in K. apply K. eapply find_key; eauto.
    - destruct p; simpl; auto.
    - destruct p; simpl; auto.
  Qed.

  Definition Adisk_u (a : sstate V Mt) (s : disk V Mt) : Prop := Adisk a s /\ keys_uuid a.

  Lemma disk_ok : storage_ok (disk_class dirorder) true false None Adisk_u.
  Proof.
    split.
    - intros a s [[R _] _]. apply (rd_nd _ _ R).
    - intros a s o [HA K] Ho Hu.
      assert (op_pickle o) as Hp by (destruct o; simpl in *; auto; apply Ho).
      pose proof (disk_step_refines dirorder Hdir a s o HA Hp) as Hst.
      destruct (sc_step (disk_class dirorder) s o) as [r s'].
      destruct Hst as [H1 H2]. rewrite next_sanitize in H2 by auto.
      split; [now apply ans_sanitize|]. split; auto. now apply next_keys.
  Qed.

  Definition Ahyb_u (a : sstate V Mt) (s : hybrid V Mt) : Prop :=
    Ahyb uuid_like a s /\ keys_uuid a.

  Lemma Ahyb_nd I a s : Ahyb I a s -> NoDup (map fst (s_recs a)).
  Proof.
    intros [_ B]. destruct (s_open a).
    - destruct B as [mr [? ? R]]. apply (rd_nd _ _ R).
    - destruct B as [R _]. apply (rd_nd _ _ R).
  Qed.

  Lemma separated_uuid : separated uuid_like.
  Proof.
    intros i j t Hi Hj E1 E2. apply file_safe_sanitize in E1, E2.
    rewrite uuid_sanitize in E1, E2 by auto. congruence.
  Qed.

  Definition plus (x : pystr) (i : pystr) : Prop := uuid_like i \/ i = x.

  Lemma separated_plus x : separated (plus x).
  Proof.
    intros i j t Hi Hj E1 E2. apply file_safe_sanitize in E1, E2.
    assert (sanitize_id i = sanitize_id j) as E by congruence. clear E1 E2.
    destruct Hi as [Hi|Hi], Hj as [Hj|Hj].
    - now rewrite !uuid_sanitize in E by auto.
    - rewrite (uuid_sanitize i) in E by auto. symmetry in E. apply sanitize_uuid in E; auto.
    - rewrite (uuid_sanitize j) in E by auto. apply sanitize_uuid in E; auto.
    - congruence.
  Qed.

  Lemma Ahyb_grow x a s : Ahyb uuid_like a s -> Ahyb (plus x) a s.
  Proof.
    intros [Hr B]. split; auto. destruct (s_open a); auto.
    destruct B as [mr R]. exists mr. destruct R. constructor; auto.
    intros _ i y Hy. destruct (rh_coh separated_uuid i y Hy). split; auto. now left.
  Qed.

  Lemma Ahyb_shrink x a s : Ahyb (plus x) a s -> keys_uuid a -> Ahyb uuid_like a s.
  Proof.
    intros [Hr B] K. split; auto. destruct (s_open a); auto.
    destruct B as [mr R]. exists mr. destruct R. constructor; auto.
    intros _ i y Hy. destruct (rh_coh (separated_plus x) i y Hy) as [_ E]. split; auto.
    assert (uuid_like (sanitize_id i)) as Hu.
    { unfold keys_uuid in K. rewrite Forall_forall in K. apply K. apply dget_In. eauto. }
    pose proof (sanitize_uuid i _ Hu eq_refl) as Ei. now rewrite Ei.
  Qed.

  Lemma hybrid_ok : storage_ok (hybrid_class dirorder) true false None Ahyb_u.
  Proof.
    split.
    - intros a s [B _]. eapply Ahyb_nd; eauto.
    - intros a s o [HA K] Ho Hu.
      assert (exists x, op_id_in (plus x) o) as [x Hx].
      { destruct o as [|id v m|id|id|id v m|limit| | |];
          try (exists id; right; reflexivity); exists []; simpl; auto. }
      pose proof (hybrid_step_refines dirorder Hdir (plus x) a s o (Ahyb_grow x a s HA) Ho Hx) as Hst.
      destruct (sc_step (hybrid_class dirorder) s o) as [r s'].
      destruct Hst as [H1 [H2 _]]. rewrite next_sanitize in H2 by auto.
      split; [apply ans_sanitize; auto; apply H1, separated_plus|].
      pose proof (next_keys true a o K Hu) as K'.
      split; auto. eapply Ahyb_shrink; eauto.
  Qed.
End Instances.

(** The three backends of the library over an empty (or absent) data directory. *)
Inductive library_backend {V Mt} `{Payload V Mt} `{Unicode}
    : forall S, storage_class S V Mt -> S -> bool -> Prop :=
| lb_memory : library_backend (mem V Mt) mem_class mem_new false
| lb_disk dirorder :
    (forall l, Permutation (dirorder l) l) ->
    library_backend (disk V Mt) (disk_class dirorder) (disk_new [] []) true
| lb_hybrid dirorder limit :
    (forall l, Permutation (dirorder l) l) ->
    library_backend (hybrid V Mt) (hybrid_class dirorder) (hybrid_new limit [] []) true.
Arguments library_backend {V Mt _ _ S} C s persistent.

Lemma library_ok {V Mt} `{Payload V Mt} `{Unicode} {S} (C : storage_class S V Mt) s0 p :
  library_backend C s0 p ->
  exists b sz A, storage_ok C p b sz A /\ A (MkS false []) s0.
Proof.
  intros B. destruct B.
  - exists true, (Some rec_size), Amem. split; [apply mem_ok | apply Amem_new].
  - exists false, None, Adisk_u. split; [now apply disk_ok |].
    split; [apply Adisk_new; auto | constructor].
  - exists false, None, Ahyb_u. split; [now apply hybrid_ok |].
    split; [apply Ahyb_new; auto | constructor].
Qed.
