(** Properties of the client independent of the index (C15), agreement of its counts (C40) and
    re-initialisation (C80). *)

From Coq Require Import List Arith ZArith NArith Lia Bool Permutation Sorted.
From Coq Require String.
Import (notations) Coq.Strings.String.
From Verif Require Import PyBase BaseLemmas Payload StorageModel StorageSpec StorageRun
  StorageThms StorageOk Num ClientModel DbSpec ClientRun ClientProofs FlatModel FlatProofs
  Demo DemoIndex PropsFlat.
Import ListNotations.

(** Is a client in service, judging only by the calls made and the answers given?  Into service
    by an [initialize] that returned, out of service by a [close] that returned or by starting a
    new process. *)
Fixpoint in_service {F Mt Orc} (now : bool) (ops : list (cop F Mt Orc)) (rets : list (cret F Mt))
    : bool :=
  match ops, rets with
  | o :: ops', r :: rets' =>
      in_service (match o, r with
                  | CInit _ _, AUnit => true
                  | CClose _, AUnit => false
                  | CReopen, _ => false
                  | _, _ => now
                  end) ops' rets'
  | _, _ => now
  end.

(** The calls that need a client in service. *)
Definition needs_service {F Mt Orc} (o : cop F Mt Orc) : Prop :=
  match o with
  | CInsert _ _ _ _ | CSearch _ _ _ | CDelete _ | CUpdate _ _ _ _ | CStats => True
  | CInit _ _ | CClose _ | CReopen => False
  end.

Section AnyIndex.
  Context {X S F Mt Orc : Type}.
  Context (C : storage_class S (list F) Mt) (IC : index_class X S F Mt Orc).

  Lemma cl_step_init (c : client X S) o :
    let (r, c') := cl_step C IC c o in
    c_init c' = match o, r with
                | CInit _ _, AUnit => true
                | CClose _, AUnit => false
                | CReopen, _ => false
                | _, _ => c_init c
                end.
  Proof.
    assert (Hix : forall A (m : M (X * S) A) c1, c_init (snd (on_index m c1)) = c_init c1).
    { intros A m c1. unfold on_index, zoom. destruct (m _) as [[a|e] w]; reflexivity. }
    assert (Hst : forall A (m : M S A) c1, c_init (snd (on_storage (X := X) m c1)) = c_init c1).
    { intros A m c1. unfold on_storage, zoom. destruct (m _) as [[a|e] w]; reflexivity. }
    assert (Hg : forall A (m : M (client X S) A) c1,
              (forall c2, c_init (snd (m c2)) = c_init c2) ->
              c_init (snd (guarded m c1)) = c_init c1).
    { intros A m c1 Hm. unfold guarded, bind, get. destruct (negb (c_init c1)); simpl; auto. }
    assert (Hf : forall extra c1, snd (forM extra (fun r => lift (S := client X S) r) c1) = c1).
    { induction extra as [|r extra IH]; intros c1; simpl; auto. unfold bind, lift.
      destruct r; simpl; auto. }
    destruct o; simpl.
    - unfold cl_initialize, wrap, bind.
      pose proof (Hst _ (sc_init C) c) as H1. destruct (on_storage (sc_init C) c) as [[a|e] c1]; simpl in *; auto.
      pose proof (Hix _ (ix_init IC o) c1) as H2. destruct (on_index (ix_init IC o) c1) as [[a2|e] c2]; simpl in *; try congruence.
      pose proof (Hf extra c2) as H3. destruct (forM extra _ c2) as [[a3|e] c3]; simpl in *; try congruence.
    - pose proof (Hg _ _ c (Hix _ (ix_insert IC o fresh arr meta))) as H1.
      fold (cl_insert IC o fresh arr meta) in H1. destruct (cl_insert IC o fresh arr meta c) as [[a|e] c1]; simpl in *; auto.
    - pose proof (Hg _ _ c (Hix _ (ix_search IC o q k))) as H1.
      fold (cl_search IC o q k) in H1. destruct (cl_search IC o q k c) as [[a|e] c1]; simpl in *; auto.
    - pose proof (Hg _ _ c (Hix _ (ix_delete IC ids))) as H1.
      fold (cl_delete IC ids) in H1. destruct (cl_delete IC ids c) as [[a|e] c1]; simpl in *; auto.
    - pose proof (Hg _ _ c (Hix _ (ix_update IC o id v m))) as H1.
      fold (cl_update IC o id v m) in H1. destruct (cl_update IC o id v m c) as [[a|e] c1]; simpl in *; auto.
    - assert (H1 : c_init (snd (cl_stats C IC c)) = c_init c).
      { unfold cl_stats. apply Hg. intros c1. unfold bind.
        pose proof (Hst _ (sc_stats C) c1) as H1. destruct (on_storage (sc_stats C) c1) as [[a|e] c2]; simpl in *; auto. }
      destruct (cl_stats C IC c) as [[a|e] c1]; simpl in *; auto.
    - unfold cl_close, bind.
      pose proof (Hf extra c) as H3. destruct (forM extra _ c) as [[a3|e] c3]; simpl in *; [|congruence]. subst c3.
      pose proof (Hix _ (ix_close IC) c) as H2. destruct (on_index (ix_close IC) c) as [[a2|e] c2]; simpl in *; try congruence.
      pose proof (Hst _ (sc_close C) c2) as H1. destruct (on_storage (sc_close C) c2) as [[a|e] c1]; simpl in *; congruence.
    - reflexivity.
  Qed.

  Lemma in_service_init ops : forall c : client X S,
    c_init (snd (cl_run C IC c ops)) = in_service (c_init c) ops (fst (cl_run C IC c ops)).
  Proof.
    induction ops as [|o ops IH]; intros c; simpl; auto.
    pose proof (cl_step_init c o) as H1. destruct (cl_step C IC c o) as [r c1].
    specialize (IH c1). destruct (cl_run C IC c1 ops) as [rs c2]. simpl in *. now rewrite IH, H1.
  Qed.

  (** C15 (partial): after any history, a client that is not in service refuses every data call
      with the library's exception and changes neither index nor storage.  In particular a
      client whose only initialise failed keeps refusing.  Missing: an initialise that fails on
      a client already in service does not take it out of service
      ([C15_failed_reinitialise_refuted]). *)
  Theorem C15_client_refuses_partial s0 ops o :
    in_service false ops (cl_answers C IC s0 ops) = false ->
    needs_service o ->
    cl_step C IC (cl_after C IC s0 ops) o = (AExn EValori, cl_after C IC s0 ops).
  Proof.
    intros Hs Ho. assert (c_init (cl_after C IC s0 ops) = false) as Hi.
    { unfold cl_after, cl_answers in *. rewrite in_service_init. exact Hs. }
    assert (Hg : forall A (m : M (client X S) A),
              guarded m (cl_after C IC s0 ops) = (Raise EValori, cl_after C IC s0 ops)).
    { intros A m. unfold guarded, bind, get. now rewrite Hi. }
    destruct o; try contradiction; simpl;
      unfold cl_insert, cl_search, cl_delete, cl_update, cl_stats; now rewrite Hg.
  Qed.
End AnyIndex.

(** Not in service: before the first initialise, after a failed one, after close. *)
Example C15_hypotheses_met :
  let ops1 : list (cop Z Z (list Z -> list nat)) := [CInit stable_argsort [Raise EIndex]] in
  let ops2 := demo_ops ++ [CClose []] in
  in_service false ops1 (cl_answers mem_class (flat_class mem_class MCosine) mem_new ops1) = false /\
  in_service false ops2 (cl_answers mem_class (flat_class mem_class MCosine) mem_new ops2) = false /\
  in_service false demo_ops (cl_answers mem_class (flat_class mem_class MCosine) mem_new demo_ops) = true.
Proof. vm_compute. auto. Qed.

(** C15 is false in one respect: when initialise fails on a client in service (here in an optional
    component), the client goes on answering — from a database already emptied. *)
Theorem C15_failed_reinitialise_refuted :
  exists (ops : list (cop Z Z (list Z -> list nat))) fail search,
    flat_history false ops /\ needs_service search /\
    let c := cl_after mem_class (flat_class mem_class MEuclidean) mem_new ops in
    let (r, c') := cl_step mem_class (flat_class mem_class MEuclidean) c fail in
    (exists o extra, fail = CInit o extra) /\ r = AExn EValori /\
    exists hits, fst (cl_step mem_class (flat_class mem_class MEuclidean) c' search) = AHits hits.
Proof.
  exists demo_ops, (CInit stable_argsort [Raise EIndex]), (CSearch stable_argsort (Vec [0; 0]%Z) 2).
  split; [apply demo_ops_fit|]. split; [exact I|].
  vm_compute. eauto 6.
Qed.

Section FlatCounts.
  Context {F Mt S : Type} `{Num F} `{!NumOrder F} `{Payload (list F) Mt} `{Unicode}.

  (** C40 for the flat index: in service, the two counts are both the number of live records. *)
  Theorem C40_flat_counts_agree (C : storage_class S (list F) Mt) s0 p mt ops :
    library_backend C s0 p ->
    flat_history p ops ->
    let c := cl_after C (flat_class C mt) s0 ops in
    c_init c = true ->
    let n := Z.of_nat (length (s_recs (db_after p fresh_db ops))) in
    fst (cl_step C (flat_class C mt) c CStats) = ACounts (Some n) (Some n).
  Proof.
    intros HB Hfit c Hi n. destruct (library_ok C s0 p HB) as (b & sz & A & HC & HA).
    exact (counts_agree C _ p b sz A HC true _ argsort_ok (flat_ok mt) _ _
             (flat_index_ok C mt p b sz A HC true) s0 ops HA Hfit Hi).
  Qed.

  (** C80 for the flat index: after any history, initialising again on memory storage gives an
      empty database in which every later call answers as the specification says for a new
      one. *)
  Theorem C80_flat_reinitialise s0 mt ops o later :
    library_backend (mem_class (V := list F) (Mt := Mt)) s0 false ->
    flat_history false (ops ++ CInit o [] :: later) ->
    let c := cl_after mem_class (flat_class mem_class mt) s0 (ops ++ [CInit o []]) in
    db_conforms false (flat_ok mt) (MkS true []) later
      (fst (cl_run mem_class (flat_class mem_class mt) c later)).
  Proof.
    intros HB Hfit c. replace (ops ++ CInit o [] :: later) with ((ops ++ [CInit o []]) ++ later) in Hfit
      by now rewrite <- app_assoc.
    apply all_fit_app in Hfit as [Hf1 Hf2].
    assert (E : db_after false fresh_db (ops ++ [CInit o []]) = MkS (V := list F) (Mt := Mt) true [])
      by (unfold db_after; rewrite fold_left_app; reflexivity).
    destruct (library_ok _ s0 false HB) as (b & sz & A & HC & HA).
    pose proof (flat_index_ok mem_class mt false b sz A HC true) as HI.
    destruct (client_conforms _ _ false b sz A HC true _ argsort_ok (flat_ok mt) _ _ HI s0 _ HA Hf1)
      as [_ HR]. fold c in HR. rewrite E in *.
    pose proof (Rcl_run _ _ false b sz A HC true _ argsort_ok (flat_ok mt) _ _ HI later _ c HR Hf2)
      as Hrun.
    destruct (cl_run mem_class (flat_class mem_class mt) c later) as [rs c']. apply Hrun.
  Qed.
End FlatCounts.

Example C40_example :
  fst (cl_step mem_class (flat_class mem_class MEuclidean)
         (cl_after mem_class (flat_class mem_class MEuclidean) mem_new demo_ops) CStats) =
  ACounts (Some 3%Z) (Some 3%Z).
Proof. vm_compute. reflexivity. Qed.

Example C80_hypotheses_met :
  flat_history false (demo_ops ++ CInit stable_argsort [] :: demo_ops).
Proof.
  apply all_fit_app. split; [apply demo_ops_fit|].
  cbn [all_fit]. split; [cbn [fits]; fit_demo; discriminate|].
  change (all_fit true (fun _ => True) argsort_ok false (MkS (V := list Z) (Mt := Z) true []) demo_ops).
  pose proof (demo_ops_fit false) as [_ Hd].
  split; [cbn [fits]; fit_demo; discriminate|]. exact Hd.
Qed.

Print Assumptions C15_client_refuses_partial.
Print Assumptions C15_failed_reinitialise_refuted.
Print Assumptions C40_flat_counts_agree.
Print Assumptions C80_flat_reinitialise.
