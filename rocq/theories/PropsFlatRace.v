(** Properties C110 and C111: several threads use one flat index. *)

From Coq Require Import List Arith ZArith NArith Lia Bool Permutation Sorted.
From Coq Require Import ZifyBool ZifyNat ZifyN.
From Verif Require Import PyBase BaseLemmas Payload StorageModel StorageSpec StorageRun
  StorageThms StorageOk Num ClientModel DbSpec ClientRun ClientProofs FlatModel FlatProofs
  PropsFlat StepModel StepProofs LshSteps FlatSteps FlatRaceProofs Demo DemoIndex.
Import ListNotations.

(** ** Specification: what the threads are asked to add *)

Section Spec.
  Context {F Mt : Type} `{Num F} `{Payload (list F) Mt}.

  (** The records a job adds. *)
  Definition job_recs (j : job F Mt) : list (entry (list F) Mt) :=
    match j with
    | JInsert fresh rows metadata => batch_recs fresh rows metadata
    | _ => []
    end.

  (** Insertions with dictionaries as metadata and searches with a correct argsort whose bound on
      the number of rounds is large enough. *)
  Definition job_fits (n : nat) (j : job F Mt) : Prop :=
    match j with
    | JInsert fresh rows metadata =>
        (forall i, i < length rows -> uuid_like (fresh i)) /\
        (forall l m, metadata = Some l -> In m l -> meta_ok m)
    | JSearch rounds argsort q k => argsort_ok argsort /\ n < rounds
    | JDelete _ | JUpdate _ _ _ => False
    end.
End Spec.

Section Calls.
  Context {F Mt S : Type} `{Num F}.
  Context (C : storage_class S (list F) Mt) (mt : metric).
  Notation W := (flat F * S)%type.

  Lemma finish_fread {A} (f : flat F -> A) (w : W) : finish (fread f) w = (Ok (f (fst w)), w).
  Proof. reflexivity. Qed.

  Lemma finish_fwrite f (w : W) : finish (fwrite f) w = (Ok tt, (f (fst w), snd w)).
  Proof. reflexivity. Qed.

  Lemma finish_recount (w : W) :
    finish recount_steps w = (Ok tt, (fset_count (fst w), snd w)).
  Proof. reflexivity. Qed.

  Lemma finish_insert_rows fresh meta rows : forall i (w : W),
    finish (insert_rows_steps C fresh meta i rows) w = flat_insert_rows C fresh meta i rows w.
  Proof.
    induction rows as [|row rows IH]; intros i w; [reflexivity|].
    cbn [insert_rows_steps flat_insert_rows]. cbv zeta.
    rewrite finish_bind, finish_atomic. unfold bind at 1.
    destruct (on_sb _ w) as [[u|e] w1]; [|reflexivity].
    rewrite finish_bind, finish_fwrite, finish_bind, finish_fwrite, finish_bind, IH.
    unfold bind, set_ix, modify. simpl.
    destruct (flat_insert_rows _ _ _ _ _ _) as [[ids|e] w2]; reflexivity.
  Qed.

  Lemma finish_results ids ds idxs : forall w : W,
    finish (results_steps C ids ds idxs) w = flat_results C ids ds idxs w.
  Proof.
    unfold results_steps, flat_results. induction idxs as [|i idxs IH]; intros w; [reflexivity|].
    cbn [pmapM mapM]. rewrite finish_bind, finish_atomic. unfold bind at 1.
    destruct (flat_result C ids ds i w) as [[h|e] w1]; [|reflexivity].
    rewrite finish_bind, IH. unfold bind.
    destruct (mapM _ _ w1) as [[hs|e] w2]; reflexivity.
  Qed.

  Lemma flat_load_cons id ids (w : W) : flat_load C (id :: ids) w =
    match dget id (f_cache (fst w)) with
    | Some v => (rest <- flat_load C ids ;; ret ((id, v) :: rest)) w
    | None =>
        (result <- on_sb (sc_retrieve C id) ;;
         match result with
         | None => flat_load C ids
         | Some (v, _) =>
             set_ix (fun x => fset_cache (dset id v (f_cache x)) x) ;;;
             rest <- flat_load C ids ;; ret ((id, v) :: rest)
         end) w
    end%py.
  Proof. cbn [flat_load]. unfold bind at 1, get_ix. now destruct (dget id (f_cache (fst w))). Qed.

  Lemma finish_load n : forall i ids (w : W),
    skipn i (f_ids (fst w)) = ids -> length ids < n ->
    finish (load_steps C n i) w = flat_load C ids w.
  Proof.
    induction n as [|n IH]; intros i ids w Hsk Hn; [lia|].
    cbn [load_steps]. rewrite finish_bind, finish_fread.
    assert (Hnext : forall id ids', ids = id :: ids' ->
              nth_error (f_ids (fst w)) i = Some id /\
              skipn (1 + i) (f_ids (fst w)) = ids').
    { intros id ids' ->. clear - Hsk. revert i Hsk. generalize (f_ids (fst w)) as L.
      induction L as [|a L IH]; intros [|i] Hsk; simpl in *; try discriminate.
      - injection Hsk as -> ->. auto.
      - now apply IH. }
    destruct ids as [|id ids'].
    - assert (nth_error (f_ids (fst w)) i = None) as ->; [|reflexivity].
      apply nth_error_None. pose proof (skipn_length i (f_ids (fst w))) as El.
      rewrite Hsk in El. simpl in El. lia.
    - destruct (Hnext id ids' eq_refl) as [-> Hsk']. simpl in Hn.
      rewrite finish_bind, finish_fread, flat_load_cons.
      unfold dmem. destruct (dget id (f_cache (fst w))) as [v|] eqn:Ed.
      + rewrite finish_bind, finish_atomic. unfold bind at 1, get_ix at 1. rewrite Ed.
        unfold ret at 1. rewrite finish_bind, (IH (1 + i) ids') by (auto; lia).
        unfold bind. destruct (flat_load C ids' w) as [[r|e] w1]; reflexivity.
      + rewrite finish_bind, finish_atomic. unfold bind.
        unfold on_sb, zoom. destruct (sc_retrieve C id (snd w)) as [[[[v m]|]|e] s1].
        * rewrite finish_bind, finish_fwrite, finish_bind.
          rewrite (IH (1 + i) ids') by (simpl; auto; lia). unfold bind, set_ix, modify.
          destruct (flat_load C ids' _) as [[r|e] w1]; reflexivity.
        * rewrite (IH (1 + i) ids') by (simpl; auto; lia). reflexivity.
        * reflexivity.
  Qed.

  Lemma finish_delete_ids ids : forall ok (w : W),
    finish (delete_ids_steps C ids ok) w = flat_delete_ids C ids ok w.
  Proof.
    induction ids as [|id ids IH]; intros ok w; [reflexivity|].
    cbn [delete_ids_steps flat_delete_ids]. rewrite finish_bind, finish_atomic. unfold bind.
    destruct (on_sb _ w) as [[d|e] w1]; [|reflexivity].
    rewrite finish_bind, finish_fread, finish_bind.
    unfold set_ix, modify. destruct (memb id (f_ids (fst w1))) eqn:Em.
    - rewrite finish_atomic. unfold get_ix. rewrite Em.
      rewrite finish_bind, finish_fwrite, IH. reflexivity.
    - cbn [finish]. rewrite finish_bind, finish_fwrite, IH. reflexivity.
  Qed.

  (** The steps, run without interruption, are the calls of the sequential model. *)
  Theorem C110_steps_are_the_calls :
    (forall fresh rows meta (w : W),
       finish (flat_insert_steps C fresh rows meta) w = flat_insert C fresh (Mat rows) meta w) /\
    (forall ids (w : W), finish (flat_delete_steps C ids) w = flat_delete C ids w) /\
    (forall id v m (w : W), finish (flat_update_steps C id v m) w = flat_update C id v m w) /\
    (forall rounds argsort q k (w : W), length (f_ids (fst w)) < rounds ->
       finish (flat_search_steps C mt rounds argsort q k) w = flat_search C mt argsort (Vec q) k w).
  Proof.
    split; [|split; [|split]].
    - intros fresh rows meta w. unfold flat_insert_steps, flat_insert.
      rewrite finish_bind, finish_fread. unfold bind at 1, get_ix.
      destruct (negb (f_init (fst w))); [reflexivity|].
      rewrite finish_wrap. unfold wrap. rewrite finish_bind, finish_insert_rows. unfold bind.
      destruct (flat_insert_rows _ _ _ _ _ _) as [[ids|e] w1]; [|reflexivity].
      rewrite finish_bind, finish_recount. reflexivity.
    - intros ids w. unfold flat_delete_steps, flat_delete.
      rewrite finish_bind, finish_fread. unfold bind at 1, get_ix.
      destruct (negb (f_init (fst w))); [reflexivity|].
      rewrite finish_wrap. unfold wrap. rewrite finish_bind, finish_delete_ids. unfold bind.
      destruct (flat_delete_ids _ _ _ _) as [[ok|e] w1]; [|reflexivity].
      rewrite finish_bind, finish_recount. reflexivity.
    - intros id v m w. unfold flat_update_steps, flat_update.
      rewrite finish_bind, finish_fread. unfold bind at 1, get_ix.
      destruct (negb (f_init (fst w))); [reflexivity|].
      rewrite finish_wrap. unfold wrap. rewrite finish_bind, finish_atomic. unfold bind.
      destruct (on_sb _ w) as [[[]|e] w1]; reflexivity.
    - intros rounds argsort q k w Hr. unfold flat_search_steps, flat_search.
      rewrite finish_bind, finish_fread. unfold bind at 1, get_ix.
      destruct (negb (f_init (fst w))); [reflexivity|].
      rewrite finish_wrap. unfold wrap. rewrite finish_bind, finish_fread.
      destruct (Nat.eqb (length (f_ids (fst w))) 0); [reflexivity|].
      rewrite finish_bind, finish_fread. cbv zeta.
      rewrite finish_bind, (finish_load rounds 0 (f_ids (fst w)) w eq_refl Hr). unfold bind.
      destruct (flat_load _ _ _) as [[l|e] w1]; [|reflexivity].
      destruct (Nat.eqb (length l) 0); [reflexivity|].
      unfold lift. destruct (matrix_distances mt q (map snd l)) as [ds|e]; [|reflexivity].
      now rewrite finish_results.
  Qed.
End Calls.

Section Race.
  Context {F Mt S : Type} `{Num F} `{!NumOrder F} `{Payload (list F) Mt} `{Unicode}.
  Context (C : storage_class S (list F) Mt) (mt : metric).

  (** What a thread may return. *)
  Definition returns (ids0 : list pystr) (j : option (job F Mt)) (recs : list (entry (list F) Mt))
      (x : flat F) (r : result (jret F Mt)) : Prop :=
    match j with
    | Some (JInsert fresh rows _) => r = Ok (RIds (map fresh (seq 0 (length rows))))
    | Some (JSearch _ _ q k) =>
        exists r0, answers mt ids0 q k recs x r0 /\
                   r = match r0 with Ok hits => Ok (RHits hits) | Raise e => Raise e end
    | _ => True
    end.

  Lemma pool_runs A p b sz (HC : storage_ok C p b sz A) N ids0 jobs t :
    (forall j, In j jobs -> job_fits N j) ->
    runs A N (pool C mt jobs t)
         (flat_map row_acts (match nth_error jobs t with Some j => job_recs j | None => [] end))
         (fun _ x => exists more, f_ids x = ids0 ++ more)
         (returns ids0 (nth_error jobs t)).
  Proof.
    intros Hfit. unfold pool. destruct (nth_error jobs t) as [j|] eqn:Ej.
    2:{ intros recs x _ _. split; [reflexivity|exact I]. }
    apply nth_error_In in Ej. apply Hfit in Ej. destruct j as [fresh rows meta|rounds argsort q k|ids|id v m];
      simpl job_recs; cbn [job_prog].
    - destruct Ej as [Hu Hm]. rewrite <- (app_nil_r (flat_map _ _)). eapply runs_bind.
      + eapply runs_weaken; [|apply (runs_insert C p b sz A HC N fresh rows meta Hu Hm)].
        intros. exact I.
      + intros r recs x _ Hr. split; auto. injection Hr as ->. reflexivity.
      + intros recs x e E. discriminate.
    - destruct Ej as [Ha Hr]. change (flat_map row_acts []) with (@nil (act (F := F) (Mt := Mt)) ++ []).
      eapply runs_bind.
      + apply (runs_search C mt p b sz A HC N rounds argsort q k ids0 Ha Hr).
      + intros r recs x _ Hans. split; auto. exists (Ok r). auto.
      + intros recs x e Hans. split; auto. exists (Raise e). auto.
    - destruct Ej.
    - destruct Ej.
  Qed.

  Lemma nth_flat_map {X Y} (f : X -> list Y) (l : list X) :
    concat (map (fun t => match nth_error l t with Some a => f a | None => [] end)
                (seq 0 (length l))) = flat_map f l.
  Proof.
    rewrite flat_map_concat_map. f_equal.
    induction l as [|a l IH]; simpl; auto. f_equal. rewrite <- seq_shift, map_map. exact IH.
  Qed.

  Lemma incl_of_keys (R recs recs' : list (entry (list F) Mt)) :
    NoDup (map fst recs') -> incl R recs' -> incl recs recs' ->
    incl (map fst recs) (map fst R) -> incl recs R.
  Proof.
    intros Hnd HR Hrecs Hk [id r] Hin.
    assert (In id (map fst R)) as Hid by (apply Hk; now apply (in_map fst) in Hin).
    apply in_map_iff in Hid as [[id' r'] [E Hin']]. simpl in E. subst id'.
    assert (r = r') as ->; auto.
    apply Hrecs in Hin. apply HR in Hin'.
    apply sp_find_In in Hin; auto. apply sp_find_In in Hin'; auto. congruence.
  Qed.

  (** The common part: one schedule, everything that is kept. *)
  Lemma race_facts s0 pers ops jobs sched :
    library_backend C s0 pers -> flat_history pers ops ->
    let c := cl_after C (flat_class C mt) s0 ops in
    let recs := s_recs (db_after pers fresh_db ops) in
    let total := recs ++ flat_map job_recs jobs in
    c_init c = true -> NoDup (map fst total) ->
    (forall j, In j jobs -> job_fits (length total) j) ->
    (forall e, In e (flat_map job_recs jobs) -> dmem (fst e) (f_cache (c_index c)) = false) ->
    exists A b sz, storage_ok C pers b sz A /\
    match threads sched (pool C mt jobs) (c_index c, c_storage c) with
    | (ps', (x', s')) =>
        exists recs' todo',
          inv A (seq 0 (length jobs)) total recs' (x', s') todo' /\
          grows recs (c_index c) recs' x' /\
          Permutation (f_ids (c_index c)) (map fst recs) /\
          (forall t, exists P, mono P /\ P recs' x' /\
             runs A (length total) (ps' t) (todo' t) P
                  (returns (f_ids (c_index c)) (nth_error jobs t)))
    end.
  Proof.
    intros HB Hfit c recs total Hi Hnd Hjobs Hnew.
    destruct (library_ok C s0 pers HB) as (b & sz & A & HC & HA).
    exists A, b, sz. split; auto.
    destruct (client_conforms C (flat_class C mt) pers b sz A HC true _ argsort_ok (flat_ok mt)
             _ _ (flat_index_ok C mt pers b sz A HC true) s0 ops HA Hfit) as [_ HR].
    destruct HR as (Ho & _ & (op & HAs & Hop) & Hx). fold c in Ho, HAs, Hx. fold recs in HAs, Hx.
    rewrite Hi in Ho. rewrite <- Ho in Hx. rewrite (Hop (eq_sym Ho)) in HAs.
    destruct Hx as (Hcoh & Hinit & Hperm & Hcount).
    set (ids0 := f_ids (c_index c)) in *.
    set (todo := fun t => flat_map (row_acts (F := F) (Mt := Mt))
                   (match nth_error jobs t with Some j => job_recs j | None => [] end)).
    assert (forall t, future (todo t) =
                      match nth_error jobs t with Some j => job_recs j | None => [] end) as Ef.
    { intros t. apply future_rows. }
    assert (inv A (seq 0 (length jobs)) total recs (c_index c, c_storage c) todo) as I0.
    { constructor; auto.
      - erewrite map_ext; [|exact Ef]. rewrite nth_flat_map. apply Permutation_app_comm.
      - assert (concat (map (fun t => pending (todo t)) (seq 0 (length jobs))) = []) as ->; auto.
        { clear. induction (seq 0 (length jobs)) as [|t l IH]; simpl; auto.
          rewrite IH, app_nil_r. apply pending_whole, whole_rows. }
      - intros t. left. apply whole_rows.
      - intros t Ht. unfold todo. assert (nth_error jobs t = None) as ->; auto.
        apply nth_error_None. rewrite in_seq in Ht. lia.
      - intros t e He. rewrite Ef in He. apply Hnew. apply in_flat_map.
        destruct (nth_error jobs t) as [j|] eqn:Ej; [|destruct He].
        exists j. split; auto. eapply nth_error_In; eauto. }
    pose proof (threads_inv A (length total) (seq 0 (length jobs)) (seq_NoDup _ _) total Hnd
                  (Nat.le_refl _) (fun t => returns ids0 (nth_error jobs t)) sched
                  (pool C mt jobs) (c_index c, c_storage c) recs todo I0) as Hthr.
    destruct (threads sched _ _) as [ps' [x' s']].
    destruct Hthr as (recs' & todo' & I' & Hg & Hps).
    - intros t. exists (fun _ x => exists more, f_ids x = ids0 ++ more).
      split; [|split].
      + intros r1 x1 r2 x2 (_ & [m1 E1] & _) [m2 E2]. exists (m2 ++ m1).
        now rewrite E1, E2, app_assoc.
      + exists []. now rewrite app_nil_r.
      + apply (pool_runs A pers b sz HC). exact Hjobs.
    - exists recs', todo'. auto.
  Qed.

  (** C110: whatever the schedule, no insertion fails and every insertion returns its own ids; and
      when all threads have returned, the backend holds exactly the old records and those of all
      the batches, each vector and metadata under its own id, and searches are exact over them.
      Missing: the count in [get_stats] (refuted below).  Storage calls are atomic in this model:
      true of the memory and the hybrid backend, which hold a lock during each call. *)
  Theorem C110_concurrent_inserts_partial s0 pers ops jobs sched :
    library_backend C s0 pers -> flat_history pers ops ->
    let c := cl_after C (flat_class C mt) s0 ops in
    let total := s_recs (db_after pers fresh_db ops) ++ flat_map job_recs jobs in
    c_init c = true -> NoDup (map fst total) ->
    (forall j, In j jobs -> job_fits (length total) j) ->
    (forall e, In e (flat_map job_recs jobs) -> dmem (fst e) (f_cache (c_index c)) = false) ->
    match threads sched (pool C mt jobs) (c_index c, c_storage c) with
    | (ps', (x', s')) =>
        (forall t fresh rows meta r, nth_error jobs t = Some (JInsert fresh rows meta) ->
           ps' t = Return r -> r = Ok (RIds (map fresh (seq 0 (length rows))))) /\
        ((forall t, exists r, ps' t = Return r) ->
         exists recs', Permutation recs' total /\
           (forall id, fst (sc_retrieve C id s') = Ok (sp_find id recs')) /\
           (forall argsort q k, argsort_ok argsort ->
              flat_ok mt recs' q k
                (match fst (flat_search C mt argsort (Vec q) k (x', s')) with
                 | Ok l => AHits l
                 | Raise e => AExn e
                 end)))
    end.
  Proof.
    intros HB Hfit c total Hi Hnd Hjobs Hnew.
    destruct (race_facts s0 pers ops jobs sched HB Hfit Hi Hnd Hjobs Hnew)
      as (A & b & sz & HC & Hrace). fold c in Hrace. fold total in Hrace.
    destruct (threads sched _ _) as [ps' [x' s']].
    destruct Hrace as (recs' & todo' & I' & Hg & _ & Hps).
    assert (Hret : forall t r, ps' t = Return r ->
              todo' t = [] /\ returns (f_ids (c_index c)) (nth_error jobs t) recs' x' r).
    { intros t r Er. destruct (Hps t) as (P & _ & HP & Hr). rewrite Er in Hr. cbn [runs] in Hr.
      apply (Hr recs' x'); auto.
      apply (inv_sound A (length total) (seq 0 (length jobs)) total Hnd (Nat.le_refl _) recs'
               (x', s') todo' I'). }
    split.
    - intros t fresh rows meta r Ej Er. destruct (Hret t r Er) as [_ Hr]. rewrite Ej in Hr.
      exact Hr.
    - intros Hall. exists recs'.
      assert (Hnil : forall t, todo' t = []).
      { intros t. destruct (Hall t) as [r Er]. apply (Hret t r Er). }
      assert (Hc : forall (Y : Type) (f : list act -> list Y), f [] = [] ->
                concat (map (fun t => f (todo' t)) (seq 0 (length jobs))) = []).
      { intros Y f E. clear - Hnil E. induction (seq 0 (length jobs)) as [|t l IH]; simpl; auto.
        now rewrite Hnil, E. }
      pose proof (iv_total _ _ _ _ _ _ I') as Ht. rewrite Hc in Ht by reflexivity.
      pose proof (iv_ids _ _ _ _ _ _ I') as Hids. rewrite Hc in Hids by reflexivity.
      pose proof (iv_A _ _ _ _ _ _ I') as HA'. simpl in HA', Hids, Ht.
      split; auto. split.
      + intros id. destruct (so_retrieve C pers b sz A HC recs' s' id HA') as (s1 & E & _).
        now rewrite E.
      + intros argsort q k Ha.
        pose proof (flat_search_good C mt pers b sz A HC argsort q k recs' x' s' Ha) as Hs.
        destruct (flat_search _ _ _ _ _ _) as [r [x1 s1]]. simpl. apply Hs; auto.
        split; [|split]; auto.
        * exact (iv_coh _ _ _ _ _ _ I').
        * exact (iv_init _ _ _ _ _ _ I').
  Qed.

  (** C111: a search that runs beside insertions answers with exact nearest neighbours over a set
      [R] of records that contains everything recorded before the threads started and nothing but
      those and the batches being inserted; it asks for [k] or, if fewer, the number [n] of ids it
      saw when it began.  Missing: searches beside deletions (refuted below). *)
  Theorem C111_search_beside_inserts_partial s0 pers ops jobs sched t rounds argsort q k :
    library_backend C s0 pers -> flat_history pers ops ->
    let c := cl_after C (flat_class C mt) s0 ops in
    let recs := s_recs (db_after pers fresh_db ops) in
    let total := recs ++ flat_map job_recs jobs in
    c_init c = true -> NoDup (map fst total) ->
    (forall j, In j jobs -> job_fits (length total) j) ->
    (forall e, In e (flat_map job_recs jobs) -> dmem (fst e) (f_cache (c_index c)) = false) ->
    nth_error jobs t = Some (JSearch rounds argsort q k) ->
    match threads sched (pool C mt jobs) (c_index c, c_storage c) with
    | (ps', _) =>
        forall r, ps' t = Return r ->
        exists R n,
          incl recs R /\ incl R total /\ NoDup (map fst R) /\
          length recs <= n <= length R /\
          flat_ok mt R q (Z.min k (Z.of_nat n))
            (match r with
             | Ok (RHits hits) => AHits hits
             | Ok _ => AUnit
             | Raise e => AExn e
             end)
    end.
  Proof.
    intros HB Hfit c recs total Hi Hnd Hjobs Hnew Ej.
    destruct (race_facts s0 pers ops jobs sched HB Hfit Hi Hnd Hjobs Hnew)
      as (A & b & sz & HC & Hrace). fold c recs in Hrace. fold total in Hrace.
    destruct (threads sched _ _) as [ps' [x' s']].
    destruct Hrace as (recs' & todo' & I' & ([more Eg] & _) & Hids0 & Hps).
    intros r Er. destruct (Hps t) as (P & _ & HP & Hr). rewrite Er in Hr. cbn [runs] in Hr.
    pose proof (inv_sound A (length total) (seq 0 (length jobs)) total Hnd (Nat.le_refl _) recs'
                  (x', s') todo' I') as Hs. simpl in Hs.
    destruct (Hr recs' x' Hs HP) as [_ Hans]. rewrite Ej in Hans. simpl in Hans.
    destruct Hans as (r0 & (R & n & m1 & later & HiR & HndR & HpR & _ & Hn & Hok) & ->).
    exists R, n.
    assert (incl recs' total) as Ht.
    { intros e He. eapply Permutation_in; [apply (iv_total _ _ _ _ _ _ I')|].
      apply in_or_app. auto. }
    assert (NoDup (map fst recs')) as Hnd' by apply Hs.
    repeat split; auto.
    - apply (incl_of_keys R recs recs'); auto.
      + rewrite Eg. apply incl_appl, incl_refl.
      + intros id Hid. eapply Permutation_in; [symmetry; exact HpR|]. apply in_or_app. left.
        eapply Permutation_in; [symmetry; exact Hids0|]. auto.
    - eapply incl_tran; eauto.
    - apply Permutation_length in Hids0. rewrite map_length in Hids0. lia.
    - apply Hn.
    - destruct r0; exact Hok.
  Qed.
End Race.

(** ** Demonstration *)

(** One batch, then three threads: two insert, one searches. *)
Definition race_ops : list (cop Z Z (list Z -> list nat)) :=
  [CInit stable_argsort [];
   CInsert stable_argsort (demo_ids 97) (Mat [[9; 9]; [0; 0]; [5; 5]]%Z) (Some [Some 7; None]%Z)].

Lemma race_ops_fit (p : bool) : flat_history p race_ops.
Proof.
  destruct p; unfold race_ops; fit_demo; simpl; auto; try discriminate;
    try (intros Hin; repeat destruct Hin as [Hin|Hin]; try discriminate; auto);
    try (injection H0 as <-; simpl in H1; repeat destruct H1 as [<-|H1]; split; simpl; auto; tauto).
  all: try (now split).
Qed.

Definition race_jobs : list (job Z Z) :=
  [JInsert (demo_ids 98) [[1; 1]]%Z None;
   JInsert (demo_ids 99) [[2; 2]; [3; 3]]%Z (Some [Some 8]%Z);
   JSearch 10 stable_argsort [0; 0]%Z 2].

(** The database the threads start from: memory backend, Euclidean distances. *)
Definition race_start : flat Z * mem (list Z) Z :=
  let c := cl_after mem_class (flat_class mem_class MEuclidean) mem_new race_ops in
  (c_index c, c_storage c).

(** The hypotheses of C110 and C111 are met. *)
Example C110_hypotheses :
  let c := cl_after mem_class (flat_class mem_class MEuclidean) (mem_new (V := list Z) (Mt := Z)) race_ops in
  let total := s_recs (db_after false fresh_db race_ops) ++ flat_map job_recs race_jobs in
  library_backend mem_class (mem_new (V := list Z) (Mt := Z)) false /\ flat_history false race_ops /\
  c_init c = true /\ NoDup (map fst total) /\
  (forall j, In j race_jobs -> job_fits (length total) j) /\
  (forall e, In e (flat_map job_recs race_jobs) -> dmem (fst e) (f_cache (c_index c)) = false) /\
  length total = 6.
Proof.
  cbv zeta. split; [constructor|]. split; [apply race_ops_fit|]. split; [reflexivity|].
  split; [|split; [|split]].
  - vm_compute. repeat constructor; simpl; intuition discriminate.
  - intros j Hj. replace (length _) with 6 by reflexivity.
    destruct Hj as [<-|[<-|[<-|[]]]]; split.
    + intros i _. apply demo_ids_uuid. lia.
    + discriminate.
    + intros i _. apply demo_ids_uuid. lia.
    + intros l m E Hm. injection E as <-. destruct Hm as [<-|[]]. split; simpl; auto.
    + apply stable_argsort_ok.
    + lia.
  - intros e He. vm_compute in He.
    destruct He as [<-|[<-|[<-|[]]]]; vm_compute; reflexivity.
  - reflexivity.
Qed.

(** A fair schedule of the three threads: everything is there at the end, and the search found
    the two nearest of what it saw. *)
Example C110_run :
  match threads (concat (repeat [0; 1; 2] 30)) (pool mem_class MEuclidean race_jobs) race_start with
  | (ps', (x', s')) =>
      ps' 0 = Return (Ok (RIds [demo_ids 98 0])) /\
      ps' 1 = Return (Ok (RIds [demo_ids 99 0; demo_ids 99 1])) /\
      ps' 2 = Return (Ok (RHits [MkHit (demo_ids 97 1) 0%Z None;
                                 MkHit (demo_ids 98 0) 1%Z None])) /\
      length (f_ids x') = 6 /\ flat_count x' = Some 6%Z
  end.
Proof. vm_compute. repeat split. Qed.

(** ** What goes wrong *)

(** C110, the count: two threads insert one row each; the first reads the length of the id list
    before the second appends and writes it after the second has written its own.  Both rows are
    there, [get_stats] says one fewer. *)
Theorem C110_count_refuted : exists sched,
  match threads sched
          (pool mem_class MEuclidean
             [JInsert (demo_ids 98) [[1; 1]]%Z None; JInsert (demo_ids 99) [[2; 2]]%Z None])
          race_start with
  | (ps', (x', s')) =>
      ps' 0 = Return (Ok (RIds [demo_ids 98 0])) /\
      ps' 1 = Return (Ok (RIds [demo_ids 99 0])) /\
      f_ids x' = f_ids (fst race_start) ++ [demo_ids 98 0; demo_ids 99 0] /\
      fst (sc_list mem_class None s') = Ok (f_ids x') /\
      flat_count x' = Some (Z.of_nat (length (f_ids x')) - 1)%Z
  end.
Proof.
  exists (repeat 0 5 ++ repeat 1 6 ++ [0]). vm_compute. repeat split.
Qed.

(** C111: a search beside a deletion can raise: the row it selected is gone when it asks for the
    metadata, and unpacking None is a TypeError. *)
Theorem C111_search_raises_refuted : exists sched,
  match threads sched
          (pool mem_class MEuclidean
             [JSearch 10 stable_argsort [0; 0]%Z 1; JDelete [demo_ids 97 1]])
          race_start with
  | (ps', _) =>
      ps' 0 = Return (Raise EIndex) /\ ps' 1 = Return (Ok (RDone true))
  end.
Proof.
  exists (repeat 0 13 ++ repeat 1 7 ++ [0]). vm_compute. repeat split.
Qed.

(** C111: a search beside the deletion of one record can miss another one: the [for] loop walks
    the live id list, and the removal moves the rest of the list one place to the left under it.
    The nearest record (distance 0), present before, during and after, is not found; the answer
    is a record that is further away. *)
Theorem C111_search_skips_refuted : exists sched,
  match threads sched
          (pool mem_class MEuclidean
             [JSearch 10 stable_argsort [0; 0]%Z 1; JDelete [demo_ids 97 0]])
          race_start with
  | (ps', (x', s')) =>
      ps' 0 = Return (Ok (RHits [MkHit (demo_ids 97 2) 7%Z None])) /\
      ps' 1 = Return (Ok (RDone true)) /\
      fst (sc_retrieve mem_class (demo_ids 97 1) (snd race_start)) = Ok (Some ([0; 0]%Z, None)) /\
      fst (sc_retrieve mem_class (demo_ids 97 1) s') = Ok (Some ([0; 0]%Z, None)) /\
      fst (flat_search mem_class MEuclidean stable_argsort (Vec [0; 0]%Z) 1 (x', s')) =
        Ok [MkHit (demo_ids 97 1) 0%Z None]
  end.
Proof.
  exists (repeat 0 6 ++ repeat 1 7 ++ repeat 0 10). vm_compute. repeat split.
Qed.

Print Assumptions C110_steps_are_the_calls.
Print Assumptions C110_concurrent_inserts_partial.
Print Assumptions C110_count_refuted.
Print Assumptions C111_search_beside_inserts_partial.
Print Assumptions C111_search_raises_refuted.
Print Assumptions C111_search_skips_refuted.
