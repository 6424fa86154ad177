(** Properties C170 and C171: several threads change records of one flat index. *)

From Coq Require Import List Arith ZArith NArith Lia Bool Permutation Sorted.
From Coq Require Import ZifyBool ZifyNat ZifyN.
From Verif Require Import PyBase BaseLemmas Payload StorageModel StorageSpec StorageRun
  StorageThms StorageOk Num ClientModel DbSpec ClientRun ClientProofs FlatModel FlatProofs
  PropsFlat StepModel StepProofs LshSteps FlatSteps FlatRaceProofs PropsFlatRace OwnProofs RelyProofs
  Demo DemoIndex.
Import ListNotations.

(** ** Specification: what one call does to a set of records *)

Section Spec.
  Context {F Mt : Type} `{Payload (list F) Mt}.
  Notation ent := (entry (list F) Mt).

  (** The ids a call is about. *)
  Definition job_ids (j : job F Mt) : list pystr :=
    match j with
    | JInsert fresh rows _ => map fresh (seq 0 (length rows))
    | JSearch _ _ _ _ => []
    | JDelete ids => ids
    | JUpdate id _ _ => [id]
    end.

  (** The records after the call. *)
  Definition job_after (j : job F Mt) (recs : list ent) : list ent :=
    match j with
    | JInsert fresh rows metadata => recs ++ batch_recs fresh rows metadata
    | JSearch _ _ _ _ => recs
    | JDelete ids => del_recs ids recs
    | JUpdate id v m =>
        match sp_find id recs with Some _ => sp_put id (v, m) recs | None => recs end
    end.

  (** Its answer. *)
  Definition job_ans (j : job F Mt) (recs : list ent) : jret F Mt :=
    match j with
    | JInsert fresh rows _ => RIds (map fresh (seq 0 (length rows)))
    | JSearch _ _ _ _ => RHits []
    | JDelete ids => RDone (del_ans ids recs)
    | JUpdate id _ _ => RDone (match sp_find id recs with Some _ => true | None => false end)
    end.

  (** Insertions under fresh ids, deletions, updates; metadata are dictionaries. *)
  Definition changes (recs : list ent) (j : job F Mt) : Prop :=
    match j with
    | JInsert fresh rows metadata =>
        fresh_ids fresh (length rows) (map fst recs) /\
        (forall l m, metadata = Some l -> In m l -> meta_ok m)
    | JSearch _ _ _ _ => False
    | JDelete _ => True
    | JUpdate _ _ m => meta_ok m
    end.

  (** No two of the calls are about the same id. *)
  Definition apart (jobs : list (job F Mt)) : Prop :=
    forall t u j j' id, nth_error jobs t = Some j -> nth_error jobs u = Some j' ->
      In id (job_ids j) -> In id (job_ids j') -> t = u.
End Spec.

(** ** How often an id is in a list *)

Definition cnt (id : pystr) (l : list pystr) : nat := length (filter (eqb id) l).

Lemma cnt_app id l l' : cnt id (l ++ l') = cnt id l + cnt id l'.
Proof. unfold cnt. now rewrite filter_app, app_length. Qed.

Lemma cnt_cons id a l : cnt id (a :: l) = (if eqb id a then 1 else 0) + cnt id l.
Proof. unfold cnt. simpl. destruct (eqb id a); reflexivity. Qed.

Lemma cnt_In id l : In id l <-> 0 < cnt id l.
Proof.
  induction l as [|a l IH]; [simpl; unfold cnt; simpl; lia|].
  rewrite cnt_cons. destruct (eqb_spec id a) as [->|Hne]; simpl.
  - split; [lia|auto].
  - rewrite <- IH. split; [intros [E|?]; [congruence|auto]|auto].
Qed.

Lemma cnt_memb id l : memb id l = (0 <? cnt id l).
Proof.
  destruct (memb_spec id l) as [Hin|Hin]; rewrite cnt_In in Hin; symmetry; [apply Nat.ltb_lt|apply Nat.ltb_ge]; lia.
Qed.

Lemma cnt_remove id j l :
  cnt id (remove_first j l) = if eqb id j then cnt id l - 1 else cnt id l.
Proof.
  induction l as [|a l IH]; simpl; [unfold cnt; simpl; now destruct (eqb id j)|].
  destruct (eqb_spec j a) as [->|Hne].
  - rewrite cnt_cons. destruct (eqb_spec id a); simpl; lia.
  - rewrite !cnt_cons, IH. destruct (eqb_spec id j) as [->|]; [|reflexivity].
    rewrite eqb_neq by auto. reflexivity.
Qed.

Lemma cnt_NoDup l : NoDup l <-> forall id, cnt id l <= 1.
Proof.
  induction l as [|a l IH].
  - split; [intros _ id; unfold cnt; simpl; lia|constructor].
  - split.
    + intros Hnd id. inversion Hnd as [|? ? Ha Hl]; subst. rewrite cnt_cons.
      destruct (eqb_spec id a) as [->|]; [|simpl; now apply IH].
      rewrite cnt_In in Ha. lia.
    + intros Hc. constructor.
      * intros Hin. apply cnt_In in Hin. specialize (Hc a). rewrite cnt_cons, eqb_refl in Hc. lia.
      * apply IH. intros id. specialize (Hc id). rewrite cnt_cons in Hc. lia.
Qed.

Section Own.
  Context {F Mt S : Type} `{Num F} `{Payload (list F) Mt}.
  Context (C : storage_class S (list F) Mt) (mt : metric).
  Context (p b : bool) (sz : option (list F * option Mt -> N))
          (A : sstate (list F) Mt -> S -> Prop) (HC : storage_ok C p b sz A).
  Notation W := (flat F * S)%type.
  Notation ent := (entry (list F) Mt).

  (** The index is open over an open backend that holds [recs]. *)
  Definition open_over (recs : list ent) (w : W) : Prop :=
    A (MkS true recs) (snd w) /\ f_init (fst w) = true.

  (** What index and backend hold of one id. *)
  Definition of_id (id : pystr) (recs : list ent) (w : W)
      : option (list F * option Mt) * nat * option (list F) :=
    (sp_find id recs, cnt id (f_ids (fst w)), dget id (f_cache (fst w))).

  Notation lock := (locked open_over of_id).
  Implicit Types own : pystr -> Prop.

  Lemma lock_open {R T} own (Q : R -> T -> Prop) (k : bool -> prog W R) (k2 : bool -> prog W T) :
    lock own Q (k true) (k2 true) -> lock own Q (pbind (fread f_init) k) (pbind (fread f_init) k2).
  Proof.
    intros Hk. eapply (locked_bind _ _ own (fun a a2 => a = true /\ a2 = true)).
    - apply locked_atomic. intros w g w2 g2 Hg Hg2 Ha. exists g, g2.
      unfold bind, get_ix, ret. simpl. destruct Hg, Hg2.
      split; [|split; [|split; [|split]]]; auto; [split|split|]; auto. intros ? ?. reflexivity.
    - intros a a2 [-> ->]. exact Hk.
  Qed.

  (** A write that leaves the backend and the flag alone. *)
  Lemma lock_write own (f f2 : flat F -> flat F) :
    (forall x : flat F, f_init (f x) = f_init x) -> (forall x : flat F, f_init (f2 x) = f_init x) ->
    (forall (x x2 : flat F) id, own id -> cnt id (f_ids x) = cnt id (f_ids x2) ->
       dget id (f_cache x) = dget id (f_cache x2) ->
       cnt id (f_ids (f x)) = cnt id (f_ids (f2 x2)) /\
       dget id (f_cache (f x)) = dget id (f_cache (f2 x2))) ->
    (forall (x : flat F) id, ~ own id ->
       cnt id (f_ids (f x)) = cnt id (f_ids x) /\ dget id (f_cache (f x)) = dget id (f_cache x)) ->
    lock own eq (fwrite (S := S) f) (fwrite f2).
  Proof.
    intros Hi Hi2 Hown Hrest. apply locked_atomic. intros w g w2 g2 [HA Ho] [HA2 Ho2] Ha.
    exists g, g2. unfold set_ix, modify. simpl.
    split; [|split; [|split; [|split]]]; auto.
    - split; simpl; auto. now rewrite Hi.
    - split; simpl; auto. now rewrite Hi2.
    - intros id Hid. specialize (Ha id Hid). unfold of_id in *. simpl. injection Ha as E1 E2 E3.
      destruct (Hown (fst w) (fst w2) id Hid E2 E3) as [-> ->]. now rewrite E1.
    - intros id Hid. unfold of_id. simpl. destruct (Hrest (fst w) id Hid) as [-> ->]. reflexivity.
  Qed.

  Lemma lock_append own (id : pystr) : own id ->
    lock own eq (fwrite (S := S) (fun x => fset_ids (f_ids x ++ [id]) x))
                (fwrite (fun x => fset_ids (f_ids x ++ [id]) x)).
  Proof.
    intros Hid. apply lock_write; auto; simpl.
    - intros x x2 k _ E1 E2. rewrite !cnt_app, E1. auto.
    - intros x k Hk. rewrite cnt_app, cnt_cons. rewrite eqb_neq by congruence. auto.
  Qed.

  Lemma lock_cache own (id : pystr) (v : list F) : own id ->
    lock own eq (fwrite (S := S) (fun x => fset_cache (dset id v (f_cache x)) x))
                (fwrite (fun x => fset_cache (dset id v (f_cache x)) x)).
  Proof.
    intros Hid. apply lock_write; auto; simpl.
    - intros x x2 k _ E1 E2. rewrite !dget_dset, E2. auto.
    - intros x k Hk. rewrite dget_dset, eqb_neq by congruence. auto.
  Qed.

  Lemma lock_uncache own (id : pystr) : own id ->
    lock own eq (fwrite (S := S) (fun x => fset_cache (ddel id (f_cache x)) x))
                (fwrite (fun x => fset_cache (ddel id (f_cache x)) x)).
  Proof.
    intros Hid. apply lock_write; auto; simpl.
    - intros x x2 k _ E1 E2. rewrite !dget_ddel, E2. auto.
    - intros x k Hk. rewrite dget_ddel, eqb_neq by congruence. auto.
  Qed.

  (** The lengths that the two read differ, what they then write is not part of what is held of
      an id. *)
  Lemma lock_recount own : lock own eq (recount_steps (F := F) (S := S)) recount_steps.
  Proof.
    unfold recount_steps. eapply (locked_bind _ _ own (fun _ _ => True)).
    - apply locked_atomic. intros w g w2 g2 Hg Hg2 Ha. exists g, g2. unfold bind, get_ix, ret. simpl.
      split; [|split; [|split; [|split]]]; auto. intros ? ?. reflexivity.
    - intros n n2 _. apply lock_write; simpl; auto.
  Qed.

  Lemma lock_store own id v m : own id -> uuid_like id -> meta_ok m ->
    lock own eq (atomic (on_sb (sc_store C id v m))) (atomic (on_sb (sc_store C id v m))).
  Proof.
    intros Hid Hu Hm. apply locked_atomic. intros w g w2 g2 [HA Ho] [HA2 Ho2] Ha.
    destruct (so_store C p b sz A HC g (snd w) id v m HA Hu Hm) as (s1 & E & A1).
    destruct (so_store C p b sz A HC g2 (snd w2) id v m HA2 Hu Hm) as (s2 & E2 & A2).
    exists (sp_put id (v, m) g), (sp_put id (v, m) g2). unfold on_sb, zoom. rewrite E, E2. simpl.
    split; [|split; [|split; [|split]]]; auto; [split; auto|split; auto| |].
    - intros k Hk. specialize (Ha k Hk). unfold of_id in *. simpl. injection Ha as E3 E4 E5.
      rewrite !sp_find_put, E3, E4, E5. reflexivity.
    - intros k Hk. unfold of_id. simpl. now rewrite sp_find_put, eqb_neq by congruence.
  Qed.

  Lemma lock_update_store own id v m : own id -> meta_ok m ->
    lock own eq (atomic (on_sb (sc_update C id v m))) (atomic (on_sb (sc_update C id v m))).
  Proof.
    intros Hid Hm. apply locked_atomic. intros w g w2 g2 [HA Ho] [HA2 Ho2] Ha.
    destruct (so_update C p b sz A HC g (snd w) id v m HA Hm) as (s1 & E & A1).
    destruct (so_update C p b sz A HC g2 (snd w2) id v m HA2 Hm) as (s2 & E2 & A2).
    pose proof (Ha id Hid) as Ef. unfold of_id in Ef. injection Ef as Ef _ _.
    unfold on_sb, zoom. rewrite E, E2. simpl. rewrite Ef in E, A1 |- *.
    destruct (sp_find id g2) as [r|].
    - exists (sp_put id (v, m) g), (sp_put id (v, m) g2).
      split; [|split; [|split; [|split]]]; auto; [split; auto|split; auto| |].
      + intros k Hk. specialize (Ha k Hk). unfold of_id in *. simpl. injection Ha as E3 E4 E5.
        rewrite !sp_find_put, E3, E4, E5. reflexivity.
      + intros k Hk. unfold of_id. simpl. now rewrite sp_find_put, eqb_neq by congruence.
    - exists g, g2. split; [|split; [|split; [|split]]]; auto; [split; auto|split; auto|].
      intros ? ?. reflexivity.
  Qed.

  Lemma lock_delete_store own id : own id ->
    lock own eq (atomic (on_sb (sc_delete C id))) (atomic (on_sb (sc_delete C id))).
  Proof.
    intros Hid. apply locked_atomic. intros w g w2 g2 [HA Ho] [HA2 Ho2] Ha.
    destruct (so_delete C p b sz A HC g (snd w) id HA) as (s1 & E & A1).
    destruct (so_delete C p b sz A HC g2 (snd w2) id HA2) as (s2 & E2 & A2).
    pose proof (Ha id Hid) as Ef. unfold of_id in Ef. injection Ef as Ef _ _.
    unfold on_sb, zoom. rewrite E, E2. simpl. rewrite Ef.
    exists (sp_del id g), (sp_del id g2).
    split; [|split; [|split; [|split]]]; auto; [split; auto|split; auto| |].
    - intros k Hk. specialize (Ha k Hk). unfold of_id in *. simpl. injection Ha as E3 E4 E5.
      rewrite !sp_find_del, E3, E4, E5. reflexivity.
    - intros k Hk. unfold of_id. simpl. now rewrite sp_find_del, eqb_neq by congruence.
  Qed.

  Lemma lock_rows own fresh meta rows : forall i,
    (forall j, i <= j < i + length rows -> uuid_like (fresh j) /\ own (fresh j)) ->
    (forall l m, meta = Some l -> In m l -> meta_ok m) ->
    lock own eq (insert_rows_steps C fresh meta i rows) (insert_rows_steps C fresh meta i rows).
  Proof.
    induction rows as [|row rows IH]; intros i Hu Hm; [reflexivity|].
    destruct (Hu i) as [Hui Hoi]; [simpl; lia|].
    cbn [insert_rows_steps]. cbv zeta. rewrite row_meta_of.
    eapply locked_bind; [apply lock_store; auto; now apply (meta_of_ok (V := list F))|].
    intros _ _ _. eapply locked_bind; [now apply lock_append|].
    intros _ _ _. eapply locked_bind; [now apply lock_cache|].
    intros _ _ _. eapply locked_bind.
    - apply (IH (1 + i)); auto. intros j Hj. apply Hu. simpl. lia.
    - intros ids ids2 ->. reflexivity.
  Qed.

  Lemma lock_delete_ids own ids : (forall id, In id ids -> own id) -> forall ok,
    lock own eq (delete_ids_steps C ids ok) (delete_ids_steps C ids ok).
  Proof.
    induction ids as [|id ids IH]; intros Hown ok; [reflexivity|].
    assert (own id) as Hid by (apply Hown; simpl; auto).
    cbn [delete_ids_steps].
    eapply locked_bind; [now apply lock_delete_store|]. intros d d2 <-.
    eapply (locked_bind _ _ own eq).
    - apply locked_atomic. intros w g w2 g2 Hg Hg2 Ha. exists g, g2. unfold bind, get_ix, ret. simpl.
      split; [|split; [|split; [|split]]]; auto; [intros ? ?; reflexivity|].
      specialize (Ha id Hid). unfold of_id in Ha. injection Ha as _ E _.
      rewrite !cnt_memb, E. reflexivity.
    - intros present present2 <-. eapply (locked_bind _ _ own eq).
      + destruct present; [|reflexivity].
        apply locked_atomic. intros w g w2 g2 [HA Ho] [HA2 Ho2] Ha. exists g, g2.
        unfold bind, get_ix. pose proof (Ha id Hid) as E. unfold of_id in E. injection E as _ E _.
        rewrite !cnt_memb, E. destruct (0 <? cnt id (f_ids (fst w2))); unfold set_ix, modify, raise; simpl.
        * split; [|split; [|split; [|split]]]; auto; [split; auto|split; auto| |].
          -- intros k Hk. specialize (Ha k Hk). unfold of_id in *. simpl.
             injection Ha as E1 E2 E3. now rewrite !cnt_remove, E1, E2, E3.
          -- intros k Hk. unfold of_id. simpl. now rewrite cnt_remove, eqb_neq by congruence.
        * split; [|split; [|split; [|split]]]; auto; [split; auto|split; auto|].
          intros ? ?. reflexivity.
      + intros _ _ _. eapply locked_bind; [now apply lock_uncache|]. intros _ _ _.
        apply IH. intros k Hk. apply Hown. simpl. auto.
  Qed.

  Lemma lock_job recs j own : changes recs j -> (forall id, In id (job_ids j) -> own id) ->
    lock own eq (job_prog C mt j) (job_prog C mt j).
  Proof.
    intros Hj Hown. destruct j as [fresh rows meta|rounds argsort q k|ids|id v m];
      simpl in Hj; [destruct Hj as [[Hinj Hfr] Hm]|destruct Hj| |]; cbn [job_prog].
    - eapply (locked_bind _ _ own eq); [|intros a a2 ->; reflexivity].
      unfold flat_insert_steps. apply lock_open. simpl negb. cbv iota. apply locked_wrap.
      eapply (locked_bind _ _ own eq).
      + apply lock_rows; auto. intros i Hi. split; [apply Hfr; lia|]. apply Hown. simpl.
        apply in_map, in_seq. lia.
      + intros a a2 ->. eapply locked_bind; [apply lock_recount|]. intros _ _ _. reflexivity.
    - eapply (locked_bind _ _ own eq); [|intros a a2 ->; reflexivity].
      unfold flat_delete_steps. apply lock_open. simpl negb. cbv iota. apply locked_wrap.
      eapply (locked_bind _ _ own eq); [apply lock_delete_ids; exact Hown|].
      intros a a2 ->. eapply locked_bind; [apply lock_recount|]. intros _ _ _. reflexivity.
    - assert (own id) as Hid by (apply Hown; simpl; auto).
      eapply (locked_bind _ _ own eq); [|intros a a2 ->; reflexivity].
      unfold flat_update_steps. apply lock_open. simpl negb. cbv iota. apply locked_wrap.
      eapply (locked_bind _ _ own eq); [now apply lock_update_store|].
      intros a a2 ->. destruct a2; simpl negb; cbv iota; [|reflexivity].
      eapply locked_bind; [now apply lock_cache|]. intros _ _ _. reflexivity.
  Qed.

  (** The call alone. *)
  Lemma job_alone recs x s j : fopen recs x -> A (MkS true recs) s -> changes recs j ->
    exists x' s', finish (job_prog C mt j) (x, s) = (Ok (job_ans j recs), (x', s')) /\
      fopen (job_after j recs) x' /\ A (MkS true (job_after j recs)) s'.
  Proof.
    intros Hx HA Hj. destruct (C110_steps_are_the_calls C mt) as (Hi & Hd & Hu & _).
    destruct j as [fresh rows meta|rounds argsort q k|ids|id v m];
      simpl in Hj; [destruct Hj as [Hfr Hm]|destruct Hj| |]; cbn [job_prog job_ans job_after];
      rewrite finish_bind.
    - rewrite Hi.
      destruct (flat_insert_ok C p b sz A HC fresh rows meta recs x s Hx HA Hfr Hm)
        as (x' & s' & -> & ?). exists x', s'. split; [reflexivity|auto].
    - rewrite Hd. destruct (flat_delete_ok C p b sz A HC ids recs x s Hx HA) as (x' & s' & -> & ?).
      exists x', s'. split; [reflexivity|auto].
    - rewrite Hu. destruct (flat_update_ok C p b sz A HC id v m recs x s Hx HA Hj)
        as (x' & s' & -> & ?). exists x', s'. split; [reflexivity|auto].
  Qed.
End Own.

Section Threads.
  Context {F Mt S : Type} `{Num F} `{!NumOrder F} `{Payload (list F) Mt} `{Unicode}.
  Context (C : storage_class S (list F) Mt) (mt : metric).
  Notation ent := (entry (list F) Mt).

  Definition owner (jobs : list (job F Mt)) (t : nat) (id : pystr) : Prop :=
    exists j, nth_error jobs t = Some j /\ In id (job_ids j).

  Lemma cnt_keys recs (l : list pystr) id : NoDup (map fst recs) -> Permutation l (map fst recs) ->
    cnt id l = match sp_find id (recs : list ent) with Some _ => 1 | None => 0 end.
  Proof.
    intros Hnd Hp.
    assert (NoDup l) as Hl by (eapply Permutation_NoDup; [symmetry; exact Hp|auto]).
    assert (In id l <-> In id (map fst recs)) as Hin.
    { split; apply Permutation_in; [auto|now symmetry]. }
    rewrite cnt_In, In_keys_find in Hin. rewrite cnt_NoDup in Hl. specialize (Hl id).
    destruct (sp_find id recs) as [r|].
    - assert (0 < cnt id l) by (apply Hin; eauto). lia.
    - destruct (cnt id l); auto. destruct Hin as [Hin _]. destruct Hin as [r Hr]; [lia|discriminate].
  Qed.

  (** C170: threads insert, delete and update in one flat index, no two of them the same id.
      Whatever the schedule, every call that has returned has returned the answer it would have
      given alone on the records as they were at the start (no call fails); and when all have
      returned, every id has the record its call leaves of it, the ids of no call have the record
      they had, and searches are exact over these records. *)
  Theorem C170_changes_of_different_ids s0 pers ops jobs sched :
    library_backend C s0 pers -> flat_history pers ops ->
    let c := cl_after C (flat_class C mt) s0 ops in
    let recs := s_recs (db_after pers fresh_db ops) in
    c_init c = true -> apart jobs -> (forall j, In j jobs -> changes recs j) ->
    match threads sched (pool C mt jobs) (c_index c, c_storage c) with
    | (ps', (x', s')) =>
        (forall t j r, nth_error jobs t = Some j -> ps' t = Return r -> r = Ok (job_ans j recs)) /\
        ((forall t, exists r, ps' t = Return r) ->
         exists recs', NoDup (map fst recs') /\
           (forall j id, In j jobs -> In id (job_ids j) ->
              sp_find id recs' = sp_find id (job_after j recs)) /\
           (forall id, (forall j, In j jobs -> ~ In id (job_ids j)) ->
              sp_find id recs' = sp_find id recs) /\
           Permutation (f_ids x') (map fst recs') /\
           (forall id, fst (sc_retrieve C id s') = Ok (sp_find id recs')) /\
           (forall argsort q k, argsort_ok argsort ->
              flat_ok mt recs' q k
                (match fst (flat_search C mt argsort (Vec q) k (x', s')) with
                 | Ok l => AHits l
                 | Raise e => AExn e
                 end)))
    end.
  Proof.
    intros HB Hfit c recs Hi Hapart Hjobs.
    destruct (library_ok C s0 pers HB) as (b & sz & A & HC & HA).
    destruct (client_conforms C (flat_class C mt) pers b sz A HC true _ argsort_ok (flat_ok mt)
             _ _ (flat_index_ok C mt pers b sz A HC true) s0 ops HA Hfit) as [_ HR].
    destruct HR as (Ho & _ & (op & HAs & Hop) & Hx). fold c in Ho, HAs, Hx. fold recs in HAs, Hx.
    rewrite Hi in Ho. rewrite <- Ho in Hx. rewrite (Hop (eq_sym Ho)) in HAs.
    assert (fopen recs (c_index c)) as Hx0 by exact Hx. clear Hx.
    pose proof (so_nd C pers b sz A HC _ _ HAs) as Hnd. simpl in Hnd.
    pose proof (threads_own (open_over A) of_id (owner jobs) (pool C mt jobs)
                  (c_index c, c_storage c) recs) as Hthr.
    specialize (Hthr ltac:(intros t u id (j & Ej & Hin) (j' & Ej' & Hin'); eapply Hapart; eauto)).
    assert (Hlock : forall t, locked (open_over A) of_id (owner jobs t) eq
                                (pool C mt jobs t) (pool C mt jobs t)).
    { intros t. unfold pool. destruct (nth_error jobs t) as [j|] eqn:Ej; [|reflexivity].
      apply (lock_job C mt pers b sz A HC recs); [apply Hjobs; eapply nth_error_In; eauto|].
      intros id Hid. exists j. auto. }
    specialize (Hthr Hlock). specialize (Hthr (conj HAs (proj1 (proj2 Hx0))) sched).
    destruct (threads sched _ _) as [ps' [x' s']].
    destruct Hthr as (recs' & [HA' Hi'] & Hrest & Hall). simpl in HA', Hi'.
    assert (Hret : forall t j r, nth_error jobs t = Some j -> ps' t = Return r ->
              r = Ok (job_ans j recs) /\
              forall id, In id (job_ids j) -> exists xt,
                fopen (job_after j recs) xt /\ NoDup (map fst (job_after j recs)) /\
                of_id id recs' (x', s') = of_id id (job_after j recs) (xt, s')).
    { intros t j r Ej Er. destruct (Hall t) as (q & [xt st] & gt & [Hgt Hit] & Ha & Hl & Hf).
      rewrite Er in Hl. destruct q as [r'|f]; [|now simpl in Hl]. cbn [locked] in Hl.
      assert (r = r') as <-.
      { destruct r, r'; simpl in Hl; try contradiction; now subst. }
      assert (pool C mt jobs t = job_prog C mt j) as Epj by (unfold pool; now rewrite Ej).
      rewrite Epj in Hf. cbn [finish] in Hf.
      destruct (job_alone C mt pers b sz A HC recs (c_index c) (c_storage c) j Hx0 HAs
                  (Hjobs j (nth_error_In _ _ Ej))) as (xa & sa & Ea & Hxa & HAa).
      rewrite Ea in Hf. injection Hf as -> -> ->. split; auto.
      intros id Hid. exists xa.
      assert (of_id id recs' (x', s') = of_id id gt (xa, sa)) as E.
      { apply Ha. exists j. auto. }
      split; [|split]; auto.
      - exact (so_nd C pers b sz A HC _ _ HAa).
      - rewrite E. unfold of_id. simpl. f_equal. f_equal.
        destruct (so_retrieve C pers b sz A HC gt sa id Hgt) as (s1 & E1 & _).
        destruct (so_retrieve C pers b sz A HC _ sa id HAa) as (s2 & E2 & _).
        rewrite E1 in E2. now injection E2 as ->. }
    split; [intros t j r Ej Er; apply (Hret t j r Ej Er)|].
    intros Hdone. exists recs'.
    assert (Hmine : forall j id, In j jobs -> In id (job_ids j) -> exists xt,
              fopen (job_after j recs) xt /\ NoDup (map fst (job_after j recs)) /\
              of_id id recs' (x', s') = of_id id (job_after j recs) (xt, s')).
    { intros j id Hj Hid. apply In_nth_error in Hj as [t Ej]. destruct (Hdone t) as [r Er].
      apply (Hret t j r Ej Er). exact Hid. }
    assert (Hnone : forall id, (forall j, In j jobs -> ~ In id (job_ids j)) ->
              of_id id recs (c_index c, c_storage c) = of_id id recs' (x', s')).
    { intros id Hno. apply Hrest. intros t (j & Ej & Hin). apply (Hno j); auto.
      eapply nth_error_In; eauto. }
    pose proof (so_nd C pers b sz A HC _ _ HA') as Hnd'. simpl in Hnd'.
    assert (Heach : forall id, exists R x1,
              fopen R x1 /\ NoDup (map fst R) /\ of_id id recs' (x', s') = of_id id R (x1, s')).
    { intros id. destruct (in_dec (list_eq_dec N.eq_dec) id (flat_map job_ids jobs)) as [Hin|Hin].
      - apply in_flat_map in Hin as (j & Hj & Hid). destruct (Hmine j id Hj Hid) as (xt & ?).
        exists (job_after j recs), xt. auto.
      - exists recs, (c_index c). split; [|split]; auto.
        rewrite <- Hnone; [reflexivity|]. intros j Hj Hid. apply Hin. apply in_flat_map. eauto. }
    assert (Hcnt : forall id, cnt id (f_ids x') =
              match sp_find id recs' with Some _ => 1 | None => 0 end).
    { intros id. destruct (Heach id) as (R & x1 & (_ & _ & Hp & _) & HndR & E).
      unfold of_id in E. simpl in E. injection E as -> -> _. now apply cnt_keys. }
    assert (Hperm : Permutation (f_ids x') (map fst recs')).
    { apply NoDup_Permutation; auto.
      - apply cnt_NoDup. intros id. rewrite Hcnt. destruct (sp_find id recs'); lia.
      - intros id. rewrite cnt_In, In_keys_find, Hcnt.
        destruct (sp_find id recs') as [r|]; split; intros Hr; eauto; try lia.
        destruct Hr. discriminate. }
    split; auto. split; [|split; [|split; [|split]]]; auto.
    - intros j id Hj Hid. destruct (Hmine j id Hj Hid) as (xt & _ & _ & E). unfold of_id in E.
      simpl in E. now injection E as -> _ _.
    - intros id Hno. pose proof (Hnone id Hno) as E. unfold of_id in E. simpl in E.
      now injection E as -> _ _.
    - intros id. destruct (so_retrieve C pers b sz A HC recs' s' id HA') as (s1 & E & _).
      now rewrite E.
    - intros argsort q k Ha.
      pose proof (flat_search_good C mt pers b sz A HC argsort q k recs' x' s' Ha) as Hs.
      destruct (flat_search _ _ _ _ _ _) as [r [x1 s1]]. simpl. apply Hs; auto.
      split; [|split]; auto.
      intros id v r0 Hd Hr0. destruct (Heach id) as (R & x2 & (Hcoh & _) & _ & E).
      unfold of_id in E. simpl in E. injection E as E1 _ E3. apply (Hcoh id); congruence.
  Qed.
End Threads.

(** ** Changes of the same id *)

Section Same.
  Context {F Mt S : Type} `{Num F} `{Payload (list F) Mt}.
  Context (C : storage_class S (list F) Mt) (mt : metric).
  Context (p b : bool) (sz : option (list F * option Mt -> N))
          (A : sstate (list F) Mt -> S -> Prop) (HC : storage_ok C p b sz A).
  Notation W := (flat F * S)%type.
  Notation ent := (entry (list F) Mt).
  Context (recs0 : list ent) (jobs : list (job F Mt)).

  (** Deletions and updates; metadata are dictionaries. *)
  Definition alters (j : job F Mt) : Prop :=
    match j with
    | JDelete _ => True
    | JUpdate _ _ m => meta_ok m
    | _ => False
    end.

  (** Vector and metadata that the id had at the start, or that one of the updates gives it. *)
  Definition given (id : pystr) (v : list F) (m : option Mt) : Prop :=
    sp_find id recs0 = Some (v, m) \/ In (JUpdate id v m) jobs.

  Definition kept (g : list ent) (w : W) : Prop :=
    A (MkS true g) (snd w) /\ f_init (fst w) = true /\ NoDup (f_ids (fst w)) /\
    (forall id v m, sp_find id g = Some (v, m) -> given id v m) /\
    (forall id v r, sp_find id g = Some r -> dget id (f_cache (fst w)) = Some v ->
       exists m, given id v m).

  (** One step: none of the ids moves; a record is deleted, its id stays to be removed; or such an
      id is gone from the list. *)
  Definition moves (a a' : list pystr) (g : list ent) (w : W) (g' : list ent) (w' : W) : Prop :=
    kept g' w' /\ incl (map fst g') (map fst g) /\
    ((a' = a /\ f_ids (fst w') = f_ids (fst w) /\ map fst g' = map fst g) \/
     (exists id, a' = id :: a /\ f_ids (fst w') = f_ids (fst w) /\ g' = sp_del id g) \/
     (exists id, a = id :: a' /\ g' = g /\ ~ In id (map fst g) /\ ~ In id (f_ids (fst w')) /\
        forall k, k <> id -> (In k (f_ids (fst w')) <-> In k (f_ids (fst w))))).

  Definition fewer (g : list ent) (w : W) (g' : list ent) (w' : W) : Prop :=
    incl (map fst g') (map fst g).

  Notation course := (follows kept moves fewer).
  Implicit Types P : list ent -> W -> Prop.

  Lemma moves_app a1 a1' a2 g w g' w' :
    moves a1 a1' g w g' w' -> moves (a1 ++ a2) (a1' ++ a2) g w g' w'.
  Proof.
    intros (Hk & Hi & [(-> & ?)|[(id & -> & ?)|(id & -> & ?)]]);
      (split; [exact Hk|split; [exact Hi|]]).
    - left. auto.
    - right. left. exists id. auto.
    - right. right. exists id. auto.
  Qed.

  Lemma course_read {R T} (f : flat F -> R) (k : R -> prog W T) acts P Q :
    (forall g w, kept g w -> P g w -> exists P', stays fewer P' /\ P' g w /\
       course (k (f (fst w))) acts P' Q) ->
    course (pbind (fread f) k) acts P Q.
  Proof.
    intros Hk. cbn [pbind fread atomic follows]. intros w g Hg HP.
    unfold bind, get_ix, ret. cbn [pbind]. destruct (Hk g w Hg HP) as (P' & ? & ? & ?).
    exists acts, g, P'. split; auto. split; auto. split; [apply incl_refl|]. left. auto.
  Qed.

  Lemma course_opened {T} (k : bool -> prog W T) acts P Q : stays fewer P ->
    course (k true) acts P Q -> course (pbind (fread f_init) k) acts P Q.
  Proof.
    intros Hs Hk. apply course_read. intros g w Hg HP. exists P. split; auto. split; auto.
    destruct Hg as (_ & -> & _). exact Hk.
  Qed.

  Lemma course_write {T} (f : flat F -> flat F) (k : unit -> prog W T) acts P Q :
    stays fewer P -> (forall x, f_init (f x) = f_init x) -> (forall x, f_ids (f x) = f_ids x) ->
    (forall x id v, dget id (f_cache (f x)) = Some v ->
       dget id (f_cache x) = Some v \/ exists m, given id v m) ->
    course (k tt) acts P Q -> course (pbind (fwrite f) k) acts P Q.
  Proof.
    intros Hs Hi Hids Hc Hk. cbn [pbind fwrite atomic follows]. intros w g Hg HP.
    unfold set_ix, modify. cbn [pbind]. exists acts, g, P.
    split; [|split; [|split]]; auto.
    - destruct Hg as (HA & Ho & Hnd & Hr & Hd). split; [|split; [apply incl_refl|left]].
      + split; [|split; [|split; [|split]]]; simpl; auto.
        * now rewrite Hi.
        * now rewrite Hids.
        * intros id v r Hf Hv. destruct (Hc _ _ _ Hv) as [Hv'|?]; auto. eapply Hd; eauto.
      + simpl. auto.
    - (* P only speaks of the records that are left *)
      eapply Hs; [|exact HP]. apply incl_refl.
  Qed.

  Lemma course_recount {T} (k : unit -> prog W T) acts P Q : stays fewer P ->
    course (k tt) acts P Q -> course (pbind recount_steps k) acts P Q.
  Proof.
    intros Hs Hk. unfold recount_steps.
    change (pbind (pbind (fread ?f) ?g) k) with (pbind (fread (S := S) f) (fun n => pbind (g n) k)).
    apply course_read. intros g w Hg HP. exists P. split; auto. split; auto.
    apply course_write; auto.
  Qed.

  (** The ids of [l] have no record. *)
  Definition gone (l : list pystr) (g : list ent) (w : W) : Prop :=
    forall id, In id l -> ~ In id (map fst g).

  Lemma stays_gone l : stays fewer (gone l).
  Proof. intros g w g' w' Hf Hg id Hid Hin. apply (Hg id Hid). now apply Hf. Qed.

  Lemma course_delete_ids ids : forall before ok,
    course (delete_ids_steps C ids ok) [] (gone before)
      (fun g w r => match r with Ok _ => gone (before ++ ids) g w | Raise _ => True end).
  Proof.
    induction ids as [|id ids IH]; intros before ok.
    - cbn [delete_ids_steps follows]. intros g w _ Hb. rewrite app_nil_r. auto.
    - assert (Hrest : forall d,
        course (pbind (fwrite (fun x => fset_cache (ddel id (f_cache x)) x))
                  (fun _ => delete_ids_steps C ids (if d : bool then ok else false))) []
          (gone (before ++ [id]))
          (fun g w r => match r with Ok _ => gone (before ++ id :: ids) g w | Raise _ => True end)).
      { intros d. apply course_write; auto using stays_gone.
        - intros x k v Hd. simpl in Hd. rewrite dget_ddel in Hd. destruct (eqb k id); [discriminate|auto].
        - specialize (IH (before ++ [id]) (if d then ok else false)).
          rewrite <- app_assoc in IH. exact IH. }
      cbn [delete_ids_steps]. cbn [pbind atomic follows]. intros w g Hg Hb.
      destruct Hg as (HA & Ho & Hnd & Hr & Hd).
      destruct (so_delete C p b sz A HC g (snd w) id HA) as (s1 & E & A1).
      unfold on_sb, zoom. rewrite E. cbn [pbind].
      exists [id], (sp_del id g), (gone (before ++ [id])).
      split; [|split; [apply stays_gone|split]].
      + split; [|split].
        * split; [|split; [|split; [|split]]]; simpl; auto.
          -- intros k v m Hf. rewrite sp_find_del in Hf. destruct (eqb k id); [discriminate|auto].
          -- intros k v r Hf. rewrite sp_find_del in Hf. destruct (eqb k id); [discriminate|].
             eapply Hd; eauto.
        * intros k Hk. apply keys_del in Hk. tauto.
        * right. left. exists id. auto.
      + intros k Hk Hin. apply keys_del in Hin as [Hne Hin]. apply in_app_or in Hk as [Hk|[->|[]]]; auto.
        apply (Hb k Hk Hin).
      + generalize (match sp_find id g with Some _ => true | None => false end). intros d.
        (* the test for the id, then its removal *)
        clear w g HA Ho Hnd Hr Hd E Hb A1 s1.
        cbn [pbind fread atomic follows]. intros w g Hg Hb. unfold bind, get_ix, ret. cbn [pbind].
        assert (~ In id (map fst g)) as Hng by (apply Hb, in_or_app; simpl; auto).
        destruct (memb_spec id (f_ids (fst w))) as [Hin|Hin].
        * exists [id], g, (gone (before ++ [id])).
          split; [split; [auto|split; [apply incl_refl|left; auto]]|].
          split; [apply stays_gone|split; auto].
          clear w g Hg Hb Hng Hin.
          cbn [pbind atomic follows]. intros w g Hg Hb. unfold bind, get_ix.
          assert (~ In id (map fst g)) as Hng by (apply Hb, in_or_app; simpl; auto).
          destruct (memb_spec id (f_ids (fst w))) as [Hin|Hin].
          -- unfold set_ix, modify. cbn [pbind].
             destruct Hg as (HA & Ho & Hnd & Hr & Hd).
             exists [], g, (gone (before ++ [id])).
             split; [|split; [apply stays_gone|split; [exact Hb|apply Hrest]]].
             split; [|split; [apply incl_refl|right; right]].
             ++ split; [|split; [|split; [|split]]]; simpl; auto. now apply remove_first_NoDup.
             ++ exists id. simpl. rewrite remove_first_filter by auto.
                split; [|split; [|split; [|split]]]; auto.
                ** rewrite filter_In, eqb_refl. simpl. intros [_ Ef]. discriminate.
                ** intros k Hk. rewrite filter_In, eqb_neq by auto. simpl. tauto.
          -- unfold raise. cbn [pbind]. exists [], g, (fun _ _ => True).
             split; [|split; [apply stays_True|split; [exact I|cbn [follows]; auto]]].
             split; [auto|split; [apply incl_refl|right; right]].
             exists id. split; [|split; [|split; [|split]]]; auto. tauto.
        * exists [], g, (gone (before ++ [id])).
          split; [|split; [apply stays_gone|split; [exact Hb|apply Hrest]]].
          split; [auto|split; [apply incl_refl|right; right]].
          exists id. split; [|split; [|split; [|split]]]; auto. tauto.
  Qed.

  (** What a call that has returned says. *)
  Definition said (j : option (job F Mt)) (g : list ent) (w : W) (r : result (jret F Mt)) : Prop :=
    match j with
    | Some (JDelete ids) =>
        r = Raise EIndex \/ exists ok, r = Ok (RDone ok) /\ gone ids g w
    | Some (JUpdate id _ _) => exists ok, r = Ok (RDone ok) /\ (ok = false -> gone [id] g w)
    | _ => True
    end.

  Lemma course_job j : In j jobs -> alters j ->
    course (job_prog C mt j) [] (fun _ _ => True) (said (Some j)).
  Proof.
    intros Hin Hj.
    destruct j as [fresh rows meta|rounds argsort q k|ids|id v m]; simpl in Hj; try contradiction;
      cbn [job_prog].
    - apply (follows_bind kept moves moves_app fewer _ _ []
               (fun g w r => match r with Ok _ => gone ids g w | Raise e => e = EIndex end) _ []).
      + unfold flat_delete_steps. apply course_opened; [apply stays_True|]. simpl negb. cbv iota.
        eapply (follows_wrap kept moves fewer EIndex _
                  (fun g w r => match r with Ok _ => gone ids g w | Raise _ => True end)); auto.
        apply (follows_bind kept moves moves_app fewer _ _ []
                 (fun g w r => match r with Ok _ => gone ids g w | Raise _ => True end) _ []).
        * eapply follows_weaken; [|apply (course_delete_ids ids [] true)].
          intros g w _ _ k [].
        * intros ok. apply course_recount; [apply stays_gone|].
          cbn [follows]. auto.
        * auto.
      + intros ok. cbn [follows]. intros g w _ Hg. split; auto. right. eauto.
      + intros g w e ->. split; auto. left. reflexivity.
    - apply (follows_bind kept moves moves_app fewer _ _ []
               (fun g w r => exists ok, r = Ok ok /\ (ok = false -> gone [id] g w)) _ []).
      + unfold flat_update_steps. apply course_opened; [apply stays_True|]. simpl negb. cbv iota.
        eapply (follows_wrap kept moves fewer EIndex _
                  (fun g w r => exists ok, r = Ok ok /\ (ok = false -> gone [id] g w))); auto.
        { intros g w e (ok & E & _). discriminate. }
        cbn [pbind atomic follows]. intros w g (HA & Ho & Hnd & Hr & Hd) _.
        destruct (so_update C p b sz A HC g (snd w) id v m HA Hj) as (s1 & E & A1).
        unfold on_sb, zoom. rewrite E. cbn [pbind].
        destruct (sp_find id g) as [r|] eqn:Ef; simpl negb; cbv iota.
        * exists [], (sp_put id (v, m) g), (fun _ _ => True).
          assert (map fst (sp_put id (v, m) g) = map fst g) as Ek.
          { apply keys_put, In_keys_find. eauto. }
          split; [|split; [apply stays_True|split; [exact I|]]].
          -- split; [|split; [rewrite Ek; apply incl_refl|left; auto]].
             split; [|split; [|split; [|split]]]; simpl; auto.
             ++ intros k v1 m1. rewrite sp_find_put. destruct (eqb_spec k id) as [->|]; auto.
                intros E1. injection E1 as <- <-. right. exact Hin.
             ++ intros k v1 r1. rewrite sp_find_put. destruct (eqb_spec k id) as [->|]; [|apply Hd].
                intros _ Hv. eapply Hd; eauto.
          -- apply course_write; auto using stays_True.
             ++ intros x k v1 Hd1. simpl in Hd1. rewrite dget_dset in Hd1.
                destruct (eqb_spec k id) as [->|]; auto. injection Hd1 as <-. right. exists m.
                right. exact Hin.
             ++ cbn [follows]. intros g1 w1 _ _. split; auto. exists true. split; auto. discriminate.
        * exists [], g, (gone [id]).
          split; [|split; [apply stays_gone|split]].
          -- split; [|split; [apply incl_refl|left; auto]].
             split; [|split; [|split; [|split]]]; simpl; auto.
          -- intros k [<-|[]]. now apply sp_find_None.
          -- cbn [follows]. intros g1 w1 _ Hg1. split; auto. exists false. auto.
      + intros ok. cbn [follows]. intros g w _ (ok' & E & Hok). injection E as <-.
        split; auto. exists ok. auto.
      + intros g w e (ok & E & _). discriminate.
  Qed.

  Definition listed (g : list ent) (w : W) (todo : nat -> list pystr) : Prop :=
    kept g w /\ incl (map fst g) (f_ids (fst w)) /\
    (forall id, In id (f_ids (fst w)) -> In id (map fst g) \/ exists t, In id (todo t)).

  Lemma listed_step g w todo t acts' g' w' :
    listed g w todo -> moves (todo t) acts' g w g' w' ->
    listed g' w' (upd todo t acts') /\ fewer g w g' w'.
  Proof.
    intros (Hk & Hin & Hl) (Hk' & Hi & Hm). split; [|exact Hi].
    split; [exact Hk'|].
    assert (Hup : forall id, (In id (todo t) -> In id acts') -> (exists u, In id (todo u)) ->
              exists u, In id (upd todo t acts' u)).
    { intros id Hk1 [u Hu]. exists u. unfold upd. destruct (Nat.eqb_spec u t); subst; auto. }
    destruct Hm as [(-> & Ei & Ek)|[(id & -> & Ei & ->)|(id & Ea & -> & Hng & Hnl & Hoth)]].
    - rewrite Ei, Ek. split; auto. intros id Hid. destruct (Hl id Hid) as [?|?]; auto.
    - rewrite Ei. split.
      + intros k Hkk. apply Hin. now apply Hi.
      + intros k Hid. destruct (eqb_spec k id) as [->|Hne].
        * right. exists t. unfold upd. rewrite Nat.eqb_refl. simpl. auto.
        * destruct (Hl k Hid) as [Hin'|Hex].
          -- left. apply keys_del. auto.
          -- right. apply Hup; auto. simpl. auto.
    - split.
      + intros k Hkk. apply Hoth; [|now apply Hin]. intros ->. auto.
      + intros k Hid. assert (k <> id) as Hne by (intros ->; auto).
        destruct (Hl k (proj1 (Hoth k Hne) Hid)) as [?|Hex]; auto. right. apply Hup; auto.
        rewrite Ea. simpl. intros [E|?]; congruence.
  Qed.
End Same.

Section SameThreads.
  Context {F Mt S : Type} `{Num F} `{!NumOrder F} `{Payload (list F) Mt} `{Unicode}.
  Context (C : storage_class S (list F) Mt) (mt : metric).
  Notation ent := (entry (list F) Mt).

  (** C171, the part that holds: threads delete and update, as many of them the same id as may
      be.  No update fails, and none says False while its id is recorded; a deletion that returns
      has removed the records of all its ids, for good.  When all have returned, the ids of the
      index are exactly the recorded ones; every record, and every vector cached for one, is one
      that the id had at the start or that one of the updates gave it.
      Missing (refuted below): that deletions do not fail, and that the cached vector is the
      recorded one. *)
  Theorem C171_changes_of_the_same_id_partial s0 pers ops jobs sched :
    library_backend C s0 pers -> flat_history pers ops ->
    let c := cl_after C (flat_class C mt) s0 ops in
    let recs := s_recs (db_after pers fresh_db ops) in
    c_init c = true -> (forall j, In j jobs -> alters j) ->
    match threads sched (pool C mt jobs) (c_index c, c_storage c) with
    | (ps', (x', s')) =>
        exists recs',
          (forall id, fst (sc_retrieve C id s') = Ok (sp_find id recs')) /\
          (forall id v m, sp_find id recs' = Some (v, m) -> given recs jobs id v m) /\
          (forall id v r, sp_find id recs' = Some r -> dget id (f_cache x') = Some v ->
             exists m, given recs jobs id v m) /\
          (forall t ids r, nth_error jobs t = Some (JDelete ids) -> ps' t = Return r ->
             r = Raise EIndex \/
             exists ok, r = Ok (RDone ok) /\ forall id, In id ids -> sp_find id recs' = None) /\
          (forall t id v m r, nth_error jobs t = Some (JUpdate id v m) -> ps' t = Return r ->
             exists ok, r = Ok (RDone ok) /\ (ok = false -> sp_find id recs' = None)) /\
          ((forall t, exists r, ps' t = Return r) -> Permutation (f_ids x') (map fst recs'))
    end.
  Proof.
    intros HB Hfit c recs Hi Hjobs.
    destruct (library_ok C s0 pers HB) as (b & sz & A & HC & HA).
    destruct (client_conforms C (flat_class C mt) pers b sz A HC true _ argsort_ok (flat_ok mt)
             _ _ (flat_index_ok C mt pers b sz A HC true) s0 ops HA Hfit) as [_ HR].
    destruct HR as (Ho & _ & (op & HAs & Hop) & Hx). fold c in Ho, HAs, Hx. fold recs in HAs, Hx.
    rewrite Hi in Ho. rewrite <- Ho in Hx. rewrite (Hop (eq_sym Ho)) in HAs.
    destruct Hx as (Hcoh & Hinit & Hperm & Hcount).
    pose proof (so_nd C pers b sz A HC _ _ HAs) as Hnd. simpl in Hnd.
    assert (listed A recs jobs recs (c_index c, c_storage c) (fun _ => [])) as I0.
    { split; [|split].
      - split; [|split; [|split; [|split]]]; simpl; auto.
        + eapply Permutation_NoDup; [symmetry; exact Hperm|auto].
        + intros id v m Hf. left. exact Hf.
        + intros id v [v' m] Hf Hd. exists m. left. rewrite Hf.
          pose proof (Hcoh id v _ Hd Hf) as E. simpl in E. now subst.
      - intros id Hid. eapply Permutation_in; [symmetry; exact Hperm|auto].
      - intros id Hid. left. eapply Permutation_in; [exact Hperm|auto]. }
    pose proof (threads_follow (kept A recs jobs) (moves A recs jobs) fewer
                  (fun g w => incl_refl _)
                  (fun g1 w1 g2 w2 g3 w3 H12 H23 => incl_tran H23 H12)
                  (listed A recs jobs) (fun g w todo HI => proj1 HI)
                  (listed_step A recs jobs)
                  (fun t => said (nth_error jobs t)) sched (pool C mt jobs)
                  (c_index c, c_storage c) recs (fun _ => []) I0) as Hthr.
    destruct (threads sched _ _) as [ps' [x' s']].
    destruct Hthr as (recs' & todo' & (Hk & Hin & Hl) & _ & Hps).
    { intros t. exists (fun _ _ => True). split; [apply stays_True|]. split; [exact I|].
      unfold pool. destruct (nth_error jobs t) as [j|] eqn:Ej.
      - apply (course_job C mt pers b sz A HC); [eapply nth_error_In; eauto|].
        apply Hjobs. eapply nth_error_In; eauto.
      - cbn [follows]. intros. split; auto. }
    assert (Hret : forall t r, ps' t = Return r ->
              todo' t = [] /\ said (nth_error jobs t) recs' (x', s') r).
    { intros t r Er. destruct (Hps t) as (P & _ & HP & Hf). rewrite Er in Hf. cbn [follows] in Hf.
      now apply Hf. }
    assert (Hgone : forall ids id, gone ids recs' (x', s') -> In id ids -> sp_find id recs' = None).
    { intros ids id Hg Hid. apply sp_find_None. now apply Hg. }
    exists recs'. destruct Hk as (HA' & Hi' & Hnd' & Hr & Hd). simpl in *.
    pose proof (so_nd C pers b sz A HC _ _ HA') as Hndr. simpl in Hndr.
    split; [|split; [|split; [|split; [|split]]]]; auto.
    - intros id. destruct (so_retrieve C pers b sz A HC recs' s' id HA') as (s1 & E & _).
      now rewrite E.
    - intros t ids r Ej Er. destruct (Hret t r Er) as [_ Hs]. rewrite Ej in Hs. simpl in Hs.
      destruct Hs as [?|(ok & ? & Hg)]; auto. right. exists ok. split; auto. intros. eapply Hgone; eauto.
    - intros t id v m r Ej Er. destruct (Hret t r Er) as [_ Hs]. rewrite Ej in Hs. simpl in Hs.
      destruct Hs as (ok & ? & Hg). exists ok. split; auto. intros E. apply (Hgone [id] id); simpl; auto.
    - intros Hall. apply NoDup_Permutation; auto. intros id. split.
      + intros Hid. destruct (Hl id Hid) as [?|[t Ht]]; auto. destruct (Hall t) as [r Er].
        destruct (Hret t r Er) as [E _]. rewrite E in Ht. destruct Ht.
      + apply Hin.
  Qed.
End SameThreads.

(** ** Demonstration *)

(** Three records; one thread inserts a fourth, one deletes the first and an id that is not
    there, one updates the second, one updates an id that is not there. *)
Definition own_jobs : list (job Z Z) :=
  [JInsert (demo_ids 98) [[1; 1]]%Z (Some [Some 4]%Z);
   JDelete [demo_ids 97 0; demo_ids 99 5];
   JUpdate (demo_ids 97 1) [8; 8]%Z (Some 6%Z);
   JUpdate (demo_ids 99 1) [3; 3]%Z None].

Definition own_recs : list (entry (list Z) Z) := s_recs (db_after false fresh_db race_ops).

(** The hypotheses of C170 are met. *)
Example C170_hypotheses :
  let c := cl_after mem_class (flat_class mem_class MEuclidean) (mem_new (V := list Z) (Mt := Z)) race_ops in
  library_backend mem_class (mem_new (V := list Z) (Mt := Z)) false /\ flat_history false race_ops /\
  c_init c = true /\ apart own_jobs /\ (forall j, In j own_jobs -> changes own_recs j) /\
  length own_recs = 3.
Proof.
  cbv zeta. split; [constructor|]. split; [apply race_ops_fit|]. split; [reflexivity|].
  split; [|split; [|reflexivity]].
  - intros t u j j' id Et Eu Hin Hin'.
    do 4 (try destruct t as [|t]); do 4 (try destruct u as [|u]); try reflexivity;
      simpl in Et, Eu; try (destruct t; discriminate); try (destruct u; discriminate);
      injection Et as <-; injection Eu as <-; simpl in Hin, Hin';
      exfalso; revert Hin Hin'; vm_compute; intuition congruence.
  - intros j Hj. destruct Hj as [<-|[<-|[<-|[<-|[]]]]]; simpl.
    + split.
      * split; [intros i k Hi Hk; lia|]. intros i Hi. assert (i = 0) as -> by lia.
        split; [apply demo_ids_uuid; lia|]. vm_compute. intuition discriminate.
      * intros l m E Hm. injection E as <-. destruct Hm as [<-|[]]. split; simpl; auto.
    + exact I.
    + split; simpl; auto.
    + split; simpl; auto.
Qed.

(** A fair schedule: the answers and what is there at the end. *)
Example C170_run :
  match threads (concat (repeat [0; 1; 2; 3] 20)) (pool mem_class MEuclidean own_jobs) race_start with
  | (ps', (x', s')) =>
      ps' 0 = Return (Ok (RIds [demo_ids 98 0])) /\
      ps' 1 = Return (Ok (RDone false)) /\
      ps' 2 = Return (Ok (RDone true)) /\
      ps' 3 = Return (Ok (RDone false)) /\
      fst (flat_search mem_class MEuclidean stable_argsort (Vec [8; 8]%Z) 3 (x', s')) =
        Ok [MkHit (demo_ids 97 1) 0%Z (Some 6%Z); MkHit (demo_ids 97 2) 4%Z None;
            MkHit (demo_ids 98 0) 9%Z (Some 4%Z)]
  end.
Proof. vm_compute. repeat split. Qed.

(** Two updates and two deletions, of the same two ids. *)
Definition same_jobs : list (job Z Z) :=
  [JUpdate (demo_ids 97 1) [8; 8]%Z None; JUpdate (demo_ids 97 1) [1; 1]%Z (Some 6%Z);
   JDelete [demo_ids 97 0]; JDelete [demo_ids 97 0; demo_ids 97 2]].

(** The hypotheses of C171 are met. *)
Example C171_hypotheses :
  let c := cl_after mem_class (flat_class mem_class MEuclidean) (mem_new (V := list Z) (Mt := Z)) race_ops in
  library_backend mem_class (mem_new (V := list Z) (Mt := Z)) false /\ flat_history false race_ops /\
  c_init c = true /\ (forall j, In j same_jobs -> alters j).
Proof.
  cbv zeta. split; [constructor|]. split; [apply race_ops_fit|]. split; [reflexivity|].
  intros j Hj. destruct Hj as [<-|[<-|[<-|[<-|[]]]]]; simpl; auto; split; simpl; auto.
Qed.

(** A schedule in which all of them return; one record is left. *)
Example C171_run :
  match threads (concat (repeat [0; 1; 3] 20) ++ repeat 2 20) (pool mem_class MEuclidean same_jobs) race_start with
  | (ps', (x', s')) =>
      (ps' 0 = Return (Ok (RDone true)) /\ ps' 1 = Return (Ok (RDone true))) /\
      f_ids x' = [demo_ids 97 1] /\ fst (sc_list mem_class None s') = Ok [demo_ids 97 1]
  end.
Proof. vm_compute. repeat split. Qed.

(** ** What goes wrong *)

(** C171: two threads update one id; the backend takes the one vector last, the cache the other.
    Both calls say True.  From then on the index ranks the record by a vector it does not have:
    for the recorded vector as query the search finds another record nearer, with the right one
    missing; updating the record again, or deleting it, is the only cure. *)
Theorem C171_stale_vector_refuted : exists sched,
  match threads sched
          (pool mem_class MEuclidean
             [JUpdate (demo_ids 97 1) [8; 8]%Z None; JUpdate (demo_ids 97 1) [1; 1]%Z None])
          race_start with
  | (ps', (x', s')) =>
      ps' 0 = Return (Ok (RDone true)) /\ ps' 1 = Return (Ok (RDone true)) /\
      fst (sc_retrieve mem_class (demo_ids 97 1) s') = Ok (Some ([1; 1]%Z, None)) /\
      dget (demo_ids 97 1) (f_cache x') = Some [8; 8]%Z /\
      match flat_search mem_class MEuclidean stable_argsort (Vec [1; 1]%Z) 1 (x', s') with
      | (Ok [h], w2) =>
          h_id h = demo_ids 97 2 /\
          fst (flat_search mem_class MEuclidean stable_argsort (Vec [1; 1]%Z) 1 w2) = Ok [h]
      | _ => False
      end
  end.
Proof. exists ([0; 0; 1; 1; 1; 0]). vm_compute. repeat split. Qed.

(** C171: two threads delete one id; the second fails in [list.remove] after the first has taken
    the id out of the list, and with it the rest of its batch is not deleted. *)
Theorem C171_deletion_raises_refuted : exists sched,
  match threads sched
          (pool mem_class MEuclidean
             [JDelete [demo_ids 97 0]; JDelete [demo_ids 97 0; demo_ids 97 2]])
          race_start with
  | (ps', (x', s')) =>
      ps' 0 = Return (Ok (RDone true)) /\ ps' 1 = Return (Raise EIndex) /\
      fst (sc_retrieve mem_class (demo_ids 97 2) s') = Ok (Some ([5; 5]%Z, None))
  end.
Proof. exists ([0; 0; 0; 1; 1; 1] ++ repeat 0 5 ++ [1]). vm_compute. repeat split. Qed.

(** C171: an id is deleted (its number came from the backend's list) while its insertion is
    between the storage call and the id list.  Both calls succeed; the id stays in the index
    without a record, and every search that ranks it among the nearest fails, for good. *)
Theorem C171_ghost_id_refuted : exists sched,
  match threads sched
          (pool mem_class MEuclidean
             [JInsert (demo_ids 98) [[1; 1]]%Z None; JDelete [demo_ids 98 0]])
          race_start with
  | (ps', (x', s')) =>
      ps' 0 = Return (Ok (RIds [demo_ids 98 0])) /\ ps' 1 = Return (Ok (RDone true)) /\
      fst (sc_retrieve mem_class (demo_ids 98 0) s') = Ok None /\
      In (demo_ids 98 0) (f_ids x') /\
      match flat_search mem_class MEuclidean stable_argsort (Vec [1; 1]%Z) 1 (x', s') with
      | (r, w2) =>
          r = Raise EIndex /\
          fst (flat_search mem_class MEuclidean stable_argsort (Vec [1; 1]%Z) 1 w2) = Raise EIndex
      end
  end.
Proof.
  exists ([0; 0] ++ repeat 1 7 ++ repeat 0 5). vm_compute. repeat split. right. right. right. now left.
Qed.

Print Assumptions C170_changes_of_different_ids.
Print Assumptions C171_changes_of_the_same_id_partial.
Print Assumptions C171_stale_vector_refuted.
Print Assumptions C171_deletion_raises_refuted.
Print Assumptions C171_ghost_id_refuted.
