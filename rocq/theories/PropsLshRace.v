(** Property C76: several threads insert into one LSH index. *)

From Coq Require Import String List Arith ZArith NArith Lia Bool Permutation.
From Coq Require Import ZifyBool ZifyNat ZifyN.
From Verif Require Import PyBase BaseLemmas PyMore Payload Num LshModel LshSpec LshProofs
  PropsLsh StepModel StepProofs LshSteps Demo DemoIndex.
Import ListNotations.

Section Race.
  Context {F Mt : Type} `{Num F} `{Payload (list F) Mt}.
  Context (T hs P : nat) (empty : Mt).
  Notation lshi := (lsh F Mt).

  Lemma finish_forM {A} (l : list A) (f : A -> prog lshi unit) (g : A -> M lshi unit) :
    (forall a s, finish (f a) s = g a s) -> forall s, finish (pforM l f) s = forM l g s.
  Proof.
    intros Hf. induction l as [|a l IH]; intros s; simpl; auto.
    rewrite finish_bind. unfold bind. rewrite Hf. destruct (g a s) as [[u|e] s']; auto.
  Qed.

  Lemma finish_mapM {A B} (l : list A) (f : A -> prog lshi B) (g : A -> M lshi B) :
    (forall a s, finish (f a) s = g a s) -> forall s, finish (pmapM l f) s = mapM l g s.
  Proof.
    intros Hf. induction l as [|a l IH]; intros s; simpl; auto.
    rewrite finish_bind. unfold bind. rewrite Hf. destruct (g a s) as [[b|e] s']; auto.
    rewrite finish_bind. rewrite IH. now destruct (mapM l g s') as [[bs|e] s''].
  Qed.

  Lemma finish_add_one v m (s : lshi) : finish (add_one_steps T hs P v m) s = lsh_add_one T hs P v m s.
  Proof.
    unfold add_one_steps, lsh_add_one, read.
    rewrite !finish_bind, finish_atomic. unfold bind, get, ret.
    rewrite !finish_bind, finish_atomic. unfold modify.
    rewrite !finish_bind, finish_atomic.
    rewrite !finish_bind, finish_atomic.
    rewrite !finish_bind, finish_atomic. unfold lift.
    destruct (copy_meta m) as [d|e]; [|reflexivity].
    rewrite !finish_bind, finish_atomic.
    destruct (lsh_hash_vector T hs P v _) as [[codes|e] s1]; [|reflexivity].
    rewrite finish_bind. unfold put_steps, lsh_put.
    rewrite (finish_forM _ _ (fun '(t, c) => on_table t (bucket_add c (l_next s)))).
    - destruct (forM _ _ s1) as [[u|e] s2]; reflexivity.
    - intros [t c] s'. apply finish_atomic.
  Qed.

  Lemma finish_read {A} (f : lshi -> A) s : finish (read f) s = (Ok (f s), s).
  Proof. reflexivity. Qed.

  Lemma finish_add o rows metas (s : lshi) :
    finish (add_steps T hs P o rows metas) s = lsh_add T hs P o (Mat rows) metas s.
  Proof.
    unfold add_steps, lsh_add. rewrite finish_bind, finish_read. unfold bind at 1, get at 1.
    destruct (negb (l_init s)); [reflexivity|].
    destruct (negb (Nat.eqb _ _)); [reflexivity|].
    rewrite finish_bind, finish_read, finish_bind.
    assert (forall s', finish
      (d1 <~ read l_dim;;
       match d1 with
       | Some dim =>
           if negb (Nat.eqb (width rows) dim) then Return (Raise EIndex)
           else atomic (forM rows (fun v => lift (validate_dim dim (Vec v))));~
                pmapM (combine rows metas) (fun '(v, m) => add_one_steps T hs P v m)
       | None => Return (Raise EAssert)
       end)%py s' =
      (x1 <- get ;;
       match l_dim x1 with
       | None => raise EAssert
       | Some dim =>
           if negb (Nat.eqb (width rows) dim) then raise EIndex
           else forM rows (fun v => lift (validate_dim dim (Vec v))) ;;;
                mapM (combine rows metas) (fun '(v, m) => lsh_add_one T hs P v m)
       end)%py s') as Hrest.
    { intros s'. rewrite finish_bind, finish_read. unfold bind at 1, get.
      destruct (l_dim s') as [dim|]; [|reflexivity].
      destruct (negb _); [reflexivity|]. rewrite finish_bind, finish_atomic. unfold bind.
      destruct (forM rows _ s') as [[u|e] s1]; [|reflexivity].
      apply finish_mapM. intros [v m] s2. apply finish_add_one. }
    destruct (l_dim s) as [d|] eqn:Ed.
    - exact (Hrest s).
    - exact (Hrest (lset_proj (Some (o_proj o (width rows), o_offsets o))
                              (lset_dim (Some (width rows)) s))).
  Qed.

  (** The steps, run without interruption, are the call of the sequential model. *)
  Theorem C76_steps_are_the_call : forall o rows metadata (s : lshi),
    finish (insert_steps T hs P empty o rows metadata) s =
    lsh_insert T hs P empty o (Mat rows) metadata s.
  Proof.
    intros o rows metadata s. unfold insert_steps, lsh_insert.
    rewrite finish_bind, finish_add. unfold bind at 1, lift.
    destruct metadata as [l|]; simpl py_len; cbv zeta; unfold bind;
      destruct (lsh_add _ _ _ _ _ _ s) as [[ids|e] s1]; reflexivity.
  Qed.

  (** ** What every schedule keeps *)

  (** Running [p] appends exactly the vectors of [rows], in this order, and changes the list of
      vectors in no other way (if it raises, a prefix). *)
  Fixpoint emits {A} (p : prog lshi A) (rows : list (list F)) : Prop :=
    match p with
    | Return (Ok _) => rows = []
    | Return (Raise _) => True
    | Step f =>
        forall s, match f s with
                  | (p', s') =>
                      (l_vectors s' = l_vectors s /\ emits p' rows) \/
                      (exists v rest, rows = v :: rest /\
                         l_vectors s' = l_vectors s ++ [Some v] /\ emits p' rest)
                  end
    end.

  Lemma emits_bind {A B} (p : prog lshi A) (k : A -> prog lshi B) r2 : forall r1,
    emits p r1 -> (forall a, emits (k a) r2) -> emits (pbind p k) (r1 ++ r2).
  Proof.
    induction p as [[a|e]|f IH] using prog_induction; intros r1 Hp Hk.
    - simpl in Hp. subst r1. apply Hk.
    - exact I.
    - simpl in *. intros s. specialize (Hp s). specialize (IH s).
      destruct (f s) as [p' s']. simpl in IH.
      destruct Hp as [[E Hp]|[v [rest [-> [E Hp]]]]].
      + left. auto.
      + right. exists v, (rest ++ r2). auto.
  Qed.

  (** A step that leaves the vectors alone. *)
  Lemma emits_quiet {A} (m : M lshi A) :
    (forall s, l_vectors (snd (m s)) = l_vectors s) -> emits (atomic m) [].
  Proof.
    intros Hm s. specialize (Hm s). simpl. destruct (m s) as [[a|e] s']; simpl in *; left; auto.
  Qed.

  Lemma emits_then {A B} (m : M lshi A) (k : A -> prog lshi B) rows :
    (forall s, l_vectors (snd (m s)) = l_vectors s) -> (forall a, emits (k a) rows) ->
    emits (pbind (atomic m) k) rows.
  Proof. intros Hm Hk. apply (emits_bind (atomic m) k rows []); auto. now apply emits_quiet. Qed.

  Lemma emits_raise {A} (e : exn) rows : emits (A := A) (Return (Raise e)) rows.
  Proof. exact I. Qed.

  Lemma emits_put codes id : emits (put_steps codes id) [].
  Proof.
    unfold put_steps. induction (enumerate codes) as [|[t c] l IH]; [reflexivity|]. cbn [pforM].
    apply emits_then; [|auto]. intros s. unfold on_table, bind, get.
    destruct (nth_error (l_tables s) t); reflexivity.
  Qed.

  Lemma emits_add_one v m : emits (add_one_steps T hs P v m) [v].
  Proof.
    unfold add_one_steps, read. do 2 (apply emits_then; [reflexivity|intros ?]).
    apply emits_then; [reflexivity|intros _].
    apply (emits_bind _ _ [] [v]).
    - intros s. right. exists v, []. repeat split.
    - intros _. apply emits_then.
      + intros s. unfold bind, lift. destruct (copy_meta m); reflexivity.
      + intros _. apply emits_then.
        * intros s. unfold lsh_hash_vector, bind, get. destruct (l_proj s); reflexivity.
        * intros codes. apply (emits_bind _ _ [] []); [apply emits_put|reflexivity].
  Qed.

  Lemma emits_add_all pairs :
    emits (pmapM pairs (fun '(v, m) => add_one_steps T hs P v m)) (map fst pairs).
  Proof.
    induction pairs as [|[v m] pairs IH]; [reflexivity|]. cbn [pmapM map fst].
    apply (emits_bind _ _ (map fst pairs) [v]); [apply emits_add_one|]. intros id.
    rewrite <- (app_nil_r (map fst pairs)). apply emits_bind; [exact IH|reflexivity].
  Qed.

  Lemma forM_lift_state {A} (l : list A) (f : A -> result unit) (s : lshi) :
    snd (forM l (fun a => lift (f a)) s) = s.
  Proof.
    induction l as [|a l IH]; simpl; auto. unfold bind, lift. destruct (f a); auto.
  Qed.

  Lemma emits_add o rows metas : emits (add_steps T hs P o rows metas) rows.
  Proof.
    unfold add_steps, read. apply emits_then; [reflexivity|intros opened].
    destruct (negb opened); [apply emits_raise|].
    destruct (Nat.eqb_spec (length rows) (length metas)) as [El|_]; simpl negb; cbv iota;
      [|apply emits_raise].
    apply emits_then; [reflexivity|intros d].
    apply (emits_bind _ _ rows []).
    - destruct d as [d|]; [reflexivity|]. apply emits_then; [reflexivity|intros _].
      apply emits_quiet. intros s. unfold bind, get. destruct (l_dim s); reflexivity.
    - intros _. apply emits_then; [reflexivity|intros d1]. destruct d1 as [dim|]; [|apply emits_raise].
      destruct (negb _); [apply emits_raise|].
      apply emits_then; [intros s; now rewrite forM_lift_state|intros _].
      pose proof (emits_add_all (combine rows metas)) as Hc.
      replace (map fst (combine rows metas)) with rows in Hc; [exact Hc|].
      revert El. clear. revert metas. induction rows as [|r rows IH]; intros [|m metas] El;
        try discriminate; simpl; f_equal. apply IH. now injection El.
  Qed.

  Lemma emits_insert o rows metadata : emits (insert_steps T hs P empty o rows metadata) rows.
  Proof.
    unfold insert_steps. rewrite <- (app_nil_r rows) at 2. apply emits_bind; [|reflexivity].
    apply emits_add.
  Qed.

  (** The rows of thread [t] in a record of who appended what. *)
  Definition rows_of (t : nat) (log : list (nat * list F)) : list (list F) :=
    map snd (filter (fun e => Nat.eqb (fst e) t) log).

  Lemma threads_emit {A} sched : forall (ps : nat -> prog lshi A) (left : nat -> list (list F)) s,
    (forall t, emits (ps t) (left t)) ->
    exists log left',
      l_vectors (snd (threads sched ps s)) = l_vectors s ++ map (fun e => Some (snd e)) log /\
      forall t, emits (fst (threads sched ps s) t) (left' t) /\ left t = rows_of t log ++ left' t.
  Proof.
    induction sched as [|t sched IH]; intros ps rows s Hps; simpl.
    - exists [], rows. simpl. rewrite app_nil_r. auto.
    - pose proof (Hps t) as Ht. destruct (ps t) as [r|f] eqn:Et; [apply IH, Hps|].
      simpl in Ht. specialize (Ht s). destruct (f s) as [p' s'].
      destruct Ht as [[E Hp]|[v [rest [Er [E Hp]]]]].
      + destruct (IH (fun u => if Nat.eqb u t then p' else ps u) rows s') as [log [left' [E2 H2]]].
        { intros u. destruct (Nat.eqb_spec u t) as [->|Hu]; auto. }
        exists log, left'. rewrite E2, E. auto.
      + destruct (IH (fun u => if Nat.eqb u t then p' else ps u)
                     (fun u => if Nat.eqb u t then rest else rows u) s') as [log [left' [E2 H2]]].
        { intros u. destruct (Nat.eqb_spec u t) as [->|Hu]; auto. }
        exists ((t, v) :: log), left'. split.
        * rewrite E2, E, <- app_assoc. reflexivity.
        * intros u. destruct (H2 u) as [H3 H4]. split; [exact H3|]. unfold rows_of. simpl.
          rewrite Nat.eqb_sym. destruct (Nat.eqb_spec u t) as [->|Hu].
          -- simpl. rewrite Er. f_equal. exact H4.
          -- exact H4.
  Qed.
End Race.

(** C76, vectors: under every schedule of any number of threads inserting into one index, the
    stored vectors are those stored before followed by a merge of the threads' rows: no row is
    lost, repeated or changed.  (Missing: that ids are distinct and belong to the right vectors;
    see the refutations.) *)
Theorem C76_no_vector_lost_partial {F Mt} `{Num F} `{Payload (list F) Mt} :
  forall T hs P empty (o : nat -> lsh_orc F) (rows : nat -> list (list F))
         (metas : nat -> option (list (option Mt))) sched (s : lsh F Mt),
    let after := threads sched (fun t => insert_steps T hs P empty (o t) (rows t) (metas t)) s in
    exists log : list (nat * list F),
      l_vectors (snd after) = l_vectors s ++ map (fun e => Some (snd e)) log /\
      forall t, exists todo, rows t = rows_of t log ++ todo /\
        (forall ids, fst after t = Return (Ok ids) -> todo = []).
Proof.
  intros T hs P empty o rows metas sched s after.
  destruct (threads_emit sched (fun t => insert_steps T hs P empty (o t) (rows t) (metas t)) rows s)
    as [log [left' [E Hl]]].
  { intros t. apply emits_insert. }
  exists log. split; [exact E|]. intros t. destruct (Hl t) as [H1 H2].
  exists (left' t). split; [exact H2|]. intros ids Er. fold after in H1. rewrite Er in H1. exact H1.
Qed.

(** ** One call after the other *)

Section Serial.
  Context {F Mt : Type} `{Num F} `{!NumOrder F} `{Payload (list F) Mt}.
  Context (T hs P : nat) (lmt : lsh_metric) (threshold : F) (empty : Mt).
  Notation lshi := (lsh F Mt).

  (** A batch handed to the index. *)
  Record batch : Type := MkBatch {
    b_orc : lsh_orc F; b_rows : list (list F); b_metas : list (option Mt)
  }.

  (** A batch of vectors of dimension [d] with a dictionary for each. *)
  Definition batch_ok (d : nat) (b : batch) : Prop :=
    lsh_orc_ok P (b_orc b) /\ length (b_rows b) = length (b_metas b) /\ b_rows b <> [] /\
    Forall (fun r => length r = d /\ forallb nfinite r = true) (b_rows b) /\
    Forall (fun m => meta_fine (F := F) m) (b_metas b).

  Definition insert_call (b : batch) : prog lshi (list pystr) :=
    insert_steps T hs P empty (b_orc b) (b_rows b) (Some (b_metas b)).

  (** Calls run one after the other: what a pool with one worker does, in any order. *)
  Fixpoint in_turn (bs : list batch) (s : lshi) : list (result (list pystr)) * lshi :=
    match bs with
    | [] => ([], s)
    | b :: rest =>
        let (r, s1) := finish (insert_call b) s in
        let (rs, s2) := in_turn rest s1 in (r :: rs, s2)
    end.

  Definition pairs (b : batch) : list (list F * option Mt) := combine (b_rows b) (b_metas b).

  Lemma in_turn_ok d bs : lsh_config T hs P lmt empty -> 1 <= d -> forall s x,
    linv T hs P s x -> sl_open s = true -> (sl_dim s = None \/ sl_dim s = Some d) ->
    Forall (batch_ok d) bs ->
    exists idss x', in_turn bs x = (map Ok idss, x') /\
      map (@length _) idss = map (fun b => length (b_rows b)) bs /\
      concat idss = map str_nat (seq (length (sl_slots s)) (length (concat (map pairs bs)))) /\
      exists dm, linv T hs P (MkSl true dm (sl_slots s ++
               map (fun '(v, m) => Some (v, the_meta empty m)) (concat (map pairs bs)))) x'.
  Proof.
    intros (C1 & C2 & C3 & C4 & C5) Hd. induction bs as [|b bs IH]; intros s x HI Ho Hdim Hbs.
    - exists [], x. simpl. repeat split; auto. exists (sl_dim s). rewrite app_nil_r.
      destruct s. simpl in *. now subst.
    - pose proof (Forall_inv Hbs) as (O1 & O2 & O3 & O4 & O5).
      pose proof (Forall_inv_tail Hbs) as Hbs'.
      assert (width (b_rows b) = d) as Ew.
      { destruct (b_rows b) as [|r l]; [congruence|]. simpl. now apply Forall_inv in O4. }
      assert (lfits P s (LInsert (b_orc b) (Mat (b_rows b)) (Some (b_metas b)))) as Hfit.
      { split; [exact O1|]. split.
        - intros rows [= <-]. rewrite Ew. eapply Forall_impl; [|exact O4]. simpl. tauto.
        - intros l m [= <-] Hin. rewrite Forall_forall in O5. auto. }
      destruct (insert_ok T hs P lmt threshold empty C5 C1 C2 C3 s x _ _ _ HI Hfit) as [Hans Hinv].
      cbn [lsh_step fst snd] in Hans, Hinv. cbn [lans_ok metas_for] in Hans.
      cbn [sl_next metas_for] in Hinv.
      assert (dim_for s (b_rows b) = d) as Edf.
      { unfold dim_for. destruct Hdim as [-> | ->]; auto. }
      assert (rows_ok d (b_rows b) = true) as Erows.
      { unfold rows_ok. rewrite Ew, Nat.eqb_refl. simpl. apply forallb_forall.
        intros r Hr. rewrite Forall_forall in O4. destruct (O4 r Hr) as [Er ->].
        destruct (Nat.eqb_spec (length r) 0); [lia|reflexivity]. }
      rewrite Ho, O2, Nat.eqb_refl, Edf, Erows in Hans, Hinv. simpl andb in Hans, Hinv.
      cbv iota in Hans, Hinv.
      destruct (lsh_insert T hs P empty (b_orc b) (Mat (b_rows b)) (Some (b_metas b)) x)
        as [[ids|e] x1] eqn:Ei; simpl in Hans, Hinv; [|discriminate].
      injection Hans as ->.
      destruct (IH _ x1 Hinv eq_refl (or_intror eq_refl) Hbs') as (idss & x' & E1 & E2 & E3 & dm & I1).
      exists (map (fun i => str_nat (length (sl_slots s) + i)) (seq 0 (length (b_metas b))) :: idss), x'.
      assert (length (pairs b) = length (b_metas b)) as Elp.
      { unfold pairs. rewrite combine_length, O2. apply Nat.min_id. }
      split; [|split; [|split]].
      + cbn [in_turn map]. unfold insert_call. rewrite C76_steps_are_the_call, Ei, E1. reflexivity.
      + simpl. rewrite map_length, seq_length, E2, O2. reflexivity.
      + simpl. rewrite E3. cbn [sl_slots]. unfold new_slots. cbn [metas_for].
        rewrite !app_length, map_length. fold (pairs b). rewrite Elp.
        rewrite seq_app, map_app. f_equal.
        replace (seq (length (sl_slots s)) (length (b_metas b)))
          with (map (fun i => length (sl_slots s) + i) (seq 0 (length (b_metas b)))).
        * rewrite map_map. reflexivity.
        * rewrite <- seq_shifted, Nat.add_0_r. reflexivity.
      + exists dm. simpl. cbn [sl_slots] in I1. unfold new_slots in I1. cbn [metas_for] in I1.
        rewrite map_app, app_assoc. exact I1.
  Qed.
End Serial.

(** C76, one worker: after any history that leaves the index open, batches inserted one after the
    other, in whatever order they come, get ids that are pairwise distinct, as many as rows, and
    under each id the index holds the vector and the metadata it was given for.
    (Missing: calls that overlap; see the refutations.) *)
Theorem C76_one_at_a_time_partial {F Mt} `{Num F} `{!NumOrder F} `{Payload (list F) Mt} :
  forall T hs P lmt threshold (empty : Mt) ops d (bs : list batch),
    lsh_config T hs P lmt empty -> lhistory P empty no_slots ops -> 1 <= d ->
    sl_open (sl_after empty ops) = true ->
    (sl_dim (sl_after empty ops) = None \/ sl_dim (sl_after empty ops) = Some d) ->
    Forall (batch_ok (F := F) P d) bs ->
    exists idss x',
      in_turn T hs P empty bs (lsh_after T hs P lmt threshold empty ops) = (map Ok idss, x') /\
      map (@length _) idss = map (fun b => length (b_rows b)) bs /\
      NoDup (concat idss) /\
      Forall2 (fun id '(v, m) => exists i, id = str_nat i /\
                 nth_error (l_vectors x') i = Some (Some v) /\
                 exists dm, m = Some dm /\ nth_error (l_metadata x') i = Some (Some dm))
              (concat idss) (concat (map pairs bs)).
Proof.
  intros T hs P lmt threshold empty ops d bs Hc Hh Hd Ho Hdim Hbs.
  destruct (in_turn_ok T hs P lmt threshold empty d bs Hc Hd _ _
              (reached T hs P lmt threshold empty ops Hc Hh) Ho Hdim Hbs)
    as (idss & x' & E1 & E2 & E3 & dm & HI).
  exists idss, x'. split; [exact E1|]. split; [exact E2|]. split.
  - rewrite E3. apply FinFun.Injective_map_NoDup; [|apply seq_NoDup].
    intros a b. apply str_nat_inj.
  - assert (Forall (fun p => meta_fine (F := F) (snd p)) (concat (map pairs bs))) as Hm.
    { apply Forall_concat. rewrite Forall_map. eapply Forall_impl; [|exact Hbs].
      intros b (_ & _ & _ & _ & O5). rewrite Forall_forall in *. intros [v m] Hin.
      apply in_combine_r in Hin. auto. }
    rewrite E3. pose proof (li_vectors _ _ _ _ _ HI) as Ev. pose proof (li_meta _ _ _ _ _ HI) as Em.
    cbn [sl_slots] in Ev, Em. rewrite map_app in Ev, Em.
    set (n0 := length (sl_slots _)) in *.
    assert (length (map (option_map fst) (sl_slots (sl_after empty ops))) = n0 /\
            length (map (option_map snd) (sl_slots (sl_after empty ops))) = n0) as [L1 L2].
    { now rewrite !map_length. }
    clear E1 E2 E3 HI Hbs. revert Ev Em L1 L2.
    generalize (map (option_map fst) (sl_slots (sl_after empty ops))).
    generalize (map (option_map snd) (sl_slots (sl_after empty ops))).
    revert Hm. generalize n0. induction (concat (map pairs bs)) as [|[v m] l IH];
      intros n Hm ms vs Ev Em L1 L2; simpl; constructor.
    + exists n. split; auto. simpl in Ev, Em.
      rewrite Ev, Em, !nth_error_app2 by lia. rewrite L1, L2, Nat.sub_diag. simpl.
      split; auto. apply Forall_inv in Hm. destruct Hm as (dd & E & _). simpl in E. subst m.
      exists dd. auto.
    + apply (IH (S n) (Forall_inv_tail Hm) (ms ++ [Some (the_meta empty m)]) (vs ++ [Some v])).
      * rewrite Ev. simpl. now rewrite <- app_assoc.
      * rewrite Em. simpl. now rewrite <- app_assoc.
      * rewrite app_length. simpl. lia.
      * rewrite app_length. simpl. lia.
Qed.

(** ** Examples and refutations *)

Definition race_start : lsh Z Z := lsh_after 2 2 3 LEuclidean 0%Z 0%Z [LInit; demo_insert].

(** Two threads inserting [rows0] and [rows1] into the index that holds ids 0, 1 and 2. *)
Definition race (rows0 rows1 : list (list Z)) (sched : list nat) :=
  threads sched
    (fun t => insert_steps 2 2 3 0%Z demo_lsh_orc
                (match t with 0 => rows0 | _ => rows1 end)
                (Some (map (fun r => Some (hd 0%Z r)) (match t with 0 => rows0 | _ => rows1 end))))
    race_start.

Example C76_no_vector_lost_case :
  let after := race [[5; 1]; [6; 1]]%Z [[7; 1]]%Z
                 (repeat 0 5 ++ repeat 1 12 ++ repeat 0 20) in
  fst after 0 = Return (Ok [py "3"; py "5"]) /\ fst after 1 = Return (Ok [py "3"]) /\
  l_vectors (snd after) = l_vectors race_start ++ map Some [[7; 1]; [5; 1]; [6; 1]]%Z.
Proof. vm_compute. auto. Qed.

Example C76_one_at_a_time_case :
  let bs := [MkBatch demo_lsh_orc [[5; 1]; [6; 1]]%Z [Some 5; Some 6]%Z;
             MkBatch demo_lsh_orc [[7; 1]]%Z [Some 7]%Z] in
  lsh_config (F := Z) 2 2 3 LEuclidean 0%Z /\ lhistory 3 0%Z no_slots demo_lsh_ops /\
  sl_open (sl_after 0%Z demo_lsh_ops) = true /\
  sl_dim (sl_after 0%Z demo_lsh_ops) = Some 2 /\
  Forall (batch_ok (F := Z) 3 2) bs /\
  fst (in_turn 2 2 3 0%Z bs (lsh_after 2 2 3 LEuclidean 0%Z 0%Z demo_lsh_ops)) =
    [Ok [py "4"; py "5"]; Ok [py "6"]].
Proof.
  assert (forall z : Z, (0 <= z)%Z -> meta_fine (F := Z) (Some z)) as Hm.
  { intros z Hz. exists z. split; auto. simpl. lia. }
  split; [apply demo_lsh_config|]. split; [apply demo_lsh_fit|].
  split; [reflexivity|]. split; [reflexivity|]. split; [|vm_compute; reflexivity].
  repeat (apply Forall_cons || apply Forall_nil || (split; [apply demo_lsh_orc_ok|]));
    (split; [reflexivity|split; [discriminate|]]); split; repeat constructor; apply Hm; lia.
Qed.

(** C76 fails: two threads that both read the counter before either writes it get the same id. *)
Theorem C76_duplicate_ids_refuted : exists rows0 rows1 sched ids0 ids1 id,
  fst (race rows0 rows1 sched) 0 = Return (Ok ids0) /\
  fst (race rows0 rows1 sched) 1 = Return (Ok ids1) /\ In id ids0 /\ In id ids1.
Proof.
  exists [[5; 1]]%Z, [[7; 1]]%Z, (repeat 0 5 ++ repeat 1 12 ++ repeat 0 7),
         [py "3"], [py "3"], (py "3").
  vm_compute. auto 6.
Qed.

(** C76 fails within one thread's answer: a thread that is late in writing the counter sets it
    back, and the other thread is given an id it already has. *)
Theorem C76_own_ids_repeat_refuted : exists rows0 rows1 sched ids1,
  fst (race rows0 rows1 sched) 1 = Return (Ok ids1) /\ ~ NoDup ids1.
Proof.
  exists [[5; 1]]%Z, [[7; 1]; [8; 1]; [9; 1]]%Z,
         (repeat 0 6 ++ repeat 1 20 ++ repeat 0 6 ++ repeat 1 8), [py "3"; py "4"; py "4"].
  split; [vm_compute; reflexivity|]. intros Hd. inversion Hd as [|? ? _ H2]; subst.
  inversion H2 as [|? ? H3 _]; subst. apply H3. simpl. auto.
Qed.

(** C76 fails with distinct ids too: the vector and the metadata under the id a thread was given
    for its row are those of the other thread. *)
Theorem C76_wrong_vector_refuted : exists v0 v1 sched i0 i1,
  let after := race [v0] [v1] sched in
  fst after 0 = Return (Ok [str_nat i0]) /\ fst after 1 = Return (Ok [str_nat i1]) /\ i0 <> i1 /\
  v0 <> v1 /\
  nth_error (l_vectors (snd after)) i0 = Some (Some v1) /\
  nth_error (l_vectors (snd after)) i1 = Some (Some v0) /\
  nth_error (l_metadata (snd after)) i0 = Some (Some (hd 0%Z v1)).
Proof.
  exists [5; 1]%Z, [7; 1]%Z, (repeat 0 7 ++ repeat 1 12 ++ repeat 0 5), 3, 4. cbv zeta.
  split; [vm_compute; reflexivity|]. split; [vm_compute; reflexivity|].
  split; [discriminate|]. split; [discriminate|]. vm_compute. auto.
Qed.

(** The first insertions race as well: both threads find no dimension, both draw projections, and
    a vector hashed with the first ones is not found any more. *)
Theorem C76_projections_refuted : exists (o0 o1 : lsh_orc Z) (v : list Z) sched hits,
  lsh_orc_ok 3 o0 /\ lsh_orc_ok 3 o1 /\
  let after := threads sched
                 (fun t => insert_steps 2 2 3 0%Z (match t with 0 => o0 | _ => o1 end) [v] None)
                 (lsh_after 2 2 3 LEuclidean 0%Z 0%Z [LInit]) in
  fst after 0 = Return (Ok [py "0"]) /\ fst after 1 = Return (Ok [py "1"]) /\
  fst (lsh_step 2 2 3 LEuclidean 0%Z 0%Z (LSearch o0 (Vec v) 10) (snd after)) = LHits hits /\
  ~ In 0%Z (map lh_id hits).
Proof.
  exists (MkLshOrc (fun d => repeat (repeat 1%Z d) 3) [0; 0; 0]%Z (fun l => l)),
         (MkLshOrc (fun d => repeat (repeat (-1)%Z d) 3) [0; 0; 0]%Z (fun l => l)),
         [1; 2]%Z, (repeat 1 2 ++ repeat 0 14 ++ repeat 1 14),
         [MkLhit 1%Z 1%Z (Some 0%Z)].
  split; [|split].
  1, 2: split; [|split; reflexivity]; intros d; simpl; split; auto;
        repeat constructor; apply repeat_length.
  cbv zeta. split; [vm_compute; reflexivity|]. split; [vm_compute; reflexivity|].
  split; [vm_compute; reflexivity|]. simpl. intros [E|[]]. discriminate.
Qed.

Print Assumptions C76_steps_are_the_call.
Print Assumptions C76_no_vector_lost_partial.
Print Assumptions C76_one_at_a_time_partial.
Print Assumptions C76_duplicate_ids_refuted.
Print Assumptions C76_own_ids_repeat_refuted.
Print Assumptions C76_wrong_vector_refuted.
Print Assumptions C76_projections_refuted.
