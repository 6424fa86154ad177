(** Property C13 (and C109): several threads use one in-memory backend. *)

From Coq Require Import List Arith ZArith NArith Lia Bool Permutation.
From Coq Require String.
Import (notations) Coq.Strings.String.
From Verif Require Import PyBase BaseLemmas Payload StorageModel StorageSpec StorageRun
  StorageProofs StorageThms StepModel StepProofs ConcModel Demo.
Import ListNotations.

(** ** What a concurrent history must look like *)

Section Linear.
  Context {V Mt : Type} `{Payload V Mt}.

  (** A thread between calls, inside a call that has not taken effect, inside one that has. *)
  Inductive status : Type :=
  | Free
  | Pending (o : sop V Mt)
  | Answered (r : sret V Mt).

  (** [linearises a P h a' P']: starting in the specification's state [a] with the threads in
      [P], the history [h] can be explained, ending in [a'] and [P']: each call takes effect at
      one instant between its invocation and its return, with the answer and the effect the
      sequential specification ([sp_ans], [sp_next]) gives it there. *)
  Inductive linearises : sstate V Mt -> (nat -> status) -> list (event (V:=V) (Mt:=Mt)) ->
      sstate V Mt -> (nat -> status) -> Prop :=
  | lz_end a P : linearises a P [] a P
  | lz_inv a P t o h a' P' :
      P t = Free -> linearises a (upd P t (Pending o)) h a' P' ->
      linearises a P (Inv t o :: h) a' P'
  | lz_effect a P t o r h a' P' :
      P t = Pending o -> sp_ans true (Some rec_size) (fun i => i) a o r ->
      linearises (sp_next false (fun i => i) a o) (upd P t (Answered r)) h a' P' ->
      linearises a P h a' P'
  | lz_res a P t r h a' P' :
      P t = Answered r -> linearises a (upd P t Free) h a' P' ->
      linearises a P (Res t r :: h) a' P'.

  (** Calls of the concurrent part: ordinary metadata, and no [close] (nor process restart). *)
  Definition no_close (o : sop V Mt) : Prop :=
    match o with OClose | OReopen => False | _ => op_copy o end.

  (** The specification's state after a sequential history. *)
  Definition spec_after (ops : list (sop V Mt)) : sstate V Mt :=
    fold_left (sp_next false (fun i => i)) ops (MkS false []).

  (** ** Bodies *)

  (** No step but the last changes the flag. *)
  Fixpoint quiet {A} (p : prog (mem V Mt) A) : Prop :=
    match p with
    | Return _ => True
    | Step f =>
        forall s, match f s with
                  | (p', s') => (match p' with Return _ => True | _ => m_init s' = m_init s end) /\
                                quiet p'
                  end
    end.

  Lemma quiet_body o : quiet (body o).
  Proof.
    assert (forall A (p : prog (mem V Mt) A) E, quiet p -> quiet (pwrap E p)) as Hw.
    { intros A p E. induction p as [[a|e]|f IH] using prog_induction; simpl; auto.
      intros Hq s. specialize (Hq s). specialize (IH s). destruct (f s) as [p' s'].
      simpl in *. destruct Hq as [Hq1 Hq2]. split; auto. destruct p' as [[a|e]|g]; auto. }
    assert (forall A B (m : M (mem V Mt) A) (k : A -> prog (mem V Mt) B),
              (forall s, m_init (snd (m s)) = m_init s) -> (forall a, quiet (k a)) ->
              quiet (pbind (atomic m) k)) as Hb.
    { intros A B m k Hm Hk s. specialize (Hm s). simpl. destruct (m s) as [[a|e] s']; simpl in *.
      - split; auto. destruct (k a); auto.
      - auto. }
    assert (forall b, quiet (atomic (set_flag (V := V) (Mt := Mt) b) ;~ Return (Ok (RUnit (V:=V) (Mt:=Mt))))) as Hs.
    { intros b s. simpl. auto. }
    assert (forall id m, forall s, m_init (snd (mem_write_meta (V := V) (Mt := Mt) id m s)) = m_init s) as Hm.
    { intros id m s. unfold mem_write_meta. destruct m as [m|]; [destruct (copyable m)|];
        reflexivity. }
    assert (forall A (m : M (mem V Mt) A), (forall s, snd (m s) = s) ->
              forall s, m_init (snd (m s)) = m_init s) as Hr by (intros A m Hm' s; now rewrite Hm').
    assert (forall id s, snd (fetch_vector (V := V) (Mt := Mt) id s) = s) as Hf.
    { intros id s. unfold fetch_vector, bind, get. now destruct (dget id _). }
    destruct o as [|id v m|id|id|id v m|limit| | |]; unfold body; try apply Hw.
    - do 4 (apply Hb; [reflexivity|intros _]). apply Hs.
    - apply Hb; [reflexivity|intros _]. apply Hb; [apply Hm|intros _].
      do 2 (apply Hb; [reflexivity|intros _]). exact I.
    - apply Hb; [reflexivity|intros []]; [|exact I].
      apply Hb; [apply Hr, Hf|intros x]. apply Hb; [reflexivity|intros y]. exact I.
    - apply Hb; [reflexivity|intros []]; [|exact I].
      do 4 (apply Hb; [reflexivity|intros _]). exact I.
    - apply Hb; [reflexivity|intros []]; [|exact I].
      apply Hb; [reflexivity|intros _]. apply Hb; [apply Hm|intros _].
      apply Hb; [reflexivity|intros _]. exact I.
    - apply Hb; [reflexivity|intros x]. exact I.
    - apply Hb; [reflexivity|intros x]. apply Hb; [reflexivity|intros y]. exact I.
    - do 4 (apply Hb; [reflexivity|intros _]). apply Hs.
    - do 4 (apply Hb; [reflexivity|intros _]). apply Hs.
  Qed.

  (** Past the test, the body run without interruption is the call of the sequential model. *)
  Lemma finish_body o s : early o s = None -> o <> OReopen ->
    let (r, s') := finish (body o) s in sc_step mem_class s o = (answer r, s').
  Proof.
    intros He Hn. destruct o as [|id v m|id|id|id v m|limit| | |]; unfold body.
    - reflexivity.
    - destruct id as [|c id]; [discriminate|]. unfold early in He.
      destruct (m_init s) eqn:Ei; [|discriminate].
      rewrite finish_wrap. unfold wrap. rewrite finish_bind, finish_atomic.
      unfold sc_step. cbn [sc_store mem_class]. unfold mem_store, bind at 1, get. rewrite Ei.
      cbv beta iota delta [negb]. unfold wrap, bind, mem_write_vec, modify.
      rewrite finish_bind, finish_atomic.
      destruct (mem_write_meta _ _ _) as [[u|e] s1]; reflexivity.
    - unfold early in He. destruct (m_init s) eqn:Ei; [|discriminate].
      unfold sc_step. cbn [sc_retrieve mem_class]. unfold mem_retrieve, bind, get. rewrite Ei.
      cbv beta iota delta [negb]. rewrite finish_bind, finish_atomic. unfold contains, bind, get, ret.
      unfold dmem. destruct (dget id (m_vectors s)) as [v|] eqn:Ev; [|reflexivity].
      rewrite finish_bind, finish_atomic. unfold fetch_vector, bind, get, ret. rewrite Ev.
      reflexivity.
    - unfold early in He. destruct (m_init s) eqn:Ei; [|discriminate].
      unfold sc_step. cbn [sc_delete mem_class]. unfold mem_delete, bind at 1, get. rewrite Ei.
      cbv beta iota delta [negb]. rewrite finish_wrap. unfold wrap.
      rewrite finish_bind, finish_atomic. unfold contains, bind at 1, get, ret.
      destruct (dmem id (m_vectors s)); reflexivity.
    - unfold early in He. destruct (m_init s) eqn:Ei; [|discriminate].
      unfold sc_step. cbn [sc_update mem_class]. unfold mem_update, bind at 1, get. rewrite Ei.
      rewrite finish_wrap. unfold wrap.
      rewrite finish_bind, finish_atomic. unfold contains, bind at 1, get, ret.
      destruct (dmem id (m_vectors s)); cbv beta iota delta [negb]; [|reflexivity].
      rewrite finish_bind, finish_atomic. unfold bind, mem_write_vec, modify.
      rewrite finish_bind, finish_atomic.
      destruct (mem_write_meta _ _ _) as [[u|e] s1]; reflexivity.
    - unfold early in He. destruct (m_init s) eqn:Ei; [|discriminate].
      unfold sc_step. cbn [sc_list mem_class]. unfold mem_list, bind, get. rewrite Ei.
      simpl. destruct limit; reflexivity.
    - unfold early in He. destruct (m_init s) eqn:Ei; [|discriminate].
      unfold sc_step. cbn [sc_stats mem_class]. unfold mem_get_stats, bind, get. rewrite Ei.
      reflexivity.
    - reflexivity.
    - congruence.
  Qed.

  (** A call answered by the test: the sequential call gives that answer and changes nothing. *)
  Lemma early_answer o s r : early o s = Some r -> sc_step mem_class s o = (r, s).
  Proof.
    destruct o as [|[|c id] v m|id|id|id v m|limit| | |]; unfold early; try discriminate;
      intros E; try (injection E as <-; reflexivity);
      destruct (m_init s) eqn:Ei; try discriminate; injection E as <-; unfold sc_step;
        cbn [sc_store sc_retrieve sc_delete sc_update sc_list sc_stats mem_class];
        unfold mem_store, mem_retrieve, mem_delete, mem_update, mem_list, mem_get_stats, bind, get;
        rewrite Ei; reflexivity.
  Qed.

  (** The test looks at the flag only. *)
  Lemma early_flag (o : sop V Mt) (s s' : mem V Mt) : m_init s = m_init s' -> early o s = early o s'.
  Proof. intros E. unfold early. rewrite E. reflexivity. Qed.

  Lemma early_open (o : sop V Mt) (s s' : mem V Mt) : early o s = None -> (m_init s = true -> m_init s' = true) ->
    early o s' = None.
  Proof.
    destruct o as [|[|c id] v m|id|id|id v m|limit| | |]; unfold early; auto;
      destruct (m_init s); try discriminate; intros _ Hm; now rewrite Hm.
  Qed.

  Lemma flag_next a s o :
    Amem a s -> no_close o -> m_init s = true ->
    m_init (snd (sc_step mem_class s o)) = true.
  Proof.
    intros Ha Ho Hi. assert (op_copy o) as Hc by (destruct o; simpl in *; tauto).
    pose proof (mem_step_refines a s o Ha Hc) as Hs.
    destruct (sc_step mem_class s o) as [r s']. destruct Hs as [_ [_ [Hi' _]]]. simpl.
    rewrite Hi'. destruct Ha as [_ [Hi2 _]]. rewrite Hi in Hi2. symmetry in Hi2.
    destruct o as [|id v m|id|id|id v m|limit| | |]; simpl in *; try tauto; rewrite ?Hi2; auto.
    - destruct id; auto.
    - destruct (sp_find id (s_recs a)); auto.
  Qed.

  (** ** The simulation *)

  (** [m0]: the object as the calls that have taken effect leave it. *)
  Record sim (c : config (V:=V) (Mt:=Mt)) (a : sstate V Mt) (P : nat -> status) (m0 : mem V Mt) : Prop := {
    sim_abs : Amem a m0;
    sim_todo : forall t, Forall no_close (c_todo c t);
    sim_thread : forall t,
      match c_threads c t with
      | TIdle => P t = Free
      | TCalled o => P t = Pending o /\ no_close o
      | TWaiting o => P t = Pending o /\ no_close o /\ early o m0 = None
      | TAnswer r => P t = Answered r
      | TInside (Return r) => c_lock c = Some t /\ P t = Answered (answer r)
      | TInside (Step f) =>
          c_lock c = Some t /\
          exists o, P t = Pending o /\ no_close o /\ quiet (Step f) /\
            (let (r, s') := finish (Step f) (c_mem c) in sc_step mem_class m0 o = (answer r, s'))
      end;
    sim_mem :
      match c_lock c with
      | None => c_mem c = m0
      | Some t => match c_threads c t with
                  | TInside (Step _) => m_init (c_mem c) = m_init m0
                  | TInside (Return _) => c_mem c = m0
                  | _ => False
                  end
      end
  }.

  Lemma sim_flag c a P m0 : sim c a P m0 -> m_init (c_mem c) = m_init m0.
  Proof.
    intros [_ _ _ Hm]. destruct (c_lock c) as [t|]; [|congruence].
    destruct (c_threads c t) as [| | |[r|f]|]; try tauto. congruence.
  Qed.

  Lemma upd_same {A} (f : nat -> A) t x : upd f t x t = x.
  Proof. unfold upd. now rewrite Nat.eqb_refl. Qed.

  Lemma upd_other {A} (f : nat -> A) t u x : u <> t -> upd f t x u = f u.
  Proof. intros Hn. unfold upd. destruct (Nat.eqb_spec u t); congruence. Qed.

  Lemma sim_linearises sched : forall c a P m0,
    sim c a P m0 ->
    exists a' P' m0', linearises a P (fst (moves sched c)) a' P' /\
                      sim (snd (moves sched c)) a' P' m0'.
  Proof.
    induction sched as [|t sched IH]; intros c a P m0 Hs; simpl.
    { exists a, P, m0. split; [constructor|exact Hs]. }
    pose proof (sim_thread _ _ _ _ Hs t) as Ht.
    pose proof (sim_flag _ _ _ _ Hs) as Hflag.
    pose proof Hs as [Habs Htodo Hthr Hmem].
    assert (forall ev c' a1 P1 m1, move t c = (ev, c') -> sim c' a1 P1 m1 ->
              (forall h a' P', linearises a1 P1 h a' P' -> linearises a P (ev ++ h) a' P') ->
              let x := (let (e1, c1) := move t c in
                        let (e2, c2) := moves sched c1 in (e1 ++ e2, c2)) in
              exists a' P' m0', linearises a P (fst x) a' P' /\ sim (snd x) a' P' m0') as Hgo.
    { intros ev c' a1 P1 m1 -> Hs1 Hk. destruct (IH c' a1 P1 m1 Hs1) as [a' [P' [m0' [HL HS]]]].
      destruct (moves sched c') as [e2 c2]. exists a', P', m0'. split; [apply Hk, HL|exact HS]. }
    cbv zeta in Hgo.
    destruct (c_threads c t) as [|o|o|[r|f]|r] eqn:Et.
    - (* idle *)
      destruct (c_todo c t) as [|o os] eqn:Eo.
      + eapply (Hgo _ _ a P m0); [unfold move; rewrite Et, Eo; reflexivity|exact Hs|auto].
      + eapply (Hgo _ _ a (upd P t (Pending o)) m0);
          [unfold move; rewrite Et, Eo; reflexivity| |intros h a' P' HL; apply lz_inv; assumption].
        pose proof (Htodo t) as Hto. rewrite Eo in Hto. inversion Hto; subst.
        constructor; simpl; auto.
        * intros u. unfold upd. destruct (Nat.eqb u t); auto.
        * intros u. destruct (Nat.eq_dec u t) as [->|Hu].
          -- rewrite !upd_same. auto.
          -- rewrite !upd_other by auto. apply Hthr.
        * destruct (c_lock c) as [u|]; auto. destruct (Nat.eq_dec u t) as [->|Hu].
          -- now rewrite Et in Hmem.
          -- rewrite upd_other by auto. exact Hmem.
    - (* called *)
      destruct Ht as [HP Hok].
      destruct (early o (c_mem c)) as [r|] eqn:Ee.
      + (* answered by the test: the call takes effect here *)
        rewrite (early_flag _ _ _ Hflag) in Ee. pose proof (early_answer _ _ _ Ee) as Es.
        assert (op_copy o) as Hc by (destruct o; simpl in *; tauto).
        pose proof (mem_step_refines a m0 o Habs Hc) as Hr. rewrite Es in Hr.
        destruct Hr as [Hans Habs'].
        eapply (Hgo _ _ _ (upd P t (Answered r)) m0);
          [unfold move; rewrite Et, (early_flag _ _ _ Hflag), Ee; reflexivity| |
           intros h a' P' HL; eapply lz_effect; eassumption].
        constructor; simpl; [exact Habs'|exact Htodo| |].
        * intros u. destruct (Nat.eq_dec u t) as [->|Hu].
          -- rewrite !upd_same. auto.
          -- rewrite !upd_other by auto. apply Hthr.
        * destruct (c_lock c) as [u|]; [|exact Hmem]. destruct (Nat.eq_dec u t) as [->|Hu].
          -- now rewrite Et in Hmem.
          -- rewrite upd_other by auto. exact Hmem.
      + eapply (Hgo _ _ a P m0); [unfold move; rewrite Et, Ee; reflexivity| |auto].
        constructor; simpl; [exact Habs|exact Htodo| |].
        * intros u. destruct (Nat.eq_dec u t) as [->|Hu].
          -- rewrite !upd_same. split; [exact HP|]. split; [exact Hok|].
             now rewrite <- (early_flag _ _ _ Hflag).
          -- rewrite !upd_other by auto. apply Hthr.
        * destruct (c_lock c) as [u|]; [|exact Hmem]. destruct (Nat.eq_dec u t) as [->|Hu].
          -- now rewrite Et in Hmem.
          -- rewrite upd_other by auto. exact Hmem.
    - (* waiting *)
      destruct Ht as [HP [Hok He]].
      destruct (c_lock c) as [u|] eqn:El.
      + eapply (Hgo _ _ a P m0); [unfold move; rewrite Et, El; reflexivity|exact Hs|auto].
      + eapply (Hgo _ _ a P m0); [unfold move; rewrite Et, El; reflexivity| |auto].
        assert (exists f, body o = Step f) as [f Ef].
        { destruct o; simpl; eauto. }
        assert (o <> OReopen) as Hnr by (intros ->; exact Hok).
        constructor; simpl; [exact Habs|exact Htodo| |].
        * intros u. destruct (Nat.eq_dec u t) as [->|Hu].
          -- rewrite !upd_same. rewrite Ef. split; [reflexivity|]. exists o.
             split; [exact HP|]. split; [exact Hok|].
             pose proof (quiet_body o) as Q. pose proof (finish_body o m0 He Hnr) as F.
             rewrite Ef in Q, F. simpl in F. rewrite Hmem. split; [exact Q|exact F].
          -- rewrite !upd_other by auto. specialize (Hthr u).
             destruct (c_threads c u) as [| | |[r'|f']|]; auto; destruct Hthr; congruence.
        * rewrite upd_same, Ef. congruence.
    - (* the body has ended *)
      destruct Ht as [El HP]. rewrite El, Et in Hmem.
      eapply (Hgo _ _ a P m0); [unfold move; rewrite Et; reflexivity| |auto].
      constructor; simpl; [exact Habs|exact Htodo| |exact Hmem].
      intros u. destruct (Nat.eq_dec u t) as [->|Hu].
      * rewrite !upd_same. exact HP.
      * rewrite !upd_other by auto. specialize (Hthr u).
        destruct (c_threads c u) as [| | |[r'|f']|]; auto; destruct Hthr; congruence.
    - (* a statement of the body *)
      destruct Ht as [El [o [HP [Hok [Hq Hfin]]]]]. rewrite El, Et in Hmem.
      simpl in Hq, Hfin. specialize (Hq (c_mem c)).
      destruct (f (c_mem c)) as [p' s'] eqn:Ef. destruct Hq as [Hq1 Hq2].
      destruct p' as [r|g].
      + (* the last one: the call takes effect here *)
        simpl in Hfin.
        assert (op_copy o) as Hc by (destruct o; simpl in *; tauto).
        pose proof (mem_step_refines a m0 o Habs Hc) as Hr. rewrite Hfin in Hr.
        destruct Hr as [Hans Habs'].
        eapply (Hgo _ _ _ (upd P t (Answered (answer r))) s');
          [unfold move; rewrite Et, Ef; reflexivity| |
           intros h a' P' HL; eapply lz_effect; eassumption].
        constructor; simpl; [exact Habs'|exact Htodo| |].
        * intros u. destruct (Nat.eq_dec u t) as [->|Hu].
          -- rewrite !upd_same. auto.
          -- rewrite !upd_other by auto. specialize (Hthr u).
             destruct (c_threads c u) as [|o'|o'|[r'|f']|]; auto;
               try (destruct Hthr; congruence).
             destruct Hthr as [T1 [T2 T3]]. split; [exact T1|]. split; [exact T2|].
             eapply early_open; [exact T3|]. intros Hi.
             pose proof (flag_next a m0 o Habs Hok Hi) as Hfl. now rewrite Hfin in Hfl.
        * rewrite El, upd_same. reflexivity.
      + eapply (Hgo _ _ a P m0); [unfold move; rewrite Et, Ef; reflexivity| |auto].
        constructor; simpl; [exact Habs|exact Htodo| |].
        * intros u. destruct (Nat.eq_dec u t) as [->|Hu].
          -- rewrite !upd_same. split; [exact El|]. exists o. auto.
          -- rewrite !upd_other by auto. specialize (Hthr u).
             destruct (c_threads c u) as [|o'|o'|[r'|f']|]; auto; destruct Hthr; congruence.
        * rewrite El, upd_same. congruence.
    - (* return *)
      eapply (Hgo _ _ a (upd P t Free) m0);
        [unfold move; rewrite Et; reflexivity| |intros h a' P' HL; eapply lz_res; eassumption].
      constructor; simpl; [exact Habs|exact Htodo| |].
      * intros u. destruct (Nat.eq_dec u t) as [->|Hu].
        -- rewrite !upd_same. auto.
        -- rewrite !upd_other by auto. apply Hthr.
      * destruct (c_lock c) as [u|]; [|exact Hmem]. destruct (Nat.eq_dec u t) as [->|Hu].
        -- now rewrite Et in Hmem.
        -- rewrite upd_other by auto. exact Hmem.
  Qed.
End Linear.

(** C13, every call but [close]: after any history of calls made by one thread, let any number of
    threads make any calls except [close] under any schedule.  The calls and answers seen, finished
    or not, can be explained by one sequential order respecting real time; and once nobody is
    inside the lock, the object answers every later sequence of calls as that order prescribes.
    (Missing: [close] as one of the concurrent calls, see the refutation below.) *)
Theorem C13_linearisable_partial {V Mt : Type} `{Payload V Mt} :
  forall (pre : list (sop V Mt)) (todo : nat -> list (sop V Mt)) (sched : list nat),
    Forall op_copy pre -> (forall t, Forall no_close (todo t)) ->
    let c := fresh_config (after mem_class mem_new pre) todo in
    exists a' P',
      linearises (spec_after pre) (fun _ => Free) (fst (moves sched c)) a' P' /\
      (c_lock (snd (moves sched c)) = None ->
       forall later, Forall op_copy later ->
         conforms false true (Some rec_size) (fun i => i) a' later
                  (answers mem_class (c_mem (snd (moves sched c))) later)).
Proof.
  intros pre todo sched Hpre Htodo c.
  assert (sim c (spec_after pre) (fun _ => Free) (after mem_class mem_new pre)) as Hs.
  { constructor; simpl; auto. apply (mem_run_refines pre (MkS false []) mem_new); auto. apply Amem_new. }
  destruct (sim_linearises sched c _ _ _ Hs) as [a' [P' [m0' [HL HS]]]].
  exists a', P'. split; [exact HL|]. intros Hlock later Hlater.
  destruct HS as [Habs _ _ Hmem]. rewrite Hlock in Hmem. rewrite Hmem.
  apply (mem_run_refines later a' m0'); auto.
Qed.

Section ConcDemo.
  Let V := list Z. Let Mt := Z.
  Let id_a : pystr := py "a".
  Let pre : list (sop V Mt) := [OInit; OStore id_a [1; 2]%Z (Some 5%Z)].

  (** Two threads storing and reading the same id at once. *)
  Let todo (t : nat) : list (sop V Mt) :=
    match t with
    | 1 => [OStore id_a [3; 4]%Z (Some 6%Z); OStats]
    | 2 => [ORetrieve id_a; ODelete id_a]
    | _ => []
    end.
  Let sched := [1; 2; 2; 1; 1; 2; 1; 1; 2; 1; 1; 2; 1; 1; 2; 2; 1; 2; 2; 2; 1; 2; 1; 2; 1; 2; 1; 2; 2; 2; 2; 2; 2; 2; 1; 1; 1; 1; 1; 1; 2; 2].

  Example C13_case :
    Forall op_copy pre /\ (forall t, Forall no_close (todo t)) /\
    fst (moves sched (fresh_config (after mem_class mem_new pre) todo))
    = [Inv 1 (OStore id_a [3; 4]%Z (Some 6%Z)); Inv 2 (ORetrieve id_a);
       Res 1 (RBool true); Inv 1 OStats; Res 2 (RRec (Some ([3; 4]%Z, Some 6%Z)));
       Inv 2 (ODelete id_a); Res 1 (RStats (Some (1%Z, Some 13%N)))].
  Proof.
    split; [repeat constructor|]. split.
    - intros [|[|[|t]]]; simpl; repeat constructor.
    - vm_compute. reflexivity.
  Qed.

  (** ** [close] *)

  (** Thread 1 reads, thread 2 closes. *)
  Let todo' (t : nat) : list (sop V Mt) :=
    match t with
    | 1 => [ORetrieve id_a]
    | 2 => [OClose]
    | _ => []
    end.
  (** Thread 1 passes the test; thread 2 makes its whole call; thread 1 goes on. *)
  Let sched' := [1; 1; 2; 2; 2; 2; 2; 2; 2; 2; 2; 2; 1; 1; 1; 1].

  (** No sequential order gives "no such record": before [close] there is one, after it the call
      is an error. *)
  Lemma never_none a P h a' P' :
    linearises a P h a' P' ->
    (a = spec_after pre \/ s_open a = false) ->
    (forall t, match P t with
               | Free => True
               | Pending o => o = ORetrieve id_a \/ o = OClose
               | Answered r => r <> RRec None
               end) ->
    Forall (fun e => match e with
                     | Inv _ o => o = ORetrieve id_a \/ o = OClose
                     | Res _ _ => True
                     end) h ->
    forall t, ~ In (Res t (RRec None)) h.
  Proof.
    induction 1 as [a P|a P t o h a' P' HP _ IH|a P t o r h a' P' HP Hans _ IH
                    |a P t r h a' P' HP _ IH]; intros Ha Hp Hh u Hin.
    - destruct Hin.
    - inversion Hh; subst. destruct Hin as [E|Hin]; [discriminate|].
      eapply IH; eauto. intros w. unfold upd. destruct (Nat.eqb w t); [auto|apply Hp].
    - pose proof (Hp t) as Hpt. rewrite HP in Hpt.
      eapply IH; eauto.
      + destruct Hpt as [-> | ->]; simpl; auto.
      + intros w. unfold upd. destruct (Nat.eqb w t); [|apply Hp].
        destruct Hpt as [-> | ->].
        * destruct Ha as [-> |Ha]; unfold sp_ans in Hans.
          -- simpl in Hans. rewrite Hans. discriminate.
          -- rewrite Ha in Hans. rewrite Hans. discriminate.
        * simpl in Hans. rewrite Hans. discriminate.
    - inversion Hh; subst. destruct Hin as [E|Hin].
      + injection E as -> ->. specialize (Hp u). rewrite HP in Hp. congruence.
      + eapply IH; eauto. intros w. unfold upd. destruct (Nat.eqb w t); [auto|apply Hp].
  Qed.
End ConcDemo.

(** C13 fails with [close] among the concurrent calls: the test of the flag is made before the
    lock is taken (memory.py:74-77), so a read that passed it can find the emptied dictionaries. *)
Theorem C13_close_refuted :
  exists (pre : list (sop (list Z) Z)) (todo : nat -> list (sop (list Z) Z)) (sched : list nat),
    Forall op_copy pre /\ (forall t, Forall op_copy (todo t)) /\
    ~ exists a' P',
        linearises (spec_after pre) (fun _ => Free)
          (fst (moves sched (fresh_config (after mem_class mem_new pre) todo))) a' P'.
Proof.
  exists [OInit; OStore (py "a") [1; 2]%Z (Some 5%Z)].
  exists (fun t => match t with 1 => [ORetrieve (py "a")] | 2 => [OClose] | _ => [] end).
  exists [1; 1; 2; 2; 2; 2; 2; 2; 2; 2; 2; 2; 1; 1; 1; 1].
  split; [repeat constructor|]. split; [intros [|[|[|t]]]; simpl; repeat constructor|].
  intros [a' [P' HL]].
  assert (fst (moves [1; 1; 2; 2; 2; 2; 2; 2; 2; 2; 2; 2; 1; 1; 1; 1]
                (fresh_config (after mem_class mem_new [OInit; OStore (py "a") [1; 2]%Z (Some 5%Z)])
                   (fun t => match t with 1 => [ORetrieve (py "a")] | 2 => [OClose] | _ => [] end)))
          = [Inv 1 (ORetrieve (py "a")); Inv 2 OClose; Res 2 RUnit; Res 1 (RRec None)]) as E
    by (vm_compute; reflexivity).
  rewrite E in HL.
  apply (never_none _ _ _ _ _ HL) with (t := 1); simpl; auto.
Qed.

(** ** C109: no deadlock *)

Section Progress.
  Context {V Mt : Type} `{Payload V Mt}.

  (** [p] ends after at most [n] steps, whatever happens in between. *)
  Fixpoint bounded {A} (n : nat) (p : prog (mem V Mt) A) : Prop :=
    match p with
    | Return _ => True
    | Step f => match n with O => False | S k => forall s, bounded k (fst (f s)) end
    end.

  Lemma bounded_body o : bounded 6 (body o).
  Proof.
    assert (forall A (p : prog (mem V Mt) A) E n, bounded n p -> bounded n (pwrap E p)) as Hw.
    { intros A p E. induction p as [[a|e]|f IH] using prog_induction; intros n Hb; [destruct n; exact I..|].
      destruct n as [|n]; [destruct Hb|]. intros s. simpl in Hb. specialize (Hb s). specialize (IH s). simpl.
      destruct (f s) as [p' s']. simpl in *. auto. }
    assert (forall A B (m : M (mem V Mt) A) (k : A -> prog (mem V Mt) B) n,
              (forall a, bounded n (k a)) -> bounded (S n) (pbind (atomic m) k)) as Hb.
    { intros A B m k n Hk s. simpl. destruct (m s) as [[a|e] s']; simpl; auto.
      destruct n; exact I. }
    destruct o as [|id v m|id|id|id v m|limit| | |]; unfold body; try apply Hw;
      repeat first [exact I | apply Hb; intros [] | apply Hb; intros ?].
  Qed.

  (** The lock is held by the thread inside it, which will be out in a few steps. *)
  Definition sane (c : config (V:=V) (Mt:=Mt)) : Prop :=
    (forall t, match c_threads c t with TInside p => c_lock c = Some t /\ bounded 6 p | _ => True end) /\
    (forall t, c_lock c = Some t -> exists p, c_threads c t = TInside p).

  Lemma bounded_S {A} (p : prog (mem V Mt) A) : forall n, bounded n p -> bounded (S n) p.
  Proof.
    induction p as [r|f IH] using prog_induction; intros n Hb; [exact I|].
    destruct n as [|n]; [destruct Hb|]. intros s. simpl in Hb. apply IH, Hb.
  Qed.

  Lemma sane_move t c : sane c -> sane (snd (move t c)).
  Proof.
    intros [H1 H2]. pose proof (H1 t) as Ht. unfold move.
    assert (forall x, (forall p, x <> TInside p) -> (forall p, c_threads c t <> TInside p) ->
              forall td, sane (MkConf (c_mem c) (c_lock c) (upd (c_threads c) t x) td)) as Hgo.
    { intros x Hx Hn td. split; simpl; intros u.
      - unfold upd. destruct (Nat.eqb_spec u t) as [->|Hu]; [|apply H1].
        destruct x; auto. now destruct (Hx p).
      - intros Hl. destruct (H2 u Hl) as [p Hp]. unfold upd.
        destruct (Nat.eqb_spec u t) as [->|Hu]; [now destruct (Hn p)|eauto]. }
    destruct (c_threads c t) as [|o|o|[r|f]|r] eqn:Et.
    - destruct (c_todo c t); [split; auto|]. apply Hgo; discriminate.
    - destruct (early o (c_mem c)); apply Hgo; discriminate.
    - destruct (c_lock c) as [u|] eqn:El.
      { simpl. split; auto; rewrite El in *; auto. }
      split; simpl; intros u.
      + unfold upd. destruct (Nat.eqb_spec u t) as [->|Hu]; [split; [auto|apply bounded_body]|].
        specialize (H1 u). destruct (c_threads c u); auto. destruct H1; congruence.
      + intros [= <-]. rewrite upd_same. eauto.
    - destruct Ht as [Hl _]. split; simpl; intros u; [|discriminate].
      unfold upd. destruct (Nat.eqb_spec u t) as [->|Hu]; auto.
      specialize (H1 u). destruct (c_threads c u); auto. destruct H1; congruence.
    - destruct Ht as [Hl Hb]. specialize (Hb (c_mem c)). destruct (f (c_mem c)) as [p s'].
      split; simpl; intros u.
      + unfold upd. destruct (Nat.eqb_spec u t) as [->|Hu]; [|apply H1].
        split; auto. exact (bounded_S p 5 Hb).
      + intros Hu. rewrite Hl in Hu. injection Hu as <-. unfold upd. rewrite Nat.eqb_refl. eauto.
    - apply Hgo; discriminate.
  Qed.

  Lemma sane_moves sched : forall c, sane c -> sane (snd (moves sched c)).
  Proof.
    induction sched as [|t sched IH]; intros c Hc; simpl; auto.
    pose proof (sane_move t c Hc) as H1. destruct (move t c) as [e1 c1].
    pose proof (IH c1 H1) as H2. destruct (moves sched c1) as [e2 c2]. exact H2.
  Qed.

  Lemma moves_app s1 : forall s2 (c : config (V:=V) (Mt:=Mt)),
    moves (s1 ++ s2) c =
    (fst (moves s1 c) ++ fst (moves s2 (snd (moves s1 c))), snd (moves s2 (snd (moves s1 c)))).
  Proof.
    induction s1 as [|t s1 IH]; intros s2 c; simpl; [now destruct (moves s2 c)|].
    destruct (move t c) as [e1 c1]. rewrite IH. destruct (moves s1 c1) as [e2 c2]. simpl.
    now rewrite app_assoc.
  Qed.

  (** Moves of other threads leave the owner where it is. *)
  Lemma others_wait t u c : u <> t -> c_threads (snd (move u c)) t = c_threads c t.
  Proof.
    intros Hu. unfold move.
    destruct (c_threads c u) as [|o|o|[r|f]|r]; simpl;
      repeat match goal with
             | |- context [match ?x with _ => _ end] => destruct x; simpl
             end; auto; now rewrite upd_other by auto.
  Qed.

  (** Whoever moves in between, the owner releases the lock when it has moved often enough. *)
  Lemma releases t n : forall sched c p,
    sane c -> c_threads c t = TInside p -> bounded n p -> n < count_occ Nat.eq_dec sched t ->
    exists s1 s2, sched = s1 ++ s2 /\ c_lock (snd (moves s1 c)) = None /\
                  exists r, c_threads (snd (moves s1 c)) t = TAnswer r.
  Proof.
    intros sched. revert n. induction sched as [|u sched IH]; intros n c p Hc Ht Hb Hn.
    { simpl in Hn. lia. }
    pose proof (sane_move u c Hc) as Hc1.
    assert (forall s1, snd (moves (u :: s1) c) = snd (moves s1 (snd (move u c)))) as Em.
    { intros s1. simpl. destruct (move u c) as [e1 c1]. simpl. now destruct (moves s1 c1). }
    simpl in Hn. destruct (Nat.eq_dec u t) as [->|Hu].
    - destruct p as [r|f].
      + exists [t], sched. split; [reflexivity|]. rewrite Em. simpl.
        unfold move. rewrite Ht. simpl. split; auto. exists (answer r). apply upd_same.
      + destruct n as [|n]; [destruct Hb|]. specialize (Hb (c_mem c)).
        destruct (f (c_mem c)) as [p' s'] eqn:Ef.
        destruct (IH n (snd (move t c)) p' Hc1) as [s1 [s2 [-> [Hl Ha]]]].
        * unfold move. rewrite Ht, Ef. simpl. apply upd_same.
        * exact Hb.
        * lia.
        * exists (t :: s1), s2. split; [reflexivity|]. rewrite Em. auto.
    - destruct (IH n (snd (move u c)) p Hc1) as [s1 [s2 [-> [Hl Ha]]]]; auto.
      + now rewrite others_wait.
      + exists (u :: s1), s2. split; [reflexivity|]. rewrite Em. auto.
  Qed.

  (** The owner alone. *)
  Lemma solo_inside t n : forall (c : config (V:=V) (Mt:=Mt)) p,
    c_threads c t = TInside p -> bounded n p ->
    exists k r, k <= S n /\ fst (moves (repeat t k) c) = [] /\
      let c' := snd (moves (repeat t k) c) in
      c_threads c' t = TAnswer r /\ c_lock c' = None /\
      (forall u, u <> t -> c_threads c' u = c_threads c u).
  Proof.
    induction n as [|n IH]; intros c [r|f] Ht Hb; try destruct Hb.
    1, 2: exists 1, (answer r); split; [lia|]; simpl; unfold move; rewrite Ht; simpl;
          rewrite upd_same; repeat split; auto; intros u Hu; now rewrite upd_other.
    specialize (Hb (c_mem c)).
    assert (exists c1, move t c = ([], c1) /\ c_threads c1 t = TInside (fst (f (c_mem c))) /\
              (forall u, u <> t -> c_threads c1 u = c_threads c u)) as [c1 [E1 [E2 E3]]].
    { unfold move. rewrite Ht. destruct (f (c_mem c)) as [p' s']. eexists. split; [reflexivity|].
      simpl. rewrite upd_same. split; auto. intros u Hu. now rewrite upd_other. }
    destruct (IH c1 _ E2 Hb) as [k [r [Hk [Hf Hs]]]].
    exists (S k), r. split; [lia|]. simpl. rewrite E1.
    destruct (moves (repeat t k) c1) as [e2 c2]. simpl in *. split; auto.
    destruct Hs as [S1 [S2 S3]]. repeat split; auto. intros u Hu. rewrite S3, E3; auto.
  Qed.

  Lemma then_move t k (c : config (V:=V) (Mt:=Mt)) ev c' :
    move t c = (ev, c') ->
    moves (repeat t (S k)) c = (ev ++ fst (moves (repeat t k) c'), snd (moves (repeat t k) c')).
  Proof. intros E. simpl. rewrite E. now destruct (moves (repeat t k) c'). Qed.

  Lemma then_answer t k (c : config (V:=V) (Mt:=Mt)) r :
    fst (moves (repeat t k) c) = [] -> c_threads (snd (moves (repeat t k) c)) t = TAnswer r ->
    fst (moves (repeat t (k + 1)) c) = [Res t r] /\
    c_threads (snd (moves (repeat t (k + 1)) c)) t = TIdle.
  Proof.
    intros He Ht. rewrite repeat_app, moves_app. simpl. rewrite He. unfold move. rewrite Ht.
    simpl. rewrite upd_same. auto.
  Qed.

  (** A thread inside a call, with nobody else inside the lock. *)
  Lemma solo_call t c : sane c -> c_threads c t <> TIdle ->
    (c_lock c = None \/ c_lock c = Some t) ->
    exists k r, k <= 10 /\ fst (moves (repeat t k) c) = [Res t r] /\
                c_threads (snd (moves (repeat t k) c)) t = TIdle.
  Proof.
    intros Hc Ht Hl.
    assert (forall c', sane c' -> forall o, c_threads c' t = TWaiting o -> c_lock c' = None ->
              exists k r, k <= 9 /\ fst (moves (repeat t k) c') = [Res t r] /\
                c_threads (snd (moves (repeat t k) c')) t = TIdle) as Hw.
    { intros c' Hc' o Ho Hn.
      assert (exists c1, move t c' = ([], c1) /\ c_threads c1 t = TInside (body o)) as [c1 [E1 E2]].
      { unfold move. rewrite Ho, Hn. eexists. split; [reflexivity|]. simpl. apply upd_same. }
      destruct (solo_inside t 6 c1 _ E2 (bounded_body o)) as [k [r [Hk [Hf [Hs _]]]]].
      destruct (then_answer t k c1 r Hf Hs) as [T1 T2].
      exists (S (k + 1)), r. split; [lia|]. rewrite (then_move _ _ _ _ _ E1). auto. }
    destruct (c_threads c t) as [|o|o|p|r] eqn:Et.
    - congruence.
    - destruct Hl as [Hl|Hl].
      2: { destruct (proj2 Hc t Hl) as [p Hp]. congruence. }
      pose proof (sane_move t c Hc) as Hc1.
      destruct (early o (c_mem c)) as [r|] eqn:Ee.
      + exists 2, r. split; [lia|]. simpl. unfold move at 1 3. rewrite Et, Ee.
        simpl. unfold move. simpl. rewrite !upd_same. simpl. rewrite upd_same. auto.
      + assert (exists c1, move t c = ([], c1) /\ c_threads c1 t = TWaiting o /\ c_lock c1 = None)
          as [c1 [E1 [E2 E3]]].
        { unfold move. rewrite Et, Ee. eexists. split; [reflexivity|]. simpl.
          rewrite upd_same. auto. }
        rewrite E1 in Hc1. destruct (Hw c1 Hc1 o E2 E3) as [k [r [Hk [Hf Hs]]]].
        exists (S k), r. split; [lia|]. rewrite (then_move _ _ _ _ _ E1). auto.
    - destruct Hl as [Hl|Hl].
      2: { destruct (proj2 Hc t Hl) as [p Hp]. congruence. }
      destruct (Hw c Hc o Et Hl) as [k [r [Hk Hf]]]. exists k, r. split; [lia|auto].
    - pose proof (proj1 Hc t) as Hb. rewrite Et in Hb.
      destruct (solo_inside t 6 c p Et (proj2 Hb)) as [k [r [Hk [Hf [Hs _]]]]].
      destruct (then_answer t k c r Hf Hs) as [T1 T2].
      exists (k + 1), r. split; [lia|]. auto.
    - exists 1, r. split; [lia|]. simpl. unfold move. rewrite Et. simpl. rewrite upd_same. auto.
  Qed.
End Progress.

(** C109, the owner: in every reachable configuration, whatever calls (with [close], with metadata
    whose copying fails) the threads make, a thread that holds the lock has released it and has
    its answer once it has moved seven times, however the others move in between. *)
Theorem C109_lock_is_released {V Mt : Type} `{Payload V Mt} :
  forall (s : mem V Mt) (todo : nat -> list (sop V Mt)) (before sched : list nat) (t : nat),
    let c := snd (moves before (fresh_config s todo)) in
    c_lock c = Some t -> 7 <= count_occ Nat.eq_dec sched t ->
    exists s1 s2, sched = s1 ++ s2 /\ c_lock (snd (moves s1 c)) = None /\
                  exists r, c_threads (snd (moves s1 c)) t = TAnswer r.
Proof.
  intros s todo before sched t c Hl Hn.
  assert (sane c) as Hc by (apply sane_moves; split; simpl; [auto|discriminate]).
  destruct (proj2 Hc t Hl) as [p Hp]. pose proof (proj1 Hc t) as Hb. rewrite Hp in Hb.
  apply (releases t 6 sched c p Hc Hp (proj2 Hb)). lia.
Qed.

(** C109, everybody: in every reachable configuration, a thread inside a call gets its answer if
    first the owner of the lock (if there is one) and then the thread itself is allowed to move. *)
Theorem C109_calls_return {V Mt : Type} `{Payload V Mt} :
  forall (s : mem V Mt) (todo : nat -> list (sop V Mt)) (before : list nat) (t : nat),
    let c := snd (moves before (fresh_config s todo)) in
    c_threads c t <> TIdle ->
    exists owner n k r,
      n <= 7 /\ k <= 10 /\
      (n = 0 \/ c_lock c = Some owner) /\
      fst (moves (repeat owner n ++ repeat t k) c) = [Res t r] /\
      c_threads (snd (moves (repeat owner n ++ repeat t k) c)) t = TIdle.
Proof.
  intros s todo before t c Ht.
  assert (sane c) as Hc by (apply sane_moves; split; simpl; [auto|discriminate]).
  assert ((c_lock c = None \/ c_lock c = Some t) \/ exists u, u <> t /\ c_lock c = Some u) as Hl.
  { destruct (c_lock c) as [u|]; [|auto]. destruct (Nat.eq_dec u t); [left; right; congruence|].
    right. eauto. }
  destruct Hl as [Hl|[u [Hu Hl]]].
  - destruct (solo_call t c Hc Ht Hl) as [k [r [Hk [Hf Hs]]]].
    exists t, 0, k, r. simpl. repeat split; auto. lia.
  - destruct (proj2 Hc u Hl) as [p Hp]. pose proof (proj1 Hc u) as Hb. rewrite Hp in Hb.
    destruct (solo_inside u 6 c p Hp (proj2 Hb)) as [n [r0 [Hn [Hf [_ [Hs1 Hs2]]]]]].
    pose proof (sane_moves (repeat u n) c Hc) as Hc1.
    destruct (solo_call t (snd (moves (repeat u n) c)) Hc1) as [k [r [Hk [Hf1 Hs3]]]].
    + rewrite Hs2; auto.
    + auto.
    + exists u, n, k, r. split; [lia|]. split; [lia|]. split; [auto|].
      rewrite moves_app. simpl. rewrite Hf. auto.
Qed.

(** Thread 2 holds the lock in the middle of a store whose metadata cannot be copied, thread 1
    waits. *)
Example C109_case :
  let c := snd (moves [1; 1; 2; 2; 2; 2; 1]
             (fresh_config (after mem_class mem_new [OInit])
               (fun t => match t with
                         | 1 => [OStats]
                         | 2 => [OStore (py "a") [1]%Z (Some (-1)%Z)]
                         | _ => []
                         end))) in
  c_lock c = Some 2 /\ c_threads c 1 = TWaiting OStats /\
  fst (moves (repeat 2 2 ++ repeat 1 5) c) = [Res 1 (RStats (Some (0%Z, Some 0%N)))].
Proof. vm_compute. repeat split. Qed.

Print Assumptions C13_linearisable_partial.
Print Assumptions C13_close_refuted.
Print Assumptions C109_lock_is_released.
Print Assumptions C109_calls_return.
