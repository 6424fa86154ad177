(** C169: several threads use one in-memory backend and [close] and [initialize] are among their
    calls.  C13 shows that such histories need not have a sequential order.  Here is what they do
    have: each call has two instants, one at which it is let in or refused and a later one at which
    it takes effect, and between the two the backend may have been closed. *)

From Coq Require Import List Arith ZArith NArith Lia Bool Permutation.
From Coq Require String.
Import (notations) Coq.Strings.String.
From Verif Require Import PyBase BaseLemmas Payload StorageModel StorageSpec StorageRun
  StorageProofs StorageThms StepModel StepProofs ConcModel PropsConc Demo.
Import ListNotations.

(** ** What a history must look like *)

Section TwoInstants.
  Context {V Mt : Type} `{Payload V Mt}.

  (** A thread between calls; inside a call that has not been let in; inside one that has; inside
      one that has its answer. *)
  Inductive stage : Type :=
  | Outside
  | Asking (o : sop V Mt)
  | LetIn (o : sop V Mt)
  | Told (r : sret V Mt).

  (** [initialize] and [close] are let in at any time, the other calls while the backend is open. *)
  Definition always (o : sop V Mt) : bool :=
    match o with OInit | OClose => true | _ => false end.

  (** Storing under the empty id is turned away, open or not. *)
  Definition enters (o : sop V Mt) : Prop := match o with OStore [] _ _ => False | _ => True end.

  (** The contents, seen as an open backend. *)
  Definition opened (a : sstate V Mt) : sstate V Mt := MkS true (s_recs a).

  (** The effect of a call that was let in: that of the call on an open backend, on the contents
      as they are now; only [initialize] and [close] change whether the backend is open. *)
  Definition takes_effect (a : sstate V Mt) (o : sop V Mt) : sstate V Mt :=
    if always o then sp_next false (fun i => i) a o
    else MkS (s_open a) (s_recs (sp_next false (fun i => i) (opened a) o)).

  Inductive two_instants : sstate V Mt -> (nat -> stage) -> list (event (V:=V) (Mt:=Mt)) ->
      sstate V Mt -> (nat -> stage) -> Prop :=
  | ti_end a P : two_instants a P [] a P
  | ti_inv a P t o h a' P' :
      P t = Outside -> two_instants a (upd P t (Asking o)) h a' P' ->
      two_instants a P (Inv t o :: h) a' P'
  | ti_refused a P t o r h a' P' :
      P t = Asking o -> always o = false -> s_open a = false \/ ~ enters o ->
      sp_ans true (Some rec_size) (fun i => i) a o r ->
      two_instants a (upd P t (Told r)) h a' P' -> two_instants a P h a' P'
  | ti_let_in a P t o h a' P' :
      P t = Asking o -> enters o -> s_open a = true \/ always o = true ->
      two_instants a (upd P t (LetIn o)) h a' P' -> two_instants a P h a' P'
  | ti_effect a P t o r h a' P' :
      P t = LetIn o -> sp_ans true (Some rec_size) (fun i => i) (opened a) o r ->
      two_instants (takes_effect a o) (upd P t (Told r)) h a' P' -> two_instants a P h a' P'
  | ti_res a P t r h a' P' :
      P t = Told r -> two_instants a (upd P t Outside) h a' P' ->
      two_instants a P (Res t r :: h) a' P'.

  (** The calls: ordinary metadata, and no process restart. *)
  Definition any_call (o : sop V Mt) : Prop :=
    match o with OReopen => False | _ => op_copy o end.

  (** ** Bodies and the flag *)

  (** The object with the flag set. *)
  Let up (s : mem V Mt) : mem V Mt :=
    MkMem (m_vectors s) (m_metadata s) (m_count s) (m_usage s) true.

  (** Contents and flag; a closed object may hold records. *)
  Definition Wmem (a : sstate V Mt) (s : mem V Mt) : Prop :=
    Rmem (s_recs a) s /\ m_init s = s_open a.

  Lemma Rmem_up recs s : Rmem recs s -> Rmem recs (up s).
  Proof. intros R. destruct R. constructor; auto. Qed.

  (** A program whose steps neither read nor write the flag. *)
  Fixpoint blind {A} (p : prog (mem V Mt) A) : Prop :=
    match p with
    | Return _ => True
    | Step f => forall s, f (up s) = (fst (f s), up (snd (f s))) /\
                          m_init (snd (f s)) = m_init s /\ blind (fst (f s))
    end.

  Lemma finish_blind {A} (p : prog (mem V Mt) A) : forall s, blind p ->
    finish p (up s) = (fst (finish p s), up (snd (finish p s))) /\
    m_init (snd (finish p s)) = m_init s.
  Proof.
    induction p as [r|f IH] using prog_induction; intros s Hb; simpl; auto.
    simpl in Hb. destruct (Hb s) as [E [Ei Hk]]. rewrite E. specialize (IH s).
    destruct (f s) as [p' s']. simpl in *. destruct (IH s' Hk) as [E1 E2].
    split; [exact E1|congruence].
  Qed.

  Lemma blind_body o : always o = false -> o <> OReopen -> blind (body o).
  Proof.
    assert (forall A (p : prog (mem V Mt) A) E, blind p -> blind (pwrap E p)) as Hw.
    { intros A p E. induction p as [[a|e]|f IH] using prog_induction; simpl; auto.
      intros Hq s. specialize (IH s). destruct (Hq s) as [E1 [E2 E3]]. rewrite E1.
      destruct (f s) as [p' s']. simpl in *. auto. }
    assert (forall A B (m : M (mem V Mt) A) (k : A -> prog (mem V Mt) B),
              (forall s, m (up s) = (fst (m s), up (snd (m s))) /\ m_init (snd (m s)) = m_init s) ->
              (forall a, blind (k a)) -> blind (pbind (atomic m) k)) as Hb.
    { intros A B m k Hm Hk s. destruct (Hm s) as [E1 E2]. simpl. rewrite E1.
      destruct (m s) as [[a|e] s']; simpl in *; auto. }
    assert (forall id (m : option Mt) s,
              mem_write_meta (V := V) id m (up s) = (fst (mem_write_meta id m s), up (snd (mem_write_meta id m s))) /\
              m_init (snd (mem_write_meta (V := V) id m s)) = m_init s) as Hm.
    { intros id m s. unfold mem_write_meta. destruct m as [m|]; [destruct (copyable m)|]; split; reflexivity. }
    assert (forall id s, fetch_vector (V := V) (Mt := Mt) id (up s)
              = (fst (fetch_vector id s), up (snd (fetch_vector id s))) /\
              m_init (snd (fetch_vector (V := V) (Mt := Mt) id s)) = m_init s) as Hf.
    { intros id s. unfold fetch_vector, bind, get. simpl. destruct (dget id _); split; reflexivity. }
    intros Ha Hn.
    destruct o as [|id v m|id|id|id v m|limit| | |]; try discriminate; unfold body; try apply Hw.
    - apply Hb; [split; reflexivity|intros _]. apply Hb; [apply Hm|intros _].
      do 2 (apply Hb; [split; reflexivity|intros _]). exact I.
    - apply Hb; [split; reflexivity|intros []]; [|exact I].
      apply Hb; [apply Hf|intros x]. apply Hb; [split; reflexivity|intros y]. exact I.
    - apply Hb; [split; reflexivity|intros []]; [|exact I].
      do 4 (apply Hb; [split; reflexivity|intros _]). exact I.
    - apply Hb; [split; reflexivity|intros []]; [|exact I].
      apply Hb; [split; reflexivity|intros _]. apply Hb; [apply Hm|intros _].
      apply Hb; [split; reflexivity|intros _]. exact I.
    - apply Hb; [split; reflexivity|intros x]. exact I.
    - apply Hb; [split; reflexivity|intros x]. apply Hb; [split; reflexivity|intros y]. exact I.
    - congruence.
  Qed.

  (** A body that runs by itself does what the specification of a call that was let in says. *)
  Lemma body_refines a s o : Wmem a s -> any_call o -> enters o ->
    let (r, s') := finish (body o) s in
    sp_ans true (Some rec_size) (fun i => i) (opened a) o (answer r) /\ Wmem (takes_effect a o) s'.
  Proof.
    intros [R Hi] Ho He. destruct (always o) eqn:Ea.
    { destruct o; try discriminate; simpl; (split; [reflexivity|]); (split; [apply Rmem_empty|reflexivity]). }
    assert (o <> OReopen) as Hn by (intros ->; exact Ho).
    assert (op_copy o) as Hc by (destruct o; simpl in *; tauto).
    assert (early o (up s) = None) as Ee.
    { destruct o as [|[|c id] v m|id|id|id v m|limit| | |]; simpl in *; try reflexivity; tauto. }
    assert (Amem (opened a) (up s)) as HA.
    { split; [apply Rmem_up, R|]. split; [reflexivity|discriminate]. }
    pose proof (mem_step_refines (opened a) (up s) o HA Hc) as Hs.
    pose proof (finish_body o (up s) Ee Hn) as Hf.
    destruct (finish_blind (body o) s (blind_body o Ea Hn)) as [E1 E2].
    rewrite E1 in Hf. destruct (finish (body o) s) as [r s']. simpl in *.
    rewrite Hf in Hs. destruct Hs as [Hans [R' _]]. split; [exact Hans|].
    unfold takes_effect. rewrite Ea. split; simpl; [|congruence].
    destruct R'. constructor; auto.
  Qed.

  (** ** The simulation *)

  (** [m0]: the object as the calls that have taken effect leave it. *)
  Record tsim (c : config (V:=V) (Mt:=Mt)) (a : sstate V Mt) (P : nat -> stage) (m0 : mem V Mt) : Prop := {
    ts_abs : Wmem a m0;
    ts_todo : forall t, Forall any_call (c_todo c t);
    ts_thread : forall t,
      match c_threads c t with
      | TIdle => P t = Outside
      | TCalled o => P t = Asking o /\ any_call o
      | TWaiting o => P t = LetIn o /\ any_call o /\ enters o
      | TAnswer r => P t = Told r
      | TInside (Return r) => c_lock c = Some t /\ P t = Told (answer r)
      | TInside (Step f) =>
          c_lock c = Some t /\
          exists o, P t = LetIn o /\ any_call o /\ enters o /\ quiet (Step f) /\
                    finish (Step f) (c_mem c) = finish (body o) m0
      end;
    ts_mem :
      match c_lock c with
      | None => c_mem c = m0
      | Some t => match c_threads c t with
                  | TInside (Step _) => m_init (c_mem c) = m_init m0
                  | TInside (Return _) => c_mem c = m0
                  | _ => False
                  end
      end
  }.

  Lemma tsim_flag c a P m0 : tsim c a P m0 -> m_init (c_mem c) = s_open a.
  Proof.
    intros [[_ Ha] _ _ Hm]. destruct (c_lock c) as [t|]; [|congruence].
    destruct (c_threads c t) as [| | |[r|f]|]; try tauto; congruence.
  Qed.

  (** What the test decides. *)
  Lemma early_cases (o : sop V Mt) (s : mem V Mt) (a : sstate V Mt) : m_init s = s_open a -> any_call o ->
    match early o s with
    | Some r => always o = false /\ (s_open a = false \/ ~ enters o) /\
                sp_ans true (Some rec_size) (fun i => i) a o r
    | None => enters o /\ (s_open a = true \/ always o = true)
    end.
  Proof.
    intros E Ho. destruct a as [[|] recs]; simpl in E;
      destruct o as [|[|c id] v m|id|id|id v m|limit| | |]; simpl in *; try tauto; rewrite ?E; simpl; auto.
  Qed.

  Lemma tsim_explained sched : forall c a P m0,
    tsim c a P m0 ->
    exists a' P' m0', two_instants a P (fst (moves sched c)) a' P' /\
                      tsim (snd (moves sched c)) a' P' m0'.
  Proof.
    induction sched as [|t sched IH]; intros c a P m0 Hs; simpl.
    { exists a, P, m0. split; [constructor|exact Hs]. }
    pose proof (ts_thread _ _ _ _ Hs t) as Ht.
    pose proof (tsim_flag _ _ _ _ Hs) as Hflag.
    pose proof Hs as [Habs Htodo Hthr Hmem].
    assert (forall ev c' a1 P1 m1, move t c = (ev, c') -> tsim c' a1 P1 m1 ->
              (forall h a' P', two_instants a1 P1 h a' P' -> two_instants a P (ev ++ h) a' P') ->
              let x := (let (e1, c1) := move t c in
                        let (e2, c2) := moves sched c1 in (e1 ++ e2, c2)) in
              exists a' P' m0', two_instants a P (fst x) a' P' /\ tsim (snd x) a' P' m0') as Hgo.
    { intros ev c' a1 P1 m1 -> Hs1 Hk. destruct (IH c' a1 P1 m1 Hs1) as [a' [P' [m0' [HL HS]]]].
      destruct (moves sched c') as [e2 c2]. exists a', P', m0'. split; [apply Hk, HL|exact HS]. }
    cbv zeta in Hgo.
    (* a move outside of the lock that leaves the object and the contents alone *)
    assert (forall x y, (forall p, c_threads c t <> TInside p) ->
              match x with
              | TIdle => y = Outside
              | TCalled o => y = Asking o /\ any_call o
              | TWaiting o => y = LetIn o /\ any_call o /\ enters o
              | TAnswer r => y = Told r
              | TInside _ => False
              end ->
              forall td, (forall u, Forall any_call (td u)) ->
              tsim (MkConf (c_mem c) (c_lock c) (upd (c_threads c) t x) td) a (upd P t y) m0) as Hout.
    { intros x y Hn Hx td Htd. constructor; simpl; [exact Habs|exact Htd| |].
      - intros u. destruct (Nat.eq_dec u t) as [->|Hu].
        + rewrite !upd_same. destruct x; tauto.
        + rewrite !upd_other by auto. apply Hthr.
      - destruct (c_lock c) as [u|]; [|exact Hmem]. destruct (Nat.eq_dec u t) as [->|Hu].
        + destruct (c_threads c t) as [| | |p|]; try tauto. now destruct (Hn p).
        + rewrite upd_other by auto. exact Hmem. }
    destruct (c_threads c t) as [|o|o|[r|f]|r] eqn:Et.
    - (* idle *)
      destruct (c_todo c t) as [|o os] eqn:Eo.
      + eapply (Hgo _ _ a P m0); [unfold move; rewrite Et, Eo; reflexivity|exact Hs|auto].
      + pose proof (Htodo t) as Hto. rewrite Eo in Hto. inversion Hto; subst.
        eapply (Hgo _ _ a (upd P t (Asking o)) m0);
          [unfold move; rewrite Et, Eo; reflexivity| |intros h a' P' HL; apply ti_inv; assumption].
        apply Hout; [discriminate|auto|].
        intros u. unfold upd. destruct (Nat.eqb u t); auto.
    - (* called *)
      destruct Ht as [HP Hok]. pose proof (early_cases o (c_mem c) a Hflag Hok) as He.
      destruct (early o (c_mem c)) as [r|] eqn:Ee.
      + eapply (Hgo _ _ a (upd P t (Told r)) m0);
          [unfold move; rewrite Et, Ee; reflexivity|apply Hout; auto; discriminate|].
        intros h a' P' HL. destruct He as (Ha & Hc & Hans). eapply ti_refused; eassumption.
      + destruct He as [He Hin].
        eapply (Hgo _ _ a (upd P t (LetIn o)) m0);
          [unfold move; rewrite Et, Ee; reflexivity|apply Hout; auto; discriminate|].
        intros h a' P' HL. eapply ti_let_in; eassumption.
    - (* waiting *)
      destruct Ht as [HP [Hok He]].
      destruct (c_lock c) as [u|] eqn:El.
      + eapply (Hgo _ _ a P m0); [unfold move; rewrite Et, El; reflexivity|exact Hs|auto].
      + eapply (Hgo _ _ a P m0); [unfold move; rewrite Et, El; reflexivity| |auto].
        assert (exists f, body o = Step f) as [f Ef].
        { destruct o; simpl; eauto. }
        constructor; simpl; [exact Habs|exact Htodo| |].
        * intros u. destruct (Nat.eq_dec u t) as [->|Hu].
          -- rewrite !upd_same. rewrite Ef. split; [reflexivity|]. exists o.
             split; [exact HP|]. split; [exact Hok|]. split; [exact He|].
             pose proof (quiet_body o) as Q. rewrite Ef in Q. rewrite Hmem, Ef. split; [exact Q|reflexivity].
          -- rewrite !upd_other by auto. specialize (Hthr u).
             destruct (c_threads c u) as [| | |[r'|f']|]; auto; destruct Hthr; congruence.
        * rewrite upd_same, Ef. congruence.
    - (* the body has ended *)
      destruct Ht as [El HP]. rewrite El, Et in Hmem.
      eapply (Hgo _ _ a P m0); [unfold move; rewrite Et; reflexivity| |auto].
      constructor; simpl; [exact Habs|exact Htodo| |exact Hmem].
      intros u. destruct (Nat.eq_dec u t) as [->|Hu].
      * rewrite !upd_same. exact HP.
      * rewrite !upd_other by auto. specialize (Hthr u).
        destruct (c_threads c u) as [| | |[r'|f']|]; auto; destruct Hthr; congruence.
    - (* a statement of the body *)
      destruct Ht as [El [o [HP [Hok [He [Hq Hfin]]]]]]. rewrite El, Et in Hmem.
      simpl in Hq, Hfin. specialize (Hq (c_mem c)).
      destruct (f (c_mem c)) as [p' s'] eqn:Ef. destruct Hq as [Hq1 Hq2].
      destruct p' as [r|g].
      + (* the last one: the call takes effect here *)
        simpl in Hfin. pose proof (body_refines a m0 o Habs Hok He) as Hr. rewrite <- Hfin in Hr.
        destruct Hr as [Hans Habs'].
        eapply (Hgo _ _ _ (upd P t (Told (answer r))) s');
          [unfold move; rewrite Et, Ef; reflexivity| |
           intros h a' P' HL; eapply ti_effect; eassumption].
        constructor; simpl; [exact Habs'|exact Htodo| |].
        * intros u. destruct (Nat.eq_dec u t) as [->|Hu].
          -- rewrite !upd_same. auto.
          -- rewrite !upd_other by auto. specialize (Hthr u).
             destruct (c_threads c u) as [|o'|o'|[r'|f']|]; auto; destruct Hthr; congruence.
        * rewrite El, upd_same. reflexivity.
      + eapply (Hgo _ _ a P m0); [unfold move; rewrite Et, Ef; reflexivity| |auto].
        constructor; simpl; [exact Habs|exact Htodo| |].
        * intros u. destruct (Nat.eq_dec u t) as [->|Hu].
          -- rewrite !upd_same. split; [exact El|]. exists o. auto 6.
          -- rewrite !upd_other by auto. specialize (Hthr u).
             destruct (c_threads c u) as [|o'|o'|[r'|f']|]; auto; destruct Hthr; congruence.
        * rewrite El, upd_same. congruence.
    - (* return *)
      eapply (Hgo _ _ a (upd P t Outside) m0);
        [unfold move; rewrite Et; reflexivity|apply Hout; auto; discriminate|
         intros h a' P' HL; eapply ti_res; eassumption].
  Qed.

  (** A closed or open object that holds any records answers later calls as the specification does. *)
  Lemma later_calls ops : forall a s, Wmem a s -> Forall op_copy ops ->
    conforms false true (Some rec_size) (fun i => i) a ops (answers mem_class s ops).
  Proof.
    induction ops as [|o ops IH]; intros a s Ha Hok; [exact I|].
    destruct (s_open a) eqn:Eo.
    { apply (mem_run_refines (o :: ops) a s); auto. destruct Ha. split; [auto|]. split; [auto|congruence]. }
    inversion Hok; subst. destruct Ha as [R Hi]. unfold answers. simpl.
    assert (let (r, s') := sc_step mem_class s o in
            sp_ans true (Some rec_size) (fun i => i) a o r /\ Wmem (sp_next false (fun i => i) a o) s') as Hs.
    { destruct (always o) eqn:Ea.
      { destruct o; try discriminate; simpl; (split; [reflexivity|]); (split; [apply Rmem_empty|reflexivity]). }
      assert (o = OReopen \/ any_call o) as [->|Hc] by (destruct o; simpl in *; tauto).
      { simpl. split; [reflexivity|]. split; [apply Rmem_empty|reflexivity]. }
      assert (m_init s = s_open a) as Hi' by congruence.
      pose proof (early_cases o s a Hi' Hc) as He. destruct (early o s) as [r|] eqn:Ee.
      - rewrite (early_answer _ _ _ Ee). split; [apply He|].
        replace (sp_next false (fun i => i) a o) with a; [split; assumption|].
        destruct a as [op recs]. simpl in Eo. subst op.
        destruct o as [|[|c id] v m|id|id|id v m|limit| | |]; try discriminate; reflexivity.
      - destruct He as [_ [E|E]]; congruence. }
    destruct (sc_step mem_class s o) as [r s']. destruct Hs as [Hans Hw].
    specialize (IH _ s' Hw H3). unfold answers in IH. destruct (sc_run mem_class s' ops) as [rs s''].
    simpl in *. auto.
  Qed.
End TwoInstants.

(** C169: after any history of calls made by one thread, let any number of threads make any calls,
    [initialize] and [close] among them, under any schedule.  The calls and answers seen, finished
    or not, can be explained by giving each call an instant at which it is refused or let in,
    according to whether the backend is open at that instant, and a later one at which it acts on
    the contents, both between its invocation and its return; and once nobody is inside the lock, the
    object answers every later sequence of calls as the state reached this way prescribes. *)
Theorem C169_two_instants {V Mt : Type} `{Payload V Mt} :
  forall (pre : list (sop V Mt)) (todo : nat -> list (sop V Mt)) (sched : list nat),
    Forall op_copy pre -> (forall t, Forall any_call (todo t)) ->
    let c := fresh_config (after mem_class mem_new pre) todo in
    exists a' P',
      two_instants (spec_after pre) (fun _ => Outside) (fst (moves sched c)) a' P' /\
      (c_lock (snd (moves sched c)) = None ->
       forall later, Forall op_copy later ->
         conforms false true (Some rec_size) (fun i => i) a' later
                  (answers mem_class (c_mem (snd (moves sched c))) later)).
Proof.
  intros pre todo sched Hpre Htodo c.
  assert (tsim c (spec_after pre) (fun _ => Outside) (after mem_class mem_new pre)) as Hs.
  { constructor; simpl; auto.
    destruct (mem_run_refines pre (MkS false []) mem_new) as [_ [R [Hi _]]]; auto; [apply Amem_new|].
    split; assumption. }
  destruct (tsim_explained sched c _ _ _ Hs) as [a' [P' [m0' [HL HS]]]].
  exists a', P'. split; [exact HL|]. intros Hlock later Hlater.
  destruct HS as [Habs _ _ Hmem]. rewrite Hlock in Hmem. rewrite Hmem.
  now apply later_calls.
Qed.

(** ** What follows for the caller *)

Section Honest.
  Context {V Mt : Type} `{Payload V Mt}.

  (** Some call wrote this record under this id. *)
  Definition written (ops : list (sop V Mt)) (id : pystr) (x : V * option Mt) : Prop :=
    In (OStore id (fst x) (snd x)) ops \/ In (OUpdate id (fst x) (snd x)) ops.

  (** An answer that invents nothing: a record read was written under that id, ids listed have been
      written under. *)
  Definition answer_honest (made : list (sop V Mt)) (o : option (sop V Mt)) (r : sret V Mt) : Prop :=
    match o, r with
    | Some (ORetrieve id), RRec (Some x) => written made id x
    | Some (OList _), RIds ids => forall id, In id ids -> exists x, written made id x
    | _, _ => True
    end.

  (** [honest made now h]: reading the history [h] on from a point at which the calls [made] have
      been invoked and thread [t] is making the call [now t], every answer in it is honest about the
      calls invoked before it. *)
  Fixpoint honest (made : list (sop V Mt)) (now : nat -> option (sop V Mt))
      (h : list (event (V:=V) (Mt:=Mt))) : Prop :=
    match h with
    | [] => True
    | Inv t o :: h' => honest (o :: made) (upd now t (Some o)) h'
    | Res t r :: h' => answer_honest made (now t) r /\ honest made now h'
    end.

  Let from (made : list (sop V Mt)) (a : sstate V Mt) : Prop :=
    forall id x, In (id, x) (s_recs a) -> written made id x.
  Let stage_ok (made : list (sop V Mt)) (o : option (sop V Mt)) (y : stage (V := V) (Mt := Mt)) : Prop :=
    match y with
    | Outside => True
    | Asking o' | LetIn o' => o = Some o' /\ In o' made
    | Told r => answer_honest made o r
    end.

  Lemma written_more made o id x : written made id x -> written (o :: made) id x.
  Proof. intros [E|E]; [left|right]; right; exact E. Qed.

  Lemma stage_more made o now y : stage_ok made now y -> stage_ok (o :: made) now y.
  Proof.
    destruct y as [|o'|o'|r]; simpl; try tauto.
    unfold answer_honest. destruct now as [[]|]; auto; destruct r as [| |[x|]|ids| |]; auto.
    - apply written_more.
    - intros Hh i Hi. destruct (Hh i Hi) as [x Hx]. exists x. now apply written_more.
  Qed.

  Lemma put_In id x (recs : list (entry V Mt)) i y :
    In (i, y) (sp_put id x recs) -> (i = id /\ y = x) \/ In (i, y) recs.
  Proof.
    unfold sp_put. destruct (sp_find id recs).
    - rewrite in_map_iff. intros [[j z] [E Hin]]. simpl in E.
      destruct (eqb id j); [injection E as <- <-; auto|injection E as <- <-; auto].
    - rewrite in_app_iff. intros [Hin|[E|[]]]; [auto|injection E as <- <-; auto].
  Qed.

  Lemma find_In id (recs : list (entry V Mt)) x : sp_find id recs = Some x -> In (id, x) recs.
  Proof.
    induction recs as [|[k y] recs IH]; simpl; [discriminate|].
    destruct (eqb_spec id k) as [<-|Hn]; [intros [= <-]; auto|auto].
  Qed.

  Lemma cut_In limit (l : list pystr) i : In i (cut limit l) -> In i l.
  Proof.
    assert (forall n, In i (firstn n l) -> In i l) as Hn.
    { intros n Hi. rewrite <- (firstn_skipn n l). apply in_or_app. auto. }
    unfold cut. destruct limit as [k|]; [|auto]. destruct (0 <=? k)%Z; apply Hn.
  Qed.

  Lemma from_effect made a o : In o made -> from made a -> from made (takes_effect a o).
  Proof.
    intros Ho Hf id x. unfold takes_effect.
    destruct o as [|[|c i] v m|i|i|i v m|limit| | |]; simpl; try tauto; try (apply Hf).
    - intros Hx. apply put_In in Hx. destruct Hx as [[-> ->]|Hx]; [left; exact Ho|now apply Hf].
    - intros Hx. apply filter_In in Hx. destruct Hx as [Hx _]. now apply Hf.
    - destruct (sp_find i (s_recs a)); simpl; [|apply Hf].
      intros Hx. apply put_In in Hx. destruct Hx as [[-> ->]|Hx]; [right; exact Ho|now apply Hf].
  Qed.

  Lemma honest_answer made a o r : from made a ->
    sp_ans true (Some rec_size) (fun i => i) a o r -> answer_honest made (Some o) r.
  Proof.
    intros Hf Hans. destruct o as [|[|c i] v m|i|i|i v m|limit| | |]; simpl; auto.
    - destruct r as [| |[x|]|ids| |]; auto. simpl in Hans. destruct (s_open a); [|discriminate].
      injection Hans as E. apply Hf. now apply find_In.
    - destruct r as [| |x|ids| |]; auto. simpl in Hans. destruct (s_open a); [|discriminate].
      destruct Hans as (l & Hp & Hl & E). injection E as ->. intros i Hi. apply cut_In in Hi.
      rewrite (Hl eq_refl) in Hi. apply in_map_iff in Hi. destruct Hi as [[j x] [<- Hi]].
      exists x. now apply Hf.
  Qed.

  Lemma honest_explained a P h a' P' : two_instants a P h a' P' ->
    forall made now, from made a -> (forall t, stage_ok made (now t) (P t)) -> honest made now h.
  Proof.
    induction 1 as [a P|a P t o h a' P' HP _ IH|a P t o r h a' P' HP Ha Hc Hans _ IH
                    |a P t o h a' P' HP He Hc _ IH|a P t o r h a' P' HP Hans _ IH|a P t r h a' P' HP _ IH];
      intros made now Hf Hst; simpl; auto.
    - apply IH.
      + intros id x Hx. apply written_more. now apply Hf.
      + intros u. unfold upd. destruct (Nat.eqb u t); [simpl; auto|apply stage_more, Hst].
    - pose proof (Hst t) as Ht. rewrite HP in Ht. destruct Ht as [Hn Hin]. apply IH; auto.
      intros u. unfold upd. destruct (Nat.eqb_spec u t) as [->|]; [|apply Hst].
      rewrite Hn. simpl. eapply honest_answer; eassumption.
    - pose proof (Hst t) as Ht. rewrite HP in Ht. apply IH; auto.
      intros u. unfold upd. destruct (Nat.eqb_spec u t) as [->|]; [exact Ht|apply Hst].
    - pose proof (Hst t) as Ht. rewrite HP in Ht. destruct Ht as [Hn Hin]. apply IH.
      + now apply from_effect.
      + intros u. unfold upd. destruct (Nat.eqb_spec u t) as [->|]; [|apply Hst].
        rewrite Hn. simpl. eapply honest_answer; [|exact Hans]. exact Hf.
    - pose proof (Hst t) as Ht. rewrite HP in Ht. split; [exact Ht|]. apply IH; auto.
      intros u. unfold upd. destruct (Nat.eqb_spec u t) as [->|]; [exact I|apply Hst].
  Qed.

  Lemma spec_from pre : forall made a, from made a -> from (rev pre ++ made) (fold_left (sp_next false (fun i => i)) pre a).
  Proof.
    induction pre as [|o pre IH]; intros made a Hf; simpl; auto.
    rewrite <- app_assoc. apply IH. simpl.
    assert (from (o :: made) a) as Hf' by (intros id x Hx; apply written_more; now apply Hf).
    assert (In o (o :: made)) as Hin by (left; reflexivity).
    intros id x.
    destruct o as [|[|c i] v m|i|i|i v m|limit| | |]; simpl; try tauto; try (apply Hf');
      destruct (s_open a); simpl; try (apply Hf').
    - intros Hx. apply put_In in Hx. destruct Hx as [[-> ->]|Hx]; [left; exact Hin|now apply Hf'].
    - intros Hx. apply filter_In in Hx. destruct Hx as [Hx _]. now apply Hf'.
    - destruct (sp_find i (s_recs a)); simpl; [|apply Hf'].
      intros Hx. apply put_In in Hx. destruct Hx as [[-> ->]|Hx]; [right; exact Hin|now apply Hf'].
  Qed.
End Honest.

(** C169, what a caller can rely on: whatever the threads call and however they are scheduled, a
    retrieval that answers with a record answers with a vector and metadata that one call, invoked
    before the answer, wrote together under that id, and a listing shows only ids written under. *)
Theorem C169_answers_were_written {V Mt : Type} `{Payload V Mt} :
  forall (pre : list (sop V Mt)) (todo : nat -> list (sop V Mt)) (sched : list nat),
    Forall op_copy pre -> (forall t, Forall any_call (todo t)) ->
    honest (rev pre) (fun _ => None)
      (fst (moves sched (fresh_config (after mem_class mem_new pre) todo))).
Proof.
  intros pre todo sched Hpre Htodo.
  destruct (C169_two_instants pre todo sched Hpre Htodo) as (a' & P' & HL & _).
  apply (honest_explained _ _ _ _ _ HL); [|intros t; exact I].
  pose proof (spec_from pre [] (MkS false [])) as E. rewrite app_nil_r in E. apply E. intros id x [].
Qed.

Section Demo169.
  Let V := list Z. Let Mt := Z.
  Let id_a : pystr := py "a".
  Let id_b : pystr := py "b".
  Let pre : list (sop V Mt) := [OInit; OStore id_a [1; 2]%Z (Some 5%Z)].

  (** Threads 1 and 3 are let in, thread 2 closes, then they go on: the reader is told that there is
      no record, the writer that its record is stored, a third call is refused, and the closed object
      holds the writer's record. *)
  Let todo (t : nat) : list (sop V Mt) :=
    match t with
    | 1 => [ORetrieve id_a]
    | 2 => [OClose; OList None]
    | 3 => [OStore id_b [3; 4]%Z None]
    | _ => []
    end.
  Let sched := [1; 1; 3; 3] ++ repeat 2 14 ++ repeat 1 6 ++ repeat 3 10.

  Example C169_case :
    Forall op_copy pre /\ (forall t, Forall any_call (todo t)) /\
    let c := fresh_config (after mem_class mem_new pre) todo in
    fst (moves sched c)
    = [Inv 1 (ORetrieve id_a); Inv 3 (OStore id_b [3; 4]%Z None); Inv 2 OClose; Res 2 RUnit;
       Inv 2 (OList None); Res 2 (RExn EStorage); Res 1 (RRec None); Res 3 (RBool true)] /\
    c_lock (snd (moves sched c)) = None /\
    m_init (c_mem (snd (moves sched c))) = false /\
    m_vectors (c_mem (snd (moves sched c))) = [(id_b, [3; 4]%Z)].
  Proof.
    split; [repeat constructor|]. split; [intros [|[|[|[|t]]]]; simpl; repeat constructor|].
    vm_compute. repeat split.
  Qed.

  (** [honest] refuses an answer nobody wrote. *)
  Example C169_honest_says_something :
    ~ honest (rev pre) (fun _ => None)
        [Inv 1 (ORetrieve id_a); Res 1 (RRec (Some ([1; 2]%Z, None)))].
  Proof. simpl. intros [[E|E] _]; simpl in E; intuition discriminate. Qed.
End Demo169.

Print Assumptions C169_two_instants.
Print Assumptions C169_answers_were_written.
