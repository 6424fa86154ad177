(** When histories of a locked object can be explained by a sequential order. *)

From Coq Require Import List Arith ZArith Bool Lia.
From Verif Require Import PyBase StorageSpec StepModel StepProofs ConcModel LockModel.
Import ListNotations.

Section Linearise.
  Context {A V Mt : Type}.
  Context (ans : A -> sop V Mt -> sret V Mt -> Prop) (next : A -> sop V Mt -> A).

  (** A thread between calls, inside a call that has not taken effect, inside one that has. *)
  Inductive phase : Type :=
  | PFree
  | PPending (o : sop V Mt)
  | PAnswered (r : sret V Mt).

  (** [explains a P h a' P']: from the specification's state [a] with the threads in [P], the
      history [h] can be explained, ending in [a'] and [P']: each call takes effect at one instant
      between its invocation and its return, with the answer and the effect that the sequential
      specification gives it there. *)
  Inductive explains : A -> (nat -> phase) -> list (event (V:=V) (Mt:=Mt)) -> A -> (nat -> phase) -> Prop :=
  | ex_end a P : explains a P [] a P
  | ex_inv a P t o h a' P' :
      P t = PFree -> explains a (upd P t (PPending o)) h a' P' -> explains a P (Inv t o :: h) a' P'
  | ex_effect a P t o r h a' P' :
      P t = PPending o -> ans a o r -> explains (next a o) (upd P t (PAnswered r)) h a' P' ->
      explains a P h a' P'
  | ex_res a P t r h a' P' :
      P t = PAnswered r -> explains a (upd P t PFree) h a' P' -> explains a P (Res t r :: h) a' P'.
End Linearise.
Arguments phase : clear implicits.

Lemma explains_ext {A V Mt} (ans ans' : A -> sop V Mt -> sret V Mt -> Prop) (next next' : A -> sop V Mt -> A) :
  (forall a o r, ans a o r -> ans' a o r) -> (forall a o, next a o = next' a o) ->
  forall a P h a' P', explains ans next a P h a' P' -> explains ans' next' a P h a' P'.
Proof.
  intros Ha Hn a P h a' P' HL. induction HL.
  - constructor.
  - now apply ex_inv.
  - eapply ex_effect; eauto. now rewrite <- Hn.
  - now apply ex_res.
Qed.

(** At most one step leaves the relation [Rel]: up to it, and after it, all steps stay inside. *)
Section Once.
  Context {S : Type} (Rel : S -> S -> Prop).

  Fixpoint once {X} (p : prog S X) (s : S) : Prop :=
    match p with
    | Return _ => True
    | Step f => let (p', s') := f s in (Rel s s' /\ once p' s') \/ frame Rel p'
    end.

  Lemma once_frame {X} (p : prog S X) : frame Rel p -> forall s, once p s.
  Proof.
    induction p as [r|f IH] using prog_induction; simpl; auto. intros Hp s. specialize (Hp s).
    specialize (IH s). destruct (f s) as [p' s']. simpl in IH. destruct Hp. auto.
  Qed.

  Lemma once_atomic {X} (m : M S X) s : once (atomic m) s.
  Proof. simpl. destruct (m s). right. exact I. Qed.

  Lemma once_bind {X Y} (p : prog S X) (k : X -> prog S Y) : (forall a, frame Rel (k a)) ->
    forall s, once p s -> once (pbind p k) s.
  Proof.
    intros Hk. induction p as [[a|e]|f IH] using prog_induction; simpl; auto; intros s.
    - intros _. now apply once_frame.
    - specialize (IH s). destruct (f s) as [p' s']. simpl in IH. intros [[Hr Ho]|Hf]; [left; auto|right].
      now apply frame_bind.
  Qed.

  Lemma once_after {X Y} (p : prog S X) (k : X -> prog S Y) : frame Rel p ->
    (forall a s, once (k a) s) -> forall s, once (pbind p k) s.
  Proof.
    intros Hp Hk. induction p as [[a|e]|f IH] using prog_induction; simpl; auto; intros s.
    simpl in Hp. specialize (Hp s). specialize (IH s). destruct (f s) as [p' s']. simpl in IH.
    destruct Hp. left. auto.
  Qed.

  Lemma once_wrap {X} E (p : prog S X) : forall s, once p s -> once (pwrap E p) s.
  Proof.
    induction p as [[a|e]|f IH] using prog_induction; simpl; auto; intros s.
    specialize (IH s). destruct (f s) as [p' s']. simpl in IH. intros [[Hr Ho]|Hf]; [left; auto|right].
    now apply frame_wrap.
  Qed.
End Once.

Section Sim.
  Context {A S V Mt : Type}.
  Context (ans : A -> sop V Mt -> sret V Mt -> Prop) (next : A -> sop V Mt -> A).
  Context (O : object S V Mt).
  Context (good : sop V Mt -> Prop).
  Context (R : A -> S -> Prop).
  (** [vis s m]: a method without the lock cannot tell [s] from [m], where [m] is the object as
      the calls that have taken effect leave it. *)
  Context (vis : S -> S -> Prop).

  (** From [s] on, [p] shows what it will have done in the end, [fin]. *)
  Fixpoint settled {X} (p : prog S X) (s fin : S) : Prop :=
    vis s fin /\
    match p with
    | Return _ => True
    | Step f => let (p', s') := f s in settled p' s' fin
    end.

  (** [p], started when the object was [m], shows [m] up to some step and its final state
      afterwards. *)
  Fixpoint switches {X} (p : prog S X) (s m : S) : Prop :=
    match p with
    | Return _ => True
    | Step f =>
        let (p', s') := f s in
        match p' with
        | Return _ => True
        | Step _ => (vis s' m /\ switches p' s' m) \/ settled p' s' (snd (finish p' s'))
        end
    end.

  Lemma frame_settled {X} (Rel : S -> S -> Prop) (p : prog S X) :
    (forall s s' m, Rel s s' -> vis s' m -> vis s m) -> (forall s, vis s s) ->
    frame Rel p -> forall s, settled p s (snd (finish p s)).
  Proof.
    intros Hr Hv. induction p as [r|f IH] using prog_induction; simpl; auto. intros Hp s. specialize (Hp s).
    specialize (IH s). destruct (f s) as [p' s']. simpl in IH. destruct Hp as [HR Hp].
    specialize (IH Hp s'). split; [|exact IH].
    eapply Hr; [exact HR|]. destruct p'; simpl in IH |- *; tauto.
  Qed.

  Lemma once_switches {X} (Rel : S -> S -> Prop) (p : prog S X) m :
    (forall s s' m, Rel s s' -> vis s' m -> vis s m) -> (forall s, vis s s) ->
    (forall s s', Rel s s' -> vis s m -> vis s' m) ->
    forall s, once Rel p s -> vis s m -> switches p s m.
  Proof.
    intros Hr Hv Hf. induction p as [r|f IH] using prog_induction; simpl; auto. intros s. 
    specialize (IH s). destruct (f s) as [p' s']. simpl in IH. intros Ho Hs.
    destruct p' as [r|f']; auto. destruct Ho as [[HR Ho]|Hfr].
    - left. split; eauto.
    - right. now apply frame_settled with (Rel := Rel).
  Qed.

  Hypothesis vis_refl : forall s, vis s s.
  Hypothesis early_ok : forall a m s o r, R a m -> good o -> vis s m -> o_early O o s = Some r ->
    ans a o r /\ R (next a o) m.
  (** [o] is not always answered by the test outside of the lock. *)
  Definition gets_past (o : sop V Mt) : Prop := exists s, o_early O o s = None.

  Hypothesis locked_ok : forall a m o, R a m -> good o -> gets_past o -> o_locked O o = true ->
    switches (o_body O o) m m /\
    (exists f, o_body O o = Step f) /\
    let (r, m') := finish (o_body O o) m in ans a o (answer r) /\ R (next a o) m'.
  Hypothesis unlocked_ok : forall a m s o, R a m -> good o -> o_locked O o = false -> vis s m ->
    exists f r, o_body O o = Step f /\ f s = (Return r, s) /\ ans a o (answer r) /\ R (next a o) m.

  Lemma settled_end {X} (p : prog S X) : forall s fin, settled p s fin -> snd (finish p s) = fin -> vis s fin.
  Proof. destruct p; simpl; tauto. Qed.

  (** Inside the lock: before or after the effect. *)
  Definition inside (P : phase V Mt) (p : prog S (sret V Mt)) (s m : S) : Prop :=
    (exists o f, P = PPending o /\ good o /\ gets_past o /\ o_locked O o = true /\ p = Step f /\ switches p s m /\
       finish p s = finish (o_body O o) m) \/
    (exists r, P = PAnswered (answer r) /\ settled p s m /\ finish p s = (r, m)).

  Record lsim (c : lconfig S V Mt) (a : A) (P : nat -> phase V Mt) (m : S) : Prop := {
    ls_abs : R a m;
    ls_todo : forall t, Forall good (lc_todo c t);
    ls_place : forall t,
      match lc_place c t with
      | LIdle => P t = PFree
      | LCalled o => P t = PPending o /\ good o
      | LWaiting o => P t = PPending o /\ good o /\ gets_past o /\ o_locked O o = true
      | LAnswer r => P t = PAnswered r
      | LOutside p => (exists o, p = o_body O o /\ o_locked O o = false /\ P t = PPending o /\ good o) \/
                      (exists r, p = Return r /\ P t = PAnswered (answer r))
      | LInside p => lc_lock c = Some t /\ inside (P t) p (lc_state c) m
      end;
    ls_vis : vis (lc_state c) m;
    ls_free : lc_lock c = None -> lc_state c = m;
    ls_held : forall t, lc_lock c = Some t -> exists p, lc_place c t = LInside p
  }.

  Lemma upd_eq {X} (f : nat -> X) t x : upd f t x t = x.
  Proof. unfold upd. now rewrite Nat.eqb_refl. Qed.

  Lemma upd_ne {X} (f : nat -> X) t u x : u <> t -> upd f t x u = f u.
  Proof. intros Hn. unfold upd. destruct (Nat.eqb_spec u t); congruence. Qed.

  (** A thread that is not in the lock moves to another place, and nothing else changes but what
      is passed as argument. *)
  Lemma lsim_goto c a P P' m t x a' td :
    lsim c a P m -> (forall p, lc_place c t <> LInside p) ->
    R a' m -> (forall u, Forall good (td u)) -> (forall u, u <> t -> P' u = P u) ->
    match x with
    | LIdle => P' t = PFree
    | LCalled o => P' t = PPending o /\ good o
    | LWaiting o => P' t = PPending o /\ good o /\ gets_past o /\ o_locked O o = true
    | LAnswer r => P' t = PAnswered r
    | LOutside p => (exists o, p = o_body O o /\ o_locked O o = false /\ P' t = PPending o /\ good o) \/
                    (exists r, p = Return r /\ P' t = PAnswered (answer r))
    | LInside p => False
    end ->
    lsim (MkLConf (lc_state c) (lc_lock c) (upd (lc_place c) t x) td) a' P' m.
  Proof.
    intros [H1 H2 H3 H4 H5 H6] Hn Ha Htd HP Hy. constructor; cbn [lc_state lc_lock lc_place lc_todo]; auto.
    - intros u. destruct (Nat.eq_dec u t) as [->|Hu].
      + rewrite !upd_eq. destruct x; auto. destruct Hy.
      + rewrite !upd_ne by auto. rewrite HP by auto. apply H3.
    - intros u Hl. destruct (H6 u Hl) as [p Hp]. destruct (Nat.eq_dec u t) as [->|Hu]; [now destruct (Hn p)|].
      exists p. now rewrite upd_ne.
  Qed.

  (** The owner of the lock moves. *)
  Lemma lsim_owner c a P P' m t s' a' m' k x :
    lsim c a P m -> lc_lock c = Some t ->
    R a' m' -> (forall u, u <> t -> P' u = P u) -> vis s' m' ->
    match x with
    | LInside p => k = Some t /\ inside (P' t) p s' m'
    | LAnswer r => k = None /\ P' t = PAnswered r /\ s' = m'
    | _ => False
    end ->
    lsim (MkLConf s' k (upd (lc_place c) t x) (lc_todo c)) a' P' m'.
  Proof.
    intros [H1 H2 H3 H4 H5 H6] Hk Ha HP Hv Hy. constructor; cbn [lc_state lc_lock lc_place lc_todo]; auto.
    - intros u. destruct (Nat.eq_dec u t) as [->|Hu].
      + rewrite !upd_eq. destruct x; tauto.
      + rewrite !upd_ne by auto. rewrite HP by auto. pose proof (H3 u) as Hu3.
        destruct (lc_place c u); auto. destruct Hu3 as [E _]. congruence.
    - intros ->. destruct x; try tauto. destruct Hy; congruence.
    - intros u ->. destruct x; try tauto; [|destruct Hy; congruence].
      destruct Hy as [E _]. injection E as ->. exists p. now rewrite upd_eq.
  Qed.

  Lemma lsim_explains sched : forall c a P m, lsim c a P m ->
    exists a' P' m', explains ans next a P (fst (lmoves O sched c)) a' P' /\ lsim (snd (lmoves O sched c)) a' P' m'.
  Proof.
    induction sched as [|t sched IH]; intros c a P m Hs; cbn [lmoves].
    { exists a, P, m. split; [constructor|exact Hs]. }
    pose proof (ls_place _ _ _ _ Hs t) as Ht. pose proof Hs as [Habs Htodo Hpl Hvis Hfree Hheld].
    assert (Hgo : forall ev c' a1 P1 m1, lmove O t c = (ev, c') -> lsim c' a1 P1 m1 ->
              (forall h a' P', explains ans next a1 P1 h a' P' -> explains ans next a P (ev ++ h) a' P') ->
              let x := (let (e1, c1) := lmove O t c in
                        let (e2, c2) := lmoves O sched c1 in (e1 ++ e2, c2)) in
              exists a' P' m', explains ans next a P (fst x) a' P' /\ lsim (snd x) a' P' m').
    { intros ev c' a1 P1 m1 -> Hs1 Hk. destruct (IH c' a1 P1 m1 Hs1) as (a' & P' & m' & HL & HS).
      destruct (lmoves O sched c') as [e2 c2]. exists a', P', m'. split; [apply Hk, HL|exact HS]. }
    cbv zeta in Hgo.
    assert (Hne : forall y u, u <> t -> upd P t y u = P u) by (intros; now apply upd_ne).
    destruct (lc_place c t) as [|o|o|p|p|r] eqn:Et.
    - (* idle *)
      destruct (lc_todo c t) as [|o os] eqn:Eo.
      + eapply (Hgo _ _ a P m); [unfold lmove; rewrite Et, Eo; reflexivity|exact Hs|auto].
      + eapply (Hgo _ _ a (upd P t (PPending o)) m);
          [unfold lmove; rewrite Et, Eo; reflexivity| |intros h a' P' HL; apply ex_inv; assumption].
        pose proof (Htodo t) as Hto. rewrite Eo in Hto. inversion Hto; subst.
        apply lsim_goto with (a := a) (P := P); auto; try congruence; [|now rewrite upd_eq].
        intros u. unfold upd. destruct (Nat.eqb u t); auto.
    - (* called *)
      destruct Ht as [HP Hok]. destruct (o_early O o (lc_state c)) as [r|] eqn:Ee.
      + destruct (early_ok a m (lc_state c) o r Habs Hok Hvis Ee) as [Hans Habs'].
        eapply (Hgo _ _ (next a o) (upd P t (PAnswered r)) m);
          [unfold lmove; rewrite Et, Ee; reflexivity| |intros h a' P' HL; eapply ex_effect; eassumption].
        apply lsim_goto with (a := a) (P := P); auto; try congruence. now rewrite upd_eq.
      + eapply (Hgo _ _ a P m); [unfold lmove; rewrite Et, Ee; reflexivity| |auto].
        apply lsim_goto with (a := a) (P := P); auto; try congruence.
        destruct (o_locked O o) eqn:El; [|left; eauto]. split; [assumption|]. split; [assumption|]. split; [eexists; exact Ee|exact El].
    - (* waiting *)
      destruct Ht as (HP & Hok & Hgp & El). destruct (lc_lock c) as [u|] eqn:Ek.
      + eapply (Hgo _ _ a P m); [unfold lmove; rewrite Et, Ek; reflexivity|exact Hs|auto].
      + eapply (Hgo _ _ a P m); [unfold lmove; rewrite Et, Ek; reflexivity| |auto].
        destruct (locked_ok a m o Habs Hok Hgp El) as (Hsw & [f Ef] & _). rewrite (Hfree eq_refl).
        constructor; cbn [lc_state lc_lock lc_place lc_todo]; auto; try discriminate.
        * intros u. destruct (Nat.eq_dec u t) as [->|Hu].
          -- rewrite !upd_eq. split; [reflexivity|]. left. exists o, f. auto 9.
          -- rewrite !upd_ne by auto. pose proof (Hpl u) as Hu3.
             destruct (lc_place c u); auto. destruct Hu3 as [E _]. congruence.
        * intros u E. injection E as <-. rewrite upd_eq. eauto.
    - (* inside the lock *)
      destruct Ht as [Ek Hin].
      destruct Hin as [(o & f & HP & Hok & Hgp & El & -> & Hsw & Hf)|(r & HP & Hst & Hf)].
      + (* not yet in effect *)
        destruct (locked_ok a m o Habs Hok Hgp El) as (_ & _ & Hfin). rewrite <- Hf in Hfin.
        cbn [switches] in Hsw. cbn [finish] in Hfin, Hf.
        destruct (f (lc_state c)) as [p' s'] eqn:Ef.
        destruct (finish p' s') as [r m'] eqn:Efin. destruct Hfin as [Hans Habs'].
        assert (Hset : settled p' s' m' ->
          exists a' P' m'0,
            explains ans next a P (fst (let (e1, c1) := lmove O t c in
                                        let (e2, c2) := lmoves O sched c1 in (e1 ++ e2, c2))) a' P' /\
            lsim (snd (let (e1, c1) := lmove O t c in
                       let (e2, c2) := lmoves O sched c1 in (e1 ++ e2, c2))) a' P' m'0).
        { intros Hst. eapply (Hgo _ _ (next a o) (upd P t (PAnswered (answer r))) m');
            [unfold lmove; rewrite Et, Ef; reflexivity| |intros h a' P' HL; eapply ex_effect; eassumption].
          apply lsim_owner with (a := a) (P := P) (m := m); auto.
          - destruct p'; simpl in Hst; tauto.
          - split; [exact Ek|]. right. exists r. rewrite upd_eq. auto. }
        destruct p' as [r'|f'].
        * apply Hset. cbn in Efin |- *. injection Efin as <- <-. auto.
        * destruct Hsw as [[Hv Hsw]|Hst]; [|exact (Hset Hst)].
          eapply (Hgo _ _ a P m); [unfold lmove; rewrite Et, Ef; reflexivity| |auto].
          apply lsim_owner with (a := a) (P := P) (m := m); auto.
          split; [exact Ek|]. left. exists o, f'. rewrite Efin. auto 9.
      + (* in effect *)
        destruct p as [r'|f].
        * cbn in Hf. injection Hf as -> Em.
          eapply (Hgo _ _ a P m); [unfold lmove; rewrite Et; reflexivity| |auto].
          apply lsim_owner with (a := a) (P := P) (m := m); auto.
        * cbn [settled] in Hst. destruct Hst as [_ Hst]. cbn [finish] in Hf.
          destruct (f (lc_state c)) as [p' s'] eqn:Ef.
          eapply (Hgo _ _ a P m); [unfold lmove; rewrite Et, Ef; reflexivity| |auto].
          apply lsim_owner with (a := a) (P := P) (m := m); auto.
          -- destruct p'; simpl in Hst; tauto.
          -- split; [exact Ek|]. right. exists r. auto.
    - (* a method without the lock *)
      destruct Ht as [(o & -> & El & HP & Hok)|(r & -> & HP)].
      + destruct (unlocked_ok a m (lc_state c) o Habs Hok El Hvis) as (f & r & Eb & Ef & Hans & Habs').
        eapply (Hgo _ _ (next a o) (upd P t (PAnswered (answer r))) m);
          [unfold lmove; rewrite Et, Eb, Ef; reflexivity| |intros h a' P' HL; eapply ex_effect; eassumption].
        apply lsim_goto with (a := a) (P := P); auto; try congruence.
        right. exists r. rewrite upd_eq. auto.
      + eapply (Hgo _ _ a P m); [unfold lmove; rewrite Et; reflexivity| |auto].
        apply lsim_goto with (a := a) (P := P); auto; congruence.
    - (* returning *)
      eapply (Hgo _ _ a (upd P t PFree) m);
        [unfold lmove; rewrite Et; reflexivity| |intros h a' P' HL; apply ex_res; assumption].
      apply lsim_goto with (a := a) (P := P); auto; try congruence. now rewrite upd_eq.
  Qed.

  Lemma lsim_fresh a s todo : R a s -> (forall t, Forall good (todo t)) ->
    lsim (lfresh s todo) a (fun _ => PFree) s.
  Proof.
    intros HA Ht. unfold lfresh. constructor; cbn [lc_state lc_lock lc_place lc_todo]; auto. discriminate.
  Qed.
End Sim.
