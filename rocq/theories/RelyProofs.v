(** Rely and guarantee for threads over one shared state: each thread is followed by the list of
    writes it still has to make; what a thread knows must survive the writes of the others. *)

From Coq Require Import List Arith ZArith NArith Lia Bool Permutation.
From Verif Require Import PyBase StepModel StepProofs LshSteps FlatRaceProofs.
Import ListNotations.

Section Rely.
  (** Shared state, what the proofs keep beside it, and writes. *)
  Context {W G Act : Type}.
  (** Facts that hold at every moment. *)
  Context (good : G -> W -> Prop).
  (** One step of a thread: the writes still to come before and after, both states. *)
  Context (eff : list Act -> list Act -> G -> W -> G -> W -> Prop).
  Context (eff_app : forall a1 a1' a2 g w g' w',
             eff a1 a1' g w g' w' -> eff (a1 ++ a2) (a1' ++ a2) g w g' w').
  (** What later moments keep. *)
  Context (later : G -> W -> G -> W -> Prop).
  Context (later_refl : forall g w, later g w g w).
  Context (later_trans : forall g1 w1 g2 w2 g3 w3,
             later g1 w1 g2 w2 -> later g2 w2 g3 w3 -> later g1 w1 g3 w3).
  Implicit Types P : G -> W -> Prop.

  Definition stays P : Prop := forall g w g' w', later g w g' w' -> P g w -> P g' w'.

  (** From a moment at which [P] holds, the program makes exactly the writes [acts], whatever
      other threads do in between, and what it returns satisfies [Q]. *)
  Fixpoint follows {R} (q : prog W R) (acts : list Act) P (Q : G -> W -> result R -> Prop) : Prop :=
    match q with
    | Return r => forall g w, good g w -> P g w -> acts = [] /\ Q g w r
    | Step f =>
        forall w g, good g w -> P g w ->
        match f w with
        | (q', w') =>
            exists acts' g' P',
              eff acts acts' g w g' w' /\ stays P' /\ P' g' w' /\ follows q' acts' P' Q
        end
    end.

  Lemma follows_weaken {R} (q : prog W R) acts P P' Q :
    (forall g w, good g w -> P' g w -> P g w) -> follows q acts P Q -> follows q acts P' Q.
  Proof. destruct q as [r|f]; simpl; intros Hw Hq; intros; apply Hq; auto. Qed.

  Lemma follows_absurd {R} (q : prog W R) acts P Q : (forall g w, ~ P g w) -> follows q acts P Q.
  Proof. destruct q as [r|f]; simpl; intros Hn; intros; exfalso; eapply Hn; eauto. Qed.

  Lemma follows_post {R} (q : prog W R) (Q Q' : G -> W -> result R -> Prop) :
    (forall g w r, Q g w r -> Q' g w r) -> forall acts P,
    follows q acts P Q -> follows q acts P Q'.
  Proof.
    intros HQ. induction q as [r|f IH] using prog_induction; intros acts P Hq.
    - intros g w Hg HP. destruct (Hq g w Hg HP). auto.
    - intros w g Hg HP. specialize (Hq w g Hg HP). specialize (IH w).
      destruct (f w) as [q' w']. destruct Hq as (acts' & g' & P' & ? & ? & ? & ?).
      exists acts', g', P'. auto.
  Qed.

  Lemma follows_bind {R T} (q : prog W R) (k : R -> prog W T) a2
      (Q1 : G -> W -> result R -> Prop) (Q2 : G -> W -> result T -> Prop) : forall a1 P,
    follows q a1 P Q1 ->
    (forall r, follows (k r) a2 (fun g w => Q1 g w (Ok r)) Q2) ->
    (forall g w e, Q1 g w (Raise e) -> a2 = [] /\ Q2 g w (Raise e)) ->
    follows (pbind q k) (a1 ++ a2) P Q2.
  Proof.
    induction q as [[r|e]|f IH] using prog_induction; intros a1 P Hq Hk He.
    - change (pbind (Return (Ok r)) k) with (k r).
      specialize (Hk r). destruct (k r) as [r2|f2]; simpl in *.
      + intros g w Hg HP. destruct (Hq g w Hg HP) as [-> HQ]. apply Hk; auto.
      + intros w g Hg HP. destruct (Hq g w Hg HP) as [-> HQ]. exact (Hk w g Hg HQ).
    - intros g w Hg HP. destruct (Hq g w Hg HP) as [-> HQ]. apply (He g w); auto.
    - cbn [pbind]. intros w g Hg HP. specialize (Hq w g Hg HP). specialize (IH w).
      destruct (f w) as [q' w']. destruct Hq as (acts' & g' & P' & He' & Hm & HP' & Hq').
      exists (acts' ++ a2), g', P'. split; [|split; [|split]]; auto.
  Qed.

  Lemma follows_wrap {R} E (q : prog W R) (Q Q' : G -> W -> result R -> Prop) :
    (forall g w r, Q g w (Ok r) -> Q' g w (Ok r)) ->
    (forall g w e, Q g w (Raise e) -> Q' g w (Raise E)) -> forall acts P,
    follows q acts P Q -> follows (pwrap E q) acts P Q'.
  Proof.
    intros H1 H2. induction q as [[r|e]|f IH] using prog_induction; intros acts P Hq.
    - intros g w Hg HP. destruct (Hq g w Hg HP). auto.
    - intros g w Hg HP. destruct (Hq g w Hg HP). eauto.
    - cbn [pwrap]. intros w g Hg HP. specialize (Hq w g Hg HP). specialize (IH w).
      destruct (f w) as [q' w']. destruct Hq as (acts' & g' & P' & ? & ? & ? & ?).
      exists acts', g', P'. auto.
  Qed.

  Lemma stays_True : stays (fun _ _ => True).
  Proof. intros ? ? ? ? ? ?. exact I. Qed.

  (** The invariant over all threads. *)
  Context (I : G -> W -> (nat -> list Act) -> Prop).
  Context (I_good : forall g w todo, I g w todo -> good g w).
  Context (I_step : forall g w todo t acts' g' w',
             I g w todo -> eff (todo t) acts' g w g' w' ->
             I g' w' (upd todo t acts') /\ later g w g' w').

  (** Every schedule keeps the invariant, and every thread stays on its course. *)
  Lemma threads_follow {R} (Q : nat -> G -> W -> result R -> Prop) sched :
    forall (ps : nat -> prog W R) w g todo,
    I g w todo ->
    (forall t, exists P, stays P /\ P g w /\ follows (ps t) (todo t) P (Q t)) ->
    match threads sched ps w with
    | (ps', w') => exists g' todo',
        I g' w' todo' /\ later g w g' w' /\
        (forall t, exists P, stays P /\ P g' w' /\ follows (ps' t) (todo' t) P (Q t))
    end.
  Proof.
    induction sched as [|t sched IH]; intros ps w g todo HI Hps; cbn [threads].
    - exists g, todo. auto.
    - destruct (ps t) as [r|f] eqn:Ept; [now apply (IH ps w g todo)|].
      destruct (Hps t) as (P & HM & HP & Hr). rewrite Ept in Hr. cbn [follows] in Hr.
      specialize (Hr w g (I_good _ _ _ HI) HP).
      destruct (f w) as [q' w1]. destruct Hr as (acts' & g1 & P' & He & HM' & HP' & Hq').
      destruct (I_step _ _ _ _ _ _ _ HI He) as [I1 Hg].
      specialize (IH (fun u => if Nat.eqb u t then q' else ps u) w1 g1 (upd todo t acts') I1).
      destruct (threads sched _ w1) as [ps' w'].
      destruct IH as (g' & todo' & I' & Hg' & Hps').
      + intros u. unfold upd. destruct (Nat.eqb_spec u t); [subst; exists P'; auto|].
        destruct (Hps u) as (Pu & HMu & HPu & Hru). exists Pu. split; auto. split; auto.
        eapply HMu; eauto.
      + exists g', todo'. split; auto. split; auto. eapply later_trans; eauto.
  Qed.
End Rely.
