(** Threads that work on different keys of one shared state: each of them goes through the same
    steps as if it were alone. *)

From Coq Require Import List Arith Lia Bool.
From Verif Require Import PyBase StepModel StepProofs LshSteps.
Import ListNotations.

(** Results that are related when their values are. *)
Definition res_rel {A B} (R : A -> B -> Prop) (r : result A) (r' : result B) : Prop :=
  match r, r' with
  | Ok a, Ok b => R a b
  | Raise e, Raise e' => e = e'
  | _, _ => False
  end.

Section Own.
  (** Shared state, what the proofs keep beside it, and what the state says about a key. *)
  Context {W G Key Cell : Type}.
  Context (good : G -> W -> Prop) (cell : Key -> G -> W -> Cell).

  (** Two states say the same about the keys of [own]. *)
  Definition agree (own : Key -> Prop) (g : G) (w : W) (g' : G) (w' : W) : Prop :=
    forall k, own k -> cell k g w = cell k g' w'.

  (** Started from states that agree on [own], the two programs go through the same number of
      steps, agree on [own] after each of them and change nothing else. *)
  Fixpoint locked {A B} (own : Key -> Prop) (R : A -> B -> Prop) (p : prog W A) (q : prog W B)
      : Prop :=
    match p with
    | Return r => match q with Return r' => res_rel R r r' | Step _ => False end
    | Step f =>
        match q with
        | Return _ => False
        | Step f2 =>
            forall w g w2 g2, good g w -> good g2 w2 -> agree own g w g2 w2 ->
            match f w with
            | (p', w') =>
                match f2 w2 with
                | (q', w2') =>
                    exists g' g2', good g' w' /\ good g2' w2' /\ agree own g' w' g2' w2' /\
                      agree (fun k => ~ own k) g w g' w' /\ locked own R p' q'
                end
            end
        end
    end.

  Lemma locked_bind {A B C D} own (R : A -> B -> Prop) (T : C -> D -> Prop) p :
    forall q (k : A -> prog W C) (k2 : B -> prog W D),
    locked own R p q -> (forall a b, R a b -> locked own T (k a) (k2 b)) ->
    locked own T (pbind p k) (pbind q k2).
  Proof.
    induction p as [r|f IH] using prog_induction; intros [r'|f2] k k2 Hl Hk;
      try (simpl in Hl; tauto).
    - destruct r as [a|e], r' as [b|e']; simpl in Hl; try contradiction.
      + apply (Hk a b Hl).
      + subst. simpl. reflexivity.
    - cbn [pbind locked]. intros w g w2 g2 Hg Hg2 Ha. specialize (Hl w g w2 g2 Hg Hg2 Ha).
      specialize (IH w). destruct (f w) as [p' w'], (f2 w2) as [q' w2'].
      destruct Hl as (g' & g2' & ? & ? & ? & ? & Hl). exists g', g2'. simpl in IH. auto 7.
  Qed.

  Lemma locked_wrap {A B} E own (R : A -> B -> Prop) p : forall q,
    locked own R p q -> locked own R (pwrap E p) (pwrap E q).
  Proof.
    induction p as [r|f IH] using prog_induction; intros [r'|f2] Hl; try (simpl in Hl; tauto).
    - destruct r as [a|e], r' as [b|e']; simpl in *; auto.
    - cbn [pwrap locked]. intros w g w2 g2 Hg Hg2 Ha. specialize (Hl w g w2 g2 Hg Hg2 Ha).
      specialize (IH w). destruct (f w) as [p' w'], (f2 w2) as [q' w2'].
      destruct Hl as (g' & g2' & ? & ? & ? & ? & Hl). exists g', g2'. simpl in IH. auto 7.
  Qed.

  Lemma locked_atomic {A B} own (R : A -> B -> Prop) (m : M W A) (m2 : M W B) :
    (forall w g w2 g2, good g w -> good g2 w2 -> agree own g w g2 w2 ->
       exists g' g2', good g' (snd (m w)) /\ good g2' (snd (m2 w2)) /\
         agree own g' (snd (m w)) g2' (snd (m2 w2)) /\
         agree (fun k => ~ own k) g w g' (snd (m w)) /\
         res_rel R (fst (m w)) (fst (m2 w2))) ->
    locked own R (atomic m) (atomic m2).
  Proof.
    intros Hm. cbn [atomic locked]. intros w g w2 g2 Hg Hg2 Ha.
    specialize (Hm w g w2 g2 Hg Hg2 Ha). destruct (m w) as [r w'], (m2 w2) as [r' w2'].
    exact Hm.
  Qed.

  (** Threads with pairwise disjoint keys. *)
  Lemma threads_own {A} (own : nat -> Key -> Prop) (ps0 : nat -> prog W A) w0 g0 :
    (forall t u k, own t k -> own u k -> t = u) ->
    (forall t, locked (own t) eq (ps0 t) (ps0 t)) -> good g0 w0 ->
    forall sched,
    match threads sched ps0 w0 with
    | (ps', w') =>
        exists g', good g' w' /\
          (forall k, (forall t, ~ own t k) -> cell k g0 w0 = cell k g' w') /\
          (forall t, exists q wt gt,
             good gt wt /\ agree (own t) g' w' gt wt /\ locked (own t) eq (ps' t) q /\
             finish q wt = finish (ps0 t) w0)
    end.
  Proof.
    intros Hdis Hps Hg0.
    assert (forall sched ps w g, good g w ->
      (forall k, (forall t, ~ own t k) -> cell k g0 w0 = cell k g w) ->
      (forall t, exists q wt gt,
         good gt wt /\ agree (own t) g w gt wt /\ locked (own t) eq (ps t) q /\
         finish q wt = finish (ps0 t) w0) ->
      match threads sched ps w with
      | (ps', w') =>
          exists g', good g' w' /\
            (forall k, (forall t, ~ own t k) -> cell k g0 w0 = cell k g' w') /\
            (forall t, exists q wt gt,
               good gt wt /\ agree (own t) g' w' gt wt /\ locked (own t) eq (ps' t) q /\
               finish q wt = finish (ps0 t) w0)
      end) as Hgen.
    { induction sched as [|t sched IH]; intros ps w g Hg Hrest Hall; cbn [threads].
      - exists g. auto.
      - destruct (ps t) as [r|f] eqn:Ept; [now apply (IH ps w g)|].
        destruct (Hall t) as (q & wt & gt & Hgt & Ha & Hl & Hf). rewrite Ept in Hl.
        destruct q as [r|f2]; [now simpl in Hl|]. cbn [locked] in Hl.
        specialize (Hl w g wt gt Hg Hgt Ha). cbn [finish] in Hf.
        destruct (f w) as [p' w1], (f2 wt) as [q' wt'].
        destruct Hl as (g1 & gt' & Hg1 & Hgt' & Ha' & Hfr & Hl').
        apply (IH (fun u => if Nat.eqb u t then p' else ps u) w1 g1); auto.
        + intros k Hk. rewrite (Hrest k Hk). now apply Hfr.
        + intros u. destruct (Nat.eqb_spec u t) as [->|Hne].
          * exists q', wt', gt'. auto.
          * destruct (Hall u) as (qu & wu & gu & Hgu & Hau & Hlu & Hfu).
            exists qu, wu, gu. split; [|split; [|split]]; auto.
            intros k Hk. rewrite <- (Hau k Hk). symmetry. apply Hfr.
            intros Hk'. apply Hne. now apply (Hdis u t k). }
    intros sched. apply (Hgen sched ps0 w0 g0); auto.
    intros t. exists (ps0 t), w0, g0. split; [|split; [|split]]; auto.
    intros k _. reflexivity.
  Qed.
End Own.
