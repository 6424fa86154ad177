(** C116, the remaining part: [initialize] beside [close] on the hybrid backend.  [initialize] takes
    no lock (hybrid.py:41-50), so its steps can fall between those of a [close] (hybrid.py:174-181);
    the backend is then half open, a state that no sequential order of the calls produces. *)

From Coq Require Import List Arith ZArith NArith Bool Lia Permutation.
From Verif Require Import PyBase BaseLemmas Payload StorageModel StorageSpec StorageRun StorageProofs
  StorageThms StepModel StepProofs ConcModel LockModel HybridSteps LockProofs Demo.
From Coq Require String.
Import (notations) Coq.Strings.String.
Import ListNotations.

Section Demo116.
  Open Scope Z_scope.
  Let ida := py "a".
  Let todo (t : nat) : list (sop (list Z) Z) :=
    match t with
    | 1%nat => [OInit]
    | 2%nat => [OClose]
    | 3%nat => [OList None; ORetrieve ida]
    | _ => []
    end.
  Let start := lfresh (after (hybrid_class demo_order) (hybrid_new (V := list Z) (Mt := Z) 5 [] []) [OInit]) todo.
  Let sched : list nat := ([1;1;1; 2;2;2;2;2; 1; 2;2;2; 1;1;1] ++ repeat 3 12)%nat.

  (** The history: both calls return before the third thread begins, which is shown a list of
      vectors and is then told that the storage is not initialized. *)
  Let h1 : list (event (V := list Z) (Mt := Z)) := [Res 3 (RExn EStorage)].
  Let h2 := Inv 3 (ORetrieve ida) :: h1.
  Let h3 := Res 3 (RIds []) :: h2.
  Let h4 := Inv 3 (OList None) :: h3.
  Let h5 := Res 1 RUnit :: h4.
  Let h6 := Res 2 RUnit :: h5.
  Let h7 := Inv 2 OClose :: h6.
  Let h8 := Inv 1 OInit :: h7.

  Example C116_initialize_example : fst (lmoves (hybrid_object demo_order) sched start) = h8.
  Proof. vm_compute. reflexivity. Qed.

  Let quiet (P : nat -> phase (list Z) Z) : Prop := P 1%nat = PFree /\ P 2%nat = PFree.
  Let J (h : list (event (V := list Z) (Mt := Z))) (a : sstate (list Z) Z) (P : nat -> phase (list Z) Z) : Prop :=
    (forall t, t <> 1%nat -> t <> 2%nat -> t <> 3%nat -> P t = PFree) /\
    (((h = h8 \/ h = h7 \/ h = h6) /\ P 3%nat = PFree) \/
     (h = h5 /\ P 2%nat = PFree /\ P 3%nat = PFree) \/
     (h = h4 /\ quiet P /\ P 3%nat = PFree) \/
     (h = h3 /\ quiet P /\ P 3%nat = PPending (OList None)) \/
     (h = h3 /\ quiet P /\ exists r, P 3%nat = PAnswered r /\ (r = RIds [] -> s_open a = true)) \/
     (h = h2 /\ quiet P /\ P 3%nat = PFree /\ s_open a = true) \/
     (h = h1 /\ quiet P /\ P 3%nat = PPending (ORetrieve ida) /\ s_open a = true) \/
     (h = h1 /\ quiet P /\ exists r, P 3%nat = PAnswered r /\ r <> RExn EStorage)).

  Lemma init_not_explained a P h a' P' :
    explains (sp_ans false None sanitize_id) (sp_next true sanitize_id) a P h a' P' -> J h a P -> False.
  Proof.
    induction 1 as [a P|a P t o h a' P' HP _ IH|a P t o r h a' P' HP Hans _ IH|a P t r h a' P' HP _ IH];
      intros (Hf & HJ).
    - unfold h8, h7, h6, h5, h4, h3, h2, h1 in HJ. intuition discriminate.
    - apply IH. clear IH.
      destruct HJ as [([E|[E|E]] & HJ)|[(E & HJ)|[(E & HJ)|[(E & HJ)|[(E & HJ)|[(E & HJ)|[(E & HJ)|(E & HJ)]]]]]]];
        try discriminate; injection E as -> -> ->;
        (split; [intros u Hu1 Hu2 Hu3; unfold upd;
                 destruct (Nat.eqb_spec u 1), (Nat.eqb_spec u 2), (Nat.eqb_spec u 3); try congruence; auto|]).
      + left. split; [right; left; reflexivity|exact HJ].
      + left. split; [right; right; reflexivity|exact HJ].
      + do 3 right. left. split; [reflexivity|]. split; [exact (proj1 HJ)|reflexivity].
      + do 6 right. left. split; [reflexivity|]. split; [exact (proj1 HJ)|]. split; [reflexivity|apply HJ].
    - assert (t = 1%nat \/ t = 2%nat \/ t = 3%nat) as Ht.
      { destruct (Nat.eq_dec t 1); auto. destruct (Nat.eq_dec t 2); auto. destruct (Nat.eq_dec t 3); auto.
        rewrite Hf in HP by auto. discriminate. }
      apply IH. clear IH.
      assert (Hfr : forall u, u <> 1%nat -> u <> 2%nat -> u <> 3%nat -> upd P t (PAnswered r) u = PFree).
      { intros u Hu1 Hu2 Hu3. unfold upd. destruct (Nat.eqb_spec u t); [intuition congruence|auto]. }
      split; [exact Hfr|].
      assert (Hq : quiet P -> t = 3%nat).
      { intros [E1 E2]. destruct Ht as [->|[->| ->]]; congruence. }
      assert (Hk : t = 3%nat -> quiet P -> quiet (upd P t (PAnswered r))).
      { intros -> [E1 E2]. split; assumption. }
      destruct HJ as [(E & HJ)|[(E & HJ)|[(E & HJ)|[(E & HJ)|[(E & HJ)|[(E & HJ)|[(E & HJ)|(E & HJ)]]]]]]].
      + left. split; [exact E|]. destruct Ht as [->|[->| ->]]; [exact HJ|exact HJ|congruence].
      + right. left. split; [exact E|]. destruct HJ as [E2 E3].
        destruct Ht as [->|[->| ->]]; [split; assumption|congruence|congruence].
      + exfalso. destruct HJ as [Q E3]. rewrite (Hq Q) in HP. congruence.
      + destruct HJ as [Q E3]. pose proof (Hq Q) as ->. rewrite HP in E3. injection E3 as ->.
        do 4 right. left. split; [exact E|]. split; [now apply Hk|]. exists r. split; [reflexivity|].
        intros ->. destruct a as [[|] recs]; [reflexivity|]. discriminate Hans.
      + exfalso. destruct HJ as (Q & r0 & E3 & _). rewrite (Hq Q) in HP. congruence.
      + exfalso. destruct HJ as (Q & E3 & _). rewrite (Hq Q) in HP. congruence.
      + destruct HJ as (Q & E3 & Ho). pose proof (Hq Q) as ->. rewrite HP in E3. injection E3 as ->.
        do 7 right. split; [exact E|]. split; [now apply Hk|]. exists r. split; [reflexivity|].
        intros ->. destruct a as [op recs]. cbn in Ho. subst op. discriminate Hans.
      + exfalso. destruct HJ as (Q & r0 & E3 & _). rewrite (Hq Q) in HP. congruence.
    - assert (Hfr : forall u, u <> 1%nat -> u <> 2%nat -> u <> 3%nat -> upd P t PFree u = PFree).
      { intros u Hu1 Hu2 Hu3. unfold upd. destruct (Nat.eqb_spec u t); auto. }
      destruct HJ as [([E|[E|E]] & HJ)|[(E & HJ)|[(E & HJ)|[(E & HJ)|[(E & HJ)|[(E & HJ)|[(E & HJ)|(E & HJ)]]]]]]];
        try discriminate; injection E as -> -> ->.
      + apply IH. split; [exact Hfr|]. right. left. split; [reflexivity|]. split; [reflexivity|exact HJ].
      + apply IH. split; [exact Hfr|]. right. right. left. split; [reflexivity|]. destruct HJ as [E2 E3].
        split; [split; [reflexivity|exact E2]|exact E3].
      + destruct HJ as [_ E3]. congruence.
      + apply IH. split; [exact Hfr|]. destruct HJ as ([E1 E2] & r0 & E3 & Ho). rewrite HP in E3. injection E3 as <-.
        do 5 right. left. split; [reflexivity|]. split; [split; assumption|]. split; [reflexivity|now apply Ho].
      + destruct HJ as (_ & E3 & _). congruence.
      + destruct HJ as (_ & r0 & E3 & E4). congruence.
  Qed.

  (** C116 fails with [initialize] beside [close]: afterwards the flag and the disk backend are open
      and the memory backend is closed, so that the listing answers and the retrieval raises, with
      nothing running any more. *)
  Theorem C116_initialize_refuted :
    exists (limit : Z) (pre : list (sop (list Z) Z)) (todo : nat -> list (sop (list Z) Z)) (sched : list nat),
      separated (eq ida) /\ (forall i, file_safe isalnum i (sanitize_id i)) /\
      Forall op_ok pre /\ Forall (op_id_in (eq ida)) pre /\
      (forall t, Forall (fun o => op_ok o /\ op_id_in (eq ida) o /\
                                  match o with OStats | OReopen => False | _ => True end) (todo t)) /\
      forall a' P',
        ~ explains (sp_ans false None sanitize_id) (sp_next true sanitize_id)
            (fold_left (sp_next true sanitize_id) pre (MkS false [])) (fun _ => PFree)
            (fst (lmoves (hybrid_object demo_order) sched
                   (lfresh (after (hybrid_class demo_order) (hybrid_new limit [] []) pre) todo)))
            a' P'.
  Proof.
    exists 5, [OInit], todo, sched.
    split; [intros i j t <- <- _ _; reflexivity|].
    split; [apply sanitize_file_safe|].
    split; [repeat constructor|]. split; [repeat constructor|].
    split.
    { intros [|[|[|[|t]]]]; repeat constructor. }
    intros a' P' HL.
    refine (init_not_explained _ _ _ _ _ HL _).
    change (lfresh _ todo) with start. rewrite C116_initialize_example.
    split; [reflexivity|]. left. split; [left; reflexivity|reflexivity].
  Qed.
End Demo116.

Print Assumptions C116_initialize_refuted.
