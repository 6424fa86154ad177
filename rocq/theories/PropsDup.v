(** Property C70: the groups of [find_duplicates] (model: HelpersModel.v). *)

From Coq Require Import String List Arith ZArith NArith Bool Lia Sorted.
From Verif Require Import PyBase PyMore Num HelpersModel.
Import ListNotations.

(** What a list of duplicate groups over the vectors [0 .. n-1] must satisfy, [close i j] meaning
    that vector [j] is similar enough to vector [i]. *)
Record grouping (close : nat -> nat -> bool) (n : nat) (groups : list (list nat)) : Prop := {
  (** at least two ascending positions, all similar to the first *)
  gr_group : forall g, In g groups ->
    exists i rest, g = i :: rest /\ rest <> [] /\ StronglySorted lt g /\
                   Forall (fun j => j < n) g /\ Forall (fun j => close i j = true) rest;
  (** no position twice, neither in one group nor in two *)
  gr_disjoint : NoDup (concat groups);
  (** groups in the order of their first positions *)
  gr_order : StronglySorted lt (map (fun g => hd 0 g) groups);
  (** a vector similar to an earlier one has been grouped, with that one or with a still earlier
      one, unless the earlier one follows another group's first *)
  gr_maximal : forall i j, i < j < n -> close i j = true ->
    (exists g, In g groups /\ In j g /\ hd 0 g <= i) \/
    (exists g, In g groups /\ In i (tl g))
}.

(** ** The loops *)

Lemma join_all close i js : forall group processed, NoDup js ->
  exists added,
    added = filter (fun j => negb (memb j processed) && close i j) js /\
    fold_left (dup_join close i) js (group, processed) = (group ++ added, rev added ++ processed).
Proof.
  induction js as [|j js IH]; intros group processed Hn.
  - exists []. simpl. rewrite app_nil_r. auto.
  - inversion Hn as [|? ? Hj Hn']; subst. cbn [fold_left filter].
    unfold dup_join at 2. destruct (memb j processed) eqn:Em; simpl.
    + apply IH. auto.
    + destruct (close i j) eqn:Ec.
      * destruct (IH (group ++ [j]) (j :: processed) Hn') as (added & -> & Hf).
        exists (j :: filter (fun j0 => negb (memb j0 processed) && close i j0) js).
        assert (E : filter (fun j0 => negb (memb j0 (j :: processed)) && close i j0) js
                    = filter (fun j0 => negb (memb j0 processed) && close i j0) js).
        { apply filter_ext_in. intros a Ha. simpl. rewrite eqb_neq; [reflexivity|]. intros ->. tauto. }
        rewrite E in Hf. split; [reflexivity|]. rewrite Hf. simpl.
        now rewrite <- !app_assoc.
      * apply IH. auto.
Qed.

Lemma filter_sorted (f : nat -> bool) l : StronglySorted lt l -> StronglySorted lt (filter f l).
Proof.
  induction 1 as [|a l Hs IH Hf]; simpl; [constructor|].
  destruct (f a); auto. constructor; auto. rewrite Forall_forall in *.
  intros x Hx. apply filter_In in Hx. apply Hf. tauto.
Qed.

Lemma seq_sorted n : forall s, StronglySorted lt (seq s n).
Proof.
  induction n as [|n IH]; intros s; simpl; constructor; auto.
  apply Forall_forall. intros x Hx. apply in_seq in Hx. lia.
Qed.

Lemma sorted_snoc l x : StronglySorted lt l -> Forall (fun y => y < x) l -> StronglySorted lt (l ++ [x]).
Proof.
  induction 1 as [|a l Hs IH Hf]; intros Hx; simpl; [repeat constructor|].
  inversion Hx; subst. constructor; auto. apply Forall_app. auto.
Qed.

(** The state of the outer loop when the positions below [m] are done. *)
Record halfway (close : nat -> nat -> bool) (n m : nat) (groups : list (list nat))
    (processed : list nat) : Prop := {
  hw_processed : forall x, In x processed <-> x < m \/ In x (concat groups);
  hw_group : forall g, In g groups ->
    exists i rest, g = i :: rest /\ rest <> [] /\ i < m /\ StronglySorted lt g /\
                   Forall (fun j => j < n) g /\ Forall (fun j => close i j = true) rest;
  hw_disjoint : NoDup (concat groups);
  hw_order : StronglySorted lt (map (fun g => hd 0 g) groups);
  hw_maximal : forall i j, i < m -> i < j < n -> close i j = true ->
    (exists g, In g groups /\ In j g /\ hd 0 g <= i) \/
    (exists g, In g groups /\ In i (tl g))
}.

Lemma halfway_step close n m groups processed : m < n ->
  halfway close n m groups processed ->
  let s := dup_step close n (groups, processed) m in halfway close n (S m) (fst s) (snd s).
Proof.
  intros Hm [Hp Hg Hd Ho Hx]. unfold dup_step. destruct (memb m processed) eqn:Em.
  - apply memb_In in Em. apply Hp in Em. destruct Em as [Em|Em]; [lia|].
    simpl. constructor; auto.
    + intros x. rewrite Hp. split; intros [H|H]; auto; try (left; lia).
      destruct (Nat.eq_dec x m) as [->|]; auto. left. lia.
    + intros g H. destruct (Hg g H) as (i & rest & -> & A & B & C). exists i, rest. intuition lia.
    + intros i j Hi Hij Hc. destruct (Nat.eq_dec i m) as [->|]; [|apply Hx; auto; lia].
      right. apply in_concat in Em. destruct Em as (g & Hin & Hmg). exists g. split; auto.
      destruct (Hg g Hin) as (i & rest & -> & _ & Hlt & _). destruct Hmg as [->|]; [lia|auto].
  - apply memb_false in Em. rewrite Hp in Em.
    assert (Hnm : ~ In m (concat groups)) by tauto.
    destruct (join_all close m (seq (m + 1) (n - (m + 1))) [m] (m :: processed) (seq_NoDup _ _))
      as (added & Ea & Hf).
    rewrite Hf.
    assert (Hadd : forall j, In j added <-> m < j < n /\ ~ In j processed /\ close m j = true).
    { intros j. rewrite Ea, filter_In, in_seq, andb_true_iff, negb_true_iff, memb_false. simpl.
      intuition lia. }
    assert (Hsa : StronglySorted lt (m :: added)).
    { constructor; [rewrite Ea; apply filter_sorted, seq_sorted|].
      apply Forall_forall. intros j Hj. apply Hadd in Hj. lia. }
    assert (Hnew : forall j, In j added -> ~ In j (concat groups)).
    { intros j Hj Hc. apply Hadd in Hj. destruct Hj as (_ & H & _). apply H, Hp. auto. }
    assert (Hfar : forall j, m < j < n -> close m j = true -> In j added \/
                     exists g, In g groups /\ In j g /\ hd 0 g <= m).
    { intros j Hj Hc. destruct (in_dec Nat.eq_dec j processed) as [Hin|Hout].
      - apply Hp in Hin. destruct Hin as [H|H]; [lia|]. apply in_concat in H.
        destruct H as (g & H1 & H2). right. exists g. split; [auto|]. split; [auto|].
        destruct (Hg g H1) as (i & rest & -> & _ & Hlt & _). simpl. lia.
      - left. apply Hadd. auto. }
    simpl fst. simpl snd. simpl app. destruct added as [|a added']; cbn [length Nat.ltb Nat.leb].
    + constructor; auto.
      * intros x. simpl. rewrite Hp. intuition lia.
      * intros g H. destruct (Hg g H) as (i & rest & -> & A & B & C). exists i, rest. intuition lia.
      * intros i j Hi Hij Hc. destruct (Nat.eq_dec i m) as [->|]; [|apply Hx; auto; lia].
        destruct (Hfar j Hij Hc) as [[]|H]; auto.
    + set (added := a :: added') in *. constructor.
      * intros x. rewrite concat_app, !in_app_iff. simpl concat. rewrite app_nil_r.
        rewrite <- in_rev. simpl. rewrite Hp. intuition lia.
      * intros g H. apply in_app_or in H. destruct H as [H|[<-|[]]].
        -- destruct (Hg g H) as (i & rest & -> & A & B & C). exists i, rest. intuition lia.
        -- exists m, added. split; [reflexivity|]. split; [discriminate|]. split; [lia|].
           split; [exact Hsa|]. split.
           ++ constructor; auto. apply Forall_forall. intros j Hj. apply Hadd in Hj. lia.
           ++ apply Forall_forall. intros j Hj. apply Hadd in Hj. tauto.
      * rewrite concat_app. simpl concat. rewrite app_nil_r.
        assert (Hnd : NoDup (m :: added)).
        { clear -Hsa. induction Hsa as [|x l Hs IH Hf]; constructor; auto.
          rewrite Forall_forall in Hf. intros Hin. apply Hf in Hin. lia. }
        clear -Hd Hnd Hnew Hnm. revert Hd Hnew Hnm. generalize (concat groups). intros l Hd Hnew Hnm.
        induction Hd as [|x l Hx Hd IH]; simpl; [exact Hnd|]. constructor.
        -- rewrite in_app_iff. intros [H|[H|H]]; auto.
           ++ apply Hnm. subst. simpl; auto.
           ++ apply (Hnew x H). simpl; auto.
        -- apply IH; [intros j Hj H; apply (Hnew j Hj); simpl; auto|intros H; apply Hnm; simpl; auto].
      * rewrite map_app. apply sorted_snoc; auto. apply Forall_forall. intros x H.
        apply in_map_iff in H. destruct H as (g & <- & H).
        destruct (Hg g H) as (i & rest & -> & _ & Hlt & _). exact Hlt.
      * intros i j Hi Hij Hc. destruct (Nat.eq_dec i m) as [->|].
        -- left. destruct (Hfar j Hij Hc) as [H|(g & H1 & H2 & H3)].
           ++ exists (m :: added). split; [apply in_or_app; simpl; auto|]. split; [simpl; auto|auto].
           ++ exists g. split; [apply in_or_app; auto|auto].
        -- destruct (Hx i j) as [(g & H1 & H2)|(g & H1 & H2)]; auto; try lia.
           ++ left. exists g. split; [apply in_or_app; auto|auto].
           ++ right. exists g. split; [apply in_or_app; auto|auto].
Qed.

Lemma dup_groups_grouping close n : grouping close n (dup_groups close n).
Proof.
  assert (G : forall k m groups processed, m + k = n -> halfway close n m groups processed ->
    let s := fold_left (dup_step close n) (seq m k) (groups, processed) in
    halfway close n n (fst s) (snd s)).
  { induction k as [|k IH]; intros m groups processed E Hh.
    - assert (m = n) as -> by lia. exact Hh.
    - cbn [seq fold_left].
      pose proof (halfway_step close n m groups processed) as Hs. cbv zeta in Hs.
      specialize (Hs ltac:(lia) Hh).
      destruct (dup_step close n (groups, processed) m) as [g p]. apply IH; [lia|exact Hs]. }
  specialize (G n 0 [] [] eq_refl). unfold dup_groups. cbv zeta in G.
  destruct G as [Hp Hg Hd Ho Hx].
  { constructor; simpl; [intros x; split; [tauto|intros [H|[]]; lia]|tauto|constructor|constructor|lia]. }
  constructor; auto.
  - intros g H. destruct (Hg g H) as (i & rest & -> & A & _ & B). eauto 10.
  - intros i j Hij. apply Hx; lia.
Qed.

(** ** C70 *)

(** For every data set, scalar type, metric and threshold: the groups returned are a grouping of
    the positions under "the entry of the similarity matrix is at least the threshold"; in
    particular two vectors outside all groups are never similar. *)
Theorem C70_groups :
  forall (F : Type) (num : Num F) (eps : F) (rows : list (list F)) (threshold : F) (metric : pystr) groups,
    find_duplicates eps rows threshold metric = Ok groups ->
    exists matrix,
      compute_similarity_matrix eps rows metric = Ok matrix /\
      grouping (fun i j => nleb threshold (nth j (nth i matrix []) nzero)) (length rows) groups.
Proof.
  intros F num eps rows threshold metric groups. unfold find_duplicates.
  destruct (compute_similarity_matrix eps rows metric) as [matrix|e]; [|discriminate].
  simpl. intros E. injection E as <-. exists matrix. split; [reflexivity|].
  apply dup_groups_grouping.
Qed.

(** The consequence in words: two positions outside all groups are not similar. *)
Theorem C70_outside :
  forall close n groups i j, grouping close n groups -> i < j < n ->
    ~ In i (concat groups) -> ~ In j (concat groups) -> close i j = false.
Proof.
  intros close n groups i j Hg Hij Hi Hj. destruct (close i j) eqn:E; [|reflexivity].
  exfalso. destruct (gr_maximal _ _ _ Hg i j Hij E) as [(g & H1 & H2 & _)|(g & H1 & H2)].
  - apply Hj, in_concat. eauto.
  - apply Hi, in_concat. exists g. split; auto. destruct g; simpl in *; auto.
Qed.

(** An unknown metric name raises, every other name does not. *)
Theorem C70_total :
  forall (F : Type) (num : Num F) (eps : F) (rows : list (list F)) (threshold : F) (metric : pystr),
    (In metric [py "cosine"; py "euclidean"; py "dot"] ->
       exists groups, find_duplicates eps rows threshold metric = Ok groups) /\
    (~ In metric [py "cosine"; py "euclidean"; py "dot"] ->
       find_duplicates eps rows threshold metric = Raise EValidation).
Proof.
  intros F num eps rows threshold metric. unfold find_duplicates, compute_similarity_matrix. split.
  - intros [<-|[<-|[<-|[]]]]; simpl; eauto.
  - intros Hn. simpl in Hn.
    rewrite !eqb_neq by (intros ->; tauto). reflexivity.
Qed.

From Verif Require Import Demo DemoIndex.

(** Dot products of five integer vectors with threshold 4. *)
Example C70_case :
  find_duplicates (F := Z) 0%Z [[2; 0]; [0; 2]; [2; 1]; [0; 1]; [1; 3]]%Z 4%Z (py "dot")
  = Ok [[0; 2]; [1; 4]] /\
  ~ In 3 (concat [[0; 2]; [1; 4]]).
Proof. split; [vm_compute; reflexivity|]. simpl. lia. Qed.

Print Assumptions C70_groups.
Print Assumptions C70_outside.
Print Assumptions C70_total.
