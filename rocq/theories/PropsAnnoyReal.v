(** C122: the scores of an Annoy search, over exact reals. *)

From Coq Require Import List Arith ZArith NArith Lia Bool Reals Lra Psatz Sorted.
From Verif Require Import PyBase BaseLemmas PyMore Payload Num RealNum
  LshModel LshSpec LshProofs AnnoyModel PropsAnnoy.
Import ListNotations.
Open Scope R_scope.

(** The score a distance should get. *)
Definition score_of (amt : annoy_metric) (d : R) : R :=
  match amt with
  | AAngular => Rmax 0 (1 - d / 2)
  | AEuclidean | AManhattan => / (1 + d)
  | AHamming => 1 - d
  | ADot => Rmax 0 (Rmin 1 d)
  end.

Lemma py_max_R a b : py_max a b = Rmax a b.
Proof.
  unfold py_max. destruct (nleb b a) eqn:E.
  - apply nleb_R in E. rewrite Rmax_left; auto.
  - apply nleb_R_false in E. rewrite Rmax_right; lra.
Qed.
Lemma py_min_R a b : py_min a b = Rmin a b.
Proof.
  unfold py_min. destruct (nleb a b) eqn:E.
  - apply nleb_R in E. rewrite Rmin_left; auto.
  - apply nleb_R_false in E. rewrite Rmin_right; lra.
Qed.

Lemma an_similarity_R amt d : an_similarity amt d = score_of amt d.
Proof.
  unfold an_similarity, score_of, ntwo. destruct amt; rewrite ?py_max_R, ?py_min_R; cbn; try reflexivity.
  - unfold Rdiv. now rewrite Rmult_1_l.
  - unfold Rdiv. now rewrite Rmult_1_l.
Qed.

(** [a] comes before [b] in what the library lists: nearer first, and for the dot product the
    larger first. *)
Definition listed_before (amt : annoy_metric) (a b : R) : Prop :=
  match amt with ADot => b <= a | _ => a <= b end.

Lemma inv_le a b : 0 <= a -> a <= b -> / (1 + b) <= / (1 + a).
Proof. intros Ha Hab. apply Rinv_le_contravar; lra. Qed.

Lemma score_mono amt a b : (amt = ADot \/ 0 <= a /\ 0 <= b) -> listed_before amt a b ->
  score_of amt b <= score_of amt a.
Proof.
  intros Hp Hl. destruct amt; cbn in *; try (destruct Hp as [Hp|[Ha Hb]]; [discriminate|]).
  - unfold Rmax. repeat destruct (Rle_dec _ _); lra.
  - now apply inv_le.
  - now apply inv_le.
  - lra.
  - unfold Rmax, Rmin. repeat destruct (Rle_dec _ _); lra.
Qed.

Lemma score_bounds amt d : amt <> AHamming -> (amt = ADot \/ 0 <= d) -> 0 <= score_of amt d <= 1.
Proof.
  intros Hm Hp.
  assert (Hinv : 0 <= d -> 0 <= / (1 + d) <= 1).
  { intros Hd. assert (0 < / (1 + d)) by (apply Rinv_0_lt_compat; lra).
    pose proof (inv_le 0 d (Rle_refl 0) Hd) as Hi. rewrite Rplus_0_r, Rinv_1 in Hi. lra. }
  destruct amt; cbn; try congruence; try (destruct Hp as [Hp|Hp]; [discriminate|]); auto.
  - unfold Rmax. destruct (Rle_dec _ _); lra.
  - unfold Rmax, Rmin. repeat destruct (Rle_dec _ _); lra.
Qed.

Section Scores.
  Context {Mt : Type} `{Payload (list R) Mt}.
  Context (amt : annoy_metric) (empty : Mt).

  (** What the library's answer looks like: distances are not negative and listed in order. *)
  Definition lib_ordered (o : annoy_orc R) : Prop :=
    forall items v k, let ds := map snd (ao_nns o items v k) in
      (amt = ADot \/ Forall (fun d => 0 <= d) ds) /\ StronglySorted (listed_before amt) ds.

  Lemma results_ordered (x : annoy R Mt) nbs : forall rs,
    rmap (an_result amt x) nbs = Ok rs ->
    (forall h, In h (somes rs) -> exists d, In (lh_id h, d) nbs /\ lh_score h = score_of amt d) /\
    ((amt = ADot \/ Forall (fun d => 0 <= d) (map snd nbs)) ->
     StronglySorted (listed_before amt) (map snd nbs) ->
     StronglySorted (fun a b => lh_score b <= lh_score a) (somes rs)).
  Proof.
    induction nbs as [|[z d] nbs IH]; intros rs E.
    - injection E as <-. split; [intros h []|]. intros _ _. constructor.
    - cbn [rmap] in E. destruct (an_result amt x (z, d)) as [r|] eqn:Er; [|discriminate]. cbn [rbind] in E.
      destruct (rmap (an_result amt x) nbs) as [rs'|]; [|discriminate]. injection E as <-.
      destruct (IH rs' eq_refl) as [H1 H2].
      assert (Hr : forall h, r = Some h -> lh_id h = z /\ lh_score h = score_of amt d).
      { intros h ->. unfold an_result in Er. destruct (z <? _)%Z; [|discriminate].
        destruct (py_index _ z) as [m|]; [|discriminate]. injection Er as <-. cbn.
        now rewrite an_similarity_R. }
      split.
      + intros h Hin. apply In_somes in Hin. destruct Hin as [Hin|Hin].
        * destruct (Hr h Hin) as [<- E]. exists d. split; [now left|auto].
        * apply In_somes in Hin. destruct (H1 h Hin) as (d' & Hd' & E). exists d'. split; [now right|auto].
      + intros Hp Hs. cbn [map snd] in Hp, Hs. inversion Hs as [|? ? Hs' Hall]; subst.
        assert (Hp' : amt = ADot \/ Forall (fun d => 0 <= d) (map snd nbs)).
        { destruct Hp as [Hp|Hp]; auto. right. now inversion Hp. }
        destruct r as [h|]; [|exact (H2 Hp' Hs')]. cbn. constructor; [exact (H2 Hp' Hs')|].
        apply Forall_forall. intros h' Hh'. destruct (H1 h' Hh') as (d' & Hd' & ->).
        destruct (Hr h eq_refl) as [_ ->]. apply (in_map snd) in Hd'. cbn in Hd'.
        rewrite Forall_forall in Hall. apply score_mono; auto.
        destruct Hp as [Hp|Hp]; auto. right. rewrite Forall_forall in Hp.
        split; apply Hp; cbn; auto.
  Qed.

  (** C122: after any history, the results of a search have scores between 0 and 1, in
      non-increasing order, each computed from the distance the library gives for its id; under
      the angular, Euclidean and Manhattan metrics the score is 1 exactly for distance 0.
      Partial: not for the Hamming metric, where it is false (below). *)
  Theorem C122_scores_partial ops o q k hits :
    amt <> AHamming -> lib_ordered o ->
    fst (an_step amt empty (ASearch o q k) (an_after amt empty ops)) = LHits hits ->
    StronglySorted (fun a b => lh_score b <= lh_score a) hits /\
    forall h, In h hits -> 0 <= lh_score h <= 1 /\
      exists l v d, q = Vec v /\ a_lib (an_after amt empty ops) = Some l /\
        In (lh_id h, d) (ao_nns o (al_items l) v k) /\ lh_score h = score_of amt d /\
        (amt <> ADot -> (lh_score h = 1 <-> d = 0)).
  Proof.
    set (x := an_after amt empty ops). intros Hm Ho. cbn [an_step fst]. unfold an_search.
    rewrite (bind_Ok get _ _ x x) by reflexivity.
    destruct (negb (a_init x)); [discriminate|]. destruct (negb (a_built x)); [discriminate|].
    destruct (a_dim x) as [dim|].
    2:{ cbn. intros [= <-]. split; [constructor|]. intros h []. }
    unfold bind at 1, lift at 1. destruct (validate_dim dim q) as [u|] eqn:Eq; [|discriminate].
    destruct q as [v|rows|]; try discriminate.
    destruct (a_lib x) as [l|] eqn:El; [|discriminate]. unfold bind, lift.
    destruct (rmap _ _) as [rs|] eqn:Er; [|discriminate]. cbn [fst ret]. intros [= <-].
    destruct (results_ordered x _ rs Er) as [H1 H2]. destruct (Ho (al_items l) v k) as [Hp Hs].
    split; [exact (H2 Hp Hs)|]. intros h Hh. destruct (H1 h Hh) as (d & Hd & E).
    assert (Hd0 : amt = ADot \/ 0 <= d).
    { destruct Hp as [Hp|Hp]; auto. right. rewrite Forall_forall in Hp. apply Hp.
      apply (in_map snd) in Hd. exact Hd. }
    split; [rewrite E; now apply score_bounds|]. exists l, v, d. split; [auto|]. split; [auto|]. split; [auto|]. split; [auto|].
    intros Hnd. destruct Hd0 as [|Hd0]; [contradiction|]. rewrite E.
    assert (Hinv : / (1 + d) = 1 <-> d = 0).
    { split; [|intros ->; rewrite Rplus_0_r; apply Rinv_1]. intros Ei.
      assert ((1 + d) * / (1 + d) = 1) by (apply Rinv_r; lra). rewrite Ei in *. lra. }
    destruct amt; cbn; try congruence; auto.
    unfold Rmax. destruct (Rle_dec _ _); split; intros; lra.
  Qed.
End Scores.

#[local] Instance annoy_payload_R : Payload (list R) Z := {|
  nbytes v := (4 * N.of_nat (length v))%N; strbytes m := 5%N;
  copyable m := (0 <=? m)%Z; picklable m := true
|}.

(** A library that lists its items at the distances 0, 1, 2, ... *)
Definition steps_orc : annoy_orc R :=
  MkAorc (fun items _ k => firstn (Z.to_nat k) (combine (map fst items) (map INR (seq 0 (length items))))) false.

Lemma steps_from n : forall s, StronglySorted Rle (map INR (seq s n)) /\ Forall (fun d => INR s <= d) (map INR (seq s n)).
Proof.
  induction n as [|n IH]; intros s; cbn [seq map]; [split; constructor|].
  destruct (IH (S s)) as [H1 H2]. assert (Hle : INR s <= INR (S s)) by (apply le_INR; lia).
  split.
  - constructor; auto. eapply Forall_impl; [|exact H2]. cbn beta. intros d Hd. lra.
  - constructor; [lra|]. eapply Forall_impl; [|exact H2]. cbn beta. intros d Hd. lra.
Qed.

Lemma SSorted_firstn {A} (P : A -> A -> Prop) l : forall n, StronglySorted P l -> StronglySorted P (firstn n l).
Proof.
  induction l as [|a l IH]; intros [|n] Hs; cbn; try constructor; inversion Hs; subst; auto.
  apply Forall_forall. intros b Hb. apply In_firstn in Hb. rewrite Forall_forall in *. auto.
Qed.

Lemma map_snd_combine {A B} (l1 : list A) : forall l2 : list B, length l1 = length l2 ->
  map snd (combine l1 l2) = l2.
Proof. induction l1 as [|a l1 IH]; intros [|b l2] E; cbn in *; try discriminate; auto. f_equal. auto. Qed.

Lemma steps_ordered : lib_ordered AEuclidean steps_orc.
Proof.
  intros items v k. cbn. rewrite <- firstn_map, map_snd_combine by (now rewrite !map_length, seq_length).
  destruct (steps_from (length items) 0) as [H1 H2]. split.
  - right. apply Forall_forall. intros d Hd. apply In_firstn in Hd. rewrite Forall_forall in H2. now apply H2.
  - now apply SSorted_firstn.
Qed.

Definition annoy_rows : aop R Z := AInsert steps_orc (Mat [[1; 2]; [3; 4]]) None.

Example C122_hypotheses_met :
  AEuclidean <> AHamming /\ lib_ordered AEuclidean steps_orc /\
  exists hits, fst (an_step AEuclidean 0%Z (ASearch steps_orc (Vec [1; 2]) 5)
                      (an_after AEuclidean 0%Z [AInit; annoy_rows; ABuild])) = LHits hits /\
    map lh_id hits = [1; 0]%Z.
Proof.
  split; [discriminate|]. split; [exact steps_ordered|]. eexists. split; [vm_compute; reflexivity|].
  vm_compute. reflexivity.
Qed.

(** C122 is false for the Hamming metric: the library counts the coordinates in which two vectors
    differ, and the score is one minus that count.  A vector differing from the query in its two
    coordinates gets the score -1. *)
Theorem C122_hamming_refuted :
  exists (ops : list (aop R Z)) o q v hits,
    o = MkAorc (fun items q k => map (fun it => (fst it, INR 2)) items) false /\
    q = [1; 1] /\ v = [0; 0] /\
    fst (an_step AHamming 0%Z (ASearch o (Vec q) 5) (an_after AHamming 0%Z ops)) = LHits hits /\
    (exists l, a_lib (an_after AHamming 0%Z ops) = Some l /\ al_items l = [(0%Z, v)]) /\
    exists h, hits = [h] /\ lh_id h = 0%Z /\ lh_score h = -1.
Proof.
  exists [AInit; AInsert steps_orc (Mat [[0; 0]]) None; ABuild], (MkAorc (fun items q k => map (fun it => (fst it, INR 2)) items) false),
         [1; 1], [0; 0]. eexists. split; [reflexivity|]. split; [reflexivity|]. split; [reflexivity|].
  split; [cbn; reflexivity|]. split; [eexists; cbn; split; reflexivity|].
  eexists. split; [reflexivity|]. split; [reflexivity|]. cbn. lra.
Qed.

Print Assumptions C122_scores_partial.
Print Assumptions C122_hamming_refuted.
