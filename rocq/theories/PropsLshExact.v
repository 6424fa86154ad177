(** C121: what a search of the LSH index answers, exactly. *)

From Coq Require Import String List Arith ZArith NArith Lia Bool Permutation Sorted.
From Coq Require Import ZifyBool ZifyNat ZifyN.
From Verif Require Import PyBase BaseLemmas PyMore Payload StorageModel StorageRun Num ClientModel
  DbSpec ClientRun LshModel LshSpec LshProofs PropsLsh.
Import ListNotations.
Open Scope py_scope.

(** ** Differing positions *)

(** Two codes agree outside the positions [ps]. *)
Definition agree_but (ps : list nat) (c1 c2 : list bool) : Prop :=
  forall j, ~ In j ps -> nth_error c1 j = nth_error c2 j.

Lemma hamming_positions : forall c1 c2, length c1 = length c2 ->
  exists ps, length ps = hamming c1 c2 /\ agree_but ps c1 c2.
Proof.
  induction c1 as [|a c1 IH]; intros [|b c2] El; try discriminate.
  - exists []. split; [reflexivity|]. intros j _. reflexivity.
  - injection El as El. destruct (IH c2 El) as (ps & Hl & Ha). unfold hamming in *. simpl.
    destruct (Bool.eqb a b) eqn:E; simpl.
    + apply eqb_prop in E. subst b. exists (map S ps). split; [now rewrite map_length|].
      intros [|j] Hj; [reflexivity|]. simpl. apply Ha. intros Hin. apply Hj. now apply in_map.
    + exists (0 :: map S ps). split; [simpl; now rewrite map_length, Hl|].
      intros [|j] Hj; [destruct Hj; now left|]. simpl. apply Ha. intros Hin. apply Hj. right. now apply in_map.
Qed.

Lemma agree_hamming : forall c1 c2 ps, length c1 = length c2 -> agree_but ps c1 c2 ->
  hamming c1 c2 <= length ps.
Proof.
  induction c1 as [|a c1 IH]; intros [|b c2] ps El Ha; try discriminate.
  - unfold hamming. simpl. lia.
  - injection El as El. set (ps' := map pred (filter (fun j => negb (Nat.eqb j 0)) ps)).
    assert (Ha' : agree_but ps' c1 c2).
    { intros j Hj. apply (Ha (S j)). intros Hin. apply Hj. unfold ps'. apply in_map_iff.
      exists (S j). split; auto. apply filter_In. auto. }
    specialize (IH c2 ps' El Ha').
    assert (Hle : forall l, length (filter (fun j => negb (Nat.eqb j 0)) l) <= length l).
    { clear. induction l as [|x l IH]; simpl; auto. destruct (Nat.eqb x 0); simpl; lia. }
    assert (Hlen : length ps' <= length ps) by (unfold ps'; rewrite map_length; apply Hle).
    unfold hamming in *. simpl. destruct (Bool.eqb a b) eqn:E; simpl; [lia|].
    assert (H0 : In 0 ps).
    { destruct (in_dec Nat.eq_dec 0 ps) as [Hin|Hn]; auto. specialize (Ha 0 Hn). simpl in Ha.
      injection Ha as ->. rewrite eqb_reflx in E. discriminate. }
    assert (Hlt : length ps' < length ps).
    { unfold ps'. rewrite map_length. clear - H0 Hle. induction ps as [|x l IHl]; [destruct H0|].
      simpl. destruct (Nat.eqb_spec x 0) as [->|Hx]; simpl.
      - specialize (Hle l). lia.
      - destruct H0 as [H0|H0]; [congruence|]. apply IHl in H0. lia. }
    lia.
Qed.

Lemma hamming_le_2 c1 c2 : length c1 = length c2 ->
  (hamming c1 c2 <= 2 <->
   exists a b, forall j, j <> a -> j <> b -> nth_error c1 j = nth_error c2 j).
Proof.
  intros El. split.
  - intros Hle. destruct (hamming_positions c1 c2 El) as (ps & Hl & Ha).
    destruct ps as [|a [|b [|c ps]]]; simpl in Hl; try lia.
    + exists 0, 0. intros j _ _. apply Ha. intros [].
    + exists a, a. intros j Hj _. apply Ha. simpl. intuition.
    + exists a, b. intros j Hj Hj'. apply Ha. simpl. intuition.
  - intros (a & b & Hab). change 2 with (length [a; b]). apply agree_hamming; auto.
    intros j Hj. apply Hab; simpl in Hj; intuition.
Qed.

Section Exact.
  Context {F Mt : Type} `{Num F} `{!NumOrder F} `{Payload (list F) Mt}.
  Context (T hs P : nat) (lmt : lsh_metric) (threshold : F) (empty : Mt).

  Notation after := (lsh_after T hs P lmt threshold empty).
  Notation slots_after := (sl_after empty).
  Notation history := (lhistory P empty no_slots).
  Notation step := (lsh_step T hs P lmt threshold empty).

  (** Two vectors lie on the same side of the [j]-th plane of table [t]. *)
  Definition same_side (pr : list (list F) * list F) (q v : list F) (t j : nat) : Prop :=
    code_bit hs P pr q t j = code_bit hs P pr v t j.

  (** They lie on the same side of every plane of some table. *)
  Definition together pr q v : Prop :=
    exists t, t < T /\ forall j, j < hs -> same_side pr q v t j.

  (** They lie on the same side of all planes of some table but at most two. *)
  Definition close_by pr q v : Prop :=
    exists t a b, t < T /\ forall j, j < hs -> j <> a -> j <> b -> same_side pr q v t j.

  (** The vectors a search looks at: those together with the query, or, if there are none, those
      close by. *)
  Definition looked_at pr (l : list (option (list F * Mt))) (q v : list F) : Prop :=
    together pr q v \/
    (close_by pr q v /\ forall v' m', In (Some (v', m')) l -> ~ together pr q v').

  Lemma code_nth pr v t j : nth_error (code_of hs P pr v t) j =
    if Nat.ltb j hs then Some (code_bit hs P pr v t j) else None.
  Proof.
    unfold code_of. rewrite nth_error_map. destruct (Nat.ltb_spec j hs) as [Hj|Hj].
    - rewrite (nth_error_nth' (seq 0 hs) 0) by (now rewrite seq_length). now rewrite seq_nth.
    - assert (nth_error (seq 0 hs) j = None) as -> by (apply nth_error_None; now rewrite seq_length).
      reflexivity.
  Qed.

  Lemma code_eq pr q v t : code_of hs P pr q t = code_of hs P pr v t <->
    forall j, j < hs -> same_side pr q v t j.
  Proof.
    split.
    - intros E j Hj. pose proof (code_nth pr q t j) as E1. pose proof (code_nth pr v t j) as E2.
      rewrite E in E1. rewrite E1 in E2. destruct (Nat.ltb_spec j hs); [|lia].
      unfold same_side. congruence.
    - intros Hs. unfold code_of. apply map_ext_in. intros j Hj. apply in_seq in Hj. apply Hs. lia.
  Qed.

  Lemma code_close pr q v t :
    hamming (code_of hs P pr q t) (code_of hs P pr v t) <= 2 <->
    exists a b, forall j, j < hs -> j <> a -> j <> b -> same_side pr q v t j.
  Proof.
    rewrite hamming_le_2 by (unfold code_of; now rewrite !map_length).
    split; intros (a & b & Hab); exists a, b.
    - intros j Hj Ha Hb. specialize (Hab j Ha Hb). rewrite !code_nth in Hab.
      destruct (Nat.ltb_spec j hs); [|lia]. unfold same_side. congruence.
    - intros j Ha Hb. rewrite !code_nth. destruct (Nat.ltb_spec j hs); auto.
      now rewrite (Hab j).
  Qed.

  Lemma combine_codes {A} (f : nat -> A) (tabs : list (dict (list bool) (list Z))) :
    forall n, length tabs = n -> forall s tb c,
    In (tb, c) (combine tabs (map f (seq s n))) <->
    exists t, nth_error tabs t = Some tb /\ c = f (s + t).
  Proof.
    induction tabs as [|tb0 tabs IH]; intros [|n] El s tb c; try discriminate; simpl.
    - split; [tauto|]. intros (t & E & _). destruct t; discriminate.
    - injection El as El. rewrite (IH n El (S s)). split.
      + intros [E|(t & Et & ->)].
        * injection E as <- <-. exists 0. simpl. now rewrite Nat.add_0_r.
        * exists (S t). simpl. split; auto.
      + intros ([|t] & Et & ->); simpl in Et.
        * injection Et as ->. left. now rewrite Nat.add_0_r.
        * right. exists t. split; auto. now rewrite <- plus_n_Sm.
  Qed.

  Section State.
    Context (s : slots (F := F) (Mt := Mt)) (x : lsh F Mt) (HI : linv T hs P s x)
            (Ho : sl_open s = true).

    Lemma live_iff i : (exists v, nth_error (l_vectors x) i = Some (Some v)) <->
      exists v m, nth_error (sl_slots s) i = Some (Some (v, m)).
    Proof.
      rewrite (vector_at _ _ _ _ _ i HI). destruct (nth_error (sl_slots s) i) as [[[v m]|]|]; simpl.
      - split; eauto.
      - split; [intros (v & E)|intros (v & m & E)]; discriminate.
      - split; [intros (v & E)|intros (v & m & E)]; discriminate.
    Qed.

    Lemma table_entry t tb c z : nth_error (l_tables x) t = Some tb ->
      (In (c, z) (entries tb) <-> exists i v m, z = Z.of_nat i /\
          nth_error (sl_slots s) i = Some (Some (v, m)) /\ c = code_of hs P (the_proj x) v t).
    Proof.
      intros Et. destruct (li_tables _ _ _ _ _ HI Ho) as [El Ht]. destruct (Ht t tb Et) as [Hnd Hp].
      transitivity (In (c, z) (live_entries hs P (the_proj x) t 0 (l_vectors x))).
      { split; apply Permutation_in; auto. now symmetry. }
      rewrite In_live. split.
      - intros (j & v & Ej & -> & ->). rewrite (vector_at _ _ _ _ _ j HI) in Ej.
        destruct (nth_error (sl_slots s) j) as [[[v' m]|]|] eqn:E; try discriminate.
        simpl in Ej. injection Ej as ->. exists j, v, m. auto.
      - intros (i & v & m & -> & E & ->). exists i, v. rewrite (vector_at _ _ _ _ _ i HI), E. auto.
    Qed.

    Lemma exact_spec q z : In z (lsh_exact (l_tables x) (codes_of T hs P (the_proj x) q)) <->
      exists i v m, z = Z.of_nat i /\ nth_error (sl_slots s) i = Some (Some (v, m)) /\
        together (the_proj x) q v.
    Proof.
      destruct (li_tables _ _ _ _ _ HI Ho) as [El Ht]. unfold lsh_exact. rewrite in_flat_map.
      split.
      - intros ([tb c] & Hc & Hi). unfold codes_of in Hc.
        apply (combine_codes _ _ _ El) in Hc as (t & Et & ->). simpl in Hi.
        destruct (Ht t tb Et) as [Hnd Hp].
        assert (Hin : In (code_of hs P (the_proj x) q t, z) (entries tb)).
        { apply In_entries; auto. destruct (dget _ tb); [eauto|destruct Hi]. }
        apply (table_entry t tb _ _ Et) in Hin as (i & v & m & -> & E & Ec).
        exists i, v, m. split; auto. split; auto. exists t. split.
        + rewrite <- El. apply nth_error_Some. congruence.
        + now apply code_eq.
      - intros (i & v & m & -> & E & (t & Hlt & Hs)). apply code_eq in Hs.
        destruct (nth_error (l_tables x) t) as [tb|] eqn:Et; [|apply nth_error_None in Et; lia].
        destruct (Ht t tb Et) as [Hnd Hp].
        exists (tb, code_of hs P (the_proj x) q t). split.
        + unfold codes_of. apply (combine_codes _ _ _ El). exists t. auto.
        + assert (Hin : In (code_of hs P (the_proj x) q t, Z.of_nat i) (entries tb)).
          { apply (table_entry t tb _ _ Et). exists i, v, m. auto. }
          apply In_entries in Hin as (l & -> & Hl); auto.
    Qed.

    Lemma relaxed_spec q z : In z (lsh_relaxed (l_tables x) (codes_of T hs P (the_proj x) q)) <->
      exists i v m, z = Z.of_nat i /\ nth_error (sl_slots s) i = Some (Some (v, m)) /\
        close_by (the_proj x) q v.
    Proof.
      destruct (li_tables _ _ _ _ _ HI Ho) as [El Ht]. unfold lsh_relaxed. rewrite in_flat_map.
      split.
      - intros ([tb c] & Hc & Hi). unfold codes_of in Hc.
        apply (combine_codes _ _ _ El) in Hc as (t & Et & ->). simpl in Hi.
        apply in_flat_map in Hi as ([c' l] & Hcl & Hz).
        destruct (Nat.leb_spec (hamming (code_of hs P (the_proj x) q t) c') 2) as [Hh|Hh]; [|destruct Hz].
        assert (Hin : In (c', z) (entries tb)).
        { unfold entries. apply in_flat_map. exists (c', l). split; auto. now apply in_map. }
        apply (table_entry t tb _ _ Et) in Hin as (i & v & m & -> & E & ->).
        exists i, v, m. split; auto. split; auto. apply code_close in Hh as (a & b & Hab).
        exists t, a, b. split; auto. rewrite <- El. apply nth_error_Some. congruence.
      - intros (i & v & m & -> & E & (t & a & b & Hlt & Hs)).
        assert (Hh : hamming (code_of hs P (the_proj x) q t) (code_of hs P (the_proj x) v t) <= 2)
          by (apply code_close; eauto).
        destruct (nth_error (l_tables x) t) as [tb|] eqn:Et; [|apply nth_error_None in Et; lia].
        exists (tb, code_of hs P (the_proj x) q t). split.
        + unfold codes_of. apply (combine_codes _ _ _ El). exists t. auto.
        + assert (Hin : In (code_of hs P (the_proj x) v t, Z.of_nat i) (entries tb)).
          { apply (table_entry t tb _ _ Et). exists i, v, m. auto. }
          unfold entries in Hin. apply in_flat_map in Hin as ([c' l] & Hcl & Hm).
          apply in_map_iff in Hm as (z' & Ez & Hz). injection Ez as -> ->.
          apply in_flat_map. exists (code_of hs P (the_proj x) v t, l). split; auto.
          destruct (Nat.leb_spec (hamming (code_of hs P (the_proj x) q t) (code_of hs P (the_proj x) v t)) 2);
            [auto|lia].
    Qed.

    Lemma candidates_spec q i v m : nth_error (sl_slots s) i = Some (Some (v, m)) ->
      (In (Z.of_nat i) (lsh_candidates (l_tables x) (codes_of T hs P (the_proj x) q)) <->
       looked_at (the_proj x) (sl_slots s) q v).
    Proof.
      intros E. unfold lsh_candidates, looked_at.
      set (ex := lsh_exact _ _). set (re := lsh_relaxed _ _).
      assert (Hme : In (Z.of_nat i) ex <-> together (the_proj x) q v).
      { unfold ex. rewrite exact_spec. split.
        - intros (j & v' & m' & Ej & E' & Ht). apply Nat2Z.inj in Ej. subst j. congruence.
        - intros Ht. exists i, v, m. auto. }
      assert (Hmr : In (Z.of_nat i) re <-> close_by (the_proj x) q v).
      { unfold re. rewrite relaxed_spec. split.
        - intros (j & v' & m' & Ej & E' & Ht). apply Nat2Z.inj in Ej. subst j. congruence.
        - intros Ht. exists i, v, m. auto. }
      destruct (to_set ex) as [|z l] eqn:Es.
      - assert (Hno : forall z, ~ In z ex).
        { intros z Hz. apply (nodup_In Z.eq_dec) in Hz. unfold to_set in Es. rewrite Es in Hz. destruct Hz. }
        unfold to_set. rewrite nodup_In. split.
        + intros Hin. right. split; [now apply Hmr|]. intros v' m' Hin' Ht.
          apply In_nth_error in Hin' as [j Ej]. apply (Hno (Z.of_nat j)). unfold ex. apply exact_spec.
          exists j, v', m'. auto.
        + intros [Ht|[Hc _]]; [|now apply Hmr]. apply Hme in Ht. destruct (Hno _ Ht).
      - rewrite <- Es. unfold to_set. rewrite nodup_In, Hme. split; [auto|].
        intros [Ht|[_ Hno]]; auto. exfalso.
        assert (Hz : In z ex) by (apply (nodup_In Z.eq_dec); unfold to_set in Es; rewrite Es; now left).
        unfold ex in Hz. apply exact_spec in Hz as (j & v' & m' & -> & Ej & Ht).
        apply nth_error_In in Ej. exact (Hno v' m' Ej Ht).
    Qed.
  End State.

  (** C121: a search with a valid query [q] on an open index answers the first [k] of a list,
      sorted by decreasing similarity and without repetition, of exactly these results: the live
      ids whose vector is similar enough and lies together with [q] in some table; or, when no live
      vector does, the live ids whose vector is similar enough and is separated from [q] by at
      most two planes of some table.  The index is left as it was.
      Partial: histories as for C31. *)
  Theorem C121_lsh_answer_exact_partial ops o q k d : lsh_config T hs P lmt empty -> history ops ->
    lsh_orc_ok P o -> sl_open (slots_after ops) = true -> sl_dim (slots_after ops) = Some d ->
    length q = d -> q <> [] -> forallb nfinite q = true -> (0 <= k)%Z ->
    exists pr found,
      l_proj (after ops) = Some pr /\
      step (LSearch o (Vec q) k) (after ops) = (LHits (firstn (Z.to_nat k) found), after ops) /\
      NoDup (map lh_id found) /\
      StronglySorted (fun a b => nleb (lh_score b) (lh_score a) = true) found /\
      forall i z m, In (MkLhit (Z.of_nat i) z (Some m)) found <->
        exists v, nth_error (sl_slots (slots_after ops)) i = Some (Some (v, m)) /\
          looked_at pr (sl_slots (slots_after ops)) q v /\
          lsh_similarity lmt q v = Ok z /\ nleb threshold z = true.
  Proof.
    intros Hc Hh Hor Ho Hd Hq Hq0 Hfin Hk. pose proof (reached T hs P lmt threshold empty ops Hc Hh) as HI.
    destruct Hc as (C1 & C2 & C3 & C4 & C5).
    set (x := after ops) in *. set (s := slots_after ops) in *.
    destruct (li_some _ _ _ _ _ HI d Hd) as ((pr & Epr & Hpr) & HF).
    assert (Hd0 : d <> 0) by (subst d; destruct q; simpl; congruence).
    assert (Ep : the_proj x = pr) by (unfold the_proj; now rewrite Epr).
    destruct (search_answer T hs P lmt threshold empty C5 C1 C2 C3 C4 s x o q k d HI Ho Hd Hq Hd0 Hfin Hor)
      as (found & Es & Hin & Hnd & Hsort).
    exists pr, found. split; auto. split.
    { cbn [lsh_step]. rewrite Es. cbn [fst snd]. now rewrite slice_to_nonneg. }
    split; auto. split; auto. intros i z m. rewrite Hin, <- Ep. split.
    - intros (j & v & m' & Hcd & Ej & Eh).
      apply (candidates_spec s x HI Ho q j v m' Ej) in Hcd. unfold hit_of in Eh.
      destruct (lsh_similarity lmt q v) as [z'|] eqn:Ez; [|discriminate].
      destruct (nleb threshold z') eqn:Et; [|discriminate]. injection Eh as Ei <- <-.
      apply Nat2Z.inj in Ei. subst j. exists v. auto.
    - intros (v & E & Hl & Ez & Et). exists i, v, m.
      split; [now apply (candidates_spec s x HI Ho q i v m E)|]. split; auto.
      unfold hit_of. now rewrite Ez, Et.
  Qed.
End Exact.

From Verif Require Import Demo DemoIndex.

(** One table over the three coordinate planes of space. *)
Definition axes_orc : lsh_orc Z :=
  MkLshOrc (fun d => map (fun i => map (fun j => if Nat.eqb i j then 1 else 0)%Z (seq 0 d)) (seq 0 3))
           [0; 0; 0]%Z (fun l => l).

Lemma axes_orc_ok : lsh_orc_ok 3 axes_orc.
Proof.
  split; [|split]; [|reflexivity|reflexivity]. intros d. simpl. split; auto.
  repeat constructor; rewrite map_length; apply seq_length.
Qed.

(** The hypotheses are met by a history with a deletion; the query shares no bucket with the live
    vectors and one of the two is found by the relaxed search. *)
Definition axes_ops : list (lop Z Z) :=
  [LInit; LInsert axes_orc (Mat [[1; 2; 3]; [1; 2; -3]; [-1; -2; -3]]%Z) None; LDelete [py "2"]].

Example C121_hypotheses_met :
  lsh_config (F := Z) (Mt := Z) 1 3 3 LEuclidean 0%Z /\ lhistory 3 0%Z no_slots axes_ops /\
  lsh_orc_ok 3 axes_orc /\ sl_open (sl_after 0%Z axes_ops) = true /\
  sl_dim (sl_after 0%Z axes_ops) = Some 3 /\
  fst (lsh_step 1 3 3 LEuclidean 0%Z 0%Z (LSearch axes_orc (Vec [-1; -2; 3]%Z) 9)
         (lsh_after 1 3 3 LEuclidean 0%Z 0%Z axes_ops)) = LHits [MkLhit 0 0 (Some 0)]%Z.
Proof.
  split; [repeat split; auto; discriminate|]. split.
  { cbn [lhistory lfits axes_ops]. repeat split; try apply axes_orc_ok; try discriminate.
    - intros rows E. injection E as <-. repeat constructor.
    - repeat constructor. intros z Hz. vm_compute in Hz. injection Hz as <-. lia. }
  split; [apply axes_orc_ok|]. vm_compute. auto.
Qed.

(** Squared Euclidean distance of integer vectors. *)
Definition zdist (u v : list Z) : Z :=
  fold_right Z.add 0%Z (map (fun '(a, b) => (a - b) * (a - b))%Z (combine u v)).

(** Not claimed by C121, and false: a search for more results than there are vectors, without a
    threshold, answers all of them, or at least the most similar one.  Here the query shares a
    bucket with a vector far away, so that the nearer one across a plane is not even looked at. *)
Theorem C121_nearest_missed_refuted :
  exists (ops : list (lop Z Z)) q u v k,
    let s := sl_after 0%Z ops in
    lhistory 3 0%Z no_slots ops /\ sl_open s = true /\
    sl_slots s = [Some (u, 0%Z); Some (v, 0%Z)] /\ (2 < k)%Z /\ (zdist q v < zdist q u)%Z /\
    exists z, fst (lsh_step 1 3 3 LEuclidean 0%Z 0%Z (LSearch axes_orc (Vec q) k)
                (lsh_after 1 3 3 LEuclidean 0%Z 0%Z ops)) = LHits [MkLhit 0%Z z (Some 0%Z)].
Proof.
  exists [LInit; LInsert axes_orc (Mat [[100; 100; 100]; [1; 1; -1]]%Z) None],
         [1; 1; 1]%Z, [100; 100; 100]%Z, [1; 1; -1]%Z, 5%Z.
  cbv zeta. split.
  { cbn [lhistory lfits]. repeat split; try apply axes_orc_ok; try discriminate.
    intros rows E. injection E as <-. repeat constructor. }
  split; [reflexivity|]. split; [reflexivity|]. split; [lia|]. split; [reflexivity|].
  exists 0%Z. vm_compute. reflexivity.
Qed.

(** And with every stored vector more than two planes away the answer is empty. *)
Theorem C121_nothing_found_refuted :
  exists (ops : list (lop Z Z)) q v k,
    let s := sl_after 0%Z ops in
    lhistory 3 0%Z no_slots ops /\ sl_open s = true /\ sl_slots s = [Some (v, 0%Z)] /\ (1 < k)%Z /\
    lsh_similarity LEuclidean q v = Ok 0%Z /\
    fst (lsh_step 1 3 3 LEuclidean 0%Z 0%Z (LSearch axes_orc (Vec q) k)
          (lsh_after 1 3 3 LEuclidean 0%Z 0%Z ops)) = LHits [].
Proof.
  exists [LInit; LInsert axes_orc (Mat [[-1; -1; -1]]%Z) None], [1; 1; 1]%Z, [-1; -1; -1]%Z, 5%Z.
  cbv zeta. split.
  { cbn [lhistory lfits]. repeat split; try apply axes_orc_ok; try discriminate.
    intros rows E. injection E as <-. repeat constructor. }
  split; [reflexivity|]. split; [reflexivity|]. split; [lia|]. split; [reflexivity|].
  vm_compute. reflexivity.
Qed.

Print Assumptions C121_lsh_answer_exact_partial.
Print Assumptions C121_nearest_missed_refuted.
Print Assumptions C121_nothing_found_refuted.
