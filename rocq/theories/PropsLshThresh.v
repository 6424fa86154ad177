(** Property C179: thresholds of the LSH search. *)

From Coq Require Import List Arith ZArith NArith Lia Bool Sorted Permutation.
From Coq Require String.
Import (notations) Coq.Strings.String.
From Verif Require Import PyBase BaseLemmas Payload StorageModel Num ClientModel DbSpec PyMore LshModel LshSpec
  LshProofs LshThreshModel Demo DemoIndex PropsLsh.
Import ListNotations.

(** ** Lists *)

Section Filter.
  Context {A : Type} (leb : A -> A -> bool).
  Context (total : forall x y, leb x y = true \/ leb y x = true).
  Context (trans : forall x y z, leb x y = true -> leb y z = true -> leb x z = true).
  Notation sorted := (StronglySorted (fun a b => leb a b = true)).

  Lemma all_sorted l : sorted (sort leb l).
  Proof.
    apply (sort_sorted leb (fun _ => True)); [split; auto|]; [|apply Forall_forall; auto].
    intros a b c _ _ _. apply trans.
  Qed.

  Lemma filter_insert p x l : sorted l ->
    filter p (insert leb x l) = if p x then insert leb x (filter p l) else filter p l.
  Proof.
    induction l as [|y l IH]; intros Hs; [reflexivity|].
    inversion Hs as [|? ? Hs' Hy]; subst. cbn [insert].
    destruct (leb x y) eqn:E.
    - cbn [filter]. destruct (p x) eqn:Ex; [|reflexivity]. destruct (p y); [cbn [insert]; now rewrite E|].
      assert (Hall : Forall (fun z => leb x z = true) (filter p l)).
      { apply Forall_forall. intros z Hz. apply filter_In in Hz as [Hz _].
        rewrite Forall_forall in Hy. eapply trans; [exact E|auto]. }
      destruct (filter p l) as [|z l']; [reflexivity|]. inversion Hall; subst. cbn [insert].
      now rewrite H1.
    - cbn [filter]. rewrite (IH Hs'). destruct (p y); [|reflexivity].
      destruct (p x); [|reflexivity]. cbn [insert]. now rewrite E.
  Qed.

  Lemma filter_sort p l : filter p (sort leb l) = sort leb (filter p l).
  Proof.
    induction l as [|x l IH]; [reflexivity|]. cbn [sort]. rewrite filter_insert by apply all_sorted.
    cbn [filter]. destruct (p x); cbn [sort]; now rewrite IH.
  Qed.

  (** What only the first elements of a sorted list have can be asked for before or after cutting. *)
  Lemma filter_firstn p l : sorted l -> (forall a b, leb a b = true -> p b = true -> p a = true) ->
    forall n, firstn n (filter p l) = filter p (firstn n l).
  Proof.
    intros Hs Hp. induction l as [|x l IH]; intros n; [now rewrite !firstn_nil|].
    inversion Hs as [|? ? Hs' Hx]; subst. destruct n as [|n]; [reflexivity|].
    cbn [firstn filter]. destruct (p x) eqn:E; [cbn [firstn]; now rewrite IH|].
    assert (Hno : forall l', incl l' l -> filter p l' = []).
    { intros l' Hin. destruct (filter p l') as [|z l2] eqn:Ef; [reflexivity|]. exfalso.
      assert (Hz : In z (filter p l')) by (rewrite Ef; now left).
      apply filter_In in Hz as [Hz Pz]. rewrite Forall_forall in Hx.
      rewrite (Hp x z) in E; auto; discriminate. }
    rewrite (Hno l (incl_refl l)). rewrite Hno; [reflexivity|].
    intros z Hz. rewrite <- (firstn_skipn n l). apply in_or_app. now left.
  Qed.
End Filter.

(** ** C179 *)

Section Props.
  Context {F Mt : Type} `{Num F} `{!NumOrder F} `{Payload (list F) Mt}.
  Context (T hs P : nat) (lmt : lsh_metric).

  Lemma consider_higher t1 t2 (x : lsh F Mt) q z r : nleb t1 t2 = true ->
    lsh_consider lmt t1 x q z = Ok r ->
    lsh_consider lmt t2 x q z =
    Ok (match r with Some h => if nleb t2 (lh_score h) then Some h else None | None => None end).
  Proof.
    intros Ht. unfold lsh_consider. destruct (_ <? _)%Z; [|intros [= <-]; reflexivity].
    destruct (py_index (l_vectors x) z) as [[v|]|e]; simpl; try discriminate; [|intros [= <-]; reflexivity].
    destruct (lsh_similarity lmt q v) as [sc|e]; simpl; [|discriminate].
    destruct (nleb t1 sc) eqn:E1.
    - destruct (py_index (l_metadata x) z) as [m|e]; simpl; [|discriminate]. intros [= <-]. simpl.
      now destruct (nleb t2 sc).
    - intros [= <-]. destruct (nleb t2 sc) eqn:E2; [|reflexivity].
      rewrite (nleb_trans t1 t2 sc) in E1; auto; discriminate.
  Qed.

  Lemma rmap_higher t1 t2 (x : lsh F Mt) q l : nleb t1 t2 = true -> forall rs,
    rmap (lsh_consider lmt t1 x q) l = Ok rs ->
    exists rs2, rmap (lsh_consider lmt t2 x q) l = Ok rs2 /\
      somes rs2 = filter (fun h => nleb t2 (lh_score h)) (somes rs).
  Proof.
    intros Ht. induction l as [|z l IH]; intros rs; simpl.
    - intros [= <-]. exists []. auto.
    - destruct (lsh_consider lmt t1 x q z) as [r|e] eqn:E; simpl; [|discriminate].
      rewrite (consider_higher _ _ _ _ _ _ Ht E).
      destruct (rmap (lsh_consider lmt t1 x q) l) as [rs'|e]; simpl; [|discriminate].
      intros [= <-]. destruct (IH rs' eq_refl) as (rs2 & -> & Es). simpl. eexists. split; [reflexivity|].
      destruct r as [h|]; simpl; [|exact Es]. destruct (nleb t2 (lh_score h)); simpl; now rewrite Es.
  Qed.

  Lemma search_same threshold o q k t (x : lsh F Mt) :
    snd (lsh_search_at T hs P lmt threshold o q k t x) = x.
  Proof.
    unfold lsh_search_at, lsh_search, lsh_hash_vector, bind, get, ret, raise, lift.
    destruct (negb (l_init x)); [reflexivity|]. destruct (l_dim x); [|reflexivity].
    destruct (validate_dim n q); [|reflexivity]. destruct (l_proj x); [|reflexivity].
    destruct (lsh_codes T hs P p _); [|reflexivity]. destruct (rmap _ _); reflexivity.
  Qed.

  (** C179: in every state of the index, raising the threshold removes from the results exactly the
      hits below it, keeps the order of the others, and nothing new appears, with the same limit;
      the index is not changed.  The search answers at every threshold above one at which it does. *)
  Theorem C179_raising_the_threshold threshold o q k t1 t2 (x : lsh F Mt) hits :
    (0 <= k)%Z -> nleb t1 t2 = true ->
    lsh_search_at T hs P lmt threshold o q k (Some t1) x = (Ok hits, x) ->
    lsh_search_at T hs P lmt threshold o q k (Some t2) x =
    (Ok (filter (fun h => nleb t2 (lh_score h)) hits), x).
  Proof.
    intros Hk Ht. unfold lsh_search_at, lsh_search, lsh_hash_vector, bind, get, ret, raise, lift.
    destruct (negb (l_init x)); [discriminate|].
    destruct (l_dim x); [|intros [= <-]; reflexivity].
    destruct (validate_dim n q); [|discriminate]. destruct (l_proj x); [|discriminate].
    set (qv := match q with Vec v => v | _ => [] end).
    destruct (lsh_codes T hs P p qv) as [codes|e]; [|discriminate].
    destruct (rmap (lsh_consider lmt t1 x qv) _) as [rs|e] eqn:E; [|discriminate].
    destruct (rmap_higher t1 t2 x qv _ Ht rs E) as (rs2 & -> & Es). intros [= <-].
    set (le := fun a b : lsh_hit F Mt => nleb (lh_score b) (lh_score a)).
    assert (Htot : forall a b, le a b = true \/ le b a = true) by (intros; apply nleb_total).
    assert (Htr : forall a b c, le a b = true -> le b c = true -> le a c = true).
    { intros h1 h2 h3 Hab Hbc. eapply nleb_trans; [exact Hbc|exact Hab]. }
    rewrite Es, !slice_to_nonneg, <- (filter_sort le Htot Htr) by auto.
    rewrite (filter_firstn le); [reflexivity|apply all_sorted; auto|].
    intros h1 h2 Hab Hb. eapply nleb_trans; [exact Hb|exact Hab].
  Qed.

  (** The search without a threshold of its own stands at the configured one. *)
  Theorem C179_above_the_default threshold o q k t (x : lsh F Mt) hits :
    (0 <= k)%Z -> nleb threshold t = true ->
    lsh_search_at T hs P lmt threshold o q k None x = (Ok hits, x) ->
    lsh_search_at T hs P lmt threshold o q k (Some t) x =
    (Ok (filter (fun h => nleb t (lh_score h)) hits), x).
  Proof.
    intros Hk Ht Eh. apply (C179_raising_the_threshold threshold o q k threshold t x hits Hk Ht). exact Eh.
  Qed.

  Lemma rmap_perm {A B} (f : A -> result B) l l' : Permutation l l' -> forall rs, rmap f l = Ok rs ->
    exists rs', rmap f l' = Ok rs' /\ Permutation rs rs'.
  Proof.
    induction 1 as [|a l l' Hp IH|a b l|l l' l'' Hp1 IH1 Hp2 IH2]; intros rs E.
    - eauto.
    - simpl in *. destruct (f a) as [y|e]; simpl in *; [|discriminate].
      destruct (rmap f l) as [ys|e]; simpl in *; [|discriminate]. injection E as <-.
      destruct (IH ys eq_refl) as (ys' & -> & Hy). simpl. eexists. split; [reflexivity|]. now constructor.
    - simpl in *. destruct (f b) as [y|e]; simpl in *; [|discriminate].
      destruct (f a) as [z|e]; simpl in *; [|discriminate].
      destruct (rmap f l) as [ys|e]; simpl in *; [|discriminate]. injection E as <-.
      eexists. split; [reflexivity|]. constructor.
    - destruct (IH1 rs E) as (rs1 & E1 & P1). destruct (IH2 rs1 E1) as (rs2 & E2 & P2).
      exists rs2. split; auto. eapply perm_trans; eauto.
  Qed.

  Lemma somes_perm {A} (l l' : list (option A)) : Permutation l l' -> length (somes l) = length (somes l').
  Proof.
    induction 1 as [|a l l' Hp IH|a b l|]; simpl; auto; try congruence.
    - destruct a; simpl; congruence.
    - destruct a, b; reflexivity.
  Qed.

  (** C179, in whatever order Python goes through the set of candidates in either search: with the
      higher threshold there are as many hits as those of the other search that reach it. *)
  Theorem C179_any_order threshold o o' q k t1 t2 (x : lsh F Mt) hits :
    (0 <= k)%Z -> nleb t1 t2 = true ->
    (forall l, Permutation (o_order o l) l) -> (forall l, Permutation (o_order o' l) l) ->
    lsh_search_at T hs P lmt threshold o q k (Some t1) x = (Ok hits, x) ->
    exists hits', lsh_search_at T hs P lmt threshold o' q k (Some t2) x = (Ok hits', x) /\
      length hits' = length (filter (fun h => nleb t2 (lh_score h)) hits).
  Proof.
    intros Hk Ht Ho Ho' E. apply (C179_raising_the_threshold threshold o q k t1 t2 x hits Hk Ht) in E.
    revert E. generalize (filter (fun h => nleb t2 (lh_score h)) hits). clear hits. intros hits.
    unfold lsh_search_at, lsh_search, lsh_hash_vector, bind, get, ret, raise, lift.
    destruct (negb (l_init x)); [discriminate|].
    destruct (l_dim x); [|intros [= <-]; eauto].
    destruct (validate_dim n q); [|discriminate]. destruct (l_proj x); [|discriminate].
    set (qv := match q with Vec v => v | _ => [] end).
    destruct (lsh_codes T hs P p qv) as [codes|e]; [|discriminate].
    set (cs := lsh_candidates _ _).
    destruct (rmap (lsh_consider lmt t2 x qv) (o_order o cs)) as [rs|e] eqn:E; [|discriminate].
    assert (Hp : Permutation (o_order o cs) (o_order o' cs)).
    { eapply perm_trans; [apply Ho|]. symmetry. apply Ho'. }
    destruct (rmap_perm _ _ _ Hp rs E) as (rs' & -> & Hrs). intros [= <-].
    eexists. split; [reflexivity|]. rewrite !slice_to_nonneg by auto.
    rewrite !firstn_length, !sort_length, (somes_perm _ _ Hrs). reflexivity.
  Qed.

  (** C179: the numbers the example prints for rising thresholds never rise, and its searches leave
      the index as it was. *)
  Theorem C179_counts_fall threshold o q k ts (x : lsh F Mt) ns x' :
    (0 <= k)%Z -> StronglySorted (fun a b => nleb a b = true) ts ->
    threshold_counts T hs P lmt threshold o q k ts x = (Ok ns, x') ->
    x' = x /\ length ns = length ts /\ StronglySorted (fun a b => b <= a) ns /\
    Forall (fun n => n <= Z.to_nat k) ns.
  Proof.
    intros Hk. unfold threshold_counts. revert ns. induction ts as [|t ts IH]; intros ns Hs; cbn [mapM].
    - unfold ret. intros [= <- <-]. repeat split; constructor.
    - inversion Hs as [|? ? Hs' Ht]; subst. unfold bind at 1 2.
      pose proof (search_same threshold o q k (Some t) x) as Esame.
      destruct (lsh_search_at T hs P lmt threshold o q k (Some t) x) as [[hits|e] x1] eqn:E; [|discriminate].
      simpl in Esame. subst x1. unfold ret at 1. unfold bind at 1.
      destruct (mapM ts _ x) as [[ns'|e] x2] eqn:E2; [|discriminate]. unfold ret. intros [= <- <-].
      destruct (IH ns' Hs' eq_refl) as (-> & Hl & Hns & Hb).
      split; [reflexivity|]. split; [simpl; congruence|].
      assert (Hk1 : length hits <= Z.to_nat k).
      { revert E. unfold lsh_search_at, lsh_search, lsh_hash_vector, bind, get, ret, raise, lift.
        destruct (negb (l_init x)); [discriminate|].
        destruct (l_dim x); [|intros [= <-]; simpl; lia].
        destruct (validate_dim n q); [|discriminate]. destruct (l_proj x); [|discriminate].
        destruct (lsh_codes T hs P p _); [|discriminate]. destruct (rmap _ _); [|discriminate].
        intros [= <-]. rewrite slice_to_nonneg, firstn_length by auto. lia. }
      split; [|constructor; auto]. constructor; [exact Hns|].
      clear - E E2 Ht Hk NumOrder0. revert ns' E2. induction ts as [|t2 ts IH]; intros ns'; cbn [mapM].
      + unfold ret. intros [= <-]. constructor.
      + inversion Ht as [|? ? Ht2 Ht']; subst. unfold bind at 1 2.
        rewrite (C179_raising_the_threshold threshold o q k t t2 x hits Hk Ht2 E). unfold ret at 1.
        unfold bind at 1. destruct (mapM ts _ x) as [[ns2|e] x2]; [|discriminate].
        unfold ret. intros [= <- <-]. constructor; [|apply IH; auto].
        clear. induction hits as [|h hits IH]; simpl; [lia|]. destruct (nleb t2 (lh_score h)); simpl; lia.
  Qed.
End Props.

(** ** Concrete cases *)

(** Three vectors, one of them the query; the scores are whole numbers here. *)
Definition demo_thresh_ops : list (lop Z Z) :=
  [LInit; LInsert demo_lsh_orc (Mat [[6; 6]; [6; 7]; [5; 6]]%Z) (Some [Some 1; Some 2; Some 3]%Z)].

Notation demo_thresh_state := (lsh_after 2 2 3 LEuclidean 0%Z 0%Z demo_thresh_ops).

Example C179_run :
  lsh_search_at 2 2 3 LEuclidean 0%Z demo_lsh_orc (Vec [6; 6]%Z) 10 (Some 0%Z) demo_thresh_state =
  (Ok [MkLhit 0 1 (Some 1); MkLhit 1 0 (Some 2); MkLhit 2 0 (Some 3)]%Z, demo_thresh_state) /\
  lsh_search_at 2 2 3 LEuclidean 0%Z demo_lsh_orc (Vec [6; 6]%Z) 10 (Some 1%Z) demo_thresh_state =
  (Ok [MkLhit 0 1 (Some 1)]%Z, demo_thresh_state) /\
  fst (threshold_counts 2 2 3 LEuclidean 0%Z demo_lsh_orc (Vec [6; 6]%Z) 10 [0; 1; 2]%Z demo_thresh_state) =
  Ok [3; 1; 0].
Proof. vm_compute. auto. Qed.

(** Another order of the candidates, with the same number of hits. *)
Example C179_other_order :
  let o' := MkLshOrc (o_proj demo_lsh_orc) (o_offsets demo_lsh_orc) (@rev Z) in
  (forall l, Permutation (o_order o' l) l) /\
  fst (lsh_search_at 2 2 3 LEuclidean 0%Z o' (Vec [6; 6]%Z) 10 (Some 0%Z) demo_thresh_state) =
  Ok [MkLhit 0 1 (Some 1); MkLhit 2 0 (Some 3); MkLhit 1 0 (Some 2)]%Z.
Proof. split; [intros l; symmetry; apply Permutation_rev|vm_compute; reflexivity]. Qed.

(** The limit has to be a number of results: a negative one cuts from the end, and then raising the
    threshold can lose a hit above it. *)
Theorem C179_negative_limit_refuted :
  exists (x : lsh Z Z) (o : lsh_orc Z) q k t1 t2 hits, nleb t1 t2 = true /\
    lsh_search_at 2 2 3 LEuclidean 0%Z o q k (Some t1) x = (Ok hits, x) /\
    lsh_search_at 2 2 3 LEuclidean 0%Z o q k (Some t2) x <>
    (Ok (filter (fun h => nleb t2 (lh_score h)) hits), x).
Proof.
  exists demo_thresh_state, demo_lsh_orc, (Vec [6; 6]%Z), (-1)%Z, 0%Z, 1%Z,
    [MkLhit 0 1 (Some 1); MkLhit 1 0 (Some 2)]%Z.
  split; [reflexivity|]. split; [vm_compute; reflexivity|]. vm_compute. discriminate.
Qed.

Print Assumptions C179_raising_the_threshold.
Print Assumptions C179_above_the_default.
Print Assumptions C179_any_order.
Print Assumptions C179_counts_fall.
Print Assumptions C179_negative_limit_refuted.
