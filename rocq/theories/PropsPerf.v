(** Property C162: measuring an index (model: PerfModel.v). *)

From Coq Require Import String List Arith ZArith NArith Lia Bool Reals Lra Permutation Sorted.
From Verif Require Import PyBase PyMore BaseLemmas Payload StorageModel StorageRun Num RealNum ClientModel SimilarityModel
  LshModel LshSpec LshProofs PropsLsh AnnoyModel FlatModel PropsJaccard PerfModel.
Import ListNotations.
Open Scope py_scope.
Open Scope nat_scope.

(** A clock that moves on between any two readings. *)
Definition moving (clock : nat -> R) : Prop := forall i, (clock i < clock (Datatypes.S i))%R.

(** ** Lemmas *)

Section Loop.
  Context {X F Mt : Type} (ob : bench_object X F Mt) (clock : nat -> R) (k : Z).

  (** The times of searches that return and leave the object alone. *)
  Lemma search_loop x : forall qs a j,
    (forall i q, In q qs -> exists hits, ob_search ob i q k x = (Ok hits, x)) ->
    mapM (combine (seq a (List.length qs)) qs) (timed_search ob clock k) (x, j) =
      (Ok (map (fun i => (clock (j + 2 * i + 1)%nat - clock (j + 2 * i)%nat)%R) (seq 0 (List.length qs))),
       (x, j + 2 * List.length qs)).
  Proof.
    induction qs as [|q qs IH]; intros a j Hs; cbn [List.length seq combine mapM].
    - unfold ret. cbn. now rewrite Nat.add_0_r.
    - unfold bind at 1. unfold timed_search at 1. unfold bind at 1, tick at 1. cbn [fst snd].
      unfold bind at 1, on_object, zoom. cbn [fst snd].
      destruct (Hs a q (or_introl eq_refl)) as [hits ->]. unfold bind at 1, tick at 1. cbn [fst snd].
      unfold ret at 1. unfold bind at 1.
      rewrite (IH (Datatypes.S a) (Datatypes.S (Datatypes.S j))) by (intros i q' Hq; apply Hs; now right).
      unfold ret. f_equal.
      + cbn [map]. f_equal. f_equal.
        * cbn [nsub num_R]. f_equal; f_equal; lia.
        * rewrite <- seq_shift, map_map. apply map_ext. intros i. f_equal; f_equal; lia.
      + f_equal. lia.
  Qed.
End Loop.

Lemma sum_pos {A} (f : A -> R) l : (forall a, In a l -> (0 < f a)%R) -> l <> [] -> (0 < nsum (map f l))%R.
Proof.
  rewrite nsum_R. intros Hp Hn. induction l as [|a l IH]; [congruence|]. cbn.
  assert (0 < f a)%R by (apply Hp; now left). destruct l as [|b l]; [cbn; lra|].
  assert (0 < fold_right Rplus 0 (map f (b :: l)))%R; [|lra].
  apply IH; [intros; apply Hp; now right|discriminate].
Qed.

Lemma lsh_run_app {F Mt} `{Num F} `{Payload (list F) Mt} T hs P lmt thr empty a : forall b (x : lsh F Mt),
  snd (lsh_run T hs P lmt thr empty (a ++ b) x) = snd (lsh_run T hs P lmt thr empty b (snd (lsh_run T hs P lmt thr empty a x))).
Proof.
  induction a as [|op a IH]; intros b x; cbn [app lsh_run]; [reflexivity|].
  destruct (lsh_step T hs P lmt thr empty op x) as [r x1]. specialize (IH b x1).
  destruct (lsh_run T hs P lmt thr empty (a ++ b) x1), (lsh_run T hs P lmt thr empty a x1). exact IH.
Qed.

(** ** C162 *)

Section Theorems.
  Context {F Mt : Type} {num : Num F} {ord : NumOrder F} {pay : Payload (list F) Mt}.
  Context (T hs P : nat) (lmt : lsh_metric) (threshold : F) (empty : Mt).

  (** An LSH index in any reachable state is measured: the report's times are those of the clock,
      the rates belong to them, the count is that of the index afterwards, and the index has the
      test vectors, as if the caller had inserted them.  Partial: LSH only, at least one query and
      one vector, all finite and of the index's dimension, and a clock that moves on between any
      two readings. *)
  Theorem C162_lsh_partial ops o os rows queries k (clock : nat -> R) (j : nat) (numbered : nat -> Mt) (d : nat) :
    let s := sl_after empty ops in
    let metas := map (fun i => Some (numbered i)) (seq 0 (List.length rows)) in
    let times := map (fun i => (clock (j + 2 + (2 * i + 1))%nat - clock (j + 2 + 2 * i)%nat)%R) (seq 0 (List.length queries)) in
    lsh_config (F := F) T hs P lmt empty -> lhistory P empty no_slots ops -> sl_open s = true ->
    lsh_orc_ok P o -> (forall i, lsh_orc_ok P (os i)) ->
    d <> 0 -> (sl_dim s = None \/ sl_dim s = Some d) ->
    rows <> [] -> (forall r, In r rows -> List.length r = d /\ forallb nfinite r = true) ->
    queries <> [] -> (forall q, In q queries -> List.length q = d /\ forallb nfinite q = true) ->
    (forall i, copyable (numbered i) = true) -> moving clock ->
    exists rep,
      validate_index_performance (lsh_object T hs P lmt threshold o os) clock numbered (Mat rows) queries k
        (lsh_after T hs P lmt threshold empty ops, j) =
      (Ok rep, (lsh_after T hs P lmt threshold empty (ops ++ [LInsert o (Mat rows) (Some metas)]),
                j + 2 + 2 * List.length queries)) /\
      br_add_time rep = (clock (j + 1)%nat - clock j)%R /\
      (br_add_throughput rep * br_add_time rep = INR (List.length rows))%R /\
      (br_avg_search_time rep * INR (List.length queries) = fold_right Rplus 0 times)%R /\
      (br_search_throughput rep * br_avg_search_time rep = 1)%R /\
      br_count rep = live_count (sl_slots s) + List.length rows.
  Proof.
    intros s metas times Hc Hh Ho Hor Hors Hd Hdim Hne Hrows Hqne Hqs Hcopy Hmove.
    pose proof (reached T hs P lmt threshold empty ops Hc Hh) as HI.
    change (sl_after empty ops) with s in HI.
    set (x := lsh_after T hs P lmt threshold empty ops) in *.
    assert (Hw : width rows = d).
    { destruct rows as [|r rows]; [congruence|]. cbn. apply Hrows. now left. }
    assert (Hdf : dim_for s rows = d) by (unfold dim_for; destruct Hdim as [-> | ->]; auto).
    assert (Hml : List.length metas = List.length rows) by (unfold metas; now rewrite map_length, seq_length).
    assert (Hfit : lfits P s (LInsert o (Mat rows) (Some metas))).
    { split; [exact Hor|]. split.
      - intros rows' [= <-]. apply Forall_forall. intros r Hr. rewrite Hw. now apply Hrows.
      - intros l m [= <-] Hm. apply in_map_iff in Hm as (i & <- & _). exists (numbered i). auto. }
    destruct Hc as (C1 & C2 & C3 & C4 & C5).
    destruct (add_ok T hs P empty C5 C1 C2 C3 s x o rows (Some metas) HI Hfit) as (r & x' & Ea & HI' & Hr).
    cbn [metas_for] in Ea, Hr. rewrite Ho, Hml, Nat.eqb_refl, Hdf in Hr. cbn [andb] in Hr.
    assert (Hro : rows_ok d rows = true).
    { unfold rows_ok. rewrite Hw, Nat.eqb_refl. cbn [andb]. apply forallb_forall. intros r0 Hr0.
      destruct (Hrows r0 Hr0) as [E1 E2]. rewrite E1, E2. destruct (Nat.eqb_spec d 0); [congruence|reflexivity]. }
    rewrite Hro in Hr. subst r.
    assert (Hs' : sl_next empty s (LInsert o (Mat rows) (Some metas)) =
                  MkSl true (Some d) (sl_slots s ++ new_slots empty rows (Some metas))).
    { cbn [sl_next metas_for]. rewrite Ho, Hml, Nat.eqb_refl, Hdf, Hro. reflexivity. }
    rewrite Hs' in HI'.
    assert (Ex : lsh_after T hs P lmt threshold empty (ops ++ [LInsert o (Mat rows) (Some metas)]) = x').
    { unfold lsh_after. rewrite lsh_run_app. cbn [lsh_run].
      change (snd (lsh_run T hs P lmt threshold empty ops lsh_new)) with x.
      cbn [lsh_step]. unfold lsh_insert. unfold bind, lift. cbn [fst snd].
      fold metas. rewrite Ea. reflexivity. }
    rewrite Ex.
    set (ob := lsh_object T hs P lmt threshold o os).
    assert (Hsearch : forall i q, In q queries -> exists hits, ob_search ob i q k x' = (Ok hits, x')).
    { intros i q Hq. destruct (Hqs q Hq) as [E1 E2].
      destruct (search_answer T hs P lmt threshold empty C5 C1 C2 C3 C4 _ x' (os i) q k d HI' eq_refl eq_refl E1 Hd E2 (Hors i))
        as (found & E & _). eexists. exact E. }
    pose proof (search_loop ob clock k x' queries 0 (j + 2) Hsearch) as Hloop.
    fold (enumerate queries) in Hloop.
    unfold validate_index_performance. unfold bind at 1, tick at 1. cbn [fst snd].
    unfold bind at 1, lift at 1. cbn [py_len]. unfold bind at 1, lift at 1.
    change (ob_add ob) with (Some (lsh_add (Mt := Mt) T hs P o)). cbv iota beta.
    unfold bind at 1, on_object at 1, zoom at 1. cbn [fst snd]. fold metas. rewrite Ea.
    change (ob_build ob) with (@None (M (lsh F Mt) unit)). cbv iota beta.
    unfold bind at 1, ret at 1. unfold bind at 1, tick at 1. cbn [fst snd].
    unfold bind at 1. replace (Datatypes.S (Datatypes.S j)) with (j + 2) by lia. rewrite Hloop.
    set (times' := map _ (seq 0 (List.length queries))).
    assert (Et : times' = times).
    { unfold times', times. apply map_ext. intros i. f_equal; f_equal; lia. }
    rewrite Et. clear times' Et Hloop.
    assert (Htl : List.length times = List.length queries) by (unfold times; now rewrite map_length, seq_length).
    assert (Hpos : (0 < nsum times)%R).
    { apply sum_pos.
      - intros i _. specialize (Hmove (j + 2 + 2 * i)).
        replace (j + 2 + (2 * i + 1)) with (Datatypes.S (j + 2 + 2 * i)) by lia. lra.
      - destruct queries; [congruence|discriminate]. }
    assert (Hq : (0 < INR (List.length queries))%R).
    { apply lt_0_INR. destruct queries; [congruence|cbn; lia]. }
    assert (Hadd : (0 < clock (Datatypes.S j) - clock j)%R) by (specialize (Hmove j); lra).
    rewrite !nof_R. rewrite Htl. unfold py_div.
    destruct (neqb (nsum times) nzero) eqn:E1.
    { apply neqb_R in E1. cbn in E1. lra. }
    destruct (neqb (nsub (clock (Datatypes.S j)) (clock j)) nzero) eqn:E2.
    { apply neqb_R in E2. cbn in E2. lra. }
    cbv zeta. unfold bind at 1, lift at 1. unfold bind at 1, lift at 1. unfold bind at 1, get, ret. cbn [fst snd].
    eexists. split; [reflexivity|]. cbn [br_add_time br_add_throughput br_avg_search_time br_search_throughput br_count].
    split; [now rewrite Nat.add_1_r|]. split.
    { cbn [ndiv nsub num_R]. field. lra. }
    split.
    { cbn [ndiv num_R]. rewrite nsum_R. field. lra. }
    split.
    { cbn [ndiv num_R]. field. split; lra. }
    cbn [ob lsh_object ob_count]. unfold lsh_count, live_count. rewrite (li_vectors _ _ _ _ _ HI'). cbn [sl_slots].
    assert (Hsm : forall l : list (option (list F * Mt)), List.length (somes (map (option_map fst) l)) = List.length (somes l)).
    { induction l as [|[a|] l IH]; cbn; auto. }
    rewrite Hsm, somes_app, app_length. f_equal.
    unfold new_slots, metas_for.
    assert (Hsm2 : forall l : list (list F * option Mt),
      List.length (somes (map (fun '(v, m) => Some (v, the_meta empty m)) l)) = List.length l).
    { induction l as [|[a b] l IH]; cbn; auto. }
    rewrite Hsm2, combine_length, Hml. lia.
  Qed.

  (** An index that only has [insert] cannot be measured, whatever it holds and is asked. *)
  Theorem C162_inserting_raises {X S Orc} (IC : index_class X S F Mt Orc) o x arr queries k (clock : nat -> R) j numbered :
    exists e j', validate_index_performance (inserting_object IC o) clock numbered arr queries k (x, j) =
      (Raise e, (x, j')) /\ (arr <> Nd -> e = EAttr).
  Proof.
    unfold validate_index_performance. unfold bind at 1, tick at 1. cbn [fst snd].
    unfold bind at 1, lift at 1. destruct (py_len arr) as [n|e] eqn:E.
    - unfold bind at 1, lift at 1. cbn [inserting_object ob_add]. eauto.
    - exists e. eexists. split; [reflexivity|]. destruct arr; [discriminate..|congruence].
  Qed.
End Theorems.

(** ** Cases *)

From Verif Require Import Demo DemoIndex PropsAnnoy.

(** Whole milliseconds. *)
Definition steady (i : nat) : Z := Z.of_nat (3 * i).
Definition lsh_small := lsh_object (Mt := Z) 2 2 3 LEuclidean 0%Z demo_lsh_orc (fun _ => demo_lsh_orc).
Definition numbered_Z (i : nat) : Z := Z.of_nat i.
Definition lsh_used : lsh Z Z := lsh_after 2 2 3 LEuclidean 0%Z 0%Z demo_lsh_ops.

(** A measured index; the hypotheses of C162_lsh_partial about index, history and rows hold. *)
Example C162_case :
  lsh_config (F := Z) (Mt := Z) 2 2 3 LEuclidean 0%Z /\ lhistory 3 0%Z no_slots demo_lsh_ops /\
  sl_open (sl_after 0%Z demo_lsh_ops) = true /\ sl_dim (sl_after 0%Z demo_lsh_ops) = Some 2 /\
  lsh_orc_ok 3 demo_lsh_orc /\ (forall i, copyable (numbered_Z i) = true) /\ moving INR /\
  fst (validate_index_performance lsh_small steady numbered_Z (Mat [[1; 1]; [2; 2]]%Z) [[1; 2]; [7; 7]]%Z 5 (lsh_used, 0)) =
    Ok (MkBenchReport 3 0 3 0 (live_count (sl_slots (sl_after 0%Z demo_lsh_ops)) + 2))%Z.
Proof.
  split; [exact demo_lsh_config|]. split; [exact demo_lsh_fit|]. split; [reflexivity|]. split; [reflexivity|].
  split; [exact demo_lsh_orc_ok|]. split; [intros i; unfold numbered_Z; cbn; lia|].
  split; [|vm_compute; reflexivity]. intros i. rewrite S_INR. lra.
Qed.

(** C162 is false without queries: the rates are worked out by dividing by no time at all. *)
Theorem C162_no_queries_refuted :
  exists (x x' : lsh Z Z) rows k j,
    validate_index_performance lsh_small steady numbered_Z (Mat rows) [] k (x, 0) = (Raise EZeroDiv, (x', j)) /\
    lsh_count x' = lsh_count x + List.length rows.
Proof. exists lsh_used. eexists _, [[1; 1]]%Z, 5%Z, _. split; vm_compute; reflexivity. Qed.

(** C162 is false with a clock that shows the same time twice. *)
Theorem C162_coarse_clock_refuted :
  exists (clock : nat -> Z) (x : lsh Z Z) rows queries k,
    (forall i, (clock i <= clock (Datatypes.S i))%Z) /\ queries <> [] /\
    fst (validate_index_performance lsh_small clock numbered_Z (Mat rows) queries k (x, 0)) = Raise EZeroDiv.
Proof.
  exists (fun _ => 7%Z), lsh_used, [[1; 1]]%Z, [[1; 2]]%Z, 5%Z. split; [intros; lia|]. split; [discriminate|].
  vm_compute. reflexivity.
Qed.

(** An Annoy index is measured once; a second time it refuses the vectors, its trees being built. *)
Definition annoy_small := annoy_object (Mt := Z) AEuclidean demo_annoy_orc (fun _ => demo_annoy_orc).
Definition annoy_open : annoy Z Z := snd (an_initialize an_new).

Theorem C162_annoy_twice_refuted :
  exists rows queries k rep x j e s,
    validate_index_performance annoy_small steady numbered_Z (Mat rows) queries k (annoy_open, 0) = (Ok rep, (x, j)) /\
    br_count rep = List.length rows /\
    validate_index_performance annoy_small steady numbered_Z (Mat rows) queries k (x, j) = (Raise e, s).
Proof.
  exists [[1; 1]; [2; 2]]%Z, [[1; 2]]%Z, 5%Z. do 5 eexists. split; [vm_compute; reflexivity|].
  split; vm_compute; reflexivity.
Qed.

(** C162 is false of a flat index: it has no [add]. *)
Theorem C162_flat_refuted :
  let IC := flat_class (mem_class (V := list Z) (Mt := Z)) MEuclidean in
  exists c rows queries k st,
    cl_initialize mem_class IC stable_argsort [] (MkClient (ix_new IC) mem_new false) = (Ok tt, c) /\
    queries <> [] /\
    validate_index_performance (inserting_object IC stable_argsort) steady numbered_Z (Mat rows) queries k
      (c_index c, c_storage c, 0) = (Raise EAttr, st).
Proof.
  cbv zeta. eexists. exists [[1; 1]]%Z, [[1; 2]]%Z, 5%Z. eexists. split; [vm_compute; reflexivity|].
  split; [discriminate|]. vm_compute. reflexivity.
Qed.

Print Assumptions C162_lsh_partial.
Print Assumptions C162_inserting_raises.
Print Assumptions C162_flat_refuted.
Print Assumptions C162_no_queries_refuted.
Print Assumptions C162_coarse_clock_refuted.
Print Assumptions C162_annoy_twice_refuted.
