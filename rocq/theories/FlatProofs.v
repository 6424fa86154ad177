(** The flat index conforms to the database specification with exact nearest neighbours. *)

From Coq Require Import List Arith ZArith NArith Lia Bool Permutation Sorted ZifyBool ZifyNat.
From Verif Require Import PyBase BaseLemmas Payload StorageModel StorageSpec StorageRun
  StorageProofs StorageThms StorageOk Num ClientModel DbSpec ClientRun ClientProofs FlatModel.
Import ListNotations.
Open Scope py_scope.

(** What [np.argsort] promises: a permutation of the positions, in order of value. *)
Definition argsort_ok {F} `{Num F} (argsort : list F -> list nat) : Prop :=
  forall ds, Permutation (argsort ds) (seq 0 (length ds)) /\
    StronglySorted (fun i j => forall x y, nth_error ds i = Some x -> nth_error ds j = Some y ->
                                           nleb x y = true) (argsort ds).

(** Vectors a search over these records can handle: the query's length, at least one entry, all
    finite. *)
Definition searchable {F Mt} `{Num F} (recs : list (entry (list F) Mt)) (q : list F) : bool :=
  negb (Nat.eqb (length q) 0) && forallb nfinite q &&
  forallb (fun e => Nat.eqb (length (fst (snd e))) (length q) && forallb nfinite (fst (snd e))) recs.

(** What a flat search answers: the nearest records, or an index error when the metric is not
    supported or the records and the query do not form a matrix of finite numbers. *)
Definition flat_ok {F Mt} `{Num F} (mt : metric) (recs : list (entry (list F) Mt))
    (q : list F) (k : Z) (r : cret F Mt) : Prop :=
  match recs with
  | [] => r = AHits []
  | _ =>
      match mt with
      | MOther => r = AExn EIndex
      | _ => if searchable recs q
             then exists hits, r = AHits hits /\
                    nearest nleb (row_distance mt q) recs (want k (length recs)) hits
             else r = AExn EIndex
      end
  end.

Section DictSpec.
  Context {V Mt : Type}.
  Implicit Types recs : list (entry V Mt).

  Lemma sp_find_app id recs l :
    sp_find id (recs ++ l) = match sp_find id recs with Some x => Some x | None => sp_find id l end.
  Proof.
    induction recs as [|[k x] recs IH]; simpl; auto. destruct (eqb id k); auto.
  Qed.

  Lemma sp_find_None id recs : sp_find id recs = None <-> ~ In id (map fst recs).
  Proof. rewrite sp_find_dget. apply dget_None. Qed.

  Lemma sp_find_In id x recs : NoDup (map fst recs) ->
    (sp_find id recs = Some x <-> In (id, x) recs).
  Proof.
    intros Hnd. rewrite sp_find_dget. split.
    - apply dget_Some_In.
    - now apply In_dget.
  Qed.

  Lemma In_keys_find id recs : In id (map fst recs) <-> exists x, sp_find id recs = Some x.
  Proof.
    rewrite sp_find_dget. split; intros E.
    - now apply dget_In in E.
    - now apply dget_In.
  Qed.

  Lemma sp_find_del id j recs :
    sp_find id (sp_del j recs) = if eqb id j then None else sp_find id recs.
  Proof. rewrite sp_del_ddel, !sp_find_dget. apply dget_ddel. Qed.

  Lemma keys_del j recs : forall id, In id (map fst (sp_del j recs)) <-> id <> j /\ In id (map fst recs).
  Proof. intros id. rewrite sp_del_ddel. apply In_dkeys_ddel. Qed.

  Lemma keys_put id x recs : In id (map fst recs) -> map fst (sp_put id x recs) = map fst recs.
  Proof.
    intros Hin. unfold sp_put. apply In_keys_find in Hin as [y ->].
    rewrite map_map. apply map_ext_in. intros e _. destruct (eqb_spec id (fst e)); auto.
  Qed.

  Lemma sp_put_fresh id x recs : ~ In id (map fst recs) -> sp_put id x recs = recs ++ [(id, x)].
  Proof. intros Hin. unfold sp_put. apply sp_find_None in Hin. now rewrite Hin. Qed.
End DictSpec.

Lemma row_meta_of {Mt} (meta : option (list (option Mt))) i : row_meta meta i = meta_of meta i.
Proof.
  destruct meta as [l|]; simpl; auto. destruct (nth_error l i) eqn:E.
  - assert (i < length l) by (apply nth_error_Some; congruence).
    replace (negb (length l =? 0) && (i <? length l)) with true by lia.
    now apply nth_error_nth.
  - apply nth_error_None in E. replace (negb (length l =? 0) && (i <? length l)) with false by lia.
    reflexivity.
Qed.

Lemma meta_of_ok {V Mt} `{Payload V Mt} (meta : option (list (option Mt))) i :
  (forall l m, meta = Some l -> In m l -> meta_ok m) -> meta_ok (meta_of meta i).
Proof.
  intros Hm. destruct meta as [l|]; simpl; [|split; exact I].
  destruct (nth_error l i) eqn:E; [|split; exact I].
  eapply Hm; eauto. eapply nth_error_In; eauto.
Qed.


(** The first [n] candidates of a sorted candidate list are the nearest records. *)
Lemma nearest_of_sorted {F Mt} (leb : F -> F -> bool) (dist : list F -> F)
    (recs : list (entry (list F) Mt)) (cands : list (pystr * F)) (hits : list (hit F Mt)) n :
  NoDup (map fst recs) ->
  Permutation cands (map (fun e => (fst e, dist (fst (snd e)))) recs) ->
  StronglySorted (fun a b => leb (snd a) (snd b) = true) cands ->
  map (fun h => (h_id h, h_dist h)) hits = firstn n cands ->
  (forall h, In h hits -> exists v, sp_find (h_id h) recs = Some (v, h_meta h)) ->
  n <= length recs ->
  nearest leb dist recs n hits.
Proof.
  intros Hnd Hp Hs Eh Hm Hn.
  assert (Hlen : length cands = length recs).
  { apply Permutation_length in Hp. now rewrite map_length in Hp. }
  assert (Hids : map h_id hits = firstn n (map fst cands)).
  { rewrite firstn_map_comm, <- Eh, map_map. reflexivity. }
  assert (Hcnd : NoDup (map fst cands)).
  { eapply Permutation_NoDup; [|exact Hnd]. symmetry.
    eapply perm_trans; [apply Permutation_map, Hp|]. rewrite map_map. simpl. reflexivity. }
  assert (Hdist : forall id v m d, In (id, (v, m)) recs -> In (id, d) cands -> d = dist v).
  { intros id v m d H1 H2. apply (Permutation_in _ Hp) in H2. apply in_map_iff in H2.
    destruct H2 as [[id' [v' m']] [E H2]]. simpl in E. injection E as -> <-.
    apply sp_find_In in H1; auto. apply sp_find_In in H2; auto. congruence. }
  assert (Hin : forall h, In h hits -> In (h_id h, h_dist h) (firstn n cands)).
  { intros h Hh. rewrite <- Eh. apply (in_map (fun h => (h_id h, h_dist h))) in Hh. exact Hh. }
  constructor.
  - assert (length (map (fun h => (h_id h, h_dist h)) hits) = length (firstn n cands)) as E
      by now rewrite Eh.
    rewrite map_length, firstn_length in E. lia.
  - rewrite Hids. now apply NoDup_firstn.
  - intros h Hh. destruct (Hm h Hh) as [v E]. exists v.
    apply sp_find_In in E; auto. split; auto.
    eapply Hdist; eauto. eapply In_firstn. now apply Hin.
  - assert (StronglySorted (fun a b => leb (snd a) (snd b) = true)
              (map (fun h => (h_id h, h_dist h)) hits)) as S1.
    { rewrite Eh. now apply StronglySorted_firstn. }
    now apply StronglySorted_map in S1.
  - intros id v m h Hr Hnot Hh.
    assert (In (id, dist v) (skipn n cands)) as Hsk.
    { assert (In (id, dist v) cands) as Hc.
      { eapply Permutation_in; [symmetry; exact Hp|]. apply in_map_iff.
        exists (id, (v, m)). split; auto. }
      rewrite <- (firstn_skipn n cands) in Hc. apply in_app_or in Hc as [Hc|Hc]; auto.
      exfalso. apply Hnot. rewrite Hids, firstn_map_comm.
      apply (in_map fst) in Hc. exact Hc. }
    specialize (Hin h Hh).
    apply (StronglySorted_firstn_skipn _ n cands _ _ Hs Hin Hsk).
Qed.

(** Records added by a batch whose first row has position [i]. *)
Definition batch_from {F Mt} (fresh : nat -> pystr) (i : nat) (rows : list (list F))
    (meta : option (list (option Mt))) : list (entry (list F) Mt) :=
  map (fun '(j, row) => (fresh j, (row, meta_of meta j))) (combine (seq i (length rows)) rows).

Lemma batch_from_keys {F Mt} fresh i rows (meta : option (list (option Mt))) :
  map fst (batch_from (F := F) fresh i rows meta) = map fresh (seq i (length rows)).
Proof.
  unfold batch_from. revert i. induction rows as [|row rows IH]; intros i; simpl; auto.
  f_equal. apply IH.
Qed.

Section Flat.
  Context {F Mt S : Type} `{Num F} `{!NumOrder F} `{Payload (list F) Mt}.
  Context (C : storage_class S (list F) Mt) (mt : metric).
  Context (p b : bool) (sz : option (list F * option Mt -> N))
          (A : sstate (list F) Mt -> S -> Prop) (HC : storage_ok C p b sz A).
  Implicit Types recs : list (entry (list F) Mt).

  (** Cached vectors of live ids are the recorded ones. *)
  Definition fcoh recs (x : flat F) : Prop :=
    forall id v r, dget id (f_cache x) = Some v -> sp_find id recs = Some r -> fst r = v.

  Definition fopen recs (x : flat F) : Prop :=
    fcoh recs x /\ f_init x = true /\ Permutation (f_ids x) (map fst recs) /\
    f_count x = Z.of_nat (length (f_ids x)).

  (** The same without the stored count. *)
  Definition fgood recs (x : flat F) : Prop :=
    fcoh recs x /\ f_init x = true /\ Permutation (f_ids x) (map fst recs).

  Lemma flat_initialize_ok recs x s : fcoh recs x -> A (MkS true recs) s ->
    exists x' s', flat_initialize C (x, s) = (Ok tt, (x', s')) /\
                  fopen recs x' /\ A (MkS true recs) s'.
  Proof.
    intros Hcoh HA. unfold flat_initialize, wrap, bind, on_sb, zoom, set_ix, modify. simpl.
    destruct (so_list C p b sz A HC recs s HA) as (l & s' & E & Hp & A').
    rewrite E. simpl. eexists _, s'. split; [reflexivity|]. split; auto.
    split; [|split; [|split]]; simpl; auto.
  Qed.

  Lemma flat_insert_rows_ok fresh meta rows : forall i recs x s,
    (forall l m, meta = Some l -> In m l -> meta_ok m) ->
    (forall j k, i <= j < i + length rows -> i <= k < i + length rows -> fresh j = fresh k -> j = k) ->
    (forall j, i <= j < i + length rows -> uuid_like (fresh j) /\ ~ In (fresh j) (map fst recs)) ->
    fcoh recs x -> Permutation (f_ids x) (map fst recs) -> A (MkS true recs) s ->
    exists x' s', flat_insert_rows C fresh meta i rows (x, s) =
                    (Ok (map fresh (seq i (length rows))), (x', s')) /\
      fcoh (recs ++ batch_from fresh i rows meta) x' /\ f_init x' = f_init x /\
      Permutation (f_ids x') (map fst (recs ++ batch_from fresh i rows meta)) /\
      A (MkS true (recs ++ batch_from fresh i rows meta)) s'.
  Proof.
    induction rows as [|row rows IH]; intros i recs x s Hm Hinj Hfr Hcoh Hp HA; simpl.
    - rewrite app_nil_r. exists x, s. auto.
    - destruct (Hfr i ltac:(simpl; lia)) as [Hu Hni].
      unfold bind, on_sb, zoom, set_ix, modify. simpl.
      rewrite row_meta_of.
      destruct (so_store C p b sz A HC recs s (fresh i) row (meta_of meta i) HA Hu
                  (meta_of_ok (V := list F) meta i Hm)) as (s1 & E & A1).
      rewrite E. simpl. rewrite sp_put_fresh in A1 by auto.
      set (x1 := fset_cache _ _).
      specialize (IH (Datatypes.S i) (recs ++ [(fresh i, (row, meta_of meta i))]) x1 s1 Hm).
      destruct IH as (x' & s' & E' & C' & I' & P' & A'); auto.
      + intros j k Hj Hk. apply Hinj; simpl; lia.
      + intros j Hj. destruct (Hfr j ltac:(simpl; lia)) as [Hu' Hni']. split; auto.
        rewrite map_app, in_app_iff. simpl. intros [?|[E1|[]]]; auto.
        apply (Hinj i j) in E1; simpl; lia.
      + intros id v r Hd Hf. simpl in Hd. rewrite dget_dset in Hd.
        rewrite sp_find_app in Hf. destruct (eqb_spec id (fresh i)) as [->|].
        * apply sp_find_None in Hni. rewrite Hni in Hf. simpl in Hf. rewrite eqb_refl in Hf.
          injection Hf as <-. injection Hd as <-. reflexivity.
        * destruct (sp_find id recs) eqn:Ef.
          -- injection Hf as <-. eapply Hcoh; eauto.
          -- simpl in Hf. rewrite eqb_neq in Hf by auto. discriminate.
      + simpl. rewrite map_app. simpl. now apply Permutation_app_tail.
      + rewrite E'. unfold ret.
        rewrite <- app_assoc in C', P', A'. simpl in C', P', A'.
        exists x', s'. auto.
  Qed.

  Lemma flat_insert_ok fresh rows meta recs x s :
    fopen recs x -> A (MkS true recs) s ->
    fresh_ids fresh (length rows) (map fst recs) ->
    (forall l m, meta = Some l -> In m l -> meta_ok m) ->
    exists x' s', flat_insert C fresh (Mat rows) meta (x, s) =
                    (Ok (map fresh (seq 0 (length rows))), (x', s')) /\
                  fopen (recs ++ batch_recs fresh rows meta) x' /\
                  A (MkS true (recs ++ batch_recs fresh rows meta)) s'.
  Proof.
    intros (Hcoh & Hi & Hp & Hc) HA [Hinj Hfr] Hm.
    unfold flat_insert, get_ix, bind at 1. simpl. rewrite Hi. simpl.
    destruct (flat_insert_rows_ok fresh meta rows 0 recs x s Hm) as (x' & s' & E & C' & I' & P' & A');
      auto.
    - intros j k Hj Hk. apply Hinj; lia.
    - intros j Hj. apply Hfr. lia.
    - unfold wrap, bind. rewrite E. simpl. eexists _, s'. split; [reflexivity|].
      split; auto. split; [|split; [|split]]; simpl; auto. now rewrite I'.
  Qed.

  (** Loading returns every live id with its recorded vector. *)
  Lemma flat_load_ok recs ids : forall x s,
    fcoh recs x -> (forall id, In id ids -> In id (map fst recs)) -> A (MkS true recs) s ->
    exists d s' l, flat_load C ids (x, s) = (Ok l, (fset_cache d x, s')) /\
      fcoh recs (fset_cache d x) /\ A (MkS true recs) s' /\
      map fst l = ids /\
      Forall (fun e => exists m, sp_find (fst e) recs = Some (snd e, m)) l.
  Proof.
    induction ids as [|id ids IH]; intros x s Hcoh Hin HA; simpl.
    - exists (f_cache x), s, []. destruct x. repeat split; auto.
    - unfold bind, get_ix. simpl.
      destruct (proj1 (In_keys_find id recs) (Hin id (or_introl eq_refl))) as [[v m] Hf].
      destruct (dget id (f_cache x)) as [v'|] eqn:Ec.
      + assert (v = v') as -> by (symmetry; symmetry; exact (Hcoh id v' (v, m) Ec Hf)).
        destruct (IH x s Hcoh (fun i Hi => Hin i (or_intror Hi)) HA)
          as (d & s' & l & E & C' & A' & El & Fl).
        rewrite E. exists d, s', ((id, v') :: l). simpl. repeat split; auto; [congruence|].
        constructor; simpl; eauto.
      + unfold on_sb, zoom. simpl.
        destruct (so_retrieve C p b sz A HC recs s id HA) as (s1 & E1 & A1).
        rewrite E1, Hf. simpl.
        set (x1 := fset_cache _ x).
        destruct (IH x1 s1) as (d & s' & l & E & C' & A' & El & Fl); auto.
        * intros j w r Hd Hr. simpl in Hd. rewrite dget_dset in Hd.
          destruct (eqb_spec j id) as [->|]; [|eapply Hcoh; eauto].
          rewrite Hf in Hr. injection Hr as <-. now injection Hd.
        * intros i Hi. apply Hin. now right.
        * unfold set_ix, modify. simpl. fold x1. rewrite E.
          exists d, s', ((id, v) :: l). simpl. repeat split; auto; [congruence|].
          constructor; simpl; eauto.
  Qed.

  Lemma flat_results_ok recs ids ds : length ids = length ds ->
    (forall id, In id ids -> In id (map fst recs)) -> forall idxs x s,
    Forall (fun i => i < length ids) idxs -> A (MkS true recs) s ->
    exists s' hits, flat_results C ids ds idxs (x, s) = (Ok hits, (x, s')) /\
      A (MkS true recs) s' /\
      map (fun h => (Some (h_id h), Some (h_dist h))) hits =
        map (fun i => (nth_error ids i, nth_error ds i)) idxs /\
      Forall (fun h => exists v, sp_find (h_id h) recs = Some (v, h_meta h)) hits.
  Proof.
    intros Hl Hin. induction idxs as [|i idxs IH]; intros x s HF HA.
    - exists s, []. simpl. auto.
    - inversion HF as [|? ? Hi HF']; subst. unfold flat_results in *. cbn [mapM].
      destruct (nth_error ids i) as [id|] eqn:Ei; [|apply nth_error_None in Ei; lia].
      destruct (nth_error ds i) as [dd|] eqn:Ed; [|apply nth_error_None in Ed; lia].
      destruct (proj1 (In_keys_find id recs)) as [[v m] Hf].
      { apply Hin. eapply nth_error_In; eauto. }
      destruct (so_retrieve C p b sz A HC recs s id HA) as (s1 & E1 & A1).
      assert (flat_result C ids ds i (x, s) = (Ok (MkHit id dd m), (x, s1))) as Eone.
      { unfold flat_result. rewrite Ei, Ed. unfold bind, on_sb, zoom. simpl.
        rewrite E1, Hf. reflexivity. }
      destruct (IH x s1 HF' A1) as (s' & hits & E & A' & Em & Fm).
      rewrite (bind_Ok _ _ _ _ _ Eone), (bind_Ok _ _ _ _ _ E).
      exists s', (MkHit id dd m :: hits).
      simpl. rewrite Ei, Ed, Em. repeat split; auto. constructor; simpl; eauto.
  Qed.

  Lemma permutation_recs recs l :
    NoDup (map fst recs) -> Permutation (map fst l) (map fst recs) ->
    Forall (fun e : pystr * list F => exists m, sp_find (fst e) recs = Some (snd e, m)) l ->
    Permutation l (map (fun e => (fst e, fst (snd e))) recs).
  Proof.
    intros Hnd Hp HF. apply NoDup_Permutation.
    - apply NoDup_map_inv with (f := fst). eapply Permutation_NoDup; [symmetry; exact Hp|auto].
    - apply NoDup_map_inv with (f := fst). now rewrite map_map.
    - intros [id v]. split; intros Hin.
      + rewrite Forall_forall in HF. destruct (HF _ Hin) as [m E]. simpl in E.
        apply in_map_iff. exists (id, (v, m)). split; auto. now apply sp_find_In.
      + apply in_map_iff in Hin as [[id' [v' m]] [E Hin]]. simpl in E. injection E as -> ->.
        assert (In id (map fst l)) as Hl.
        { eapply Permutation_in; [symmetry; exact Hp|]. apply (in_map fst) in Hin. exact Hin. }
        apply in_map_iff in Hl as [[id2 v2] [E2 Hin2]]. simpl in E2. subst id2.
        rewrite Forall_forall in HF. destruct (HF _ Hin2) as [m2 E2]. simpl in E2.
        apply sp_find_In in Hin; auto. congruence.
  Qed.

  Lemma searchable_rows recs q l :
    Permutation l (map (fun e => (fst e, fst (snd e))) recs) ->
    negb (length q =? 0) && row_ok (length q) q && forallb (row_ok (length q)) (map snd l) =
    searchable recs q.
  Proof.
    intros Hp. unfold searchable, row_ok at 1. rewrite Nat.eqb_refl. simpl. f_equal.
    apply eq_true_iff_eq. rewrite !forallb_forall. split; intros HF.
    - intros [id [v m]] Hin. simpl. apply (HF v). apply in_map_iff. exists (id, v). split; auto.
      eapply Permutation_in; [symmetry; exact Hp|]. apply in_map_iff. now exists (id, (v, m)).
    - intros v Hin. apply in_map_iff in Hin as [[id w] [E Hin]]. simpl in E. subst w.
      apply (Permutation_in _ Hp) in Hin. apply in_map_iff in Hin as [[id' [v' m]] [E Hin]].
      simpl in E. injection E as -> ->. exact (HF _ Hin).
  Qed.

  Lemma slice_to_min {T} k (l : list T) :
    slice_to (Z.min k (Z.of_nat (length l))) l = firstn (want k (length l)) l.
  Proof.
    unfold want. destruct (Z.leb_spec 0 k).
    - rewrite slice_to_nonneg by lia.
      destruct (Z.le_ge_cases k (Z.of_nat (length l))).
      + rewrite Z.min_l by lia. rewrite Nat.min_l by lia. reflexivity.
      + rewrite Z.min_r by lia. rewrite Nat.min_r by lia. now rewrite Nat2Z.id.
    - rewrite Z.min_l by lia. now rewrite slice_to_neg by lia.
  Qed.

  Lemma want_le k n : want k n <= n.
  Proof. unfold want. destruct (0 <=? k)%Z; lia. Qed.

  (** Results assembled from the first positions of an argsort of the distances to all records
      are the nearest records. *)
  Lemma hits_nearest argsort q recs (l : list (pystr * list F)) n (hits : list (hit F Mt)) :
    argsort_ok argsort -> NoDup (map fst recs) ->
    Permutation (map fst l) (map fst recs) ->
    Permutation l (map (fun e => (fst e, fst (snd e))) recs) ->
    let ds := map (row_distance mt q) (map snd l) in
    map (fun h => (Some (h_id h), Some (h_dist h))) hits =
      map (fun i => (nth_error (map fst l) i, nth_error ds i)) (firstn n (argsort ds)) ->
    Forall (fun h => exists v, sp_find (h_id h) recs = Some (v, h_meta h)) hits ->
    n <= length recs ->
    nearest nleb (row_distance mt q) recs n hits.
  Proof.
    intros Harg Hnd Hkeys Hpl ds Em Fm Hn. destruct (Harg ds) as [Hap Has].
    set (cand := fun i => (nth i (map fst l) [], nth i ds nzero)).
    apply nearest_of_sorted with (cands := map cand (argsort ds)); auto.
    + eapply perm_trans; [apply Permutation_map, Hap|].
      assert (map cand (seq 0 (length ds)) =
              map (fun e => (fst e, row_distance mt q (snd e))) l) as ->.
      { unfold cand, ds. rewrite map_map. rewrite map_length. clear.
        apply nth_ext with (d := ([], nzero)) (d' := ([], nzero)); rewrite !map_length, seq_length; auto.
        intros n Hn.
        rewrite nth_indep with (d' := (fun i => (nth i (map fst l) [],
          nth i (map (fun x => row_distance mt q (snd x)) l) nzero)) 0)
          by now rewrite map_length, seq_length.
        rewrite map_nth with (f := fun i => (nth i (map fst l) [],
          nth i (map (fun x => row_distance mt q (snd x)) l) nzero)).
        rewrite seq_nth by auto. simpl.
        destruct (nth_error l n) as [e|] eqn:E; [|apply nth_error_None in E; lia].
        rewrite (nth_error_nth (map _ l) n) with (x := (fst e, row_distance mt q (snd e))) (d := ([], nzero)).
        2:{ rewrite nth_error_map, E. reflexivity. }
        f_equal; apply nth_error_nth; rewrite nth_error_map, E; reflexivity. }
      eapply perm_trans; [apply Permutation_map, Hpl|]. rewrite map_map. simpl. reflexivity.
    + apply StronglySorted_map. simpl.
      assert (Forall (fun i => i < length ds) (argsort ds)) as HF.
      { rewrite Forall_forall. intros i Hin. apply (Permutation_in _ Hap) in Hin.
        apply in_seq in Hin. lia. }
      revert Has HF. generalize (argsort ds) as L. clear. intros L Hs HF.
      induction Hs as [|i L Hs IH Hfi]; [constructor|].
      inversion HF; subst. constructor; auto.
      rewrite Forall_forall in *. intros j Hj.
      apply (Hfi j Hj); apply nth_error_nth'; auto.
    + rewrite firstn_map_comm.
      assert (forall hits idxs,
        Forall (fun i => i < length ds) idxs ->
        map (fun h : hit F Mt => (Some (h_id h), Some (h_dist h))) hits =
          map (fun i => (nth_error (map fst l) i, nth_error ds i)) idxs ->
        map (fun h => (h_id h, h_dist h)) hits = map cand idxs) as Hgen.
      { intros hs. induction hs as [|h hs IH]; intros [|i idxs] HF E; simpl in *; try discriminate; auto.
        inversion HF; subst. injection E as E2' E3 E4. f_equal; auto.
        unfold cand. f_equal; symmetry; apply nth_error_nth; auto. }
      apply Hgen; auto. rewrite Forall_forall. intros i Hin. apply In_firstn in Hin.
      apply (Permutation_in _ Hap) in Hin. apply in_seq in Hin. lia.
    + rewrite Forall_forall in Fm. exact Fm.
  Qed.

  Lemma flat_search_good argsort q k recs x s :
    argsort_ok argsort -> fgood recs x -> A (MkS true recs) s ->
    match flat_search C mt argsort (Vec q) k (x, s) with
    | (r, (x', s')) =>
        fgood recs x' /\ f_count x' = f_count x /\ A (MkS true recs) s' /\
        flat_ok mt recs q k (match r with Ok l => AHits l | Raise e => AExn e end)
    end.
  Proof.
    intros Harg (Hcoh & Hi & Hp) HA.
    unfold flat_search, get_ix, bind at 1. simpl. rewrite Hi. simpl.
    pose proof (Permutation_length Hp) as Hlen. rewrite map_length in Hlen.
    pose proof (so_nd C p b sz A HC _ _ HA) as Hnd. simpl in Hnd.
    destruct (Nat.eqb_spec (length (f_ids x)) 0) as [E0|E0].
    { destruct recs; simpl in Hlen; [|lia]. unfold wrap, ret. simpl. repeat split; auto. }
    destruct (flat_load_ok recs (f_ids x) x s Hcoh) as (d & s1 & l & E1 & C1 & A1 & El & Fl); auto.
    { intros id Hid. eapply Permutation_in; eauto. }
    unfold wrap, bind at 1. rewrite E1.
    assert (length l = length (f_ids x)) as Ell by (rewrite <- El; now rewrite map_length).
    replace (length l =? 0) with false by lia.
    assert (Permutation l (map (fun e => (fst e, fst (snd e))) recs)) as Hpl.
    { apply permutation_recs; auto. now rewrite El. }
    assert (fgood recs (fset_cache d x)) as Ho' by (split; [|split]; auto).
    unfold bind, lift. unfold matrix_distances. rewrite (searchable_rows recs q l Hpl).
    destruct recs as [|e0 recs0] eqn:Erecs; [simpl in Hlen; lia|]. rewrite <- Erecs in *.
    assert (flat_ok mt recs q k =
            fun r => match mt with
                     | MOther => r = AExn EIndex
                     | _ => if searchable recs q
                            then exists hits, r = AHits hits /\
                                   nearest nleb (row_distance mt q) recs (want k (length recs)) hits
                            else r = AExn EIndex
                     end) as Efok by (rewrite Erecs; reflexivity).
    rewrite Efok.
    set (ds := map (row_distance mt q) (map snd l)).
    assert (Hmain : match flat_results C (map fst l) ds
                            (slice_to (Z.min k (Z.of_nat (length (f_ids x)))) (argsort ds))
                            (fset_cache d x, s1) with
                    | (r, (x', s')) =>
                        fgood recs x' /\ f_count x' = f_count x /\ A (MkS true recs) s' /\
                        exists hits, r = Ok hits /\
                          nearest nleb (row_distance mt q) recs (want k (length recs)) hits
                    end).
    { destruct (Harg ds) as [Hap Has].
      assert (length ds = length l) as Edl by (unfold ds; now rewrite !map_length).
      pose proof (Permutation_length Hap) as Hal. rewrite seq_length in Hal.
      replace (length (f_ids x)) with (length (argsort ds)) by lia.
      rewrite slice_to_min.
      replace (length (argsort ds)) with (length recs) by lia.
      destruct (flat_results_ok recs (map fst l) ds) with
        (idxs := firstn (want k (length recs)) (argsort ds)) (x := fset_cache d x) (s := s1)
        as (s2 & hits & E2 & A2 & Em & Fm); auto.
      - now rewrite map_length.
      - rewrite El. intros id Hid. eapply Permutation_in; eauto.
      - rewrite Forall_forall. intros i Hin. apply In_firstn in Hin.
        apply (Permutation_in _ Hap) in Hin. apply in_seq in Hin. rewrite map_length. lia.
      - rewrite E2. split; auto. split; auto. split; auto. exists hits. split; auto.
        apply (hits_nearest argsort q recs l _ hits); auto; try apply want_le.
        now rewrite El. }
    destruct mt; simpl.
    - destruct (searchable recs q); simpl; auto.
      fold ds. destruct (flat_results _ _ _ _ _) as [r [x' s']].
      destruct Hmain as (? & ? & ? & hits & -> & ?). simpl. eauto 7.
    - destruct (searchable recs q); simpl; auto.
      fold ds. destruct (flat_results _ _ _ _ _) as [r [x' s']].
      destruct Hmain as (? & ? & ? & hits & -> & ?). simpl. eauto 7.
    - auto.
  Qed.

  Lemma flat_search_ok argsort q k recs x s :
    argsort_ok argsort -> fopen recs x -> A (MkS true recs) s ->
    match flat_search C mt argsort (Vec q) k (x, s) with
    | (r, (x', s')) =>
        fopen recs x' /\ A (MkS true recs) s' /\
        flat_ok mt recs q k (match r with Ok l => AHits l | Raise e => AExn e end)
    end.
  Proof.
    intros Harg (Hcoh & Hi & Hp & Hc) HA.
    pose proof (flat_search_good argsort q k recs x s Harg (conj Hcoh (conj Hi Hp)) HA) as Hs.
    destruct (flat_search C mt argsort (Vec q) k (x, s)) as [r [x' s']].
    destruct Hs as ((C' & I' & P') & K' & A' & R').
    split; auto. split; [|split; [|split]]; auto. rewrite K', Hc.
    pose proof (Permutation_length P'). pose proof (Permutation_length Hp). lia.
  Qed.

  Lemma flat_delete_ids_ok ids : forall recs x s succ,
    fcoh recs x -> Permutation (f_ids x) (map fst recs) -> A (MkS true recs) s ->
    exists x' s', flat_delete_ids C ids succ (x, s) = (Ok (succ && del_ans ids recs), (x', s')) /\
      fcoh (del_recs ids recs) x' /\ f_init x' = f_init x /\
      Permutation (f_ids x') (map fst (del_recs ids recs)) /\
      A (MkS true (del_recs ids recs)) s'.
  Proof.
    induction ids as [|id ids IH]; intros recs x s succ Hcoh Hp HA; simpl.
    - rewrite andb_true_r. exists x, s. auto.
    - pose proof (so_nd C p b sz A HC _ _ HA) as Hnd. simpl in Hnd.
      unfold bind, on_sb, zoom, set_ix, modify. simpl.
      destruct (so_delete C p b sz A HC recs s id HA) as (s1 & E1 & A1). rewrite E1. simpl.
      set (x1 := fset_cache _ _).
      destruct (IH (sp_del id recs) x1 s1 (if match sp_find id recs with Some _ => true | None => false end then succ else false))
        as (x' & s' & E & C' & I' & P' & A'); auto.
      + intros j w r Hd Hr.
        assert (f_cache x1 = ddel id (f_cache x)) as Ec.
        { unfold x1. simpl. destruct (memb id (f_ids x)); reflexivity. }
        rewrite Ec, dget_ddel in Hd. rewrite sp_find_del in Hr.
        destruct (eqb j id); [discriminate|]. eapply Hcoh; eauto.
      + assert (f_ids x1 = remove_first id (f_ids x)) as Ei.
        { unfold x1. simpl. destruct (memb_spec id (f_ids x)); simpl; auto.
          now rewrite remove_first_notin. }
        rewrite Ei. assert (NoDup (f_ids x)) as Hnx.
        { eapply Permutation_NoDup; [symmetry; exact Hp|auto]. }
        rewrite remove_first_filter by auto.
        apply NoDup_Permutation.
        * now apply NoDup_filter.
        * rewrite sp_del_ddel. now apply NoDup_dkeys_ddel.
        * intros j. rewrite filter_In, keys_del.
          split.
          -- intros [Hj Hn]. split.
             ++ intros ->. now rewrite eqb_refl in Hn.
             ++ eapply Permutation_in; eauto.
          -- intros [Hn Hj]. split.
             ++ eapply Permutation_in; [symmetry; exact Hp|auto].
             ++ rewrite eqb_neq; auto.
      + exists x', s'. rewrite E. split; [|split; [|split]]; auto.
        * f_equal. f_equal. destruct (sp_find id recs), succ; simpl; auto.
        * rewrite I'. unfold x1. simpl. now destruct (memb id (f_ids x)).
  Qed.

  Lemma flat_delete_ok ids recs x s : fopen recs x -> A (MkS true recs) s ->
    exists x' s', flat_delete C ids (x, s) = (Ok (del_ans ids recs), (x', s')) /\
                  fopen (del_recs ids recs) x' /\ A (MkS true (del_recs ids recs)) s'.
  Proof.
    intros (Hcoh & Hi & Hp & Hc) HA.
    unfold flat_delete, get_ix, bind at 1. simpl. rewrite Hi. simpl.
    destruct (flat_delete_ids_ok ids recs x s true Hcoh Hp HA) as (x' & s' & E & C' & I' & P' & A').
    unfold wrap, bind. rewrite E. simpl. eexists _, s'. split; [reflexivity|]. split; auto.
    split; [|split; [|split]]; simpl; auto. now rewrite I'.
  Qed.

  Lemma find_put_same id x recs : sp_find id (sp_put id x recs) = Some x.
  Proof. rewrite sp_find_put. now rewrite eqb_refl. Qed.

  Lemma flat_update_ok id v m recs x s : fopen recs x -> A (MkS true recs) s -> meta_ok m ->
    let recs' := match sp_find id recs with
                 | Some _ => sp_put id (v, m) recs
                 | None => recs
                 end in
    exists x' s', flat_update C id v m (x, s) =
      (Ok (match sp_find id recs with Some _ => true | None => false end), (x', s')) /\
      fopen recs' x' /\ A (MkS true recs') s'.
  Proof.
    intros (Hcoh & Hi & Hp & Hc) HA Hm recs'.
    unfold flat_update, get_ix, bind at 1. simpl. rewrite Hi. simpl.
    destruct (so_update C p b sz A HC recs s id v m HA Hm) as (s1 & E1 & A1).
    unfold wrap, bind, on_sb, zoom, set_ix, modify. simpl. rewrite E1. simpl.
    destruct (sp_find id recs) as [r0|] eqn:Ef; simpl.
    - eexists _, s1. split; [reflexivity|]. split; auto.
      split; [|split; [|split]]; simpl; auto.
      + intros j w r Hd Hr. simpl in Hd. rewrite dget_dset in Hd. unfold recs' in Hr.
        rewrite sp_find_put in Hr. destruct (eqb j id).
        * injection Hd as <-. injection Hr as <-. reflexivity.
        * eapply Hcoh; eauto.
      + unfold recs'. rewrite keys_put; auto. apply In_keys_find. eauto.
    - eexists x, s1. split; [reflexivity|]. split; auto.
      split; [|split; [|split]]; auto.
  Qed.

  Lemma flat_index_ok_fit reinit (row_fits : list F -> Prop) :
    index_ok (flat_class C mt) A reinit row_fits argsort_ok (flat_ok mt) fopen fcoh.
  Proof.
    constructor.
    - intros recs id v r Hd. discriminate.
    - intros _ recs x Ho. apply Ho.
    - intros recs x _ id v r _ Hf. discriminate.
    - intros o recs x s _ _ Hx HA. now apply flat_initialize_ok.
    - intros o fresh arr meta recs x s _ Ho HA. destruct arr as [v|rows|]; simpl.
      + unfold flat_insert, bind, get_ix. simpl. destruct Ho as (_ & -> & _). reflexivity.
      + intros _ Hfr _ Hm. now apply flat_insert_ok.
      + unfold flat_insert, bind, get_ix. simpl. destruct Ho as (_ & -> & _). reflexivity.
    - intros o q k recs x s Ho _ Hx HA. simpl. destruct q as [q|rows|].
      + now apply flat_search_ok.
      + destruct Hx as (Hcoh & Hi & Hp & Hc). unfold flat_search, bind, get_ix. simpl. rewrite Hi. simpl.
        split; [|split]; auto. split; auto.
      + destruct Hx as (Hcoh & Hi & Hp & Hc). unfold flat_search, bind, get_ix. simpl. rewrite Hi. simpl.
        split; [|split]; auto. split; auto.
    - intros ids recs x s _ Hx HA. now apply flat_delete_ok.
    - intros o id v m recs x s _ _ Hx HA _ Hm. now apply flat_update_ok.
    - intros recs x (Hcoh & Hi & Hp & Hc). simpl. unfold flat_count. rewrite Hi. simpl.
      rewrite Hc. f_equal. apply Permutation_length in Hp. rewrite map_length in Hp. lia.
    - intros x s. simpl. eexists. split; [reflexivity|]. intros recs id v r Hd. discriminate.
  Qed.

  Lemma flat_index_ok reinit :
    index_ok (flat_class C mt) A reinit (fun _ => True) argsort_ok (flat_ok mt) fopen fcoh.
  Proof. apply flat_index_ok_fit. Qed.
End Flat.
