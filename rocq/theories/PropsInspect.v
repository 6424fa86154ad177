(** C132: inspecting an index. *)

From Coq Require Import String List Arith ZArith NArith QArith Bool Lia ZifyBool ZifyNat ZifyN Permutation.
From Verif Require Import PyBase BaseLemmas PyMore Payload StorageModel StorageRun Num ClientModel DbSpec ClientRun
  HnswModel LshModel LshSpec LshProofs PropsLsh AnnoyModel InspectModel Demo DemoIndex PropsHnsw.
Import ListNotations.
Open Scope py_scope.
Open Scope nat_scope.

(** The first hundred of [l]. *)
Definition early {A} (l : list A) (i : nat) (a : A) : Prop := i < 100 /\ nth_error l i = Some a.

Lemma nth_firstn {A} (l : list A) : forall n i, i < n -> nth_error (firstn n l) i = nth_error l i.
Proof.
  induction l as [|a l IH]; intros n i Hi; destruct n, i; try lia; cbn [firstn nth_error]; auto. apply IH. lia.
Qed.

Lemma inspect_slots_spec {F} d (vs : list (option (list F))) :
  (forall v, In (Some v) vs -> length v = d) ->
  (forall r, inspect_slots vs = Ok r -> vi_count r = length vs) /\
  ((exists r, inspect_slots vs = Ok r) <-> early vs 0 None \/ forall i, ~ early vs i None) /\
  (forall e, inspect_slots vs = Raise e -> e = EValue).
Proof.
  intros Hd. unfold inspect_slots, early. destruct vs as [|[v|] vs].
  - split; [intros r [= <-]; reflexivity|]. split; [|discriminate]. split; [|eauto].
    intros _. right. intros [|i] (_ & E); discriminate.
  - set (l := Some v :: vs). set (t := fun o : option (list F) => _).
    assert (Hf : forallb t (firstn (Nat.min 100 (length l)) l) = true <-> forall i, ~ (i < 100 /\ nth_error l i = Some None)).
    { assert (Hl : firstn (Nat.min 100 (length l)) l = firstn 100 l).
      { destruct (Nat.min_spec 100 (length l)) as [(_ & ->)|(H & ->)]; [reflexivity|].
        rewrite firstn_all, firstn_all2; auto. }
      rewrite Hl, forallb_forall. split.
      - intros H i (Hi & E). assert (Hin : In None (firstn 100 l)).
        { apply nth_error_In with i. rewrite <- E. now apply nth_firstn. }
        specialize (H _ Hin). discriminate.
      - intros H o Ho. destruct o as [u|].
        + apply Nat.eqb_eq. rewrite (Hd v) by now left. apply Hd.
          fold l. rewrite <- (firstn_skipn 100 l). apply in_or_app. now left.
        + exfalso. apply In_nth_error in Ho as (i & E). apply (H i).
          assert (Hi : i < length (firstn 100 l)) by (apply nth_error_Some; congruence).
          rewrite firstn_length in Hi. assert (Hi' : i < 100) by lia.
          split; [exact Hi'|]. rewrite <- E. symmetry. now apply nth_firstn. }
    split; [|split].
    + intros r. destruct (forallb _ _); [intros [= <-]; reflexivity|discriminate].
    + rewrite <- Hf. split.
      * intros (r & E). right. destruct (forallb _ _); [reflexivity|discriminate].
      * intros [(_ & E)|E]; [discriminate|]. rewrite E. eauto.
    + destruct (forallb _ _); [discriminate|]. now intros e [= <-].
  - split; [intros r [= <-]; reflexivity|]. split; [|discriminate]. split; [|eauto].
    intros _. left. split; [lia|reflexivity].
Qed.

Lemma sum_entries (tb : dict (list bool) (list Z)) :
  fold_left Nat.add (map (@length _) (dvals tb)) 0 = length (entries tb).
Proof.
  assert (G : forall l n, fold_left Nat.add l n = n + fold_left Nat.add l 0).
  { induction l as [|a l IH]; intros n; cbn; [lia|]. rewrite IH, (IH a). lia. }
  unfold dvals, entries. induction tb as [|(c, l) tb IH]; [reflexivity|]. cbn [map flat_map snd fold_left].
  rewrite G, IH, app_length, map_length. reflexivity.
Qed.

Section Lsh.
  Context {F Mt : Type} `{Num F} `{!NumOrder F} `{Payload (list F) Mt}.
  Context (T hs P : nat) (lmt : lsh_metric) (threshold : F) (empty : Mt).
  Notation after := (lsh_after T hs P lmt threshold empty).
  Notation slots_after := (sl_after empty).
  Notation history := (lhistory P empty no_slots).

  (** Inspecting an LSH index answers exactly when the first slot is a deleted vector or none of the
      first hundred is; the count reported includes the deleted ones. *)
  Theorem C132_lsh_partial ops : lsh_config T hs P lmt empty -> history ops ->
    let slots := sl_slots (slots_after ops) in
    ((exists r, inspect_lsh (after ops) = Ok r) <-> early slots 0 None \/ forall i, ~ early slots i None) /\
    (forall r, inspect_lsh (after ops) = Ok r -> vi_count (fst r) = length slots).
  Proof.
    intros Hc Hh slots. pose proof (reached T hs P lmt threshold empty ops Hc Hh) as HI.
    assert (Hd : exists d, forall v, In (Some v) (l_vectors (after ops)) -> length v = d).
    { destruct (sl_dim (slots_after ops)) as [d|] eqn:Ed.
      - exists d. intros v Hv. rewrite (li_vectors _ _ _ _ _ HI) in Hv. apply in_map_iff in Hv as ([(u & m)|] & E & Hv); [|discriminate].
        injection E as <-. apply (li_some _ _ _ _ _ HI d Ed) in Hv. exact Hv.
      - exists 0. intros v Hv. rewrite (li_vectors _ _ _ _ _ HI), (proj1 (li_none _ _ _ _ _ HI Ed)) in Hv. destruct Hv. }
    destruct Hd as (d & Hd). destruct (inspect_slots_spec d _ Hd) as (S1 & S2 & _).
    unfold inspect_lsh. split.
    - transitivity (exists r, inspect_slots (l_vectors (after ops)) = Ok r).
      + destruct (inspect_slots (l_vectors (after ops))) as [r|e]; cbn [rbind]; split; intros (x & E); eauto; discriminate.
      + rewrite S2.
        assert (Ee : forall i, early (l_vectors (after ops)) i None <-> early slots i None).
        { intros i. unfold early. rewrite (li_vectors _ _ _ _ _ HI), nth_error_map. fold slots.
          destruct (nth_error slots i) as [[(u & m)|]|]; cbn; split; intros (Hi & E); split; auto; discriminate. }
        rewrite Ee. split; (intros [G|G]; [left; auto|right; intros i Hi; apply (G i), Ee, Hi]).
    - intros r. destruct (inspect_slots (l_vectors (after ops))) as [x|e]; cbn [rbind]; [|discriminate].
      intros [= <-]. cbn [fst]. rewrite (S1 x eq_refl), (li_vectors _ _ _ _ _ HI). apply map_length.
  Qed.

  (** While the index is open, the entries reported are the live vectors, once for each table. *)
  Theorem C132_tables_partial ops : lsh_config T hs P lmt empty -> history ops ->
    sl_open (slots_after ops) = true ->
    let info := inspect_tables (l_tables (after ops)) in
    hi_tables info = T /\
    hi_entries info = T * live_count (F := F) (sl_slots (slots_after ops)) /\
    (hi_average info * inject_Z (Z.of_nat (Nat.max (hi_buckets info) 1)) == inject_Z (Z.of_nat (hi_entries info)))%Q.
  Proof.
    intros Hc Hh Ho. pose proof (reached T hs P lmt threshold empty ops Hc Hh) as HI.
    destruct (li_tables _ _ _ _ _ HI Ho) as (El & Ht). destruct Hc as (C1 & _).
    assert (Hn : l_tables (after ops) <> []) by (intros E; rewrite E in El; cbn in El; lia).
    unfold inspect_tables. destruct (l_tables (after ops)) as [|tb0 tbs] eqn:Et; [congruence|]. rewrite <- Et in *.
    cbv zeta. cbn [hi_tables hi_buckets hi_entries hi_average]. split; [exact El|]. split.
    - assert (He : forall tb, In tb (l_tables (after ops)) ->
        fold_left Nat.add (map (@length _) (dvals tb)) 0 = live_count (F := F) (sl_slots (slots_after ops))).
      { intros tb Hin. apply In_nth_error in Hin as (t & E). destruct (Ht t tb E) as (_ & Hp).
        rewrite sum_entries, (Permutation_length Hp), (li_vectors _ _ _ _ _ HI). unfold live_count. clear.
        generalize 0 as i. induction (sl_slots (slots_after ops)) as [|[(v & m)|] l IH]; intros i; cbn; auto. }
      set (n := live_count (F := F) (sl_slots (slots_after ops))) in *.
      replace (T * n) with (length (l_tables (after ops)) * n) by now rewrite El.
      clear - He. revert He. generalize (l_tables (after ops)). clear. intros tbs He.
      induction tbs as [|tb tbs IH]; [reflexivity|].
      assert (G : forall l n, fold_left Nat.add l n = n + fold_left Nat.add l 0).
      { clear. induction l as [|a l IH]; intros n; cbn; [lia|]. rewrite IH, (IH a). lia. }
      cbn [map fold_left length]. rewrite G, IH by (intros x Hx; apply He; now right).
      rewrite (He tb) by now left. lia.
    - field. intros G. unfold Qeq in G. cbn in G. lia.
  Qed.
End Lsh.

(** Inspecting an HNSW index answers only while it is empty. *)
Theorem C132_hnsw_partial {F} (x : hnsw F) :
  (h_vectors x = [] -> inspect_hnsw x = Ok (MkVinfo 0 None)) /\ (h_vectors x <> [] -> inspect_hnsw x = Raise EType).
Proof. unfold inspect_hnsw, inspect_dict. destruct (h_vectors x); split; congruence. Qed.

(** The same for an Annoy index whose live vectors have one dimension. *)
Theorem C132_annoy_partial {F Mt} d (x : annoy F Mt) :
  (forall v, In (Some v) (a_vectors x) -> length v = d) ->
  ((exists r, inspect_annoy x = Ok r) <-> early (a_vectors x) 0 None \/ forall i, ~ early (a_vectors x) i None) /\
  (forall r, inspect_annoy x = Ok r -> vi_count r = length (a_vectors x)).
Proof. intros Hd. destruct (inspect_slots_spec d _ Hd) as (S1 & S2 & _). split; [exact S2|exact S1]. Qed.

(** ** Concrete cases *)

Example C132_annoy_met :
  let x : annoy Z Z := MkAnnoy [Some [1; 2]; None]%Z [Some 0; None]%Z (Some 2) 2 None false true in
  (forall v, In (Some v) (a_vectors x) -> length v = 2) /\ inspect_annoy x = Raise EValue.
Proof. split; [|reflexivity]. intros v [[= <-]|[[=]|[]]]. reflexivity. Qed.

Example C132_hypotheses_met :
  lsh_config (F := Z) (Mt := Z) 2 2 3 LEuclidean 0%Z /\ lhistory 3 0%Z no_slots demo_lsh_ops /\
  sl_open (sl_after 0%Z demo_lsh_ops) = true /\
  map (fun o => match o with Some _ => true | None => false end) (sl_slots (sl_after 0%Z demo_lsh_ops)) =
    [false; true; true; true] /\
  inspect_lsh (lsh_after 2 2 3 LEuclidean 0%Z 0%Z demo_lsh_ops) =
    Ok (MkVinfo 4 None, MkHinfo 2 5 6 (6 # 5)).
Proof. split; [apply demo_lsh_config|]. split; [apply demo_lsh_fit|]. vm_compute. repeat split. Qed.

(** Three vectors inserted and the second deleted: the inspection raises. *)
Theorem C132_lsh_refuted :
  exists ops : list (lop Z Z),
    lsh_answers 2 2 3 LEuclidean 0%Z 0%Z ops = [LUnit; LIds [py "0"; py "1"; py "2"]; LBool true] /\
    inspect_lsh (lsh_after 2 2 3 LEuclidean 0%Z 0%Z ops) = Raise EValue.
Proof.
  exists [LInit; demo_insert; LDelete [py "1"]]. vm_compute. auto.
Qed.

(** Four slots of which one is deleted: the count reported is four. *)
Theorem C132_count_refuted :
  exists (ops : list (lop Z Z)) r,
    lhistory 3 0%Z no_slots ops /\ inspect_lsh (lsh_after 2 2 3 LEuclidean 0%Z 0%Z ops) = Ok r /\
    vi_count (fst r) <> live_count (F := Z) (sl_slots (sl_after 0%Z ops)).
Proof.
  exists demo_lsh_ops. eexists. split; [apply demo_lsh_fit|]. split; [vm_compute; reflexivity|].
  vm_compute. discriminate.
Qed.

(** An HNSW index of a client with three vectors: the inspection raises. *)
Theorem C132_hnsw_refuted :
  exists ops, let c := cl_after mem_class (hnsw_class mem_class 16 50 MEuclidean) mem_new ops in
    c_init c = true /\ length (h_vectors (c_index c)) = 3 /\ inspect_hnsw (c_index c) = Raise EType.
Proof. exists (demo_hnsw_ops low). vm_compute. auto. Qed.

Print Assumptions C132_lsh_partial.
Print Assumptions C132_tables_partial.
Print Assumptions C132_hnsw_partial.
Print Assumptions C132_annoy_partial.
Print Assumptions C132_lsh_refuted.
Print Assumptions C132_count_refuted.
Print Assumptions C132_hnsw_refuted.
