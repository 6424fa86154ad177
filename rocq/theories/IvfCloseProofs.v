(** In a trained inverted-file index every vector is in the cluster of its nearest centroid, if the
    clustering labels its rows that way. *)

From Coq Require Import List Arith ZArith NArith Lia Bool Permutation Sorted ZifyBool ZifyNat.
From Verif Require Import PyBase BaseLemmas Payload StorageModel StorageSpec StorageRun
  StorageProofs StorageThms StorageOk Num ClientModel DbSpec ClientRun ClientProofs ClientExtra
  FlatModel FlatProofs IvfModel IvfProofs.
Import ListNotations.
Open Scope py_scope.

(** ** The smallest element of a stable sort comes first *)

Lemma sort_head {A} (leb : A -> A -> bool) l1 a l2 :
  (forall y, In y l1 -> leb y a = false) -> (forall y, In y l2 -> leb a y = true) ->
  exists t, sort leb (l1 ++ a :: l2) = a :: t.
Proof.
  induction l1 as [|y l1 IH]; simpl; intros H1 H2.
  - exists (sort leb l2). destruct (sort leb l2) as [|z t] eqn:E; auto. simpl. rewrite H2; auto.
    apply (In_sort leb). rewrite E. now left.
  - destruct IH as [t ->]; auto. simpl. rewrite H1; auto. eauto.
Qed.

(** ** The nearest centroid *)

Section Nearest.
  Context {F : Type} `{Num F} `{!NumOrder F}.

  (** Number [c] is the first of the centroids closest to [v]. *)
  Definition first_nearest (mt : metric) (v : list F) (cs : list (list F)) (c : nat) : Prop :=
    exists ctr, nth_error cs c = Some ctr /\
      (forall j cj, nth_error cs j = Some cj ->
         nleb (true_distance mt v ctr) (true_distance mt v cj) = true) /\
      (forall j cj, j < c -> nth_error cs j = Some cj ->
         nleb (true_distance mt v cj) (true_distance mt v ctr) = false).

  Lemma first_nearest_app mt v cs c r :
    first_nearest mt v cs c -> forall ctr, nth_error cs c = Some ctr ->
    nleb (true_distance mt v ctr) (true_distance mt v r) = true -> first_nearest mt v (cs ++ [r]) c.
  Proof.
    intros (ctr' & E & Hb & Hf) ctr E' Hr. rewrite E in E'. injection E' as ->.
    assert (c < length cs) as Hc by (apply nth_error_Some; congruence).
    exists ctr. split; [now rewrite nth_error_app1|]. split.
    - intros j cj Ej. destruct (Nat.lt_ge_cases j (length cs)).
      + rewrite nth_error_app1 in Ej by auto. eauto.
      + rewrite nth_error_app2 in Ej by auto. destruct (j - length cs) as [|n] eqn:En.
        * injection Ej as <-. exact Hr.
        * destruct n; discriminate.
    - intros j cj Hj Ej. rewrite nth_error_app1 in Ej by lia. eauto.
  Qed.

  Lemma first_nearest_new mt v cs c r ctr :
    first_nearest mt v cs c -> nth_error cs c = Some ctr ->
    nleb (true_distance mt v ctr) (true_distance mt v r) = false ->
    first_nearest mt v (cs ++ [r]) (length cs).
  Proof.
    intros (ctr' & E & Hb & Hf) E' Hr. rewrite E in E'. injection E' as ->.
    assert (Hlt : forall j cj, nth_error cs j = Some cj ->
              nleb (true_distance mt v cj) (true_distance mt v r) = false).
    { intros j cj Ej. destruct (nleb (true_distance mt v cj) (true_distance mt v r)) eqn:En; auto.
      rewrite (nleb_trans (true_distance mt v ctr) (true_distance mt v cj) (true_distance mt v r)) in Hr; eauto. }
    exists r. split; [|split].
    - rewrite nth_error_app2 by auto. now rewrite Nat.sub_diag.
    - intros j cj Ej. destruct (Nat.lt_ge_cases j (length cs)).
      + rewrite nth_error_app1 in Ej by auto. specialize (Hlt _ _ Ej).
        destruct (nleb_total (true_distance mt v r) (true_distance mt v cj)); auto. congruence.
      + rewrite nth_error_app2 in Ej by auto. destruct (j - length cs) as [|n] eqn:En.
        * injection Ej as <-. destruct (nleb_total (true_distance mt v r) (true_distance mt v r)); auto.
        * destruct n; discriminate.
    - intros j cj Hj Ej. rewrite nth_error_app1 in Ej by lia. eauto.
  Qed.

  (** The closest-centroid loop finds it, when distances are finite. *)
  Lemma ivf_closest_from mt v rest : mt <> MOther ->
    (forall r, In r rest -> length v = length r) ->
    forall done bc ctr, first_nearest mt v done bc -> nth_error done bc = Some ctr ->
    exists c, ivf_closest mt v (length done) rest (Some (true_distance mt v ctr)) bc = Ok c /\
              first_nearest mt v (done ++ rest) c.
  Proof.
    intros Hmt. induction rest as [|r rest IH]; intros Hl done bc ctr Hn E; simpl.
    - exists bc. rewrite app_nil_r. auto.
    - rewrite pair_distance_true by (auto; apply Hl; simpl; auto). simpl.
      unfold nltb. replace (Datatypes.S (length done)) with (length (done ++ [r]))
        by (rewrite app_length; simpl; lia).
      replace (done ++ r :: rest) with ((done ++ [r]) ++ rest) by now rewrite <- app_assoc.
      assert (Hl' : forall r0, In r0 rest -> length v = length r0) by (intros; apply Hl; simpl; auto).
      destruct (nleb (true_distance mt v ctr) (true_distance mt v r)) eqn:En; simpl.
      + apply IH; auto.
        * now apply (first_nearest_app mt v done bc r Hn ctr).
        * rewrite nth_error_app1; auto. apply nth_error_Some. congruence.
      + apply IH; auto.
        * now apply (first_nearest_new mt v done bc r ctr).
        * rewrite nth_error_app2 by auto. now rewrite Nat.sub_diag.
  Qed.

  Lemma ivf_closest_nearest mt v cs : mt <> MOther -> cs <> [] ->
    (forall r, In r cs -> length v = length r) ->
    (forall r, In r cs -> nfinite (true_distance mt v r) = true) ->
    exists c, ivf_closest mt v 0 cs None 0 = Ok c /\ first_nearest mt v cs c.
  Proof.
    intros Hmt Hne Hl Hf. destruct cs as [|r cs]; [congruence|]. simpl.
    rewrite pair_distance_true by (auto; apply Hl; simpl; auto). simpl.
    rewrite Hf by (simpl; auto).
    apply (ivf_closest_from mt v cs Hmt) with (done := [r]); auto.
    - intros r0 Hr0. apply Hl. simpl. auto.
    - exists r. split; auto. split; [|intros; lia]. intros [|j] cj Ej; simpl in Ej.
      + injection Ej as <-. destruct (nleb_total (true_distance mt v r) (true_distance mt v r)); auto.
      + destruct j; discriminate.
  Qed.

  (** There is only one such number. *)
  Lemma first_nearest_unique mt v cs c1 c2 :
    first_nearest mt v cs c1 -> first_nearest mt v cs c2 -> c1 = c2.
  Proof.
    intros (x1 & E1 & B1 & F1) (x2 & E2 & B2 & F2).
    destruct (Nat.lt_trichotomy c1 c2) as [Hl|[He|Hl]]; auto.
    - specialize (F2 _ _ Hl E1). rewrite (B1 _ _ E2) in F2. discriminate.
    - specialize (F1 _ _ Hl E2). rewrite (B2 _ _ E1) in F1. discriminate.
  Qed.

  (** Probing at least one cluster probes it. *)
  Lemma first_nearest_probed mt v cs c np : (1 <= np)%Z ->
    first_nearest mt v cs c -> In c (ivf_probes np (map (true_distance mt v) cs)).
  Proof.
    intros Hnp (ctr & E & Hb & Hf). unfold ivf_probes.
    apply nth_error_split in E as (l1 & l2 & -> & <-).
    unfold enumerate. rewrite map_app, app_length. simpl length.
    rewrite seq_app. rewrite map_length. simpl map. simpl seq.
    assert (Ecomb : forall A B (a1 a2 : list A) (b1 b2 : list B), length a1 = length b1 ->
              combine (a1 ++ a2) (b1 ++ b2) = combine a1 b1 ++ combine a2 b2).
    { induction a1 as [|x a1 IH]; intros a2 [|y b1] b2 El; simpl in *; try lia; auto.
      f_equal. apply IH. lia. }
    rewrite Ecomb by now rewrite seq_length, map_length. simpl combine.
    edestruct (sort_head (fun a b : nat * F => nleb (snd a) (snd b))) as [t Et];
      [| |rewrite Et].
    - intros [j d] Hin. simpl. pose proof (in_combine_l _ _ _ _ Hin) as Hj. apply in_seq in Hj.
      apply in_combine_r in Hin. apply in_map_iff in Hin as [cj [<- Hcj]].
      apply In_nth_error in Hcj as [j' Ej'].
      assert (j' < length l1) by (apply nth_error_Some; congruence).
      apply (Hf j' cj); auto. rewrite nth_error_app1; auto.
    - intros [j d] Hin. simpl. apply in_combine_r in Hin. apply in_map_iff in Hin as [cj [<- Hcj]].
      apply In_nth_error in Hcj as [j' Ej'].
      apply (Hb (length l1 + Datatypes.S j') cj).
      rewrite nth_error_app2 by lia. replace (_ - _) with (Datatypes.S j') by lia. exact Ej'.
    - rewrite slice_to_nonneg by lia. destruct (Z.to_nat np) eqn:En; [lia|]. simpl. auto.
  Qed.
End Nearest.

(** ** Members of clusters *)

(** Every member of every cluster satisfies [Q]. *)
Definition placed (Q : pystr -> nat -> Prop) (cl : dict nat (list pystr)) : Prop :=
  forall c l id, dget c cl = Some l -> In id l -> Q id c.

Lemma placed_add (Q : pystr -> nat -> Prop) c id cl : placed Q cl -> Q id c -> placed Q (cluster_add c id cl).
Proof.
  intros Hp Hq c' l i Ed Hi. unfold cluster_add in Ed. destruct (dget c cl) as [l0|] eqn:E.
  - rewrite dget_dset in Ed. destruct (eqb_spec c' c) as [->|].
    + injection Ed as <-. apply in_app_or in Hi as [Hi|[<-|[]]]; auto. eapply Hp; eauto.
    + eapply Hp; eauto.
  - rewrite dget_dset in Ed. destruct (eqb_spec c' c) as [->|].
    + injection Ed as <-. destruct Hi as [<-|[]]; auto.
    + eapply Hp; eauto.
Qed.

Lemma dget_remove_from_all id c cl :
  dget c (remove_from_all id cl) =
  match dget c cl with
  | Some l => Some (if memb id l then remove_first id l else l)
  | None => None
  end.
Proof.
  induction cl as [|[c' l] cl IH]; simpl; auto. destruct (eqb c c'); auto.
Qed.

Lemma placed_remove Q id cl :
  placed Q cl -> (forall c l, dget c cl = Some l -> NoDup l) ->
  placed (fun i c => i <> id /\ Q i c) (remove_from_all id cl).
Proof.
  intros Hp Hnd c l i Ed Hi. rewrite dget_remove_from_all in Ed.
  destruct (dget c cl) as [l0|] eqn:E; [|discriminate]. injection Ed as <-.
  specialize (Hnd _ _ E). destruct (memb_spec id l0) as [Hm|Hm].
  - rewrite remove_first_filter in Hi by auto. apply filter_In in Hi as [Hi Hne].
    split; [|eapply Hp; eauto]. intros ->. rewrite eqb_refl in Hne. discriminate.
  - split; [|eapply Hp; eauto]. intros ->. auto.
Qed.

Lemma placed_weaken (Q Q' : pystr -> nat -> Prop) cl :
  placed Q cl -> (forall id c l, dget c cl = Some l -> In id l -> Q id c -> Q' id c) -> placed Q' cl.
Proof. intros Hp Hw c l id Ed Hi. eapply Hw; eauto. Qed.

Section Close.
  Context {F Mt S : Type} `{Num F} `{!NumOrder F} `{Payload (list F) Mt}.
  Context (C : storage_class S (list F) Mt) (n_clusters n_probes : Z) (mt : metric) (dim : nat).
  Context (p b : bool) (sz : option (list F * option Mt -> N))
          (A : sstate (list F) Mt -> S -> Prop) (HC : storage_ok C p b sz A).
  Context (Hn : (1 <= n_clusters)%Z) (Hmt : mt <> MOther) (Hdim : 0 < dim).
  Context (Hfin : forall v w : list F, length v = dim -> length w = dim ->
                  nfinite (true_distance mt v w) = true).
  Implicit Types recs : list (entry (list F) Mt).
  Implicit Types x : ivf F.

  (** The clustering also labels every row with the first of the centres nearest to it, in the
      metric of the index. *)
  Definition kmeans_close (kmeans : kmeans_fn F) : Prop :=
    kmeans_ok kmeans /\
    forall n rows cs labels i row c, kmeans n rows = Ok (cs, labels) ->
      (1 <= n <= Z.of_nat (length rows))%Z -> Forall (dim_ok dim) rows ->
      nth_error rows i = Some row -> nth_error labels i = Some c -> first_nearest mt row cs c.

  (** An id in a cluster is there because that cluster's centroid is nearest to its vector. *)
  Definition at_home cs recs (id : pystr) (c : nat) : Prop :=
    forall v m, sp_find id recs = Some (v, m) -> first_nearest mt v cs c.

  Definition homes recs x : Prop :=
    i_trained x = true -> forall cs, i_centroids x = Some cs -> placed (at_home cs recs) (i_clusters x).

  Lemma build_placed (Q : pystr -> nat -> Prop) labels ids : forall i x (s : S) r x' s',
    ivf_build labels i ids (x, s) = (r, (x', s')) ->
    (forall j id c, nth_error ids j = Some id -> nth_error labels (i + j) = Some c -> Q id c) ->
    placed Q (i_clusters x) -> placed Q (i_clusters x').
  Proof.
    induction ids as [|id ids IH]; intros i x s r x' s' E Hq Hp; simpl in E.
    - unfold ret in E. injection E as <- <- <-. exact Hp.
    - destruct (nth_error labels i) as [c|] eqn:El.
      + unfold bind, set_ix, modify in E. simpl in E. eapply IH; [exact E| |].
        * intros j id' c' Ej Ec. apply (Hq (Datatypes.S j)); simpl; auto.
          now rewrite <- plus_n_Sm.
        * simpl. apply placed_add; auto. apply (Hq 0); simpl; auto. now rewrite Nat.add_0_r.
      + unfold raise in E. injection E as <- <- <-. exact Hp.
  Qed.

  Lemma ivf_train_homes kmeans recs x s x' s' r :
    kmeans_close kmeans -> fit_recs (dim_ok dim) recs -> icoh recs (i_cache x) ->
    Permutation (i_ids x) (map fst recs) -> A (MkS true recs) s ->
    (n_clusters <= Z.of_nat (length (i_ids x)))%Z ->
    ivf_train C n_clusters kmeans (x, s) = (r, (x', s')) ->
    forall cs, i_centroids x' = Some cs -> placed (at_home cs recs) (i_clusters x').
  Proof.
    intros [Hkm Hlab] HF Hcoh Hp HA Hlen.
    unfold ivf_train. rewrite (bind_Ok get_ix _ _ x (x, s)) by reflexivity.
    replace (Z.of_nat (length (i_ids x)) <? n_clusters)%Z with false by lia.
    destruct (ivf_load_ok C p b sz A HC recs (i_ids x) x s Hcoh) as (d & s1 & l & E1 & C1 & A1 & El & Fl); auto.
    { intros id Hid. eapply Permutation_in; eauto. }
    assert (length l = length (i_ids x)) as Ell by (rewrite <- El; now rewrite map_length).
    unfold wrap. rewrite (bind_Ok _ _ _ _ _ E1).
    replace (length l =? 0) with false by lia.
    assert (Forall (dim_ok dim) (map snd l)) as Hrows.
    { rewrite Forall_forall in *. intros v Hv. apply in_map_iff in Hv as [[id w] [E Hin]].
      simpl in E. subst w. destruct (Fl _ Hin) as [m Em]. simpl in Em.
      eapply (fit_dim dim); eauto. }
    assert (np_array (map snd l) = Ok (map snd l)) as Enp.
    { destruct (map snd l) as [|r0 rs] eqn:Er; auto. unfold np_array.
      replace (forallb (fun r1 => length r1 =? length r0) (r0 :: rs)) with true; auto.
      symmetry. rewrite forallb_forall. rewrite Forall_forall in Hrows. intros r1 Hr1.
      destruct (Hrows _ Hr1) as [-> _]. destruct (Hrows r0 (or_introl eq_refl)) as [-> _].
      apply Nat.eqb_refl. }
    destruct (Hkm n_clusters (map snd l) dim) as (cs & labels & Ek & Hcs & Hcd & Hll & Hlb); auto.
    { rewrite map_length. lia. }
    assert (Forall (fun c => c < length cs) labels) as Hlb'.
    { eapply Forall_impl; [|exact Hlb]. simpl. intros. lia. }
    destruct (ivf_build_ok dim Hdim labels (map fst l) 0 (iset_clusters [] (iset_centroids cs (iset_cache d x))) s1
                [] (length cs)) as (cl & Eb & K' & B' & P'); auto.
    { rewrite map_length in *. lia. }
    { constructor. }
    { intros c []. }
    assert (Hrun : (vectors_array <- lift (np_array (map snd l)) ;;
                    fitted <- lift (kmeans n_clusters vectors_array) ;;
                    set_ix (iset_centroids (fst fitted)) ;;;
                    set_ix (iset_clusters []) ;;;
                    ivf_build (snd fitted) 0 (map fst l) ;;;
                    set_ix iset_trained) (iset_cache d x, s1) =
                   (Ok tt, (iset_trained (iset_clusters cl (iset_centroids cs (iset_cache d x))), s1))).
    { unfold lift, bind at 1. rewrite Enp. unfold bind at 1. rewrite Ek.
      unfold bind at 1, set_ix at 1, modify at 1. cbn [fst snd].
      unfold bind at 1, set_ix at 1, modify at 1. cbn [fst snd].
      rewrite (bind_Ok _ _ _ _ _ Eb). reflexivity. }
    cbv beta in Hrun. rewrite Hrun. intros Er. injection Er as <- <- <-. simpl.
    intros cs' Ecs. injection Ecs as <-.
    eapply (build_placed (at_home cs recs)) in Eb; [exact Eb| |].
    - intros j id c Ej Ec v m Hf. rewrite nth_error_map in Ej.
      destruct (nth_error l j) as [[id' w]|] eqn:Elj; [|discriminate]. injection Ej as <-.
      rewrite Forall_forall in Fl. destruct (Fl _ (nth_error_In _ _ Elj)) as [m' Em]. simpl in Em, Hf.
      rewrite Em in Hf. injection Hf as <- <-.
      eapply (Hlab n_clusters (map snd l) cs labels j); eauto.
      + rewrite map_length. lia.
      + now rewrite nth_error_map, Elj.
    - intros c l0 id Ed. discriminate.
  Qed.

  Lemma add_placed (Q : pystr -> nat -> Prop) id v cs x (s : S) r x' s' :
    ivf_add_to_cluster mt id v (x, s) = (r, (x', s')) ->
    i_centroids x = Some cs -> cs <> [] -> Forall (fun c => length c = dim) cs -> dim_ok dim v ->
    placed Q (i_clusters x) -> (forall c, first_nearest mt v cs c -> Q id c) ->
    placed Q (i_clusters x').
  Proof.
    intros E Ec Hne Hcd [Hv _] Hp Hq. rewrite Forall_forall in Hcd.
    destruct (ivf_closest_nearest mt v cs Hmt Hne) as (c & Ecl & Hc).
    { intros r0 Hr0. rewrite (Hcd _ Hr0). exact Hv. }
    { intros r0 Hr0. apply Hfin; auto. }
    unfold ivf_add_to_cluster in E. rewrite (bind_Ok get_ix _ _ x (x, s)) in E by reflexivity.
    rewrite Ec in E. destruct (i_trained x).
    - unfold bind, lift in E. rewrite Ecl in E. unfold set_ix, modify in E. simpl in E.
      injection E as <- <- <-. simpl. apply placed_add; auto.
    - unfold ret in E. injection E as <- <- <-. exact Hp.
  Qed.

  Lemma add_all_placed (Q : pystr -> nat -> Prop) ids cs : forall x (s : S) r x' s',
    forM ids (ivf_add_cached mt) (x, s) = (r, (x', s')) ->
    i_centroids x = Some cs -> cs <> [] -> Forall (fun c => length c = dim) cs ->
    (forall id, In id ids -> exists v, dget id (i_cache x) = Some v /\ dim_ok dim v /\
                                       forall c, first_nearest mt v cs c -> Q id c) ->
    placed Q (i_clusters x) -> placed Q (i_clusters x') /\ i_centroids x' = Some cs.
  Proof.
    induction ids as [|id ids IH]; intros x s r x' s' E Ec Hne Hcd Hin Hp.
    - cbn [forM] in E. unfold ret in E. injection E as <- <- <-. auto.
    - destruct (Hin id (or_introl eq_refl)) as (v & Ev & Hv & Hq). cbn [forM] in E.
      unfold bind at 1 in E. unfold ivf_add_cached at 1 in E.
      rewrite (bind_Ok get_ix _ _ x (x, s)) in E by reflexivity. rewrite Ev in E.
      destruct (ivf_add_to_cluster mt id v (x, s)) as [r1 [x1 s1]] eqn:E1.
      assert (Hsame : i_centroids x1 = i_centroids x /\ i_cache x1 = i_cache x).
      { unfold ivf_add_to_cluster in E1. rewrite (bind_Ok get_ix _ _ x (x, s)) in E1 by reflexivity.
        rewrite Ec in E1. destruct (i_trained x); unfold bind, lift, set_ix, modify, ret in E1.
        - destruct (ivf_closest mt v 0 cs None 0); injection E1 as <- <- <-; simpl; auto.
        - injection E1 as <- <- <-. auto. }
      destruct Hsame as [Hs1 Hs2].
      pose proof (add_placed Q id v cs x s r1 x1 s1 E1 Ec Hne Hcd Hv Hp Hq) as Hp1.
      destruct r1 as [u|e].
      + eapply IH; [exact E| | | | |]; auto.
        * congruence.
        * rewrite Hs2. intros j Hj. apply Hin. now right.
      + injection E as <- <- <-. split; auto. congruence.
  Qed.

  (** Growing the records changes nothing for the ids already in clusters. *)
  Lemma homes_app cs recs more cl : placed (at_home cs recs) cl ->
    (forall c l id, dget c cl = Some l -> In id l -> In id (map fst recs)) ->
    placed (at_home cs (recs ++ more)) cl.
  Proof.
    intros Hp Hin c l id Ed Hi v m Hf. rewrite sp_find_app in Hf.
    destruct (proj1 (In_keys_find id recs) (Hin _ _ _ Ed Hi)) as [[v' m'] Ef].
    rewrite Ef in Hf. injection Hf as <- <-. eapply Hp; eauto.
  Qed.

  Lemma cluster_live live x c l id : parts n_clusters dim live x -> i_trained x = true ->
    dget c (i_clusters x) = Some l -> In id l -> In id live.
  Proof.
    intros Hp Ht Ed Hi. destruct (Hp Ht) as (cs & _ & _ & _ & _ & _ & Hperm).
    eapply Permutation_in; [exact Hperm|]. apply in_concat. exists l. split; auto.
    unfold dvals. apply dget_Some_In in Ed. apply (in_map snd) in Ed. exact Ed.
  Qed.

  Lemma cluster_nodup live x c l : parts n_clusters dim live x -> i_trained x = true -> NoDup live ->
    dget c (i_clusters x) = Some l -> NoDup l.
  Proof.
    intros Hp Ht Hnd Ed. destruct (Hp Ht) as (cs & _ & _ & _ & _ & _ & Hperm).
    eapply NoDup_concat_In.
    - eapply Permutation_NoDup; [symmetry; exact Hperm|exact Hnd].
    - unfold dvals. apply dget_Some_In in Ed. apply (in_map snd) in Ed. exact Ed.
  Qed.

  Lemma ivf_insert_homes kmeans fresh rows meta recs x s x' s' r :
    kmeans_close kmeans -> fit_recs (dim_ok dim) recs -> iopen n_clusters dim recs x -> homes recs x ->
    A (MkS true recs) s ->
    fresh_ids fresh (length rows) (map fst recs) -> Forall (dim_ok dim) rows ->
    (forall l m, meta = Some l -> In m l -> meta_ok m) ->
    ivf_insert C n_clusters mt kmeans fresh (Mat rows) meta (x, s) = (r, (x', s')) ->
    homes (recs ++ batch_recs fresh rows meta) x'.
  Proof.
    intros Hkm HF (Hcoh & Hi & Hp & Hc & Hpt & Hun) HE HA [Hinj Hfr] HFr Hm.
    change (batch_recs fresh rows meta) with (batch_from fresh 0 rows meta).
    set (recs' := recs ++ batch_from fresh 0 rows meta).
    assert (fit_recs (dim_ok dim) recs') as HF'.
    { unfold fit_recs, recs' in *. apply Forall_app. split; auto. unfold batch_from.
      rewrite Forall_forall in *. intros e He. apply in_map_iff in He as [[j row] [<- Hin]].
      simpl. apply HFr. apply in_combine_r in Hin. exact Hin. }
    unfold ivf_insert. rewrite (bind_Ok get_ix _ _ x (x, s)) by reflexivity. rewrite Hi. cbn [negb].
    destruct (ivf_insert_rows_ok C dim p b sz A HC Hdim fresh meta rows 0 recs x s Hm)
      as (l & d & s1 & E & C1 & P1 & A1 & _ & R1); auto.
    { intros j k Hj Hk. apply Hinj; lia. }
    { intros j Hj. apply Hfr. lia. }
    fold recs' in C1, P1, A1.
    unfold wrap. rewrite (bind_Ok _ _ _ _ _ E).
    unfold bind at 1, set_ix at 1, modify at 1. cbn [fst snd].
    set (x1 := iset_count (iset_ids l (iset_cache d x))).
    assert (Hafter : forall ra xa sa, ivf_after_insert C n_clusters mt kmeans
                       (map fresh (seq 0 (length rows))) (x1, s1) = (ra, (xa, sa)) -> homes recs' xa).
    { intros ra xa sa. unfold ivf_after_insert. rewrite (bind_Ok get_ix _ _ x1 (x1, s1)) by reflexivity.
      change (i_ids x1) with l. change (i_trained x1) with (i_trained x).
      destruct (i_trained x) eqn:Ht.
      - rewrite andb_false_r. intros Ea Hta cs Ecs.
        destruct (Hpt Ht) as (cs0 & G1 & G2 & G3 & G4 & G5 & G6).
        eapply (add_all_placed (at_home cs0 recs')) in Ea.
        + destruct Ea as [Hpl Ecs']. rewrite Ecs in Ecs'. injection Ecs' as ->. exact Hpl.
        + exact G1.
        + intros ->. simpl in G2. lia.
        + exact G3.
        + intros id Hid. apply in_map_iff in Hid as [j [<- Hj]]. apply in_seq in Hj.
          destruct (nth_error rows j) as [row|] eqn:Er; [|apply nth_error_None in Er; lia].
          exists row. split; [exact (R1 j row Er)|]. split.
          * rewrite Forall_forall in HFr. apply HFr. eapply nth_error_In; eauto.
          * intros c Hcn v m Hf.
            assert (fst (v, m) = row) as Hv by (eapply (C1 (fresh j)); eauto; exact (R1 j row Er)).
            simpl in Hv. now subst v.
        + simpl. apply homes_app; [now apply HE|].
          intros c l0 id Ed Hil. eapply cluster_live; eauto.
      - rewrite andb_true_r. destruct (Z.leb_spec n_clusters (Z.of_nat (length l))) as [Hge|Hlt].
        + intros Ea _ cs Ecs. eapply ivf_train_homes in Ea; eauto.
        + unfold ret. intros Ea. injection Ea as <- <- <-. intros Ht'. simpl in Ht'. congruence. }
    unfold bind at 1.
    destruct (ivf_after_insert C n_clusters mt kmeans (map fresh (seq 0 (length rows))) (x1, s1))
      as [ra [xa sa]] eqn:Ea.
    specialize (Hafter ra xa sa eq_refl).
    destruct ra; unfold ret; intros Er; injection Er as <- <- <-; exact Hafter.
  Qed.

  Lemma ivf_delete_ids_homes ids : forall recs x s succ r x' s',
    icoh recs (i_cache x) -> Permutation (i_ids x) (map fst recs) ->
    parts n_clusters dim (map fst recs) x -> homes recs x -> A (MkS true recs) s ->
    ivf_delete_ids C ids succ (x, s) = (r, (x', s')) -> homes (del_recs ids recs) x'.
  Proof.
    induction ids as [|id ids IH]; intros recs x s succ r x' s' Hcoh Hp Hpt HE HA Er.
    - simpl in Er. unfold ret in Er. injection Er as <- <- <-. exact HE.
    - pose proof (so_nd C p b sz A HC _ _ HA) as Hnd. simpl in Hnd.
      pose proof (ivf_delete_ids_ok C n_clusters dim p b sz A HC [id] recs x s true Hcoh Hp Hpt HA)
        as (x1 & s1 & E1 & C1 & I1 & T1 & P1 & Pt1 & A1).
      simpl in Er. simpl in E1.
      unfold bind, on_sb, zoom, set_ix, modify in Er, E1. simpl in Er, E1.
      destruct (so_delete C p b sz A HC recs s id HA) as (s2 & E2 & A2).
      rewrite E2 in Er, E1. simpl in Er, E1. unfold ret in E1. injection E1 as Eb Ec. subst s2.
      rewrite Eb in Er. eapply (IH (sp_del id recs) x1); [| | | | |exact Er]; auto.
      intros Ht1 cs Ecs. rewrite T1 in Ht1.
      assert (i_centroids x1 = i_centroids x) as Ecen.
      { rewrite <- Eb. simpl. now destruct (memb id (i_ids x)). }
      assert (i_clusters x1 = remove_from_all id (i_clusters x)) as Ecl.
      { rewrite <- Eb. simpl. now destruct (memb id (i_ids x)). }
      rewrite Ecl. rewrite Ecen in Ecs.
      eapply placed_weaken.
      + apply placed_remove; [exact (HE Ht1 cs Ecs)|].
        intros c l Ed. eapply (cluster_nodup (map fst recs) x); eauto.
      + intros i c l _ _ [Hne Hh] v m Hf. rewrite sp_find_del in Hf.
        destruct (eqb_spec i id); [congruence|]. eapply Hh; eauto.
  Qed.

  Lemma ivf_update_homes id v m recs x s r x' s' :
    fit_recs (dim_ok dim) recs -> iopen n_clusters dim recs x -> homes recs x -> A (MkS true recs) s ->
    dim_ok dim v -> meta_ok m ->
    ivf_update C mt id v m (x, s) = (r, (x', s')) ->
    homes (match sp_find id recs with Some _ => sp_put id (v, m) recs | None => recs end) x'.
  Proof.
    intros HF (Hcoh & Hi & Hp & Hc & Hpt & Hun) HE HA Hv Hm.
    pose proof (so_nd C p b sz A HC _ _ HA) as Hnd. simpl in Hnd.
    destruct (so_update C p b sz A HC recs s id v m HA Hm) as (s1 & E1 & A1).
    unfold ivf_update. rewrite (bind_Ok get_ix _ _ x (x, s)) by reflexivity. rewrite Hi. cbn [negb].
    assert (on_sb (sc_update C id v m) (x, s) =
            (Ok (match sp_find id recs with Some _ => true | None => false end), (x, s1))) as Eu.
    { unfold on_sb, zoom. simpl. now rewrite E1. }
    unfold wrap. rewrite (bind_Ok _ _ _ _ _ Eu).
    destruct (sp_find id recs) as [r0|] eqn:Ef; cbn [negb].
    - unfold bind at 1, set_ix at 1, modify at 1. cbn [fst snd].
      set (x1 := iset_cache (dset id v (i_cache x)) x).
      rewrite (bind_Ok get_ix _ _ x1 (x1, s1)) by reflexivity.
      change (i_trained x1) with (i_trained x).
      destruct (i_trained x) eqn:Ht.
      + destruct (Hpt Ht) as (cs & G1 & G2 & G3 & G4 & G5 & G6).
        unfold ivf_reassign. unfold bind at 1. rewrite (bind_Ok get_ix _ _ x1 (x1, s1)) by reflexivity.
        change (i_trained x1) with (i_trained x). change (i_centroids x1) with (i_centroids x).
        rewrite Ht, G1. unfold bind at 1, set_ix at 1, modify at 1. cbn [fst snd].
        set (x2 := iset_clusters _ x1).
        destruct (ivf_add_to_cluster mt id v (x2, s1)) as [ra [xa sa]] eqn:Ea.
        assert (i_centroids xa = Some cs) as Exa.
        { unfold ivf_add_to_cluster in Ea. rewrite (bind_Ok get_ix _ _ x2 (x2, s1)) in Ea by reflexivity.
          change (i_trained x2) with (i_trained x) in Ea. change (i_centroids x2) with (i_centroids x) in Ea.
          rewrite Ht, G1 in Ea. unfold bind, lift, set_ix, modify in Ea.
          destruct (ivf_closest mt v 0 cs None 0); injection Ea as <- <- <-; exact G1. }
        assert (placed (at_home cs (sp_put id (v, m) recs)) (i_clusters xa)) as Hpl.
        { eapply add_placed; [exact Ea|exact G1| |exact G3|exact Hv| |].
          - intros ->. simpl in G2. lia.
          - assert (NoDup (concat (dvals (i_clusters x)))) as Hcn
              by (eapply Permutation_NoDup; [symmetry; exact G6|auto]).
            unfold x2. simpl. rewrite remove_from_first_all by auto.
            eapply placed_weaken.
            + apply placed_remove; [exact (HE Ht cs G1)|].
              intros c l Ed. eapply (cluster_nodup (map fst recs) x); eauto.
            + intros i c l _ _ [Hne Hh] w m' Hf. rewrite sp_find_put in Hf.
              destruct (eqb_spec i id); [congruence|]. eapply Hh; eauto.
          - intros c Hcn w m' Hf. rewrite sp_find_put in Hf. rewrite eqb_refl in Hf.
            injection Hf as <- <-. exact Hcn. }
        destruct ra; unfold ret; intros Er; injection Er as <- <- <-; intros _ cs' Ecs';
          rewrite Exa in Ecs'; injection Ecs' as <-; exact Hpl.
      + unfold bind at 1, ret. intros Er. injection Er as <- <- <-. intros Ht'. simpl in Ht'. congruence.
    - unfold ret. intros Er. injection Er as <- <- <-. exact HE.
  Qed.

  Lemma ivf_close_index_ok :
    index_ok (ivf_class C n_clusters n_probes mt) A false (dim_ok dim) kmeans_close (ivf_ok mt dim)
      (iopen n_clusters dim) iclosed.
  Proof.
    destruct (ivf_index_ok C n_clusters n_probes mt dim p b sz A HC Hn Hmt Hdim)
      as [I1 I2 I3 I4 I5 I6 I7 I8 I9 I10].
    constructor; auto.
    - intros o recs x s [Ho _]. now apply I4.
    - intros o fresh arr meta recs x s HF Ho HA.
      specialize (I5 o fresh arr meta recs x s HF Ho HA). destruct arr; auto.
      intros [Hk _]. auto.
    - intros o q k recs x s [Ho _]. now apply I6.
    - intros o id v m recs x s [Ho _]. now apply (I8 o).
  Qed.

  Lemma ivf_keeps :
    keeps (ivf_class C n_clusters n_probes mt) A (dim_ok dim) kmeans_close (iopen n_clusters dim)
          iclosed (fit_recs (dim_ok dim)) homes.
  Proof.
    constructor.
    - intros kmeans recs x s x' s' Hkm [Hcache Htr] HA HF. simpl. unfold ivf_initialize.
      destruct (so_list C p b sz A HC recs s HA) as (l & s1 & E & Hp & A1).
      unfold bind at 1, set_ix at 1, modify at 1. cbn [fst snd].
      unfold wrap, bind at 1, on_sb, zoom. cbn [fst snd]. rewrite E.
      unfold bind at 1, set_ix at 1, modify at 1. cbn [fst snd].
      unfold bind at 1, set_ix at 1, modify at 1. cbn [fst snd].
      set (x1 := iset_count (iset_ids l (iset_init x))).
      rewrite (bind_Ok get_ix _ _ x1 (x1, s1)) by reflexivity.
      destruct (Z.leb_spec n_clusters (Z.of_nat (length (i_ids x1)))) as [Hge|Hlt].
      + destruct (ivf_train C n_clusters kmeans (x1, s1)) as [rt [xt st]] eqn:Et.
        intros Er _. assert (xt = x') as <- by (destruct rt; now injection Er).
        eapply (ivf_train_homes kmeans recs x1 s1); eauto.
        simpl. rewrite Hcache. intros id v r0 Hd. discriminate.
      + unfold ret. intros Er. injection Er as <- <-. intros Ht. simpl in Ht. congruence.
    - intros kmeans fresh rows meta recs x s x' s' r Hkm Hfr Hrows Hm HF Ho HE HA _ Er.
      simpl in Er. eapply ivf_insert_homes; eauto.
    - intros o q k recs x s x' s' r _ HF Ho HE HA Er. simpl in Er. destruct q as [q|rows|].
      + destruct (ivf_search_ok C n_clusters n_probes mt dim p b sz A HC Hmt Hdim q k recs x s HF Ho HA)
          as (d & s1 & r1 & E1 & _).
        rewrite E1 in Er. injection Er as <- <- <-. exact HE.
      + unfold ivf_search, bind, get_ix in Er. simpl in Er. destruct Ho as (_ & Hi & _).
        rewrite Hi in Er. unfold raise in Er. injection Er as <- <- <-. exact HE.
      + unfold ivf_search, bind, get_ix in Er. simpl in Er. destruct Ho as (_ & Hi & _).
        rewrite Hi in Er. unfold raise in Er. injection Er as <- <- <-. exact HE.
    - intros ids recs x s x' s' r HF (Hcoh & Hi & Hp & Hc & Hpt & Hun) HE HA Er. simpl in Er.
      unfold ivf_delete in Er. rewrite (bind_Ok get_ix _ _ x (x, s)) in Er by reflexivity.
      rewrite Hi in Er. cbn [negb] in Er. unfold wrap, bind at 1 in Er.
      destruct (ivf_delete_ids C ids true (x, s)) as [rd [xd sd]] eqn:Ed.
      assert (homes (del_recs ids recs) xd) as Hh by (eapply ivf_delete_ids_homes; eauto).
      destruct rd; unfold bind, set_ix, modify, ret in Er; simpl in Er; injection Er as <- <- <-; exact Hh.
    - intros o id v m recs x s x' s' r _ HF Ho HE HA Hv Hm Er. simpl in Er.
      eapply ivf_update_homes; eauto.
  Qed.
End Close.
