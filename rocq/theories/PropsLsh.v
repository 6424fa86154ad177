(** Properties of the LSH index: C31 to C36, and its part of C40 and C80. *)

From Coq Require Import String List Arith ZArith NArith Lia Bool Permutation Sorted.
From Coq Require Import ZifyBool ZifyNat ZifyN.
From Verif Require Import PyBase BaseLemmas PyMore Payload StorageModel StorageRun Num ClientModel
  DbSpec ClientRun LshModel LshSpec LshProofs.
Import ListNotations.
Open Scope py_scope.

Section Props.
  Context {F Mt : Type} `{Num F} `{!NumOrder F} `{Payload (list F) Mt}.
  Context (T hs P : nat) (lmt : lsh_metric) (threshold : F) (empty : Mt).

  (** Configurations the constructor accepts, with enough projections for a hash, and [{}] being
      copyable. *)
  Definition lsh_config : Prop :=
    1 <= T /\ 1 <= hs /\ hs <= P /\ lmt <> LOther /\ copyable empty = true.

  Notation after := (lsh_after T hs P lmt threshold empty).
  Notation answers := (lsh_answers T hs P lmt threshold empty).
  Notation slots_after := (sl_after empty).
  Notation history := (lhistory P empty no_slots).
  Notation step := (lsh_step T hs P lmt threshold empty).

  Lemma reached ops : lsh_config -> history ops -> linv T hs P (slots_after ops) (after ops).
  Proof. intros (H1 & H2 & H3 & H4 & H5) Hh. now apply after_ok. Qed.

  (** ** C31 *)

  Definition bucket (c : list bool) (tb : dict (list bool) (list Z)) : list Z :=
    match dget c tb with Some l => l | None => [] end.

  (** C31: while the index is open, there are [T] tables, and in each of them a bucket holds an id
      exactly when that id is live and the bucket is the one of the code of its vector; no id
      occurs twice in a table.
      Partial: updates keep the dimension, ids are not negative numbers, metadata can be copied
      and the index is not initialised while open ([lfits]); without that it is false (below). *)
  Theorem C31_tables_index_live_partial ops : lsh_config -> history ops ->
    sl_open (slots_after ops) = true ->
    length (l_tables (after ops)) = T /\
    forall t tb, nth_error (l_tables (after ops)) t = Some tb ->
      (forall c z, In z (bucket c tb) <-> exists i v m pr,
          z = Z.of_nat i /\ nth_error (sl_slots (slots_after ops)) i = Some (Some (v, m)) /\
          l_proj (after ops) = Some pr /\ c = code_of hs P pr v t) /\
      NoDup (map snd (entries tb)) /\ NoDup (dkeys tb).
  Proof.
    intros Hc Hh Ho. pose proof (reached ops Hc Hh) as HI. set (x := after ops) in *.
    set (s := slots_after ops) in *. destruct (li_tables _ _ _ _ _ HI Ho) as [El Ht].
    split; auto. intros t tb Et. destruct (Ht t tb Et) as [Hnd Hp]. split; [|split]; auto.
    - intros c z. assert (Hin : In z (bucket c tb) <-> In (c, z) (entries tb)).
      { rewrite In_entries by auto. unfold bucket. split.
        - destruct (dget c tb); [eauto|intros []].
        - intros (l & -> & Hz). exact Hz. }
      rewrite Hin. transitivity (In (c, z) (live_entries hs P (the_proj x) t 0 (l_vectors x))).
      { split; apply Permutation_in; auto. now symmetry. }
      rewrite In_live. split.
      + intros (j & v & Ej & -> & ->). rewrite (vector_at _ _ _ _ _ j HI) in Ej.
        destruct (nth_error (sl_slots s) j) as [[[v' m]|]|] eqn:E; try discriminate.
        simpl in Ej. injection Ej as ->. destruct (live_dim _ _ _ _ _ _ _ HI E) as [d Hd].
        destruct (li_some _ _ _ _ _ HI d Hd) as ((pr & Epr & _) & _).
        exists j, v, m, pr. unfold the_proj. now rewrite Epr.
      + intros (i & v & m & pr & -> & E & Epr & ->). exists i, v.
        rewrite (vector_at _ _ _ _ _ i HI), E. unfold the_proj. now rewrite Epr.
    - eapply Permutation_NoDup; [symmetry; apply Permutation_map; exact Hp|].
      generalize (l_vectors x). generalize 0.
      assert (Hgt : forall vs i z, In z (map snd (live_entries hs P (the_proj x) t i vs)) ->
                               (Z.of_nat i <= z)%Z).
      { induction vs as [|[v|] vs IH]; intros i z Hz; simpl in Hz; [tauto| |].
        - destruct Hz as [<-|Hz]; [lia|]. apply IH in Hz. lia.
        - apply IH in Hz. lia. }
      intros i vs. revert i. induction vs as [|[v|] vs IH]; intros i; simpl; [constructor| |auto].
      constructor; [|auto]. intros Hin. apply Hgt in Hin. lia.
  Qed.

  (** ** C32 *)

  (** C32: every search of a history answers results that are live ids with the metadata last
      given for them and the similarity to their current vector, at least the threshold, in
      non-increasing order, without repetition and at most [k]; and every other call answers as
      the slots say.  Partial: as for C31; results with negative ids are possible otherwise. *)
  Theorem C32_history_conforms_partial ops : lsh_config -> history ops ->
    lconforms lmt threshold empty no_slots ops (answers ops).
  Proof.
    intros (H1 & H2 & H3 & H4 & H5) Hh. apply run_ok; auto. apply linv_new.
  Qed.

  (** Ids in the tables are not negative. *)
  Definition no_neg (x : lsh F Mt) : Prop :=
    forall tb c l z, In tb (l_tables x) -> In (c, l) tb -> In z l -> (0 <= z)%Z.

  (** Calls whose ids are not negative numbers; nothing else is asked. *)
  Definition nonneg_op (op : lop F Mt) : Prop :=
    match op with
    | LDelete ids => Forall not_negative ids
    | LUpdate id _ _ => not_negative id
    | _ => True
    end.

  (** A condition kept by every step of a method. *)
  Definition keeps {A} (m : M (lsh F Mt) A) : Prop :=
    forall x, no_neg x -> (0 <= l_next x)%Z ->
      no_neg (snd (m x)) /\ (0 <= l_next (snd (m x)))%Z.

  Lemma keeps_ret {A} (a : A) : keeps (ret a).
  Proof. intros x Hx Hn. auto. Qed.
  Lemma keeps_raise {A} e : keeps (raise e : M _ A).
  Proof. intros x Hx Hn. auto. Qed.
  Lemma keeps_get : keeps get.
  Proof. intros x Hx Hn. auto. Qed.
  Lemma keeps_lift {A} (r : result A) : keeps (lift r).
  Proof. intros x Hx Hn. auto. Qed.
  Lemma keeps_bind {A B} (m : M _ A) (f : A -> M _ B) : keeps m -> (forall a, keeps (f a)) -> keeps (bind m f).
  Proof.
    intros Hm Hf x Hx Hn. unfold bind. destruct (Hm x Hx Hn) as [H1 H2].
    destruct (m x) as [[a|e] x']; simpl in *; auto. now apply Hf.
  Qed.
  Lemma keeps_catch {A} (m h : M _ A) : keeps m -> keeps h -> keeps (catch m h).
  Proof.
    intros Hm Hh x Hx Hn. unfold catch. destruct (Hm x Hx Hn) as [H1 H2].
    destruct (m x) as [[a|e] x']; simpl in *; auto.
  Qed.
  Lemma keeps_forM {A} (l : list A) f : (forall a, In a l -> keeps (f a)) -> keeps (forM l f).
  Proof.
    induction l as [|a l IH]; intros Hf; simpl; [apply keeps_ret|].
    apply keeps_bind; [apply Hf; now left|]. intros _. apply IH. intros b Hb. apply Hf. now right.
  Qed.
  Lemma keeps_mapM {A B} (l : list A) (f : A -> M _ B) : (forall a, keeps (f a)) -> keeps (mapM l f).
  Proof.
    induction l as [|a l IH]; intros Hf; simpl; [apply keeps_ret|].
    apply keeps_bind; [apply Hf|]. intros b. apply keeps_bind; [auto|]. intros bs. apply keeps_ret.
  Qed.
  Lemma keeps_modify f : (forall x, l_tables (f x) = l_tables x) ->
    (forall x, (0 <= l_next x -> 0 <= l_next (f x))%Z) -> keeps (modify f).
  Proof.
    intros Hf Hg x Hx Hn. simpl. split; auto. unfold no_neg. rewrite Hf. exact Hx.
  Qed.

  Lemma keeps_on_table t f :
    (forall tb, (forall c l z, In (c, l) tb -> In z l -> (0 <= z)%Z) ->
       forall c l z, In (c, l) (f tb) -> In z l -> (0 <= z)%Z) -> keeps (on_table t f).
  Proof.
    intros Hf x Hx Hn. unfold on_table, bind, get. destruct (nth_error (l_tables x) t) as [tb|] eqn:E; simpl; auto.
    split; auto. intros tb' c l z Hin Hcl Hz. simpl in Hin.
    apply In_nth_error in Hin as [j Ej]. rewrite nth_error_set_nth in Ej.
    destruct (Nat.eqb t j).
    - destruct (nth_error (l_tables x) j); [|discriminate]. injection Ej as <-.
      apply nth_error_In in E. refine (Hf tb _ c l z Hcl Hz). intros c0 l0 z0 H1 H2. eapply Hx; eauto.
    - apply nth_error_In in Ej. eapply Hx; eauto.
  Qed.

  Lemma In_dset_inv {K V} `{EqDec K} (k k' : K) (v v' : V) d :
    In (k', v') (dset k v d) -> (k' = k /\ v' = v) \/ In (k', v') d.
  Proof.
    induction d as [|[a b] d IH]; simpl.
    - intros [[= <- <-]|[]]. auto.
    - destruct (eqb k a); simpl.
      + intros [[= <- <-]|Hin]; auto.
      + intros [[= <- <-]|Hin]; auto. destruct (IH Hin) as [|]; auto.
  Qed.

  Lemma keeps_put codes z : (0 <= z)%Z -> keeps (lsh_put codes z).
  Proof.
    intros Hz. apply keeps_forM. intros [t c] _. apply keeps_on_table.
    intros tb Htb c' l z' Hin Hz'. unfold bucket_add in Hin.
    apply In_dset_inv in Hin as [[_ ->]|Hin]; [|eauto].
    apply in_app_or in Hz' as [Hz'|[<-|[]]]; auto.
    destruct (dget c tb) as [l0|] eqn:E; [|destruct Hz']. apply dget_Some_In in E. eauto.
  Qed.

  Lemma keeps_unput codes z : keeps (lsh_unput codes z).
  Proof.
    apply keeps_forM. intros [t c] _. apply keeps_on_table.
    intros tb Htb c' l z' Hin Hz'. unfold bucket_remove in Hin.
    destruct (dget c tb) as [l0|] eqn:E; [|eauto].
    apply In_dset_inv in Hin as [[_ ->]|Hin]; [|eauto]. apply dget_Some_In in E.
    assert (Hsub : forall l1, In z' (remove_first z l1) -> In z' l1).
    { induction l1 as [|a l1 IH]; simpl; auto. destruct (eqb z a); simpl; intuition. }
    eauto.
  Qed.

  Lemma keeps_hash v : keeps (lsh_hash_vector T hs P v).
  Proof.
    apply keeps_bind; [apply keeps_get|]. intros x. destruct (l_proj x); [apply keeps_lift|apply keeps_raise].
  Qed.

  Lemma keeps_set_vector i a : keeps (set_vector i a).
  Proof.
    apply keeps_bind; [apply keeps_get|]. intros x. apply keeps_bind; [apply keeps_lift|]. intros vs.
    apply keeps_modify; auto.
  Qed.
  Lemma keeps_set_meta i (a : option Mt) : keeps (set_meta i a).
  Proof.
    apply keeps_bind; [apply keeps_get|]. intros x. apply keeps_bind; [apply keeps_lift|]. intros vs.
    apply keeps_modify; auto.
  Qed.

  Lemma keeps_get_bind {B} (f : lsh F Mt -> M _ B) :
    (forall a, no_neg a -> (0 <= l_next a)%Z -> keeps (f a)) -> keeps (bind get f).
  Proof. intros Hf x Hx Hn. unfold bind, get. simpl. now apply Hf. Qed.

  Lemma keeps_add_one v m : keeps (lsh_add_one T hs P v m).
  Proof.
    apply keeps_get_bind. intros a _ Ha. cbv zeta.
    apply keeps_bind; [apply keeps_modify; simpl; auto; lia|]. intros _.
    apply keeps_bind; [apply keeps_modify; simpl; auto|]. intros _.
    apply keeps_bind; [apply keeps_lift|]. intros d.
    apply keeps_bind; [apply keeps_modify; simpl; auto|]. intros _.
    apply keeps_bind; [apply keeps_hash|]. intros cs.
    apply keeps_bind; [now apply keeps_put|]. intros _. apply keeps_ret.
  Qed.

  Lemma keeps_step op : nonneg_op op -> forall x, no_neg x -> (0 <= l_next x)%Z ->
    no_neg (snd (step op x)) /\ (0 <= l_next (snd (step op x)))%Z.
  Proof.
    destruct op as [|o arr meta|o q k|ids|id v m| |]; intros Hop x Hx Hn; cbn [lsh_step snd].
    - split; [|exact Hn]. intros tb c l z Hin Hcl. simpl in Hin. apply repeat_spec in Hin. subst. destruct Hcl.
    - revert x Hx Hn. change (keeps (lsh_insert T hs P empty o arr meta)).
      apply keeps_bind; [apply keeps_lift|]. intros n. cbv zeta. apply keeps_bind; [|intros; apply keeps_ret].
      apply keeps_bind; [apply keeps_get|]. intros x. destruct (negb (l_init x)); [apply keeps_raise|].
      destruct arr as [v|rows|]; [destruct (negb _); apply keeps_raise| |apply keeps_raise].
      destruct (negb _); [apply keeps_raise|]. apply keeps_bind.
      { destruct (l_dim x); [apply keeps_ret|]. apply keeps_bind; [apply keeps_modify; simpl; auto|].
        intros _. apply keeps_modify; simpl; auto. }
      intros _. apply keeps_bind; [apply keeps_get|]. intros x1. destruct (l_dim x1); [|apply keeps_raise].
      destruct (negb _); [apply keeps_raise|]. apply keeps_bind.
      { apply keeps_forM. intros. apply keeps_lift. }
      intros _. apply keeps_mapM. intros [v m]. apply keeps_add_one.
    - revert x Hx Hn. change (keeps (lsh_search T hs P lmt threshold o q k)).
      apply keeps_bind; [apply keeps_get|]. intros x. destruct (negb _); [apply keeps_raise|].
      destruct (l_dim x); [|apply keeps_ret]. apply keeps_bind; [apply keeps_lift|]. intros _. cbv zeta.
      apply keeps_bind; [apply keeps_hash|]. intros cs. apply keeps_bind; [apply keeps_lift|].
      intros es. apply keeps_ret.
    - revert x Hx Hn. change (keeps (lsh_delete T hs P ids)). apply keeps_catch; [|apply keeps_ret].
      apply keeps_bind; [|intros; apply keeps_ret]. apply keeps_bind; [apply keeps_get|]. intros x.
      destruct (negb _); [apply keeps_raise|]. apply keeps_forM. intros z _.
      apply keeps_bind; [apply keeps_get|]. intros x1. destruct (_ <? _)%Z; [|apply keeps_ret].
      apply keeps_bind; [apply keeps_lift|]. intros [v|]; [|apply keeps_ret].
      apply keeps_bind; [apply keeps_hash|]. intros cs. apply keeps_bind; [apply keeps_unput|]. intros _.
      apply keeps_bind; [apply keeps_set_vector|]. intros _. apply keeps_set_meta.
    - simpl in Hop. unfold not_negative in Hop.
      revert x Hx Hn. change (keeps (lsh_update T hs P id v m)).
      apply keeps_bind; [apply keeps_get|]. intros x. destruct (negb _); [apply keeps_raise|].
      apply keeps_catch; [|apply keeps_ret].
      destruct (py_int id) as [z|]; [|intros x0 Hx0 Hn0; simpl; auto].
      specialize (Hop z eq_refl).
      intros x0 Hx0 Hn0. rewrite (bind_Ok (lift (Ok z)) _ _ z x0) by reflexivity.
      revert x0 Hx0 Hn0. destruct (_ <=? _)%Z; [apply keeps_ret|].
      apply keeps_bind; [apply keeps_lift|]. intros [ov|]; [|apply keeps_ret].
      apply keeps_bind; [apply keeps_hash|]. intros cs. apply keeps_bind; [apply keeps_unput|]. intros _.
      apply keeps_bind; [apply keeps_set_vector|]. intros _. apply keeps_bind.
      { destruct m; [|apply keeps_ret]. apply keeps_bind; [apply keeps_lift|]. intros d. apply keeps_set_meta. }
      intros _. apply keeps_bind; [apply keeps_hash|]. intros cs2.
      apply keeps_bind; [now apply keeps_put|]. intros _. apply keeps_ret.
    - split; [|simpl; lia]. intros tb c l z Hin Hcl. simpl in Hin. apply repeat_spec in Hin. subst. destruct Hcl.
    - split; [|simpl; lia]. intros tb c l z Hin Hcl. simpl in Hin. apply repeat_spec in Hin. subst. destruct Hcl.
  Qed.

  Lemma keeps_run ops : Forall nonneg_op ops -> no_neg (after ops) /\ (0 <= l_next (after ops))%Z.
  Proof.
    unfold lsh_after. assert (Hg : forall x, no_neg x -> (0 <= l_next x)%Z -> Forall nonneg_op ops ->
      no_neg (snd (lsh_run T hs P lmt threshold empty ops x)) /\
      (0 <= l_next (snd (lsh_run T hs P lmt threshold empty ops x)))%Z).
    { induction ops as [|op ops IH]; intros x Hx Hn Hf; simpl; auto.
      inversion Hf as [|? ? Hop Hf']; subst. destruct (keeps_step op Hop x Hx Hn) as [H1 H2].
      destruct (step op x) as [r x1]. simpl in *. specialize (IH x1 H1 H2 Hf').
      now destruct (lsh_run _ _ _ _ _ _ ops x1). }
    apply Hg; [intros tb c l z []|simpl; lia].
  Qed.

  (** C32 again, for histories restricted only in that no id is a negative number: failed and
      wrong-dimension updates, failed inserts, odd metadata and repeated initialisation are
      included.  A result names a vector the index still keeps, and its score is the similarity to
      that vector. *)
  Theorem C32_search_sound_partial ops o q k hits : Forall nonneg_op ops ->
    (forall l, Permutation (o_order o l) l) ->
    fst (step (LSearch o (Vec q) k) (after ops)) = LHits hits ->
    (forall h, In h hits -> exists i v,
        lh_id h = Z.of_nat i /\ nth_error (l_vectors (after ops)) i = Some (Some v) /\
        lsh_similarity lmt q v = Ok (lh_score h) /\ nleb threshold (lh_score h) = true) /\
    StronglySorted (fun a b => nleb (lh_score b) (lh_score a) = true) hits /\
    ((0 <= k)%Z -> length hits <= Z.to_nat k).
  Proof.
    intros Hops Hord. destruct (keeps_run ops Hops) as [Hneg _]. set (x := after ops) in *.
    cbn [lsh_step fst]. unfold lsh_search. rewrite (bind_Ok get _ _ x x) by reflexivity.
    destruct (negb (l_init x)); [discriminate|]. destruct (l_dim x) as [d|].
    2:{ simpl. intros [= <-]. split; [intros h []|]. split; [constructor|simpl; lia]. }
    unfold bind at 1. destruct (lift (validate_dim d (Vec q)) x) as [[u|e] x1] eqn:E1; [|discriminate].
    assert (x1 = x) as -> by (unfold lift in E1; congruence). cbv zeta.
    unfold bind at 1. destruct (lsh_hash_vector T hs P q x) as [[codes|e] x2] eqn:E2; [|discriminate].
    assert (x2 = x) as ->.
    { unfold lsh_hash_vector, bind, get in E2. destruct (l_proj x); unfold lift, raise in E2; congruence. }
    unfold bind, lift. set (cs := lsh_candidates _ _).
    destruct (rmap _ (o_order o cs)) as [os|e] eqn:E3; [|discriminate]. unfold ret. cbn [fst].
    set (le := fun a b : lsh_hit F Mt => nleb (lh_score b) (lh_score a)).
    intros [= <-]. split; [|split].
    - intros h Hh. apply slice_to_sub in Hh. apply In_sort in Hh.
      destruct (rmap_somes _ _ _ _ E3 Hh) as (z & Hz & Ez).
      apply (Permutation_in _ (Hord cs)) in Hz.
      assert (Hz0 : (0 <= z)%Z).
      { unfold cs, lsh_candidates in Hz.
        assert (H1 : In z (to_set (lsh_exact (l_tables x) codes)) \/
                     In z (to_set (lsh_relaxed (l_tables x) codes))).
        { destruct (to_set (lsh_exact (l_tables x) codes)); auto. }
        unfold to_set in H1. rewrite !nodup_In in H1. destruct H1 as [H1|H1].
        - unfold lsh_exact in H1. apply in_flat_map in H1 as ([tb c] & Hc & Hi).
          apply in_combine_l in Hc. destruct (dget c tb) as [l|] eqn:E; [|destruct Hi].
          apply dget_Some_In in E. eapply Hneg; eauto.
        - unfold lsh_relaxed in H1. apply in_flat_map in H1 as ([tb c] & Hc & Hi).
          apply in_combine_l in Hc. apply in_flat_map in Hi as ([c' l] & Hl & Hi).
          destruct (Nat.leb _ 2); [|destruct Hi]. eapply Hneg; eauto. }
      replace z with (Z.of_nat (Z.to_nat z)) in Ez by lia. set (i := Z.to_nat z) in *.
      unfold lsh_consider in Ez. destruct (_ <? _)%Z; [|discriminate].
      rewrite py_index_nat in Ez. destruct (nth_error (l_vectors x) i) as [[v|]|] eqn:Ei; simpl in Ez; try discriminate.
      destruct (lsh_similarity lmt q v) as [sc|] eqn:Es; simpl in Ez; [|discriminate].
      destruct (nleb threshold sc) eqn:Et; [|discriminate].
      destruct (py_index _ _) as [m|]; simpl in Ez; [|discriminate]. injection Ez as <-. simpl.
      exists i, v. auto.
    - destruct (slice_to_prefix k (sort le (somes os))) as [l2 El].
      assert (Hs : StronglySorted (fun a b => le a b = true) (sort le (somes os))).
      { apply (sort_sorted le (fun _ => True)).
        - unfold le. split.
          + intros a b _ _. apply nleb_total.
          + intros a b c _ _ _ Hab Hbc. eapply nleb_trans; eauto.
        - apply Forall_forall. auto. }
      rewrite El in Hs. now apply StronglySorted_app_inv in Hs.
    - intros Hk. rewrite slice_to_nonneg by auto. rewrite firstn_length. lia.
  Qed.

  (** ** C33 *)

  Definition live_count (l : list (option (list F * Mt))) : nat := length (somes l).

  (** C33: searching with the vector stored under a live id returns that id, if the vector is
      finite and not empty, its similarity to itself reaches the threshold and [k] is at least the
      number of live vectors.  Partial: as for C31. *)
  Theorem C33_finds_itself_partial ops o i v m z k : lsh_config -> history ops ->
    lsh_orc_ok P o -> sl_open (slots_after ops) = true ->
    nth_error (sl_slots (slots_after ops)) i = Some (Some (v, m)) ->
    v <> [] -> forallb nfinite v = true ->
    lsh_similarity lmt v v = Ok z -> nleb threshold z = true ->
    (Z.of_nat (live_count (sl_slots (slots_after ops))) <= k)%Z ->
    exists hits, fst (step (LSearch o (Vec v) k) (after ops)) = LHits hits /\
      In (MkLhit (Z.of_nat i) z (Some m)) hits.
  Proof.
    intros Hc Hh Hor Ho E Hv0 Hfin Ez Et Hk. pose proof (reached ops Hc Hh) as HI.
    destruct Hc as (C1 & C2 & C3 & C4 & C5).
    set (x := after ops) in *. set (s := slots_after ops) in *.
    destruct (live_dim _ _ _ _ _ _ _ HI E) as [d Hd].
    destruct (li_some _ _ _ _ _ HI d Hd) as ((pr & Epr & Hpr) & HF).
    assert (Hv : length v = d).
    { apply HF with (m := m). now apply nth_error_In in E. }
    assert (Hd0 : d <> 0) by (subst d; destruct v; simpl; congruence).
    destruct (search_answer T hs P lmt threshold empty C5 C1 C2 C3 C4 s x o v k d HI Ho Hd Hv Hd0 Hfin Hor)
      as (found & Es & Hin & Hnd & _).
    cbn [lsh_step fst]. rewrite Es. cbn [fst]. eexists. split; [reflexivity|].
    assert (Hlen : length found <= live_count (sl_slots s)).
    { unfold live_count. rewrite <- (map_length lh_id).
      set (lv := somes (map (fun '(j, o) => option_map (fun _ => Z.of_nat j) o) (enumerate (sl_slots s)))).
      replace (length (somes (sl_slots s))) with (length lv).
      2:{ unfold lv, enumerate. generalize 0. clear. induction (sl_slots s) as [|[a|] l IH]; intros n; simpl; auto. }
      apply NoDup_incl_length; auto. intros y Hy. apply in_map_iff in Hy as (h & <- & Hh').
      apply Hin in Hh' as (j & w & mw & _ & Ej & Eh). apply hit_of_id in Eh. rewrite Eh.
      unfold lv. apply In_somes. apply in_map_iff. exists (j, Some (w, mw)). split; auto.
      unfold enumerate. clear - Ej. 
      assert (Hg : forall l n, nth_error l j = Some (Some (w, mw)) ->
                In (n + j, Some (w, mw)) (combine (seq n (length l)) l)).
      { clear. induction j as [|j IH]; intros [|a l] n Ej; simpl in *; try discriminate.
        - injection Ej as ->. left. now rewrite Nat.add_0_r.
        - right. rewrite <- plus_n_Sm. apply (IH l (S n) Ej). }
      exact (Hg _ 0 Ej). }
    rewrite slice_to_nonneg by lia. rewrite firstn_all2 by lia.
    apply Hin. exists i, v, m. split; [|split; auto].
    2:{ unfold hit_of. now rewrite Ez, Et. }
    destruct (li_tables _ _ _ _ _ HI Ho) as [El Ht].
    assert (Hex : In (Z.of_nat i) (to_set (lsh_exact (l_tables x) (codes_of T hs P (the_proj x) v)))).
    { unfold to_set. apply nodup_In. unfold lsh_exact. apply in_flat_map.
      destruct (l_tables x) as [|tb tabs] eqn:Etab; [simpl in El; lia|].
      exists (tb, code_of hs P (the_proj x) v 0). split.
      - unfold codes_of. destruct T as [|T']; [lia|]. simpl. now left.
      - destruct (Ht 0 tb eq_refl) as [Hk0 Hp].
        assert (Hi : In (code_of hs P (the_proj x) v 0, Z.of_nat i) (entries tb)).
        { eapply Permutation_in; [symmetry; exact Hp|]. apply In_live. exists i, v.
          rewrite (vector_at _ _ _ _ _ i HI), E. auto. }
        apply In_entries in Hi as (l & -> & Hi); auto. }
    unfold lsh_candidates. destruct (to_set (lsh_exact _ _)); [destruct Hex|exact Hex].
  Qed.

  (** ** C34 and C35 *)

  (** C34 for id strings that are not negative numbers: an id without a live vector changes
      nothing at all.  Partial: an id string that was never handed out may still be one that
      Python reads as a live number, or as a negative index (below). *)
  Theorem C34_unknown_id_partial ops id v m : lsh_config -> history ops ->
    not_negative id -> live_at (sl_slots (slots_after ops)) id = None ->
    snd (step (LDelete [id]) (after ops)) = after ops /\
    snd (step (LUpdate id v m) (after ops)) = after ops.
  Proof.
    intros Hc Hh Hn Hl. pose proof (reached ops Hc Hh) as HI. set (x := after ops) in *.
    set (s := slots_after ops) in *.
    assert (Elen : length (l_vectors x) = length (sl_slots s)).
    { rewrite (li_vectors _ _ _ _ _ HI). apply map_length. }
    unfold live_at, slot_of in Hl. specialize (Hn : forall z, _). unfold not_negative in Hn.
    cbn [lsh_step snd]. split.
    - unfold lsh_delete, lsh_remove, catch, bind, get. destruct (negb (l_init x)); [reflexivity|].
      unfold int_ids. simpl. destruct (py_int id) as [z|] eqn:Ez; [|reflexivity]. specialize (Hn z eq_refl).
      replace (0 <=? z)%Z with true in Hl by lia. simpl. unfold lsh_remove_one, bind, get.
      rewrite Elen. destruct (Z.ltb_spec z (Z.of_nat (length (sl_slots s)))); [|reflexivity].
      unfold lift. replace z with (Z.of_nat (Z.to_nat z)) by lia. rewrite py_index_nat, (vector_at _ _ _ _ _ _ HI).
      destruct (nth_error (sl_slots s) (Z.to_nat z)) as [[vm|]|]; try discriminate; reflexivity.
    - unfold lsh_update, bind at 1, get at 1. destruct (negb (l_init x)); [reflexivity|].
      unfold catch, bind at 1, lift at 1. destruct (py_int id) as [z|] eqn:Ez; [|reflexivity].
      specialize (Hn z eq_refl). replace (0 <=? z)%Z with true in Hl by lia.
      rewrite Elen. destruct (Z.leb_spec (Z.of_nat (length (sl_slots s))) z); [reflexivity|].
      unfold bind at 1, lift at 1. replace z with (Z.of_nat (Z.to_nat z)) by lia.
      rewrite py_index_nat, (vector_at _ _ _ _ _ _ HI).
      destruct (nth_error (sl_slots s) (Z.to_nat z)) as [[vm|]|]; try discriminate; reflexivity.
  Qed.

  (** C35 for updates that keep the dimension and whose metadata can be copied: when one returns
      False, the index is as before.  Partial: false for vectors of another dimension (below). *)
  Theorem C35_failed_update_partial ops id v m : lsh_config -> history ops ->
    lfits P (slots_after ops) (LUpdate id v m) ->
    fst (step (LUpdate id v m) (after ops)) = LBool false ->
    snd (step (LUpdate id v m) (after ops)) = after ops.
  Proof.
    intros Hc Hh Hf Hr. pose proof (reached ops Hc Hh) as HI. pose proof Hf as (Hn & _).
    apply C34_unknown_id_partial; auto.
    destruct Hc as (C1 & C2 & C3 & C4 & C5).
    destruct (step_ok T hs P lmt threshold empty C5 C1 C2 C3 C4 _ _ _ HI Hf) as [Ha _].
    rewrite Hr in Ha. cbn [lans_ok] in Ha.
    destruct (sl_open (slots_after ops)); [|discriminate].
    destruct (live_at _ id); [discriminate|reflexivity].
  Qed.

  (** ** C36 *)

  (** C36: with [hash_size <= num_projections], all tables get a code of [hash_size] bits, bit [j]
      of table [t] being the sign of the product with projection [(t*hash_size+j) mod P], which is
      inside the matrix, plus offset [j]. *)
  Theorem C36_code_shape d proj offsets v :
    1 <= hs -> hs <= P -> length proj = P -> Forall (fun r => length r = d) proj ->
    length offsets = P -> length v = d ->
    exists codes, lsh_codes T hs P (proj, offsets) v = Ok codes /\ length codes = T /\
      forall t c, nth_error codes t = Some c ->
        length c = hs /\
        forall j b, nth_error c j = Some b ->
          let i := (t * hs + j) mod P in
          i < length proj /\
          b = nleb nzero (nadd (dot (nth i proj []) v) (nth j offsets nzero)).
  Proof.
    intros Hhs HP Hp HF Hoff Hv.
    assert (Hpr : proj_ok P d (proj, offsets)) by (split; [|split]; auto).
    exists (codes_of T hs P (proj, offsets) v). split; [now apply (codes_spec T hs P Hhs HP d)|].
    split; [apply codes_length|]. intros t c Et.
    assert (Ht : t < T) by (rewrite <- (codes_length T hs P (proj, offsets) v); apply nth_error_Some; congruence).
    rewrite codes_nth in Et by auto. injection Et as <-. unfold code_of. split.
    - now rewrite map_length, seq_length.
    - intros j b Ej. rewrite nth_error_map in Ej.
      destruct (nth_error (seq 0 hs) j) as [j'|] eqn:Es; [|discriminate].
      assert (Hj : j < hs) by (rewrite <- (seq_length hs 0); apply nth_error_Some; congruence).
      rewrite (nth_error_nth' (seq 0 hs) 0) in Es by (now rewrite seq_length).
      rewrite seq_nth in Es by auto. injection Es as <-. simpl in Ej. injection Ej as <-.
      split; [|reflexivity]. rewrite Hp. apply Nat.mod_upper_bound. lia.
  Qed.
End Props.

(** ** Examples and refutations *)

From Verif Require Import Demo DemoIndex.

(** Two tables of two-bit codes from three projections, on integer vectors. *)
Definition demo_lsh_orc : lsh_orc Z :=
  MkLshOrc (fun d => map (fun i => repeat (Z.of_nat i - 1)%Z d) (seq 0 3)) [0; 1; -1]%Z (fun l => l).

Lemma demo_lsh_orc_ok : lsh_orc_ok 3 demo_lsh_orc.
Proof.
  split; [|split]; [|reflexivity|reflexivity]. intros d. simpl. split; auto.
  repeat constructor; apply repeat_length.
Qed.

Definition demo_insert : lop Z Z :=
  LInsert demo_lsh_orc (Mat [[1; 2]; [-3; 4]; [5; -9]]%Z) (Some [Some 1; Some 2; Some 3]%Z).

Definition demo_lsh_ops : list (lop Z Z) :=
  [LInit; demo_insert; LUpdate (py "1") [6; 6]%Z (Some 7%Z); LDelete [py "0"; py "9"; py "x"];
   LSearch demo_lsh_orc (Vec [6; 6]%Z) 5; LInsert demo_lsh_orc (Mat [[1; 1]]%Z) None].

Lemma demo_lsh_config : lsh_config (F := Z) (Mt := Z) 2 2 3 LEuclidean 0%Z.
Proof. repeat split; auto; discriminate. Qed.

Lemma demo_lsh_fit : lhistory 3 0%Z no_slots demo_lsh_ops.
Proof.
  assert (Hn : forall id, (forall z, py_int id = Some z -> (0 <= z)%Z) -> not_negative id) by auto.
  assert (Hm : forall z : Z, (0 <= z)%Z -> meta_fine (F := Z) (Some z)).
  { intros z Hz. exists z. split; auto. simpl. lia. }
  cbn [lhistory demo_lsh_ops lfits demo_insert]. repeat split; try apply demo_lsh_orc_ok.
  - intros rows E. injection E as <-. repeat constructor.
  - intros l m E Hin. injection E as <-. simpl in Hin.
    repeat destruct Hin as [<-|Hin]; try (apply Hm; lia). destruct Hin.
  - apply Hn. intros z Hz. vm_compute in Hz. injection Hz as <-. lia.
  - right. apply Hm. lia.
  - repeat (constructor; [apply Hn; intros z Hz; vm_compute in Hz; (discriminate || (injection Hz as <-; lia))|]).
    constructor.
  - intros rows E. injection E as <-. repeat constructor.
  - discriminate.
Qed.

(** The hypotheses of C31, C32 and C33 are met, and the answers of that history. *)
Example C31_hypotheses_met :
  lsh_config (F := Z) (Mt := Z) 2 2 3 LEuclidean 0%Z /\ lhistory 3 0%Z no_slots demo_lsh_ops /\
  sl_open (sl_after 0%Z demo_lsh_ops) = true /\
  nth_error (sl_slots (sl_after 0%Z demo_lsh_ops)) 1 = Some (Some ([6; 6], 7)%Z) /\
  lsh_similarity LEuclidean [6; 6]%Z [6; 6]%Z = Ok 1%Z.
Proof. split; [apply demo_lsh_config|]. split; [apply demo_lsh_fit|]. vm_compute. auto. Qed.

Example C32_example :
  lsh_answers 2 2 3 LEuclidean 0%Z 0%Z demo_lsh_ops =
  [LUnit; LIds [py "0"; py "1"; py "2"]; LBool true; LBool true;
   LHits [MkLhit 1 1 (Some 7)]%Z; LIds [py "3"]].
Proof. vm_compute. reflexivity. Qed.

(** The wider histories of [C32_search_sound_partial] include a failed update and a repeated
    initialisation. *)
Example C32_sound_hypotheses_met :
  let ops := [LInit; demo_insert; LUpdate (py "0") [7]%Z None; LInit; demo_insert] in
  Forall nonneg_op ops /\ fst (lsh_step 2 2 3 LEuclidean 0%Z 0%Z (LSearch demo_lsh_orc (Vec [1; 2]%Z) 1)
        (lsh_after 2 2 3 LEuclidean 0%Z 0%Z ops)) = LHits [MkLhit 3 1 (Some 1)]%Z.
Proof.
  split; [|vm_compute; reflexivity]. repeat (constructor; [exact I|]).
  constructor; [intros z Hz; vm_compute in Hz; injection Hz as <-; lia|].
  repeat (constructor; [exact I|]). constructor.
Qed.

Example C34_hypotheses_met :
  not_negative (py "0") /\ live_at (sl_slots (sl_after 0%Z demo_lsh_ops)) (py "0") = None /\
  not_negative (py "abc") /\ live_at (sl_slots (sl_after 0%Z demo_lsh_ops)) (py "abc") = None.
Proof.
  split; [intros z Hz; vm_compute in Hz; injection Hz as <-; lia|]. split; [reflexivity|].
  split; [intros z Hz; vm_compute in Hz; discriminate|reflexivity].
Qed.

Example C35_hypotheses_met :
  lfits 3 (sl_after 0%Z demo_lsh_ops) (LUpdate (py "0") [4; 4]%Z None) /\
  fst (lsh_step 2 2 3 LEuclidean 0%Z 0%Z (LUpdate (py "0") [4; 4]%Z None)
        (lsh_after 2 2 3 LEuclidean 0%Z 0%Z demo_lsh_ops)) = LBool false.
Proof.
  split; [|vm_compute; reflexivity]. split; [intros z Hz; vm_compute in Hz; injection Hz as <-; lia|].
  split; [vm_compute; reflexivity|auto].
Qed.

Example C36_example :
  lsh_codes 2 2 3 (o_proj demo_lsh_orc 2, o_offsets demo_lsh_orc) [5; -9]%Z =
  Ok [[true; true]; [false; true]].
Proof. reflexivity. Qed.

(** Ids an index has handed out. *)
Definition handed_out {F Mt} (rs : list (lret F Mt)) : list pystr :=
  flat_map (fun r => match r with LIds l => l | _ => [] end) rs.

(** C31 is false after an update with a vector of another dimension: the update answers False, and
    the id, still live and never deleted, is in no bucket of any table. *)
Theorem C31_failed_update_refuted :
  exists (ops : list (lop Z Z)) id v,
    let run := lsh_answers 2 2 3 LEuclidean 0%Z 0%Z in
    let x := lsh_after 2 2 3 LEuclidean 0%Z 0%Z (ops ++ [LUpdate id v None]) in
    lhistory 3 0%Z no_slots ops /\ In id (handed_out (run ops)) /\
    nth_error (run (ops ++ [LUpdate id v None])) (length ops) = Some (LBool false) /\
    py_int id = Some 0%Z /\ nth_error (l_vectors x) 0 = Some (Some v) /\
    forall tb c l, In tb (l_tables x) -> In (c, l) tb -> ~ In 0%Z l.
Proof.
  exists [LInit; demo_insert], (py "0"), [7]%Z. cbv zeta.
  split.
  { pose proof demo_lsh_fit as Hf. unfold demo_lsh_ops in Hf. cbn [lhistory] in *. tauto. }
  split; [vm_compute; auto|]. split; [vm_compute; reflexivity|]. split; [vm_compute; reflexivity|].
  split; [vm_compute; reflexivity|].
  match goal with |- context [l_tables ?y] =>
    assert (Hb : forallb (forallb (fun '(c, l) => negb (existsb (Z.eqb 0) l))) (l_tables y) = true)
      by (vm_compute; reflexivity)
  end.
  intros tb c l Htb Hcl Hin. rewrite forallb_forall in Hb. specialize (Hb tb Htb).
  rewrite forallb_forall in Hb. specialize (Hb (c, l) Hcl). simpl in Hb.
  rewrite (proj2 (existsb_exists _ _)) in Hb; [discriminate|]. exists 0%Z. auto.
Qed.

(** C32 is false when an update names a negative number: the search then returns id -1. *)
Theorem C32_negative_id_refuted :
  exists (ops : list (lop Z Z)) q,
    fst (lsh_step 2 2 3 LEuclidean 0%Z 0%Z (LSearch demo_lsh_orc (Vec q) 1)
          (lsh_after 2 2 3 LEuclidean 0%Z 0%Z ops)) = LHits [MkLhit (-1) 1 (Some 3)]%Z /\
    handed_out (lsh_answers 2 2 3 LEuclidean 0%Z 0%Z ops) = [py "0"; py "1"; py "2"].
Proof.
  exists [LInit; demo_insert; LUpdate (py "-1") [60; 60]%Z None], [60; 60]%Z. vm_compute. auto.
Qed.

(** C33 is false after initialising an open index again: the vectors stay, the tables are empty. *)
Theorem C33_reinitialise_refuted :
  exists (ops : list (lop Z Z)) v m,
    let x := lsh_after 2 2 3 LEuclidean 0%Z 0%Z ops in
    nth_error (l_vectors x) 0 = Some (Some v) /\ nth_error (l_metadata x) 0 = Some (Some m) /\
    lsh_similarity LEuclidean v v = Ok 1%Z /\ lsh_count x = 3 /\
    fst (lsh_step 2 2 3 LEuclidean 0%Z 0%Z (LSearch demo_lsh_orc (Vec v) 10) x) = LHits [].
Proof.
  exists [LInit; demo_insert; LInit], [1; 2]%Z, 1%Z. vm_compute. auto 6.
Qed.

(** C34 is false: "-1" was never handed out, and deleting it removes the last vector; " 0" was
    never handed out, and updating it replaces the first vector. *)
Theorem C34_never_handed_out_refuted :
  exists (ops : list (lop Z Z)) id1 id2 v,
    let ids := handed_out (lsh_answers 2 2 3 LEuclidean 0%Z 0%Z ops) in
    let x := lsh_after 2 2 3 LEuclidean 0%Z 0%Z ops in
    let step := lsh_step 2 2 3 LEuclidean 0%Z 0%Z in
    lhistory 3 0%Z no_slots ops /\ ~ In id1 ids /\ ~ In id2 ids /\
    lsh_count x = 3 /\ lsh_count (snd (step (LDelete [id1]) x)) = 2 /\
    nth_error (l_vectors x) 0 = Some (Some [1; 2]%Z) /\
    nth_error (l_vectors (snd (step (LUpdate id2 v None) x))) 0 = Some (Some v).
Proof.
  exists [LInit; demo_insert], (py "-1"), (py " 0"), [8; 8]%Z. cbv zeta. split.
  { pose proof demo_lsh_fit as Hf. unfold demo_lsh_ops in Hf. cbn [lhistory] in *. tauto. }
  split; [vm_compute; intuition discriminate|]. split; [vm_compute; intuition discriminate|].
  vm_compute. auto.
Qed.

(** C35 is false: an update with a vector of another dimension answers False, and the vector that
    was stored under the id is no longer found. *)
Theorem C35_wrong_dimension_refuted :
  exists (ops : list (lop Z Z)) id v q,
    let x := lsh_after 2 2 3 LEuclidean 0%Z 0%Z ops in
    let step := lsh_step 2 2 3 LEuclidean 0%Z 0%Z in
    let search := LSearch demo_lsh_orc (Vec q) 1 in
    lhistory 3 0%Z no_slots ops /\
    fst (step (LUpdate id v None) x) = LBool false /\
    fst (step search x) = LHits [MkLhit 0 1 (Some 1)]%Z /\
    fst (step search (snd (step (LUpdate id v None) x))) = LHits [MkLhit 1 0 (Some 2)]%Z.
Proof.
  exists [LInit; demo_insert], (py "0"), [7]%Z, [1; 2]%Z. cbv zeta. split.
  { pose proof demo_lsh_fit as Hf. unfold demo_lsh_ops in Hf. cbn [lhistory] in *. tauto. }
  vm_compute. auto.
Qed.

(** C40 is false for LSH: the index never writes to the storage it is given. *)
Theorem C40_lsh_counts_refuted :
  exists ops : list (cop Z Z (lsh_orc Z)),
    let IC := lsh_class (S := mem (list Z) Z) 2 2 3 LEuclidean 0%Z 0%Z in
    fst (cl_step mem_class IC (cl_after mem_class IC mem_new ops) CStats) =
      ACounts (Some 3%Z) (Some 0%Z).
Proof.
  exists [CInit demo_lsh_orc [];
          CInsert demo_lsh_orc (demo_ids 97) (Mat [[1; 2]; [-3; 4]; [5; -9]]%Z) None].
  vm_compute. reflexivity.
Qed.

(** C80 is false for LSH: initialising again on memory storage empties the tables only; the old
    vectors are still counted and numbering goes on, but none of them can be found. *)
Theorem C80_lsh_reinitialise_refuted :
  exists (ops : list (cop Z Z (lsh_orc Z))) insert,
    let IC := lsh_class (S := mem (list Z) Z) 2 2 3 LEuclidean 0%Z 0%Z in
    let again := cl_after mem_class IC mem_new (ops ++ [CInit demo_lsh_orc []]) in
    let new := cl_after mem_class IC mem_new [CInit demo_lsh_orc []] in
    fst (cl_step mem_class IC again insert) = AIds [py "3"] /\
    fst (cl_step mem_class IC new insert) = AIds [py "0"] /\
    fst (cl_step mem_class IC again CStats) = ACounts (Some 3%Z) (Some 0%Z) /\
    fst (cl_step mem_class IC new CStats) = ACounts (Some 0%Z) (Some 0%Z) /\
    fst (cl_step mem_class IC again (CSearch demo_lsh_orc (Vec [1; 2]%Z) 10)) = AHits [].
Proof.
  exists [CInit demo_lsh_orc [];
          CInsert demo_lsh_orc (demo_ids 97) (Mat [[1; 2]; [-3; 4]; [5; -9]]%Z) None],
         (CInsert demo_lsh_orc (demo_ids 99) (Mat [[5; 5]]%Z) None).
  vm_compute. auto 6.
Qed.

(** C81: the largest bucket reported by [get_stats] is not the size of a bucket: with three
    vectors whose buckets hold at most three ids each it reports the largest id instead; on an
    index holding one vector it reports 0. *)
Theorem C81_max_bucket_size_refuted :
  exists (ops : list (lop Z Z)),
    let x := lsh_after 2 2 3 LEuclidean 0%Z 0%Z ops in
    lhistory 3 0%Z no_slots ops /\ lsh_count x = 1 /\
    (exists tb c l, In tb (l_tables x) /\ In (c, l) tb /\ length l = 1) /\
    lsh_max_bucket_size x = 0%Z.
Proof.
  exists [LInit; LInsert demo_lsh_orc (Mat [[1; 1]]%Z) None]. cbv zeta. split.
  { cbn [lhistory lfits]. repeat split; try apply demo_lsh_orc_ok; try discriminate.
    intros rows E. injection E as <-. repeat constructor. }
  split; [vm_compute; reflexivity|]. split; [|vm_compute; reflexivity].
  exists [([false; true], [0%Z])], [false; true], [0%Z].
  split; [vm_compute; auto|]. split; [left; reflexivity|reflexivity].
Qed.

Print Assumptions C31_tables_index_live_partial.
Print Assumptions C31_failed_update_refuted.
Print Assumptions C32_history_conforms_partial.
Print Assumptions C32_search_sound_partial.
Print Assumptions C32_negative_id_refuted.
Print Assumptions C33_finds_itself_partial.
Print Assumptions C33_reinitialise_refuted.
Print Assumptions C34_unknown_id_partial.
Print Assumptions C34_never_handed_out_refuted.
Print Assumptions C35_failed_update_partial.
Print Assumptions C35_wrong_dimension_refuted.
Print Assumptions C36_code_shape.
Print Assumptions C40_lsh_counts_refuted.
Print Assumptions C80_lsh_reinitialise_refuted.
Print Assumptions C81_max_bucket_size_refuted.
