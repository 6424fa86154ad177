(** C72, C73, C74, C88: configuration tables, recommendations and the factory. *)

From Coq Require Import String List Arith ZArith NArith QArith Lia Bool.
From Coq Require Import ZifyBool ZifyNat ZifyN.
From Verif Require Import PyBase PyMore PyValue ConfigModel.
Import ListNotations.
Local Open Scope string_scope.
Local Open Scope list_scope.
Open Scope nat_scope.

(** ** C73: every listed configuration can be fetched *)

(** The names a listing reports for a category. *)
Definition reports (L : dict pystr listing) (category name : pystr) : Prop :=
  (exists ns, In (category, LNames ns) L /\ In name ns) \/
  (exists d sub ns, In (category, LNested d) L /\ In (sub, ns) d /\ In name ns).

(** The names the listing of one category reports: for "index" they are grouped by
    subcategory. *)
Definition reports_all (L : dict pystr listing) (name : pystr) : Prop :=
  exists key ns, In (key, LNames ns) L /\ In name ns.

Lemma dget_In_keys {V} (k : pystr) (d : dict pystr V) : dget k d <> None <-> In k (dkeys d).
Proof.
  rewrite <- dget_In. destruct (dget k d) as [v|]; split; try congruence; eauto. intros [v E]. discriminate.
Qed.

(** [l] has no item twice, as a test. *)
Fixpoint nodupb (l : list pystr) : bool :=
  match l with [] => true | x :: l' => negb (memb x l') && nodupb l' end.

Lemma nodupb_spec l : nodupb l = true -> NoDup l.
Proof.
  induction l as [|x l IH]; simpl; [constructor|]. intros H. apply andb_true_iff in H as [H1 H2].
  constructor; auto. intros Hx. apply memb_In in Hx. rewrite Hx in H1. discriminate.
Qed.

Lemma find_nested_spec t name :
  (exists c, find_nested t name = Some c) <-> exists sub configs, In (sub, configs) t /\ In name (dkeys configs).
Proof.
  induction t as [|[sub configs] t IH]; simpl.
  - split; [intros [c E]; discriminate|intros (? & ? & [] & _)].
  - destruct (dget name configs) as [c|] eqn:E.
    + split; [|eauto]. intros _. exists sub, configs. split; auto. apply dget_In_keys. congruence.
    + rewrite IH. split.
      * intros (s & cs & H & Hn). eauto.
      * intros (s & cs & [[= <- <-]|H] & Hn); [|eauto].
        apply dget_In_keys in Hn. congruence.
Qed.

Lemma nested_names_spec t sub ns : In (sub, ns) (nested_names t) <->
  exists configs, In (sub, configs) t /\ ns = dkeys configs.
Proof.
  unfold nested_names. rewrite in_map_iff. split.
  - intros ([s cs] & [= <- <-] & H). eauto.
  - intros (cs & H & ->). exists (sub, cs). auto.
Qed.

(** The categories of the flat tables have pairwise different names, none of them "index" or
    empty. *)
Definition tables_wf (t : tables) : Prop :=
  NoDup (dkeys (t_flat t)) /\ ~ In (py "index") (dkeys (t_flat t)) /\ ~ In [] (dkeys (t_flat t)).

(** For every set of tables, category and name: [get_config] returns exactly for the names that
    the full listing reports for the category, and raises ValueError for all others; the
    listing of the category alone reports the same names. *)
Theorem C73_listed_fetchable t category name : tables_wf t ->
  exists L, list_configs t None = Ok L /\
    ((exists c, get_config t category name = Ok c) <-> reports L category name) /\
    ((exists c, get_config t category name = Ok c) \/ get_config t category name = Raise EValue) /\
    (category <> [] ->
       ((exists c, get_config t category name = Ok c) <->
        exists L1, list_configs t (Some category) = Ok L1 /\ reports_all L1 name)).
Proof.
  intros (W1 & W2 & W3). eexists. split; [reflexivity|]. unfold get_config, reports.
  assert (HI : forall n, (exists c, match find_nested (t_index t) n with Some c => Ok c | None => Raise EValue end = Ok c) <->
     exists sub ns, In (sub, ns) (nested_names (t_index t)) /\ In n ns).
  { intros n. transitivity (exists c, find_nested (t_index t) n = Some c).
    - destruct (find_nested (t_index t) n) as [c|]; split; intros [c' E]; try discriminate; eauto.
    - rewrite find_nested_spec. split.
      + intros (s & cs & H & Hn). exists s, (dkeys cs). split; auto. apply nested_names_spec. eauto.
      + intros (s & ns & H & Hn). apply nested_names_spec in H as (cs & H & ->). eauto. }
  destruct (eqb category (py "index")) eqn:Ec.
  - apply (proj1 (eqb_eq _ _)) in Ec. subst category. split; [|split].
    + rewrite HI. split.
      * intros (sub & ns & H & Hn). right. exists (nested_names (t_index t)), sub, ns. split; [now left|auto].
      * intros [(ns & [H|H] & Hn)|(d & sub & ns & [H|H] & Hs & Hn)].
        -- discriminate.
        -- apply in_map_iff in H as ([c cs] & [= -> _] & H). destruct W2. apply in_map_iff. exists (py "index", cs). auto.
        -- injection H as <-. eauto.
        -- apply in_map_iff in H as ([c cs] & E & _). discriminate.
    + destruct (find_nested (t_index t) name); eauto.
    + intros _. rewrite HI.
      change (list_configs t (Some (py "index"))) with
        (Ok (map (fun sn => (fst sn, LNames (snd sn))) (nested_names (t_index t)))).
      unfold reports_all.
      split.
      * intros (sub & ns & H & Hn). eexists. split; [reflexivity|]. exists sub, ns. split; auto.
        apply in_map_iff. exists (sub, ns). auto.
      * intros (L1 & [= <-] & key & ns & H & Hn). apply in_map_iff in H as ([s ns'] & [= <- <-] & H). eauto.
  - assert (Hne : category <> py "index") by (intros ->; rewrite eqb_refl in Ec; discriminate).
    assert (HF : (exists c, match dget category (t_flat t) with
                            | None => Raise EValue
                            | Some configs => match dget name configs with Some c => Ok c | None => Raise EValue end
                            end = Ok c) <->
                 exists configs, dget category (t_flat t) = Some configs /\ In name (dkeys configs)).
    { destruct (dget category (t_flat t)) as [configs|]; [|split; [intros [c E]; discriminate|intros (cs & E & _); discriminate]].
      destruct (dget name configs) as [c|] eqn:E.
      - split; [|eauto]. intros _. exists configs. split; auto. apply dget_In_keys. congruence.
      - split; [intros [c' E']; discriminate|]. intros (cs & [= <-] & Hn). apply dget_In_keys in Hn. congruence. }
    split; [|split].
    + rewrite HF. split.
      * intros (cs & H & Hn). left. exists (dkeys cs). split; auto. right. apply in_map_iff. exists (category, cs).
        split; auto. now apply dget_Some_In.
      * intros [(ns & [H|H] & Hn)|(d & sub & ns & [H|H] & _)].
        -- discriminate.
        -- apply in_map_iff in H as ([c cs] & [= <- <-] & H). exists cs. split; auto. now apply In_dget.
        -- injection H as E _. congruence.
        -- apply in_map_iff in H as ([c cs] & E & _). discriminate.
    + destruct (dget category (t_flat t)) as [cs|]; auto. destruct (dget name cs); eauto.
    + intros Hcne. rewrite HF. unfold list_configs, reports_all. destruct category as [|x xs]; [congruence|].
      rewrite Ec. destruct (dget (x :: xs) (t_flat t)) as [cs|].
      * split.
        -- intros (cs' & [= <-] & Hn). eexists. split; [reflexivity|]. exists (x :: xs), (dkeys cs). split; [now left|auto].
        -- intros (L1 & [= <-] & key & ns & [[= <- <-]|[]] & Hn). eauto.
      * split; [intros (cs' & E & _); discriminate|intros (L1 & E & _); discriminate].
Qed.

Lemma CONFIGS_wf : tables_wf CONFIGS.
Proof.
  split; [|split].
  - vm_compute. repeat constructor; intros H; repeat (destruct H as [H|H]; [discriminate|]); exact H.
  - vm_compute. intros H. repeat (destruct H as [H|H]; [discriminate|]). exact H.
  - vm_compute. intros H. repeat (destruct H as [H|H]; [discriminate|]). exact H.
Qed.

Example C73_listed_fetchable_example :
  tables_wf CONFIGS /\ (exists c, get_config CONFIGS (py "index") (py "lsh_fast") = Ok c) /\
  get_config CONFIGS (py "index") (py "small_dataset") = Raise EValue /\
  get_config CONFIGS (py "storage") (py "memory") = Raise EValue.
Proof. split; [apply CONFIGS_wf|]. split; [eexists; reflexivity|]. split; reflexivity. Qed.

(** ** C72: recommended configurations *)

(** The function raises ValueError for every argument: it asks [get_config] for a subcategory of
    the index table. *)
Theorem C72_always_raises num_vectors dimension use_case storage_type :
  get_recommended_config CONFIGS num_vectors dimension use_case storage_type = Raise EValue.
Proof.
  unfold get_recommended_config.
  assert (E : forall n, In n [py "small_dataset"; py "medium_dataset"; py "high_dimensional"; py "large_dataset"] ->
    get_config CONFIGS (py "index") n = Raise EValue).
  { intros n [<-|[<-|[<-|[<-|[]]]]]; vm_compute; reflexivity. }
  rewrite !E by (simpl; tauto). cbn [rbind].
  destruct (num_vectors <? 1000)%Z; [reflexivity|]. destruct (num_vectors <? 100000)%Z.
  - destruct (eqb use_case (py "speed")); [reflexivity|]. now destruct (eqb use_case (py "accuracy")).
  - now destruct (1000 <? dimension)%Z.
Qed.

Theorem C72_refuted : exists num_vectors dimension use_case storage_type, forall r,
  get_recommended_config CONFIGS num_vectors dimension use_case storage_type <> Ok r.
Proof.
  exists 500%Z, 128%Z, (py "balanced"), (py "memory"). intros r. rewrite C72_always_raises. discriminate.
Qed.

(** ** C74: the recommended index configuration *)

(** Each option of the configuration ends up in an attribute of the index, for whatever value
    is given to it. *)
Definition honours (attrs : conf -> conf) (c : conf) (key : pystr) : Prop :=
  exists attr, forall v, dget attr (attrs (dset key v c)) = Some v.

(** The attributes of an index type of the factory. *)
Definition attrs_of (index_type : pystr) : option (conf -> conf) :=
  dget index_type
    [(py "flat", flat_attrs); (py "hnsw", hnsw_attrs); (py "ivf", ivf_attrs); (py "lsh", lsh_attrs);
     (py "annoy", annoy_attrs)].

(** For every number of vectors, dimension and use case a configuration is returned from which
    the factory builds the index, and every option except "M" is honoured.  Missing from the
    full claim: see [C74_M_ignored_refuted]; and without a number of vectors the recommendation
    raises. *)
Theorem C74_recommendation_partial n d use_case :
  exists index_type c attrs,
    get_recommended_index_config (Some n) (Some d) use_case = Ok (index_type, c) /\
    attrs_of index_type = Some attrs /\ create_index index_type c = Ok (attrs c) /\
    (forall key v, In (key, v) c -> key <> py "M" ->
       honours attrs c key /\ exists attr, dget attr (attrs c) = Some v) /\
    (index_type = py "ivf" -> dget (py "n_clusters") c = Some (PInt 1000) /\ (100000 <= n)%Z).
Proof.
  unfold get_recommended_index_config.
  assert (HD : forall (attrs : conf -> conf) (c : conf) (l : list string),
    (forall key v, In (key, v) c -> key <> py "M" -> In key (map py l)) ->
    (forall s, In s l -> (forall v, dget (py s) (attrs (dset (py s) v c)) = Some v) /\
                         dget (py s) (attrs c) = dget (py s) c) ->
    NoDup (dkeys c) ->
    forall key v, In (key, v) c -> key <> py "M" -> honours attrs c key /\ exists attr, dget attr (attrs c) = Some v).
  { intros attrs c l H1 H2 HN key v Hin Hk. pose proof (H1 key v Hin Hk) as Hl.
    apply in_map_iff in Hl as (s & <- & Hs). destruct (H2 s Hs) as [A B]. split.
    - now exists (py s).
    - exists (py s). rewrite B. now apply In_dget. }
  assert (ND : forall c : conf, nodupb (dkeys c) = true -> NoDup (dkeys c)) by (intros; now apply nodupb_spec).
  destruct (Z.ltb_spec n 1000) as [H1|H1].
  { do 3 eexists. split; [reflexivity|]. split; [reflexivity|]. split; [vm_compute; reflexivity|]. split; [|discriminate].
    apply HD with ["metric"%string].
    - intros key v [[= <- _]|[]] _. now left.
    - intros s [<-|[]]. split; [intros v|]; vm_compute; reflexivity.
    - apply ND. reflexivity. }
  destruct (Z.ltb_spec n 100000) as [H2|H2].
  { assert (HA : forall t, exists index_type c attrs,
      Ok (py "annoy", cfg [("metric", pstr "angular"); ("num_trees", PInt (Z.pos t)); ("search_k", PInt (-1))]) = Ok (index_type, c) /\
      attrs_of index_type = Some attrs /\ create_index index_type c = Ok (attrs c) /\
      (forall key v, In (key, v) c -> key <> py "M" ->
         honours attrs c key /\ exists attr, dget attr (attrs c) = Some v) /\
      (index_type = py "ivf" -> dget (py "n_clusters") c = Some (PInt 1000) /\ (100000 <= n)%Z)).
    { intros t. do 3 eexists. split; [reflexivity|]. split; [reflexivity|]. split; [vm_compute; reflexivity|]. split; [|discriminate].
      apply HD with ["metric"; "num_trees"; "search_k"]%string.
      - intros key v [[= <- _]|[[= <- _]|[[= <- _]|[]]]] _; simpl; auto.
      - intros s [<-|[<-|[<-|[]]]]; (split; [intros v|]; vm_compute; reflexivity).
      - apply ND. reflexivity. }
    destruct (eqb use_case (py "speed")); [apply HA|].
    destruct (eqb use_case (py "accuracy")); [|apply HA].
    do 3 eexists. split; [reflexivity|]. split; [reflexivity|]. split; [vm_compute; reflexivity|]. split; [|discriminate].
    apply HD with ["metric"; "ef_construction"; "ef_search"]%string.
    - intros key v [[= <- _]|[[= <- _]|[[= <- _]|[[= <- _]|[]]]]] Hk; simpl; auto.
    - intros s [<-|[<-|[<-|[]]]]; (split; [intros v|]; vm_compute; reflexivity).
    - apply ND. reflexivity. }
  destruct (1000 <? d)%Z.
  - do 3 eexists. split; [reflexivity|]. split; [reflexivity|]. split; [vm_compute; reflexivity|]. split; [|discriminate].
    apply HD with ["metric"; "num_hash_tables"; "hash_size"; "num_projections"; "threshold"]%string.
    + intros key v [[= <- _]|[[= <- _]|[[= <- _]|[[= <- _]|[[= <- _]|[]]]]]] _; simpl; auto 10.
    + intros s [<-|[<-|[<-|[<-|[<-|[]]]]]]; (split; [intros v|]; vm_compute; reflexivity).
    + apply ND. reflexivity.
  - assert (E : Z.min 1000 (n / 100) = 1000%Z).
    { apply Z.min_l. apply Z.div_le_lower_bound; lia. }
    rewrite E. do 3 eexists. split; [reflexivity|]. split; [reflexivity|]. split; [vm_compute; reflexivity|].
    split; [|intros _; split; [reflexivity|lia]].
    apply HD with ["metric"; "n_clusters"; "n_probes"]%string.
    + intros key v [[= <- _]|[[= <- _]|[[= <- _]|[]]]] _; simpl; auto.
    + intros s [<-|[<-|[<-|[]]]]; (split; [intros v|]; vm_compute; reflexivity).
    + apply ND. reflexivity.
Qed.

(** The option "M" recommended for HNSW changes nothing, and without a number of vectors there is
    no recommendation. *)
Theorem C74_M_ignored_refuted :
  (exists n d use_case c, get_recommended_index_config (Some n) (Some d) use_case = Ok (py "hnsw", c) /\
     In (py "M") (dkeys c) /\ forall v, create_index (py "hnsw") (dset (py "M") v c) = create_index (py "hnsw") c) /\
  create_vector_db None None (py "balanced") None (py "memory") None = Raise EType.
Proof.
  split; [|reflexivity]. exists 5000%Z, 128%Z, (py "accuracy").
  eexists. split; [vm_compute; reflexivity|]. split; [vm_compute; auto|]. intros v. vm_compute. reflexivity.
Qed.

Example C74_recommendation_example :
  exists c, get_recommended_index_config (Some 250000%Z) (Some 64%Z) (py "balanced") = Ok (py "ivf", c) /\
    dget (py "n_clusters") c = Some (PInt 1000).
Proof. eexists. split; vm_compute; reflexivity. Qed.

(** Literal equality of the plain values in configurations. *)
Definition same_val (a b : pyval) : bool :=
  match a, b with
  | PInt x, PInt y => Z.eqb x y
  | PStr x, PStr y => eqb x y
  | PFloat (FFin (Qmake x p)), PFloat (FFin (Qmake y q)) => Z.eqb x y && Pos.eqb p q
  | _, _ => false
  end.

Lemma same_val_eq a b : same_val a b = true -> a = b.
Proof.
  destruct a as [| |x|[[x p]| |]|x| | | | |], b as [| |y|[[y q]| |]|y| | | | |]; simpl; try discriminate.
  - intros H. apply Z.eqb_eq in H. congruence.
  - intros H. apply andb_true_iff in H as [H1 H2]. apply Z.eqb_eq in H1. apply Pos.eqb_eq in H2. congruence.
  - intros H. apply (proj1 (eqb_eq _ _)) in H. congruence.
Qed.

(** ** C88: templates *)

(** [create_from_template] without overrides builds the parts of a client for exactly the names
    in the table, and every option of the template but HNSW's "M" becomes an attribute. *)
Theorem C88_templates name :
  (exists it st c attrs, In (name, (it, st, c)) TEMPLATES /\ create_from_template name = Ok attrs /\
     create_index it c = Ok attrs /\
     forall key v, In (key, v) c -> key <> py "M" -> dget key attrs = Some v) \/
  (~ In name (dkeys TEMPLATES) /\ create_from_template name = Raise EValue).
Proof.
  unfold create_from_template. destruct (dget name TEMPLATES) as [[[it st] c]|] eqn:E.
  - left. apply dget_Some_In in E. exists it, st, c.
    assert (HD : exists attrs, create_vector_db None None (py "balanced") (Some it) st (Some c) = Ok attrs /\
      create_index it c = Ok attrs /\
      forallb (fun kv => eqb (fst kv) (py "M") || match dget (fst kv) attrs with Some w => same_val w (snd kv) | None => false end) c = true).
    { unfold TEMPLATES in E.
      destruct E as [E|[E|[E|[E|[E|[E|[]]]]]]]; injection E as <- <- <- <-; eexists;
        (split; [vm_compute; reflexivity|split; vm_compute; reflexivity]). }
    destruct HD as (attrs & H1 & H2 & H3). exists attrs. split; [exact E|]. split; [exact H1|]. split; [exact H2|].
    intros key v Hin HM. rewrite forallb_forall in H3. specialize (H3 _ Hin). cbn [fst snd] in H3.
    apply orb_true_iff in H3 as [H3|H3]; [apply (proj1 (eqb_eq _ _)) in H3; congruence|].
    destruct (dget key attrs) as [w|]; [|discriminate]. f_equal. now apply same_val_eq.
  - right. split; auto. intros H. apply dget_In_keys in H. congruence.
Qed.

Example C88_templates_example :
  In (py "large_dataset") (dkeys TEMPLATES) /\ create_from_template (py "huge") = Raise EValue.
Proof. split; [vm_compute; tauto|reflexivity]. Qed.

Print Assumptions C72_always_raises.
Print Assumptions C72_refuted.
Print Assumptions C73_listed_fetchable.
Print Assumptions C74_recommendation_partial.
Print Assumptions C74_M_ignored_refuted.
Print Assumptions C88_templates.
