(** Model of configs.py, of the recommendation in utils/helpers.py and of what the index
    constructors read from a configuration. *)

From Coq Require Import String List Arith ZArith NArith QArith Bool.
From Verif Require Import PyBase PyMore PyValue.
Import ListNotations.
Local Open Scope string_scope.
Local Open Scope list_scope.
Open Scope nat_scope.

(** A configuration: option names and values. *)
Definition conf : Type := dict pystr pyval.

(** A literal string value; a literal integer. *)
Definition pstr (s : string) : pyval := PStr (py s).
Definition cfg (l : list (string * pyval)) : conf := map (fun kv => (py (fst kv), snd kv)) l.
Arguments cfg l%string_scope.
Arguments pstr s%string_scope.

(** ** Tables *)

(** The tables behind [get_config]: the "index" category is nested one level deeper than the
    others. *)
Record tables : Type := MkTables {
  t_index : dict pystr (dict pystr conf);
  t_flat : dict pystr (dict pystr conf)
}.

(** configs.py:11-95 without the descriptions. *)
Definition INDEX_CONFIGS : dict pystr (dict pystr conf) :=
  [(py "small_dataset", [(py "flat", cfg [("metric", pstr "cosine")])]);
   (py "medium_dataset",
    [(py "annoy_fast", cfg [("metric", pstr "angular"); ("num_trees", PInt 10); ("search_k", PInt 50)]);
     (py "annoy_accurate", cfg [("metric", pstr "angular"); ("num_trees", PInt 50); ("search_k", PInt 200)]);
     (py "hnsw_balanced", cfg [("metric", pstr "cosine"); ("M", PInt 16); ("ef_construction", PInt 200);
                               ("ef_search", PInt 50)])]);
   (py "large_dataset",
    [(py "ivf_efficient", cfg [("metric", pstr "cosine"); ("n_clusters", PInt 1000); ("n_probes", PInt 10)]);
     (py "ivf_fast", cfg [("metric", pstr "cosine"); ("n_clusters", PInt 500); ("n_probes", PInt 5)])]);
   (py "high_dimensional",
    [(py "lsh_balanced", cfg [("metric", pstr "cosine"); ("num_hash_tables", PInt 15); ("hash_size", PInt 20);
                              ("num_projections", PInt 100); ("threshold", PFloat (FFin (3 # 10)))]);
     (py "lsh_precise", cfg [("metric", pstr "cosine"); ("num_hash_tables", PInt 20); ("hash_size", PInt 25);
                             ("num_projections", PInt 150); ("threshold", PFloat (FFin (5 # 10)))]);
     (py "lsh_fast", cfg [("metric", pstr "cosine"); ("num_hash_tables", PInt 5); ("hash_size", PInt 10);
                          ("num_projections", PInt 50); ("threshold", PFloat (FFin (1 # 10)))])]);
   (py "real_time",
    [(py "annoy_minimal", cfg [("metric", pstr "angular"); ("num_trees", PInt 5); ("search_k", PInt 10)]);
     (py "hnsw_fast", cfg [("metric", pstr "cosine"); ("M", PInt 8); ("ef_construction", PInt 100);
                           ("ef_search", PInt 20)])])].

(** configs.py:98-118; the nested "config" dictionaries are left out. *)
Definition STORAGE_CONFIGS : dict pystr conf :=
  [(py "memory_only", cfg [("type", pstr "memory")]); (py "disk_only", cfg [("type", pstr "disk")]);
   (py "hybrid", cfg [("type", pstr "hybrid")])].

(** configs.py:121-255; only the names are modelled. *)
Definition DOCUMENT_CONFIGS : dict pystr conf :=
  [(py "text_processing", []); (py "pdf_processing", []); (py "office_processing", []);
   (py "advanced_processing", [])].

(** configs.py:258-294; the domain-specific models are left out. *)
Definition EMBEDDING_CONFIGS : dict pystr conf :=
  [(py "fast_small", cfg [("dimension", PInt 384)]); (py "balanced", cfg [("dimension", PInt 768)]);
   (py "high_quality", cfg [("dimension", PInt 384)]); (py "multilingual", cfg [("dimension", PInt 384)]);
   (py "domain_specific", [])].

(** configs.py:297-337; only the names are modelled. *)
Definition APPLICATION_CONFIGS : dict pystr conf :=
  [(py "semantic_search", []); (py "document_retrieval", []); (py "real_time_chat", []);
   (py "research_papers", []); (py "enterprise_search", []); (py "multilingual_search", [])].

(** configs.py:340-362; only the names are modelled. *)
Definition PERFORMANCE_CONFIGS : dict pystr conf :=
  [(py "cpu_optimized", []); (py "memory_optimized", []); (py "speed_optimized", []);
   (py "balanced", [])].

(** The [config_map] of configs.py:374-381 and 412-419. *)
Definition CONFIGS : tables :=
  MkTables INDEX_CONFIGS
    [(py "storage", STORAGE_CONFIGS); (py "document", DOCUMENT_CONFIGS);
     (py "embedding", EMBEDDING_CONFIGS); (py "application", APPLICATION_CONFIGS);
     (py "performance", PERFORMANCE_CONFIGS)].

(** The loop of configs.py:389-392. *)
Fixpoint find_nested (t : dict pystr (dict pystr conf)) (name : pystr) : option conf :=
  match t with
  | [] => None
  | (_, configs) :: t' =>
      match dget name configs with
      | Some c => Some c
      | None => find_nested t' name
      end
  end.

(** configs.py:363-398. *)
Definition get_config (t : tables) (category name : pystr) : result conf :=
  if eqb category (py "index") then
    match find_nested (t_index t) name with Some c => Ok c | None => Raise EValue end
  else
    match dget category (t_flat t) with
    | None => Raise EValue
    | Some configs => match dget name configs with Some c => Ok c | None => Raise EValue end
    end.

(** What [list_configs] puts under a key: names, or names by subcategory. *)
Inductive listing : Type :=
| LNames (l : list pystr)
| LNested (d : dict pystr (list pystr)).

(** The names by subcategory. *)
Definition nested_names (t : dict pystr (dict pystr conf)) : dict pystr (list pystr) :=
  map (fun sc => (fst sc, dkeys (snd sc))) t.

(** configs.py:401-442.  The order of the categories is that of the code. *)
Definition list_configs (t : tables) (category : option pystr) : result (dict pystr listing) :=
  match category with
  | Some (c :: cs) =>
      if eqb (c :: cs) (py "index") then
        Ok (map (fun sn => (fst sn, LNames (snd sn))) (nested_names (t_index t)))
      else
        match dget (c :: cs) (t_flat t) with
        | None => Raise EValue
        | Some configs => Ok [(c :: cs, LNames (dkeys configs))]
        end
  | _ =>
      Ok ((py "index", LNested (nested_names (t_index t))) ::
          map (fun cc => (fst cc, LNames (dkeys (snd cc)))) (t_flat t))
  end.

(** [d[k]]. *)
Definition conf_item (c : conf) (k : pystr) : result pyval :=
  match dget k c with Some v => Ok v | None => Raise EKey end.

(** configs.py:445-511.  The values of the inner dictionaries are configurations in the code;
    since [get_config] returns one level too deep, the item access would be on options here. *)
Definition get_recommended_config (t : tables) (num_vectors dimension : Z) (use_case storage_type : pystr) :
    result (pystr * conf * conf) :=
  rbind
    (if (num_vectors <? 1000)%Z then
       rbind (get_config t (py "index") (py "small_dataset")) (fun _ => Ok (py "flat"))
     else if (num_vectors <? 100000)%Z then
       if eqb use_case (py "speed") then
         rbind (get_config t (py "index") (py "medium_dataset")) (fun c =>
         rbind (conf_item c (py "annoy_fast")) (fun _ => Ok (py "annoy")))
       else if eqb use_case (py "accuracy") then
         rbind (get_config t (py "index") (py "medium_dataset")) (fun c =>
         rbind (conf_item c (py "hnsw_balanced")) (fun _ => Ok (py "hnsw")))
       else
         rbind (get_config t (py "index") (py "medium_dataset")) (fun c =>
         rbind (conf_item c (py "annoy_fast")) (fun _ => Ok (py "annoy")))
     else if (1000 <? dimension)%Z then
       rbind (get_config t (py "index") (py "high_dimensional")) (fun c =>
       rbind (conf_item c (py "lsh_balanced")) (fun _ => Ok (py "lsh")))
     else
       rbind (get_config t (py "index") (py "large_dataset")) (fun c =>
       rbind (conf_item c (py "ivf_efficient")) (fun _ => Ok (py "ivf"))))
    (fun index_name =>
     rbind (get_config t (py "storage") storage_type) (fun storage =>
     rbind (if (dimension <=? 384)%Z then get_config t (py "embedding") (py "fast_small")
            else if (dimension <=? 768)%Z then get_config t (py "embedding") (py "balanced")
            else get_config t (py "embedding") (py "high_quality")) (fun embedding =>
     Ok (index_name, storage, embedding)))).

(** ** utils/helpers.py *)

(** helpers.py:372-435; [None] is the default that [create_vector_db] passes on. *)
Definition get_recommended_index_config (num_vectors dimension : option Z) (use_case : pystr) :
    result (pystr * conf) :=
  match num_vectors with
  | None => Raise EType
  | Some n =>
      if (n <? 1000)%Z then Ok (py "flat", cfg [("metric", pstr "cosine")])
      else if (n <? 100000)%Z then
        if eqb use_case (py "speed") then
          Ok (py "annoy", cfg [("metric", pstr "angular"); ("num_trees", PInt 10); ("search_k", PInt (-1))])
        else if eqb use_case (py "accuracy") then
          Ok (py "hnsw", cfg [("metric", pstr "cosine"); ("M", PInt 16); ("ef_construction", PInt 200);
                              ("ef_search", PInt 50)])
        else
          Ok (py "annoy", cfg [("metric", pstr "angular"); ("num_trees", PInt 20); ("search_k", PInt (-1))])
      else
        match dimension with
        | None => Raise EType
        | Some d =>
            if (1000 <? d)%Z then
              Ok (py "lsh", cfg [("metric", pstr "cosine"); ("num_hash_tables", PInt 15);
                                 ("hash_size", PInt 20); ("num_projections", PInt 100);
                                 ("threshold", PFloat (FFin (3 # 10)))])
            else
              Ok (py "ivf", cfg [("metric", pstr "cosine"); ("n_clusters", PInt (Z.min 1000 (n / 100)));
                                 ("n_probes", PInt 10)])
        end
  end.

(** ** Index constructors *)

(** [config.get(key, default)]. *)
Definition opt (c : conf) (key : string) (default : pyval) : pyval :=
  match dget (py key) c with Some v => v | None => default end.
Arguments opt c key%string_scope default.

(** The attributes each constructor sets from the configuration: flat.py:28, hnsw.py:30-33,
    ivf.py:28-30, lsh.py:32-37, annoy.py:31-37. *)
Definition flat_attrs (c : conf) : conf := cfg [("metric", opt c "metric" (pstr "cosine"))].
Definition hnsw_attrs (c : conf) : conf :=
  cfg [("m", opt c "m" (PInt 16)); ("ef_construction", opt c "ef_construction" (PInt 200));
       ("ef_search", opt c "ef_search" (PInt 50)); ("metric", opt c "metric" (pstr "cosine"))].
Definition ivf_attrs (c : conf) : conf :=
  cfg [("n_clusters", opt c "n_clusters" (PInt 100)); ("n_probes", opt c "n_probes" (PInt 10));
       ("metric", opt c "metric" (pstr "cosine"))].
Definition lsh_attrs (c : conf) : conf :=
  cfg [("metric", opt c "metric" (pstr "cosine")); ("num_hash_tables", opt c "num_hash_tables" (PInt 10));
       ("hash_size", opt c "hash_size" (PInt 16)); ("num_projections", opt c "num_projections" (PInt 64));
       ("random_seed", opt c "random_seed" (PInt 42)); ("threshold", opt c "threshold" (PFloat (FFin (1 # 2))))].
Definition annoy_attrs (c : conf) : conf :=
  cfg [("num_trees", opt c "num_trees" (PInt 10)); ("metric", opt c "metric" (pstr "angular"));
       ("search_k", opt c "search_k" (PInt (-1))); ("build_on_disk", opt c "build_on_disk" (PBool false));
       ("random_seed", opt c "random_seed" (PInt 42))].

(** An attribute that the constructor requires to be positive; the comparison raises TypeError
    for anything but a number. *)
Definition positive (v : pyval) : result unit :=
  match as_float v with
  | Some x => if flt (FFin 0) x || is_nan x then Ok tt else Raise EIndex
  | None => Raise EType
  end.

(** annoy.py:43. *)
Definition annoy_metrics : list pystr :=
  [py "angular"; py "euclidean"; py "manhattan"; py "hamming"; py "dot"].

(** factory.py:271-284 with the checks of lsh.py:40-45 and annoy.py:40-44 (a missing annoy
    library is not modelled); the result is the attributes. *)
Definition create_index (index_type : pystr) (c : conf) : result conf :=
  if eqb index_type (py "flat") then Ok (flat_attrs c)
  else if eqb index_type (py "hnsw") then Ok (hnsw_attrs c)
  else if eqb index_type (py "ivf") then Ok (ivf_attrs c)
  else if eqb index_type (py "lsh") then
    rbind (positive (opt c "num_hash_tables" (PInt 10))) (fun _ =>
    rbind (positive (opt c "hash_size" (PInt 16))) (fun _ =>
    rbind (positive (opt c "num_projections" (PInt 64))) (fun _ => Ok (lsh_attrs c))))
  else if eqb index_type (py "annoy") then
    rbind (positive (opt c "num_trees" (PInt 10))) (fun _ =>
    match opt c "metric" (pstr "angular") with
    | PStr m => if memb m annoy_metrics then Ok (annoy_attrs c) else Raise EIndex
    | _ => Raise EIndex
    end)
  else Raise EValue.

(** factory.py:287-296. *)
Definition create_storage (storage_type : pystr) : result unit :=
  if eqb storage_type (py "memory") || eqb storage_type (py "disk") || eqb storage_type (py "hybrid")
  then Ok tt else Raise EValue.

(** factory.py:21-63, up to the construction of the parts; [index_config] is
    [kwargs["index_config"]]. *)
Definition create_vector_db (num_vectors dimension : option Z) (use_case : pystr)
    (index_type : option pystr) (storage_type : pystr) (index_config : option conf) : result conf :=
  rbind
    (match index_type with
     | Some (x :: xs) => Ok (x :: xs, match index_config with Some c => c | None => [] end)
     | _ => get_recommended_index_config num_vectors dimension use_case
     end)
    (fun tc =>
     rbind (create_index (fst tc) (snd tc)) (fun attrs =>
     rbind (create_storage storage_type) (fun _ => Ok attrs))).

(** factory.py:349-388 and 390-411: a template, without overrides. *)
Definition TEMPLATES : dict pystr (pystr * pystr * conf) :=
  [(py "small_dataset", (py "flat", py "memory", []));
   (py "medium_dataset", (py "annoy", py "memory",
      cfg [("metric", pstr "angular"); ("num_trees", PInt 10); ("search_k", PInt (-1))]));
   (py "large_dataset", (py "ivf", py "disk",
      cfg [("metric", pstr "cosine"); ("n_clusters", PInt 1000); ("n_probes", PInt 10)]));
   (py "high_dimensional", (py "lsh", py "memory",
      cfg [("metric", pstr "cosine"); ("num_hash_tables", PInt 15); ("hash_size", PInt 20);
           ("num_projections", PInt 100); ("threshold", PFloat (FFin (3 # 10)))]));
   (py "real_time_search", (py "annoy", py "memory",
      cfg [("metric", pstr "angular"); ("num_trees", PInt 5); ("search_k", PInt 10)]));
   (py "document_search", (py "hnsw", py "memory",
      cfg [("metric", pstr "cosine"); ("M", PInt 16); ("ef_construction", PInt 200); ("ef_search", PInt 50)]))].

Definition create_from_template (name : pystr) : result conf :=
  match dget name TEMPLATES with
  | None => Raise EValue
  | Some (it, st, c) =>
      create_vector_db None None (py "balanced") (Some it) st (Some c)
  end.
