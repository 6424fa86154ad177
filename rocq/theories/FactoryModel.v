(** Model of the database constructors of /repo/src/valori/factory.py:66-268, 299-345 and of
    [create_vectors_from_text] (/repo/src/valori/utils/helpers.py:21-61).

    The choice of index and storage by name is [ConfigModel.create_vector_db]; the classes it
    names are parameters here, so one definition covers every combination.  [storage_config] and
    the caller's other keyword arguments, which nothing reads, are left out. *)

From Coq Require Import String List Arith ZArith NArith Bool.
From Verif Require Import PyBase PyMore PyValue Payload StorageModel StorageSpec StorageRun Num ClientModel
  ConfigModel.
Import ListNotations.
Local Open Scope string_scope.
Local Open Scope list_scope.
Open Scope py_scope.
Open Scope nat_scope.

(** The keyword arguments of the constructors that are read: [None] where the caller gives none.
    factory.py:21-28, 66-72, 138-143, 178-183, 216-220. *)
Record options : Type := MkOptions {
  o_index_type : option pystr;
  o_storage_type : option pystr;
  o_use_case : option pystr;
  o_num_vectors : option (option Z);
  o_dimension : option (option Z);
  o_index_config : option conf
}.

(** A caller who gives none. *)
Definition no_options : options := MkOptions None None None None None None.

(** [{"key": default, **kwargs}["key"]]; factory.py:116, 162-168, 200-206, 249-261. *)
Definition over {A} (given : option A) (default : A) : A :=
  match given with Some x => x | None => default end.

(** factory.py:254-259, 126-131: the options given to the graph index.  "M" is read by nothing
    (hnsw.py:30 reads "m"). *)
Definition hnsw_options : conf :=
  cfg [("metric", pstr "cosine"); ("M", PInt 16); ("ef_construction", PInt 200); ("ef_search", PInt 50)].

(** factory.py:120-124. *)
Definition annoy_options : conf :=
  cfg [("metric", pstr "angular"); ("num_trees", PInt 20); ("search_k", PInt (-1))].

(** The metric an index object was given; flat.py:28, hnsw.py:33, ivf.py:30. *)
Definition metric_of (attrs : conf) : metric :=
  match dget (py "metric") attrs with
  | Some (PStr s) =>
      if eqb s (py "cosine") then MCosine else if eqb s (py "euclidean") then MEuclidean else MOther
  | _ => MOther
  end.

(** An integer attribute of an index object; hnsw.py:30-32.  Anything else is shown as 0. *)
Definition int_attr (attrs : conf) (key : pystr) : Z :=
  match dget key attrs with Some v => match as_int v with Some z => z | None => 0%Z end | None => 0%Z end.

(** The metadata written for one text; helpers.py:46-54. *)
Definition text_metadata (model_name : pystr) (dim : nat) (text : pystr) : conf :=
  [(py "text", PStr text); (py "text_length", PInt (Z.of_nat (length text)));
   (py "model_used", PStr model_name); (py "embedding_dimension", PInt (Z.of_nat dim))].

Section Factory.
  Context {F : Type}.

  (** [array.shape[1]]; helpers.py:51, factory.py:165, 203, 252.  The shape of a one-dimensional
      array has no second entry.  The width of a matrix without rows is not visible and taken as
      0. *)
  Definition shape1 (a : ndarray F) : result nat :=
    match a with
    | Vec _ => Raise EIndexRange
    | Mat rows => Ok (match rows with [] => 0 | r :: _ => length r end)
    | Nd => Ok 0
    end.

  (** [len(array)]; factory.py:166, 204, 253. *)
  Definition len_of (a : ndarray F) : Z :=
    match a with Vec v => Z.of_nat (length v) | Mat rows => Z.of_nat (length rows) | Nd => 0%Z end.

  (** [array.astype(np.float32)]; helpers.py:56. *)
  Definition astype (cast : F -> F) (a : ndarray F) : ndarray F :=
    match a with Vec v => Vec (map cast v) | Mat rows => Mat (map (map cast) rows) | Nd => Nd end.

  (** Whether sentence_transformers can be imported, the named model's [encode], and the rounding
      to 32 bits; helpers.py:38-43, 56. *)
  Context (installed : bool) (encode : pystr -> list pystr -> result (ndarray F)) (cast : F -> F).

  (** [create_vectors_from_text]; helpers.py:21-61. *)
  Definition create_vectors_from_text (texts : list pystr) (model_name : pystr)
      : result (ndarray F * list conf) :=
    if negb installed then Raise EValidation
    else
      rbind (encode model_name texts) (fun vectors =>
      rbind (rmap (fun text => rbind (shape1 vectors) (fun dim =>
                               Ok (text_metadata model_name dim text))) texts) (fun metadata =>
      Ok (astype cast vectors, metadata))).

  (** What a constructor hands to the client: the attributes of the index, the vectors and their
      metadata. *)
  Definition plan : Type := (conf * ndarray F * list conf)%type.

  (** [create_semantic_search_db] up to the calls on the client; factory.py:156-170. *)
  Definition semantic_plan (texts : list pystr) (model_name : pystr) (o : options) : result plan :=
    rbind (create_vectors_from_text texts model_name) (fun vm =>
    let (vectors, metadata) := vm in
    rbind (shape1 vectors) (fun dim =>
    rbind (create_vector_db (over (o_num_vectors o) (Some (len_of vectors)))
                            (over (o_dimension o) (Some (Z.of_nat dim)))
                            (over (o_use_case o) (py "balanced"))
                            (Some (over (o_index_type o) (py "annoy")))
                            (over (o_storage_type o) (py "memory"))
                            (o_index_config o)) (fun attrs =>
    Ok (attrs, vectors, metadata)))).

  (** [doc["text"]]; factory.py:235.  A text that is not a string is refused by the model
      (shown as TypeError). *)
  Definition doc_text (doc : conf) : result pystr :=
    match dget (py "text") doc with
    | None => Raise EKey
    | Some (PStr s) => Ok s
    | Some _ => Raise EType
    end.

  (** [{k: v for k, v in doc.items() if k != "text"}]; factory.py:236. *)
  Definition doc_fields (doc : conf) : conf := filter (fun kv => negb (eqb (fst kv) (py "text"))) doc.

  (** [{**a, **b}]; factory.py:244. *)
  Definition merged (a b : conf) : conf := fold_left (fun d kv => dset (fst kv) (snd kv) d) b a.

  (** The loop of factory.py:242-246, from document [i] on. *)
  Fixpoint combined_metadata (i : nat) (text_metas doc_metas : list conf) : list conf :=
    match text_metas, doc_metas with
    | t :: ts, d :: ds =>
        dset (py "doc_id") (PInt (Z.of_nat i)) (merged t d) :: combined_metadata (1 + i) ts ds
    | _, _ => []
    end.

  (** [create_hybrid_search_db] up to the calls on the client; factory.py:232-263. *)
  Definition hybrid_plan (documents : list conf) (model_name : pystr) (o : options) : result plan :=
    rbind (rmap doc_text documents) (fun texts =>
    let metadata := map doc_fields documents in
    rbind (create_vectors_from_text texts model_name) (fun vm =>
    let (vectors, text_meta) := vm in
    let combined := combined_metadata 0 text_meta metadata in
    rbind (shape1 vectors) (fun dim =>
    rbind (create_vector_db (over (o_num_vectors o) (Some (len_of vectors)))
                            (over (o_dimension o) (Some (Z.of_nat dim)))
                            (over (o_use_case o) (py "balanced"))
                            (Some (over (o_index_type o) (py "hnsw")))
                            (over (o_storage_type o) (py "memory"))
                            (Some (over (o_index_config o) hnsw_options))) (fun attrs =>
    Ok (attrs, vectors, combined))))).

  (** Whether clip, torch and Pillow can be imported, and what opening, preprocessing and encoding
      one image answers, flattened; factory.py:305-326. *)
  Context (clip_installed : bool) (features : pystr -> result (list F)).

  (** The metadata of one image; factory.py:327-333. *)
  Definition image_metadata (i : nat) (path : pystr) : conf :=
    [(py "image_path", PStr path); (py "image_id", PInt (Z.of_nat i)); (py "extractor", pstr "clip")].

  (** The loop of factory.py:312-337, from image [i] on: an image that fails is skipped. *)
  Fixpoint image_rows (i : nat) (paths : list pystr) : list (list F * conf) :=
    match paths with
    | [] => []
    | path :: paths' =>
        match features path with
        | Ok row => (row, image_metadata i path) :: image_rows (1 + i) paths'
        | Raise _ => image_rows (1 + i) paths'
        end
    end.

  (** [np.array(vectors)] of rows of one length: without rows it is one-dimensional;
      factory.py:339. *)
  Definition np_rows (rows : list (list F)) : ndarray F :=
    match rows with [] => Vec [] | _ => Mat rows end.

  (** [_extract_image_features]; factory.py:299-345.  ImportError is shown as ValidationError. *)
  Definition extract_image_features (paths : list pystr) (extractor : pystr)
      : result (ndarray F * list conf) :=
    if eqb extractor (py "clip") then
      if negb clip_installed then Raise EValidation
      else Ok (np_rows (map fst (image_rows 0 paths)), map snd (image_rows 0 paths))
    else Raise EValue.

  (** [create_image_search_db] up to the calls on the client; factory.py:196-208. *)
  Definition image_plan (paths : list pystr) (extractor : pystr) (o : options) : result plan :=
    rbind (extract_image_features paths extractor) (fun vm =>
    let (vectors, metadata) := vm in
    rbind (shape1 vectors) (fun dim =>
    rbind (create_vector_db (over (o_num_vectors o) (Some (len_of vectors)))
                            (over (o_dimension o) (Some (Z.of_nat dim)))
                            (over (o_use_case o) (py "balanced"))
                            (Some (over (o_index_type o) (py "hnsw")))
                            (over (o_storage_type o) (py "memory"))
                            (o_index_config o)) (fun attrs =>
    Ok (attrs, vectors, metadata)))).

  (** [create_document_db], the index it makes; factory.py:115-133.  The pipeline before it is
      [PipelineModel]. *)
  Definition document_attrs (o : options) : result conf :=
    let index_type := over (o_index_type o) (py "annoy") in
    let index_config :=
      if eqb index_type (py "annoy") then Some annoy_options
      else if eqb index_type (py "hnsw") then Some hnsw_options
      else o_index_config o in
    create_vector_db (over (o_num_vectors o) None) (over (o_dimension o) None)
                     (over (o_use_case o) (py "balanced")) (Some index_type)
                     (over (o_storage_type o) (py "memory")) index_config.

  Section Client.
    Context {X S Orc : Type} (C : storage_class S (list F) conf)
            (IC : conf -> index_class X S F conf Orc).

    (** The calls on the client: [initialize] inside [create_vector_db], then [insert];
        factory.py:60-61, 170-173, 208-211, 263-266.  [IC attrs] is the class of the index made
        with the attributes [attrs]; [o] and [o'] are what the two calls draw, [fresh] the uuids. *)
    Definition build_db (p : result plan) (o o' : Orc) (fresh : nat -> pystr) (s0 : S)
        : result (client X S) :=
      rbind p (fun p =>
        let '(attrs, vectors, metadata) := p in
        let (r, c) := (cl_initialize C (IC attrs) o [] ;;;
                       cl_insert (IC attrs) o' fresh vectors (Some (map Some metadata)))
                      (MkClient (ix_new (IC attrs)) s0 false) in
        rbind r (fun _ => Ok c)).
  End Client.
End Factory.
