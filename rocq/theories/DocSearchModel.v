(** Model of the document search of /repo/examples/document_processing.py:172-251: documents go
    through a processing pipeline into a database, questions go through a second pipeline to a
    search.  The pipelines are PipelineModel.v, the database is ClientModel.v with any index. *)

From Coq Require Import String List Arith ZArith NArith Bool.
From Verif Require Import PyBase PyMore PyValue Num Payload StorageModel StorageSpec StorageRun ClientModel
  CleanModel ChunkModel BatchModel EmbedModel PipelineModel.
Import ListNotations.
Open Scope py_scope.

(** The metadata dictionary stored with a document. *)
Definition doc_meta : Type := dict pystr pyval.

Section DocSearch.
  Context {F : Type} `{Num F}.
  Context {Parser Path Meta : Type}.
  Context (can_parse : Parser -> Path -> result bool).
  Context (parse : Parser -> Path -> result (pdoc F Path Meta)).
  Context (class_name : Parser -> pystr).
  Context (lib : text_lib) (encode : pystr -> result (list F)) (md5 : pystr -> result pystr).
  (** [file_path.name] and [file_path.suffix]. *)
  Context (name_of suffix_of : Path -> pystr).
  (** The metadata [process_text] puts in when the caller gives none; pipeline.py:117-121. *)
  Context (no_meta : Meta).
  Context {X S Orc : Type} (C : storage_class S (list F) doc_meta) (IC : index_class X S F doc_meta Orc).

  (** The objects of the program: the pipeline for documents (main:264), the pipeline for
      questions (demonstrate_search:232) and the database (store_in_vector_db:179).  The example
      makes a new pipeline for its one question; here it is kept for all of them. *)
  Record desk : Type := MkDesk {
    k_docs : pipeline F Parser;
    k_query : pipeline F Parser;
    k_client : client X S
  }.

  Definition on_docs {A} : M (pipeline F Parser) A -> M desk A :=
    zoom k_docs (fun s w => MkDesk s (k_query w) (k_client w)).
  Definition on_query {A} : M (pipeline F Parser) A -> M desk A :=
    zoom k_query (fun s w => MkDesk (k_docs w) s (k_client w)).
  Definition on_client {A} : M (client X S) A -> M desk A :=
    zoom k_client (fun s w => MkDesk (k_docs w) (k_query w) s).

  (** [len(result.get(key, []))]; document_processing.py:199-200. *)
  Definition opt_len {A} (x : option (list A)) : Z :=
    match x with Some l => Z.of_nat (length l) | None => 0%Z end.

  (** The metadata made for a document; document_processing.py:196-204. *)
  Definition doc_metadata (file : Path) (r : pdoc F Path Meta) : doc_meta :=
    [(py "file_name", PStr (name_of file)); (py "file_type", PStr (suffix_of file));
     (py "text_length", PInt (opt_len (x_text r))); (py "num_chunks", PInt (opt_len (x_chunks r)));
     (py "parser_used", PStr (match x_pipeline r with
                              | Some m => match pm_parser m with Some n => n | None => py "unknown" end
                              | None => py "unknown"
                              end))].

  (** One turn of the loop of document_processing.py:186-211: a document that cannot be processed
      or inserted is skipped.  [o] and [id] are what [insert] draws. *)
  Definition store_document (o : Orc) (id : pystr) (file : Path) : M desk unit :=
    try_except
      (r <- on_docs (process_document can_parse parse class_name lib encode md5 file None) ;;
       match x_embedding r with
       | Some v =>
           _ <- on_client (cl_insert IC o (fun _ => id) (Mat [v]) (Some [Some (doc_metadata file r)])) ;;
           ret tt
       | None => ret tt
       end)
      (fun _ => ret tt).

  (** A question; document_processing.py:235-239. *)
  Definition ask (o : Orc) (text : pystr) (k : Z) : M desk (list (hit F doc_meta)) :=
    r <- on_query (process_text (Path := Path) lib encode md5 text no_meta) ;;
    match x_embedding r with
    | Some q => on_client (cl_search IC o (Vec q) k)
    | None => raise EKey
    end.

  (** What a user of the program does: documents and questions in any order.  A question that
      raises ends the example; here the user may go on. *)
  Inductive desk_op : Type :=
  | DStore (o : Orc) (id : pystr) (file : Path)
  | DAsk (o : Orc) (text : pystr) (k : Z).

  Definition desk_do (op : desk_op) (w : desk) : desk :=
    match op with
    | DStore o id file => snd (store_document o id file w)
    | DAsk o text k => snd (ask o text k w)
    end.
  Definition desk_after (ops : list desk_op) (w : desk) : desk := fold_left (fun w op => desk_do op w) ops w.

  (** Both pipelines are made and initialised, the database is made and initialised;
      document_processing.py:87-130, 177-180, 221-233. *)
  Definition open_desk (build : parser_class -> conf -> result Parser)
      (read_clean : conf -> result clean_config) (read_chunk : conf -> result chunk_config)
      (read_embed : conf -> result embed_config) (docs query : conf) (o : Orc) (s0 : S) : result desk :=
    let init c := let (r, s) := pipe_initialize build read_clean read_chunk read_embed (new_pipeline c) in
                  rbind r (fun _ => Ok s) in
    rbind (init docs) (fun sd =>
    rbind (init query) (fun sq =>
    let (r, c) := cl_initialize C IC o [] (MkClient (ix_new IC) s0 false) in
    rbind r (fun _ => Ok (MkDesk sd sq c)))).
End DocSearch.
Arguments desk : clear implicits.
