(** Model of [create_vectors_from_files] (/repo/src/valori/utils/helpers.py:64-119): a pipeline is
    made, every file goes through it, the embeddings become the rows of an array.  The pipeline is
    PipelineModel.v.  The warnings printed are left out. *)

From Coq Require Import String List Arith ZArith NArith Bool.
From Verif Require Import PyBase PyMore Num PyValue ChunkModel CleanModel BatchModel EmbedModel PipelineModel.
Import ListNotations.
Open Scope py_scope.

(** [pipeline_config]; helpers.py:83-93. *)
Definition files_config (embedding_model : pystr) : conf :=
  CTable
    [(py "parsers", CTable [(py "text", CTable [(py "chunk_size", CValue (PInt 1000))]);
                            (py "pdf", CTable [(py "chunk_size", CValue (PInt 1000))]);
                            (py "office", CTable [(py "chunk_size", CValue (PInt 1000))])]);
     (py "processors", CTable [(py "cleaning", CTable [(py "normalize_whitespace", CValue (PBool true))]);
                               (py "embedding", CTable [(py "model_name", CValue (PStr embedding_model))])])].

Section Files.
  Context {F : Type} `{Num F}.
  Context {Parser Path Meta : Type}.
  Context (build : parser_class -> conf -> result Parser).
  Context (can_parse : Parser -> Path -> result bool).
  Context (parse : Parser -> Path -> result (pdoc F Path Meta)).
  Context (class_name : Parser -> pystr).
  Context (lib : text_lib) (encode : pystr -> result (list F)) (md5 : pystr -> result pystr).
  Context (read_clean : conf -> result clean_config) (read_chunk : conf -> result chunk_config)
          (read_embed : conf -> result embed_config).

  (** One turn of the loop of helpers.py:101-111.  Every parser of the library puts "metadata"
      into its result, so reading it does not raise. *)
  Definition take_file (parser_name : option pystr) (file : Path) : M (pipeline F Parser) (list (list F * Meta)) :=
    try_except
      (r <- process_document can_parse parse class_name lib encode md5 file parser_name ;;
       ret (match x_embedding r with Some v => [(v, x_meta r)] | None => [] end))
      (fun _ => ret []).

  (** helpers.py:95-113: make, initialise, process, close. *)
  Definition gather (files : list Path) (parser_name : option pystr) : M (pipeline F Parser) (list (list F * Meta)) :=
    pipe_initialize build read_clean read_chunk read_embed ;;;
    parts <- mapM files (take_file parser_name) ;;
    pipe_close ;;;
    ret (concat parts).

  (** helpers.py:115-119.  [np.array([]).reshape(0, -1)] raises ValueError: no length fits the
      -1. *)
  Definition as_arrays (taken : list (list F * Meta)) : result (list (list F) * list Meta) :=
    match taken with
    | [] => Raise EValue
    | _ => rbind (np_array (map fst taken)) (fun vectors => Ok (vectors, map snd taken))
    end.

  (** The function for any pipeline configuration. *)
  Definition vectors_from_files (config : conf) (files : list Path) (parser_name : option pystr)
      : result (list (list F) * list Meta) :=
    rbind (fst (gather files parser_name (new_pipeline config))) as_arrays.

  (** [create_vectors_from_files]; helpers.py:64-119. *)
  Definition create_vectors_from_files (files : list Path) (parser_name : option pystr) (embedding_model : pystr)
      : result (list (list F) * list Meta) :=
    vectors_from_files (files_config embedding_model) files parser_name.
End Files.
