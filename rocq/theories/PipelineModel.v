(** Model of /repo/src/valori/parsers/registry.py ([ParserRegistry]) and
    /repo/src/valori/processors/pipeline.py ([ProcessingPipeline]) with the three processors of
    CleanModel.v, ChunkModel.v and EmbedModel.v inside.

    Parsers are opaque objects: what building one does, which files it takes and what it makes of
    a file are arguments.  The file system does not change while the pipeline works. *)

From Coq Require Import String List Arith ZArith NArith Bool.
From Verif Require Import PyBase PyMore Num PyValue ChunkModel CleanModel BatchModel EmbedModel.
Import ListNotations.
Open Scope py_scope.

(** A configuration: a dictionary with string keys or any other value. *)
Inductive conf : Type :=
| CTable (d : list (pystr * conf))
| CValue (v : pyval).

(** [c.get(key, {})]; only dictionaries have [get]. *)
Definition conf_get (c : conf) (key : pystr) : result conf :=
  match c with
  | CTable d => Ok (match dget key d with Some x => x | None => CTable [] end)
  | CValue _ => Raise EAttr
  end.

(** [c.items()]. *)
Definition conf_items (c : conf) : result (list (pystr * conf)) :=
  match c with CTable d => Ok d | CValue _ => Raise EAttr end.

(** [key in c] and [c[key]] for the string keys of pipeline.py:41-56; a value that is not a
    dictionary raises or does not contain the key, and is then used as if empty. *)
Definition conf_entry (c : conf) (key : pystr) : option conf :=
  match c with CTable d => dget key d | CValue _ => None end.

(** registry.py:30-35: the classes known by name, and classes of the user's own. *)
Inductive parser_class : Type := ClsText | ClsPdf | ClsOffice | ClsDocling | ClsUser (n : N).

Definition builtin_classes : dict pystr parser_class :=
  [(py "text", ClsText); (py "pdf", ClsPdf); (py "office", ClsOffice); (py "docling", ClsDocling)].

(** [self.parser_priorities.get(parser_name, 0)]; registry.py:38-43 and 93. *)
Definition priority (name : pystr) : Z :=
  match dget name [(py "text", 1); (py "pdf", 2); (py "office", 3); (py "docling", 4)]%Z with
  | Some p => p
  | None => 0%Z
  end.

Section Registry.
  Context {Parser Path Doc : Type}.

  (** [cls(config)] followed by [initialize()]. *)
  Context (build : parser_class -> conf -> result Parser).
  (** [parser.can_parse(file_path)]. *)
  Context (can_parse : Parser -> Path -> result bool).
  (** [parser.parse(file_path)]. *)
  Context (parse : Parser -> Path -> result Doc).
  (** [parser.get_supported_formats()]. *)
  Context (formats : Parser -> list pystr).

  (** The fields of [ParserRegistry]; registry.py:26-45. *)
  Record registry : Type := MkReg {
    g_config : conf;
    g_parsers : dict pystr Parser;
    g_classes : dict pystr parser_class;
    g_ready : bool
  }.

  (** [__init__]. *)
  Definition new_registry (config : conf) : registry := MkReg config [] builtin_classes false.

  Definition set_parsers (ps : dict pystr Parser) (s : registry) : registry :=
    MkReg (g_config s) ps (g_classes s) (g_ready s).
  Definition set_classes (cs : dict pystr parser_class) (s : registry) : registry :=
    MkReg (g_config s) (g_parsers s) cs (g_ready s).
  Definition set_reg_ready (b : bool) (s : registry) : registry :=
    MkReg (g_config s) (g_parsers s) (g_classes s) b.

  (** One turn of the loop of registry.py:50-58. *)
  Definition register (item : pystr * conf) : M registry unit :=
    s <- get ;;
    match dget (fst item) (g_classes s) with
    | None => ret tt
    | Some cls =>
        match build cls (snd item) with
        | Ok p => modify (fun s => set_parsers (dset (fst item) p (g_parsers s)) s)
        | Raise _ => ret tt
        end
    end.

  (** [initialize]; registry.py:47-60. *)
  Definition reg_initialize : M registry unit :=
    s <- get ;;
    inner <- lift (conf_get (g_config s) (py "parsers")) ;;
    items <- lift (conf_items inner) ;;
    forM items register ;;;
    modify (set_reg_ready true).

  (** The loop of registry.py:91-94. *)
  Fixpoint suitable (ps : list (pystr * Parser)) (file : Path) : result (list (Z * (pystr * Parser))) :=
    match ps with
    | [] => Ok []
    | (name, p) :: r =>
        rbind (can_parse p file) (fun able =>
        rbind (suitable r file) (fun rest =>
        Ok (if able then (priority name, (name, p)) :: rest else rest)))
    end.

  (** [suitable_parsers.sort(key=lambda x: x[0], reverse=True)]: descending, equal keys in their
      old order. *)
  Fixpoint insert_desc {A} (x : Z * A) (l : list (Z * A)) : list (Z * A) :=
    match l with
    | [] => [x]
    | y :: r => if (fst y <=? fst x)%Z then x :: l else y :: insert_desc x r
    end.
  Definition sort_desc {A} (l : list (Z * A)) : list (Z * A) := fold_right insert_desc [] l.

  (** [get_parser]; registry.py:62-103.  The empty name counts as no name. *)
  Definition get_parser (s : registry) (file : Path) (name : option pystr) : result Parser :=
    if negb (g_ready s) then Raise EParsing
    else match name with
         | Some ((_ :: _) as n) =>
             match dget n (g_parsers s) with Some p => Ok p | None => Raise EParsing end
         | _ =>
             rbind (suitable (g_parsers s) file) (fun l =>
             match sort_desc l with
             | [] => Raise EParsing
             | (_, (_, p)) :: _ => Ok p
             end)
         end.

  (** [parse_document]; registry.py:105-119. *)
  Definition parse_document (s : registry) (file : Path) (name : option pystr) : result Doc :=
    rbind (get_parser s file name) (fun p => parse p file).

  (** [get_supported_formats]; registry.py:121-130, as a set. *)
  Definition reg_formats (s : registry) : list pystr :=
    if negb (g_ready s) then [] else concat (map (fun e => formats (snd e)) (g_parsers s)).

  (** [add_parser]; registry.py:160-177. *)
  Definition add_parser (name : pystr) (cls : parser_class) (config : conf) : M registry unit :=
    wrap EParsing (
      p <- lift (build cls config) ;;
      modify (fun s => set_parsers (dset name p (g_parsers s)) s) ;;;
      modify (fun s => set_classes (dset name cls (g_classes s)) s)).

  (** [remove_parser]; registry.py:179-192. *)
  Definition remove_parser (name : pystr) : M registry unit :=
    modify (fun s => if dmem name (g_parsers s) then set_parsers (ddel name (g_parsers s)) s else s) ;;;
    modify (fun s => if dmem name (g_classes s) then set_classes (ddel name (g_classes s)) s else s).

  (** [close]; registry.py:194-200. *)
  Definition reg_close : M registry unit :=
    modify (set_parsers []) ;;; modify (set_reg_ready false).
End Registry.
Arguments registry Parser : clear implicits.

(** What [process_document] and [process_text] add; pipeline.py:88-93 and 129-133. *)
Record pipe_meta (Path : Type) : Type := MkMeta {
  pm_file : option Path;        (* None: input_type raw_text *)
  pm_parser : option pystr;
  pm_processors : list pystr
}.
Arguments MkMeta {Path} pm_file pm_parser pm_processors.
Arguments pm_file {Path} p.
Arguments pm_parser {Path} p.
Arguments pm_processors {Path} p.

Section Pipeline.
  Context {F : Type} `{Num F}.
  Context {Parser Path Meta : Type}.

  (** A document's data.  [x_meta] stands for the entries no processor looks at (metadata,
      structure).  Embeddings are the values at the time the document was processed; what sharing
      them with the cache leads to is in EmbedModel.v. *)
  Record pdoc : Type := MkPDoc {
    x_text : option pystr;
    x_chunks : option (list chunk);
    x_embedding : option (list F);
    x_chunk_embeddings : option (list (list F));
    x_meta : Meta;
    x_pipeline : option (pipe_meta Path)
  }.

  Context (build : parser_class -> conf -> result Parser).
  Context (can_parse : Parser -> Path -> result bool).
  Context (parse : Parser -> Path -> result pdoc).
  (** [parser.__class__.__name__]. *)
  Context (class_name : Parser -> pystr).
  (** Python's string functions, the neural model and the hash. *)
  Context (lib : text_lib) (encode : pystr -> result (list F)) (md5 : pystr -> result pystr).
  (** The constructors of the processors read their options; cleaning.py:22-41, chunking.py:22-37,
      embedding.py:22-40. *)
  Context (read_clean : conf -> result clean_config).
  Context (read_chunk : conf -> result chunk_config).
  Context (read_embed : conf -> result embed_config).

  (** The processor objects; an embedding processor has its cache. *)
  Inductive processor : Type :=
  | QClean (w : clean_config)
  | QChunk (k : chunk_config)
  | QEmbed (c : embed_config) (s : @embedder F).

  (** [p.__class__.__name__]. *)
  Definition processor_name (q : processor) : pystr :=
    match q with
    | QClean _ => py "CleaningProcessor"
    | QChunk _ => py "ChunkingProcessor"
    | QEmbed _ _ => py "EmbeddingProcessor"
    end.

  (** [processor.process(data)].  Each works on a shallow copy and sets its own entries:
      cleaning.py:83-120, chunking.py:50-86, embedding.py:109-139. *)
  Definition apply_processor (q : processor) (d : pdoc) : result pdoc * processor :=
    match q with
    | QClean w =>
        let d' := clean_process lib w (MkDoc (x_text d) (x_chunks d)) in
        (Ok (MkPDoc (d_text d') (d_chunks d') (x_embedding d) (x_chunk_embeddings d) (x_meta d) (x_pipeline d)), q)
    | QChunk k =>
        (rbind (chunk_document k (MkDoc (x_text d) (x_chunks d))) (fun d' =>
         Ok (MkPDoc (d_text d') (d_chunks d') (x_embedding d) (x_chunk_embeddings d) (x_meta d) (x_pipeline d))), q)
    | QEmbed c s =>
        let (r, s') := emb_process encode md5 c
                         (MkEmbDoc (x_text d) (option_map (map (fun x => Some (c_text x))) (x_chunks d))) s in
        (rbind r (fun out =>
         Ok (MkPDoc (x_text d) (x_chunks d)
               (match fst out with Some l => Some (nth l (m_heap s') []) | None => x_embedding d end)
               (match snd out with Some ls => Some (read_all s' ls) | None => x_chunk_embeddings d end)
               (x_meta d) (x_pipeline d))), QEmbed c s')
    end.

  (** The loop of pipeline.py:84-85 and 123-125. *)
  Fixpoint apply_all (qs : list processor) (d : pdoc) : result pdoc * list processor :=
    match qs with
    | [] => (Ok d, [])
    | q :: r =>
        match apply_processor q d with
        | (Ok d', q') => let (x, r') := apply_all r d' in (x, q' :: r')
        | (Raise e, q') => (Raise e, q' :: r)
        end
    end.

  (** The fields of [ProcessingPipeline]; pipeline.py:22-27. *)
  Record pipeline : Type := MkPipe {
    l_config : conf;
    l_registry : option (registry Parser);
    l_processors : list processor;
    l_ready : bool
  }.
  Definition new_pipeline (config : conf) : pipeline := MkPipe config None [] false.

  Definition set_registry (g : option (registry Parser)) (s : pipeline) : pipeline :=
    MkPipe (l_config s) g (l_processors s) (l_ready s).
  Definition set_processors (qs : list processor) (s : pipeline) : pipeline :=
    MkPipe (l_config s) (l_registry s) qs (l_ready s).
  Definition set_pipe_ready (b : bool) (s : pipeline) : pipeline :=
    MkPipe (l_config s) (l_registry s) (l_processors s) b.

  (** [self.processors.append(p)]. *)
  Definition append_processor (q : processor) : M pipeline unit :=
    modify (fun s => set_processors (l_processors s ++ [q]) s).

  (** pipeline.py:41-44, 47-50, 53-56: make the object, initialise it, append it. *)
  Definition add_cleaning (c : conf) : M pipeline unit :=
    w <- lift (read_clean c) ;; append_processor (QClean w).
  Definition add_chunking (c : conf) : M pipeline unit :=
    k <- lift (read_chunk c) ;; _ <- lift (chunk_initialize k) ;; append_processor (QChunk k).
  Definition add_embedding (c : conf) : M pipeline unit :=
    e <- lift (read_embed c) ;;
    s <- lift (fst (let (r, s) := emb_initialize e (new_embedder) in (rbind r (fun _ => Ok s), tt))) ;;
    append_processor (QEmbed e s).

  (** [if name in processor_configs: ...]. *)
  Definition when_configured (configs : conf) (name : pystr) (f : conf -> M pipeline unit) : M pipeline unit :=
    match conf_entry configs name with Some c => f c | None => ret tt end.

  (** [initialize]; pipeline.py:29-61. *)
  Definition pipe_initialize : M pipeline unit :=
    wrap EProcessing (
      s <- get ;;
      parser_config <- lift (conf_get (l_config s) (py "parsers")) ;;
      modify (set_registry (Some (new_registry parser_config))) ;;;
      (fun s => let (r, g) := reg_initialize build (new_registry parser_config) in (r, set_registry (Some g) s)) ;;;
      configs <- lift (conf_get (l_config s) (py "processors")) ;;
      when_configured configs (py "cleaning") add_cleaning ;;;
      when_configured configs (py "chunking") add_chunking ;;;
      when_configured configs (py "embedding") add_embedding ;;;
      modify (set_pipe_ready true)).

  (** Run the processors of the pipeline. *)
  Definition run_processors (d : pdoc) : M pipeline pdoc :=
    fun s => let (r, qs) := apply_all (l_processors s) d in (r, set_processors qs s).

  (** [_get_parser_name]; pipeline.py:205-219. *)
  Definition parser_used (s : pipeline) (file : Path) (name : option pystr) : pystr :=
    match name with
    | Some ((_ :: _) as n) => n
    | _ => match l_registry s with
           | Some g => match get_parser can_parse g file None with
                       | Ok p => class_name p
                       | Raise _ => py "unknown"
                       end
           | None => py "unknown"
           end
    end.

  Definition with_meta (m : pipe_meta Path) (d : pdoc) : pdoc :=
    MkPDoc (x_text d) (x_chunks d) (x_embedding d) (x_chunk_embeddings d) (x_meta d) (Some m).

  (** [process_document]; pipeline.py:63-99.  An initialised pipeline has a registry. *)
  Definition process_document (file : Path) (name : option pystr) : M pipeline pdoc :=
    s <- get ;;
    if negb (l_ready s) then raise EProcessing
    else wrap EProcessing (
      d <- lift (match l_registry s with
                 | Some g => parse_document can_parse parse g file name
                 | None => Raise EAttr
                 end) ;;
      d' <- run_processors d ;;
      s' <- get ;;
      ret (with_meta (MkMeta (Some file) (Some (parser_used s' file name))
                             (map processor_name (l_processors s'))) d')).

  (** [process_text]; pipeline.py:101-140. *)
  Definition process_text (text : pystr) (meta : Meta) : M pipeline pdoc :=
    s <- get ;;
    if negb (l_ready s) then raise EProcessing
    else wrap EProcessing (
      d' <- run_processors (MkPDoc (Some text) None None None meta None) ;;
      s' <- get ;;
      ret (with_meta (MkMeta None None (map processor_name (l_processors s'))) d')).

  (** One entry of the list [batch_process_documents] returns. *)
  Inductive batch_entry : Type :=
  | Done (d : pdoc)
  | Failed (file : Path) (e : exn).

  (** [batch_process_documents]; pipeline.py:142-176. *)
  Definition batch_process_documents (files : list Path) : M pipeline (list batch_entry) :=
    s <- get ;;
    if negb (l_ready s) then raise EProcessing
    else mapM files (fun file =>
      try_except (d <- process_document file None ;; ret (Done d))
                 (fun e => ret (Failed file e))).

  (** [get_supported_formats]; pipeline.py:178-183. *)
  Definition pipe_formats (formats : Parser -> list pystr) (s : pipeline) : list pystr :=
    match l_registry s with
    | Some g => if l_ready s then reg_formats formats g else []
    | None => []
    end.

  (** [close]; pipeline.py:221-233. *)
  Definition pipe_close : M pipeline unit :=
    modify (set_processors []) ;;; modify (set_registry None) ;;; modify (set_pipe_ready false).
End Pipeline.
Arguments pdoc F Path Meta : clear implicits.
Arguments processor F : clear implicits.
Arguments pipeline F Parser : clear implicits.
