(** Model of what the document side reports about itself: /repo/src/valori/parsers/registry.py
    ([get_supported_formats], [get_parser_info]), /repo/src/valori/processors/pipeline.py
    ([get_pipeline_info]), and the counters of chunking.py and cleaning.py. *)

From Coq Require Import String List Arith ZArith NArith QArith Bool.
From Verif Require Import PyBase PyMore PyValue ChunkModel CleanModel Num EmbedModel PipelineModel ExtractModel.
Import ListNotations.
Open Scope nat_scope.

(** ** Parsers *)

(** [a < b] for strings: by code points; the order of [sorted] in registry.py:130. *)
Fixpoint str_ltb (a b : pystr) : bool :=
  match a, b with
  | _, [] => false
  | [], _ :: _ => true
  | x :: a', y :: b' => (x <? y)%N || ((x =? y)%N && str_ltb a' b')
  end.

(** [sorted(list(all_formats))] for the set of the elements of [l]; registry.py:126-130. *)
Fixpoint set_insert (x : pystr) (l : list pystr) : list pystr :=
  match l with
  | [] => [x]
  | y :: r => if eqb x y then l else if str_ltb x y then x :: l else y :: set_insert x r
  end.
Definition sorted_set (l : list pystr) : list pystr := fold_right set_insert [] l.

Section ParserInfo.
  Context {Parser Stats : Type}.
  (** [parser.get_supported_formats()] and [parser.get_stats()]; parsers/base.py:68-74. *)
  Context (formats : Parser -> list pystr) (stats : Parser -> Stats).

  (** [get_supported_formats]; registry.py:121-130, with its order. *)
  Definition reg_supported (s : registry Parser) : list pystr := sorted_set (reg_formats formats s).

  (** An entry of the report; registry.py:139-143 and 148-152. *)
  Record parser_entry : Type := MkParserEntry {
    pe_available : bool;
    pe_formats : list pystr;
    pe_stats : option Stats
  }.

  (** The report; [None]: there is no such key. *)
  Record parser_report : Type := MkParserReport {
    pr_parsers : dict pystr parser_entry;
    pr_formats : option (list pystr);
    pr_ready : option bool
  }.

  (** [get_parser_info]; registry.py:132-158. *)
  Definition get_parser_info (s : registry Parser) : parser_report :=
    if negb (g_ready s) then MkParserReport [] None None
    else
      let found := fold_left (fun d e => dset (fst e) (MkParserEntry true (formats (snd e)) (Some (stats (snd e)))) d)
                             (g_parsers s) [] in
      let all := fold_left (fun d c => if dmem (fst c) d then d else dset (fst c) (MkParserEntry false [] None) d)
                           (g_classes s) found in
      MkParserReport all (Some (reg_supported s)) (Some (g_ready s)).
End ParserInfo.
Arguments parser_entry Stats : clear implicits.
Arguments parser_report Stats : clear implicits.

(** ** The chunking processor *)

(** The counters of chunking.py:36-37 and [_initialized]. *)
Record chunker : Type := MkChunker { ch_created : nat; ch_chars : nat; ch_ready : bool }.
(** [__init__]; chunking.py:22-37. *)
Definition new_chunker : chunker := MkChunker 0 0 false.

(** [initialize]; chunking.py:39-47. *)
Definition chunker_initialize (k : chunk_config) : M chunker unit :=
  _ <- lift (chunk_initialize k) ;;
  modify (fun s => MkChunker (ch_created s) (ch_chars s) true).

(** [process]; chunking.py:49-86.  The characters are counted before the strategy is looked at. *)
Definition chunker_process (k : chunk_config) (text : option pystr) : M chunker (list chunk) :=
  s <- get ;;
  if negb (ch_ready s) then raise EProcessing
  else
    match text with
    | None => raise EProcessing
    | Some t =>
        modify (fun s => MkChunker (ch_created s) (ch_chars s + length t) (ch_ready s)) ;;;
        chunks <- lift (chunk_process k t) ;;
        modify (fun s => MkChunker (ch_created s + length chunks) (ch_chars s) (ch_ready s)) ;;;
        ret chunks
    end.

(** [close]; processors/base.py:47-49. *)
Definition chunker_close : M chunker unit := modify (fun s => MkChunker (ch_created s) (ch_chars s) false).

(** [get_stats]; chunking.py:239-253, without the entries that repeat the configuration. *)
Record chunk_stats : Type := MkChunkStats { cs_created : nat; cs_chars : nat; cs_average : Q; cs_ready : bool }.
Definition chunker_stats (s : chunker) : chunk_stats :=
  MkChunkStats (ch_created s) (ch_chars s)
    (inject_Z (Z.of_nat (ch_chars s)) / inject_Z (Z.of_nat (Nat.max (ch_created s) 1)))%Q (ch_ready s).

(** ** The cleaning processor *)

(** The counters of cleaning.py:38-40 and [_initialized]. *)
Record cleaner : Type := MkCleaner { cl_docs : nat; cl_before : nat; cl_after : nat; cl_ready : bool }.
(** [__init__]; cleaning.py:22-40. *)
Definition new_cleaner : cleaner := MkCleaner 0 0 0 false.

(** [initialize]; cleaning.py:42-81; the stopwords are part of the configuration. *)
Definition cleaner_initialize : M cleaner unit :=
  modify (fun s => MkCleaner (cl_docs s) (cl_before s) (cl_after s) true).

(** [process]; cleaning.py:83-120. *)
Definition cleaner_process (lib : text_lib) (w : clean_config) (d : document) : M cleaner document :=
  s <- get ;;
  if negb (cl_ready s) then raise EProcessing
  else
    match d_text d with
    | Some t => modify (fun s => MkCleaner (cl_docs s) (cl_before s + length t)
                                           (cl_after s + length (clean_text lib w t)) (cl_ready s))
    | None => ret tt
    end ;;;
    modify (fun s => MkCleaner (cl_docs s + 1) (cl_before s) (cl_after s) (cl_ready s)) ;;;
    ret (clean_process lib w d).

(** [close]; processors/base.py:47-49. *)
Definition cleaner_close : M cleaner unit :=
  modify (fun s => MkCleaner (cl_docs s) (cl_before s) (cl_after s) false).

(** [get_stats]; cleaning.py:168-191, without the entries that repeat the configuration. *)
Record clean_stats : Type := MkCleanStats {
  ls_docs : nat; ls_before : nat; ls_after : nat; ls_ratio : Q; ls_removed : Z; ls_ready : bool
}.
Definition cleaner_stats (s : cleaner) : clean_stats :=
  MkCleanStats (cl_docs s) (cl_before s) (cl_after s)
    (if (0 <? cl_before s) then inject_Z (Z.of_nat (cl_after s)) / inject_Z (Z.of_nat (cl_before s)) else 0)%Q
    (Z.of_nat (cl_before s) - Z.of_nat (cl_after s)) (cl_ready s).

(** ** The pipeline *)

Section PipelineInfo.
  Context {F : Type} `{Num F}.
  Context {Parser Stats : Type}.
  Context (formats : Parser -> list pystr) (stats : Parser -> Stats).
  Context (encode : pystr -> result (list F)) (md5 : pystr -> result pystr).

  (** The loop of pipeline.py:190-194: the class names, and for an embedding processor its
      statistics, which run the model (embedding.py:299, 265-272); the other processors' statistics
      are those above and change nothing. *)
  Fixpoint processors_info (qs : list (processor F)) :
      result (list (pystr * option emb_stats)) * list (processor F) :=
    match qs with
    | [] => (Ok [], [])
    | q :: r =>
        let '(x, q') := match q with
                        | QEmbed c s => let '(x, s') := emb_get_stats encode md5 c s in (answer Some x, QEmbed c s')
                        | _ => (Ok None, q)
                        end in
        match x with
        | Ok st => let '(y, r') := processors_info r in (answer (cons (processor_name q, st)) y, q' :: r')
        | Raise e => (Raise e, q' :: r)
        end
    end.

  (** The report; [None]: there is no such key. *)
  Record pipe_report : Type := MkPipeReport {
    pp_ready : bool;
    pp_processors : option (list (pystr * option emb_stats));
    pp_parsers : option (parser_report Stats);
    pp_formats : option (list pystr)
  }.

  (** [get_pipeline_info]; pipeline.py:185-203. *)
  Definition get_pipeline_info : M (pipeline F Parser) pipe_report :=
    fun s =>
      if negb (l_ready s) then (Ok (MkPipeReport false None None None), s)
      else
        let '(x, qs) := processors_info (l_processors s) in
        (rbind x (fun info =>
           Ok (MkPipeReport (l_ready s) (Some info)
                 (option_map (get_parser_info formats stats) (l_registry s))
                 (Some (match l_registry s with Some g => reg_supported formats g | None => [] end)))),
         set_processors qs s).
End PipelineInfo.
