(** Model of /repo/src/valori/processors/embedding.py: [EmbeddingProcessor].

    The neural model is a function from texts to vectors which may raise; it is taken to be
    deterministic and to treat the texts of a batch independently.  Numpy arrays live in a heap,
    because the processor hands out the array it keeps in its cache. *)

From Coq Require Import String List Arith ZArith NArith Bool.
From Verif Require Import PyBase PyMore Num PyValue BatchModel.
Import ListNotations.
Open Scope py_scope.

(** [model_type]; embedding.py:28-30. *)
Inductive model_type : Type := TSentence | TOpenAI | THuggingface | TOther (name : pystr).

(** The name as it stands in the cache key. *)
Definition type_name (t : model_type) : pystr :=
  match t with
  | TSentence => py "sentence_transformers"
  | TOpenAI => py "openai"
  | THuggingface => py "huggingface"
  | TOther s => s
  end.

(** The configuration read by [__init__]; embedding.py:25-34.  [max_length] and [device] only
    reach the neural model. *)
Record embed_config : Type := MkEmb {
  e_name : pystr;
  e_type : model_type;
  e_batch : Z;
  e_cached : bool;
  e_normal : bool
}.

(** [not text or not text.strip()]; embedding.py:143. *)
Definition is_blank (text : pystr) : bool :=
  match py_strip text with [] => true | _ => false end.

(** The string hashed for the cache key; embedding.py:221. *)
Definition key_content (c : embed_config) (text : pystr) : pystr :=
  text ++ py "_" ++ e_name c ++ py "_" ++ type_name (e_type c).

Section Embed.
  Context {F : Type} `{Num F}.

  (** [self._model] and its wrappers; embedding.py:178-216. *)
  Context (encode : pystr -> result (list F)).
  (** [hashlib.md5(content.encode()).hexdigest()]; embedding.py:222.  Lone surrogates do not
      encode. *)
  Context (md5 : pystr -> result pystr).
  Context (c : embed_config).

  (** The arrays in memory, the fields of embedding.py:36-40, and [_initialized]. *)
  Record embedder : Type := MkEmbedder {
    m_heap : list (list F);
    m_cache : dict pystr nat;
    m_texts : nat;
    m_made : nat;
    m_hits : nat;
    m_ready : bool
  }.

  (** [__init__]; embedding.py:22-40. *)
  Definition new_embedder : embedder := MkEmbedder [] [] 0 0 0 false.

  (** [initialize]; embedding.py:42-56; the model loads.  The cache is kept. *)
  Definition emb_initialize : M embedder unit :=
    match e_type c with
    | TOther _ => raise EProcessing
    | _ => modify (fun s => MkEmbedder (m_heap s) (m_cache s) (m_texts s) (m_made s) (m_hits s) true)
    end.

  (** A new array. *)
  Definition alloc (v : list F) : M embedder nat :=
    fun s => (Ok (length (m_heap s)),
              MkEmbedder (m_heap s ++ [v]) (m_cache s) (m_texts s) (m_made s) (m_hits s) (m_ready s)).

  (** [embedding / np.linalg.norm(embedding)]; embedding.py:165-166. *)
  Definition unit_row (v : list F) : list F := map (fun a => ndiv a (norm v)) v.
  Definition finish (v : list F) : list F := if e_normal c then unit_row v else v.

  (** The branches of embedding.py:155-162. *)
  Definition run_model (text : pystr) : result (list F) :=
    match e_type c with
    | TOther _ => Raise EProcessing
    | _ => encode text
    end.

  (** [self._cache_hits += 1]; embedding.py:151. *)
  Definition add_hit (s : embedder) : embedder :=
    MkEmbedder (m_heap s) (m_cache s) (m_texts s) (m_made s) (m_hits s + 1) (m_ready s).
  (** [self._cache[cache_key] = embedding]; embedding.py:171. *)
  Definition remember (k : pystr) (l : nat) (s : embedder) : embedder :=
    MkEmbedder (m_heap s) (dset k l (m_cache s)) (m_texts s) (m_made s) (m_hits s) (m_ready s).
  (** embedding.py:173-174 and 260-261. *)
  Definition count_texts (n : nat) (s : embedder) : embedder :=
    MkEmbedder (m_heap s) (m_cache s) (m_texts s + n) (m_made s + n) (m_hits s) (m_ready s).

  (** embedding.py:154-176: the text was not in the cache.  [key] is the cache key when caching is
      on. *)
  Definition generate_new (key : option pystr) (text : pystr) : M embedder nat :=
    v <- lift (run_model text) ;;
    l <- alloc (finish v) ;;
    match key with Some k => modify (remember k l) | None => ret tt end ;;;
    modify (count_texts 1) ;;;
    ret l.

  (** [_generate_embedding]; embedding.py:141-176.  The result is the place of an array. *)
  Definition generate_embedding (text : pystr) : M embedder nat :=
    if is_blank text then alloc (repeat nzero 384)
    else if e_cached c then
      k <- lift (md5 (key_content c text)) ;;
      s <- get ;;
      match dget k (m_cache s) with
      | Some l => modify add_hit ;;; ret l
      | None => generate_new (Some k) text
      end
    else generate_new None text.

  (** A document: its text and the texts of its chunks, each possibly missing. *)
  Record emb_doc : Type := MkEmbDoc { ed_text : option pystr; ed_chunks : option (list (option pystr)) }.

  (** The loop of embedding.py:131-135. *)
  Fixpoint embed_chunks (chunks : list (option pystr)) : M embedder (list nat) :=
    match chunks with
    | [] => ret []
    | Some t :: r => l <- generate_embedding t ;; ls <- embed_chunks r ;; ret (l :: ls)
    | None :: r => embed_chunks r
    end.

  (** [process]; embedding.py:109-139: the entries "embedding" and "chunk_embeddings". *)
  Definition emb_process (d : emb_doc) : M embedder (option nat * option (list nat)) :=
    s <- get ;;
    if negb (m_ready s) then raise EProcessing
    else
      e <- match ed_text d with
           | Some t => l <- generate_embedding t ;; ret (Some l)
           | None => ret None
           end ;;
      ce <- match ed_chunks d with
            | Some cs => ls <- embed_chunks cs ;; ret (Some ls)
            | None => ret None
            end ;;
      ret (e, ce).

  (** One batch with a sentence transformer; embedding.py:243-249.  The rows of the result are
      new arrays. *)
  Definition encode_batch (texts : list pystr) : M embedder (list nat) :=
    vs <- lift (rmap encode texts) ;;
    mapM vs (fun v => alloc (finish v)).

  (** The values at some places. *)
  Definition read_all (s : embedder) (ls : list nat) : list (list F) :=
    map (fun l => nth l (m_heap s) []) ls.

  (** One batch with the other models; embedding.py:251-256.  [np.array] copies the rows and
      raises for rows of different lengths. *)
  Definition generate_batch (texts : list pystr) : M embedder (list nat) :=
    ls <- mapM texts generate_embedding ;;
    s <- get ;;
    vs <- lift (np_array (read_all s ls)) ;;
    mapM vs alloc.

  (** [batch_process]; embedding.py:224-263. *)
  Definition emb_batch (texts : list pystr) : M embedder (list nat) :=
    s <- get ;;
    if negb (m_ready s) then raise EProcessing
    else
      starts <- lift (range_from_zero (length texts) (e_batch c)) ;;
      parts <- mapM starts (fun i =>
        let batch_texts := batch_of (e_batch c) texts i in
        match e_type c with
        | TSentence => encode_batch batch_texts
        | _ => generate_batch batch_texts
        end) ;;
      modify (count_texts (length texts)) ;;;
      ret (concat parts).

  (** [get_embedding_dimension]; embedding.py:265-272. *)
  Definition emb_dimension : M embedder nat :=
    s <- get ;;
    if negb (m_ready s) then ret 0
    else l <- generate_embedding (py "test") ;; s <- get ;; ret (length (nth l (m_heap s) [])).

  (** [close]; processors/base.py:47-49. *)
  Definition emb_close : M embedder unit :=
    modify (fun s => MkEmbedder (m_heap s) (m_cache s) (m_texts s) (m_made s) (m_hits s) false).

  (** [clear_cache]; embedding.py:274-277. *)
  Definition emb_clear : M embedder unit :=
    modify (fun s => MkEmbedder (m_heap s) [] (m_texts s) (m_made s) 0 (m_ready s)).

  (** [get_stats]; embedding.py:279-301, reduced to the counters and the two terms of
      cache_hit_rate. *)
  Record emb_stats : Type := MkEmbStats {
    st_texts : nat; st_made : nat; st_cache : nat; st_hits : nat; st_dimension : nat
  }.
  Definition emb_get_stats : M embedder emb_stats :=
    s <- get ;;
    dim <- emb_dimension ;;
    ret (MkEmbStats (m_texts s) (m_made s) (length (m_cache s)) (m_hits s) dim).

  (** A caller writes into an array it was given. *)
  Definition emb_write (l : nat) (v : list F) : M embedder unit :=
    modify (fun s => MkEmbedder (set_nth l v (m_heap s)) (m_cache s) (m_texts s) (m_made s) (m_hits s) (m_ready s)).
End Embed.
