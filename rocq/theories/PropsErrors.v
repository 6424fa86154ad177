(** C154: a component raises only exceptions of its own kind, whatever went wrong underneath. *)

From Coq Require Import List Arith ZArith NArith Bool String.
From Verif Require Import PyBase BaseLemmas PyMore PyValue Payload StorageModel StorageSpec StorageRun Num ClientModel
  FlatModel IvfModel HnswModel LshModel AnnoyModel ScalarModel ProductModel FsModel PersistModel FullClientModel ChunkModel
  CleanModel EmbedModel PipelineModel InfoModel BatchModel Demo DemoIndex
  PropsTensor PropsChunk PropsEmbed PropsRegistry PropsPipeline.
Import ListNotations.
Open Scope py_scope.

(** When the call [m] raises, it raises [e]. *)
Definition only {S A} (e : exn) (m : M S A) : Prop := forall s e' s', m s = (Raise e', s') -> e' = e.
Definition fails_only {A} (e : exn) (r : result A) : Prop := forall e', r = Raise e' -> e' = e.

Section Only.
  Context {S A : Type} (e : exn).

  Lemma only_wrap (m : M S A) : only e (wrap e m).
  Proof. intros s e' s'. unfold wrap. destruct (m s) as [[a|?] t]; congruence. Qed.
  Lemma only_raise : only e (raise e : M S A).
  Proof. intros s e' s'. unfold raise. congruence. Qed.
  Lemma only_ret (a : A) : only e (ret a : M S A).
  Proof. intros s e' s'. unfold ret. congruence. Qed.
  Lemma only_lift (r : result A) : fails_only e r -> only e (lift r : M S A).
  Proof. intros H s e' s'. unfold lift. intros E. injection E as E _. auto. Qed.
  Lemma only_bind {B} (m : M S B) (f : B -> M S A) : only e m -> (forall b, only e (f b)) -> only e (bind m f).
  Proof.
    intros Hm Hf s e' s'. unfold bind. destruct (m s) as [[b|x] t] eqn:E; [apply Hf|].
    intros H. injection H as <- <-. eapply Hm. exact E.
  Qed.
  Lemma only_catch (m h : M S A) : only e h -> only e (catch m h).
  Proof. intros Hh s e' s'. unfold catch. destruct (m s) as [[a|x] t]; [congruence|apply Hh]. Qed.
  Lemma only_zoom {T} get put (m : M T A) : only e m -> only e (zoom get put m : M S A).
  Proof. intros Hm s e' s'. unfold zoom. destruct (m (get s)) as [r t] eqn:E. intros H. injection H as -> _. eapply Hm. exact E. Qed.
End Only.

Lemma only_get {S} e : only e (get : M S S).
Proof. intros s e' s'. unfold get. congruence. Qed.
Lemma only_modify {S} e (f : S -> S) : only e (modify f).
Proof. intros s e' s'. unfold modify. congruence. Qed.

Ltac only_tac :=
  repeat first
    [ apply only_wrap | apply only_raise | apply only_ret | apply only_get | apply only_modify | apply only_zoom
    | apply only_catch | (apply only_bind; [|intros ?])
    | match goal with |- only _ (match ?x with _ => _ end) => destruct x end ].

(** ** Storage backends *)

(** All methods of a backend. *)
Inductive storage_method {S V Mt} (C : storage_class S V Mt) : forall A, M S A -> Prop :=
| sm_init : storage_method C _ (sc_init C)
| sm_store id v m : storage_method C _ (sc_store C id v m)
| sm_retrieve id : storage_method C _ (sc_retrieve C id)
| sm_delete id : storage_method C _ (sc_delete C id)
| sm_update id v m : storage_method C _ (sc_update C id v m)
| sm_list limit : storage_method C _ (sc_list C limit)
| sm_stats : storage_method C _ (sc_stats C)
| sm_close : storage_method C _ (sc_close C).

Theorem C154_storage {V Mt} `{Payload V Mt} `{Unicode} (dirorder : list pystr -> list pystr) A :
  (forall m : M (mem V Mt) A, storage_method mem_class A m -> only EStorage m) /\
  (forall m : M (disk V Mt) A, storage_method (disk_class dirorder) A m -> only EStorage m) /\
  (forall m : M (hybrid V Mt) A, storage_method (hybrid_class dirorder) A m -> only EStorage m).
Proof.
  repeat split; intros m Hm; destruct Hm; cbn;
    unfold mem_initialize, mem_store, mem_retrieve, mem_delete, mem_update, mem_list, mem_get_stats, mem_close,
      disk_initialize, disk_recount, disk_store, disk_retrieve, disk_delete, disk_update, disk_list, disk_get_stats, disk_close,
      hybrid_initialize, hybrid_store, hybrid_retrieve, hybrid_delete, hybrid_update, hybrid_list, hybrid_get_stats, hybrid_close,
      on_mem, on_disk, mem_get_stats, disk_get_stats, disk_list, mem_close, disk_close;
    only_tac.
Qed.

(** Metadata that cannot be copied, in a hybrid backend in service. *)
Example C154_storage_met :
  let C := hybrid_class (Mt := Z) demo_order in
  fst (sc_store C (py "a") [1; 2]%Z (Some (-1)%Z) (after C (hybrid_new 10 [] []) [OInit])) = Raise EStorage.
Proof. vm_compute. reflexivity. Qed.

(** ** Indexes *)

(** All methods of an index. *)
Inductive index_method {X S F Mt Orc} (IC : index_class X S F Mt Orc) : forall A, M (X * S) A -> Prop :=
| xm_init o : index_method IC _ (ix_init IC o)
| xm_insert o fresh arr md : index_method IC _ (ix_insert IC o fresh arr md)
| xm_search o q k : index_method IC _ (ix_search IC o q k)
| xm_delete ids : index_method IC _ (ix_delete IC ids)
| xm_update o id v md : index_method IC _ (ix_update IC o id v md)
| xm_close : index_method IC _ (ix_close IC).

Section IndexErrors.
  Context {F Mt S : Type} `{Num F} `{Payload (list F) Mt}.

  Lemma only_get_ix {X} e : only e (get_ix : M (X * S) X).
  Proof. intros s e' s'. unfold get_ix. cbv. congruence. Qed.
  Lemma only_set_ix {X} e (f : X -> X) : only e (set_ix f : M (X * S) unit).
  Proof. intros s e' s'. cbv. congruence. Qed.

  (** Over any backend whatever, also one that raises something else. *)
  Theorem C154_indexes (C : storage_class S (list F) Mt) mt nc np m ef A :
    (forall f : M (flat F * S) A, index_method (flat_class C mt) A f -> only EIndex f) /\
    (forall f : M (ivf F * S) A, index_method (ivf_class C nc np mt) A f -> only EIndex f) /\
    (forall f : M (hnsw F * S) A, index_method (hnsw_class C m ef mt) A f -> only EIndex f).
  Proof.
    repeat split; intros f Hf; destruct Hf; cbn;
      unfold flat_initialize, flat_insert, flat_search, flat_delete, flat_update, flat_close,
        ivf_initialize, ivf_insert, ivf_search, ivf_delete, ivf_update, ivf_close,
        hnsw_initialize, hnsw_insert, hnsw_search, hnsw_delete, hnsw_update, hnsw_close;
      repeat first [ apply only_get_ix | apply only_set_ix | progress only_tac ].
  Qed.

  Context (n_tables hash_size n_proj : nat) (lmt : lsh_metric) (threshold : F) (empty : Mt) (amt : annoy_metric).
  Let LC := lsh_class (S := S) n_tables hash_size n_proj lmt threshold empty.
  Let AC := annoy_class (S := S) amt empty.

  (** Deleting from an LSH index never raises. *)
  Theorem C154_lsh_annoy_partial o id v md ids :
    only EIndex (ix_update LC o id v md) /\ (forall w, exists b, fst (ix_delete LC ids w) = Ok b) /\
    (forall o', only EIndex (ix_update AC o' id v md)) /\ only EIndex (ix_delete AC ids).
  Proof.
    repeat split.
    - cbn. unfold on_lsh, lsh_update. only_tac.
    - intros [x s]. cbn. unfold on_lsh, zoom, lsh_delete, catch. cbn. destruct (bind _ _ x) as [[b|?] t]; cbn; eauto.
    - intros o'. cbn. unfold on_ann, an_update. only_tac.
    - cbn. unfold on_ann, an_delete. only_tac.
  Qed.
End IndexErrors.

(** In an LSH index a query of the wrong length raises ValidationError, and metadata that cannot be
    copied AttributeError. *)
Definition err_orc : lsh_orc Z := MkLshOrc (fun _ => [[1; 1]%Z]) [0%Z] (fun l => l).
Definition err_lsh : index_class (lsh Z Z) unit Z Z (lsh_orc Z) := lsh_class 1 1 1 LEuclidean 0%Z 0%Z.

Theorem C154_lsh_refuted :
  exists w q md,
    w = snd (ix_insert err_lsh err_orc (fun _ => []) (Mat [[1; 2]]%Z) None (snd (ix_init err_lsh err_orc (ix_new err_lsh, tt)))) /\
    fst (ix_search err_lsh err_orc (Vec q) 1 w) = Raise EValidation /\
    fst (ix_insert err_lsh err_orc (fun _ => []) (Mat [[1; 2]]%Z) (Some [md]) w) = Raise EAttr.
Proof. eexists _, [1%Z], (Some (-1)%Z). split; [reflexivity|]. split; vm_compute; reflexivity. Qed.

(** A query of the wrong length, on a flat index in service. *)
Example C154_indexes_met :
  let C := mem_class (V := list Z) (Mt := Z) in
  let IC := flat_class C MEuclidean in
  let o := fun l : list Z => seq 0 (List.length l) in
  fst (ix_search IC o (Vec [1]%Z) 1
         (snd (ix_insert IC o (fun _ => py "a") (Mat [[1; 2]]%Z) None
            (snd (ix_init IC o (ix_new IC, after C mem_new [OInit])))))) = Raise EIndex.
Proof. vm_compute. reflexivity. Qed.

(** An Annoy index refuses an id that is no number. *)
Example C154_annoy_met :
  let IC := annoy_class (S := unit) (F := Z) AAngular 0%Z in
  fst (ix_delete IC [py "a"] (snd (ix_init IC (MkAorc (fun _ _ _ => []) false) (ix_new IC, tt)))) = Raise EIndex.
Proof. vm_compute. reflexivity. Qed.

(** ** Quantizers *)

Inductive scalar_method (bits : nat) (rnd rnd32 : _) : forall A, M scalarq A -> Prop :=
| qm_init : scalar_method bits rnd rnd32 _ scalar_initialize
| qm_train vectors : scalar_method bits rnd rnd32 _ (scalar_train bits rnd vectors)
| qm_quantize vectors : scalar_method bits rnd rnd32 _ (scalar_quantize bits rnd vectors)
| qm_dequantize codes : scalar_method bits rnd rnd32 _ (scalar_dequantize rnd rnd32 codes)
| qm_close : scalar_method bits rnd rnd32 _ scalar_close.

Inductive product_method {F} `{Num F} (m k : nat) : forall A, M (productq F) A -> Prop :=
| pm_init : product_method m k _ product_initialize
| pm_train kmeans cmean vectors : product_method m k _ (product_train m k kmeans cmean vectors)
| pm_quantize vectors : product_method m k _ (product_quantize m vectors)
| pm_dequantize codes : product_method m k _ (product_dequantize m codes)
| pm_distance query codes : product_method m k _ (product_distance m query codes)
| pm_close : product_method m k _ product_close.

Theorem C154_quantizers {F} `{Num F} bits rnd rnd32 m k A :
  (forall f : M scalarq A, scalar_method bits rnd rnd32 A f -> only EQuant f) /\
  (forall f : M (productq F) A, product_method m k A f -> only EQuant f).
Proof.
  split; intros f Hf; destruct Hf;
    unfold scalar_initialize, scalar_train, scalar_quantize, scalar_dequantize, scalar_close,
      product_initialize, product_train, product_quantize, product_dequantize, product_distance, product_close;
    only_tac.
Qed.

(** A vector of the wrong width, in a trained product quantizer. *)
Example C154_quantizers_met :
  let q := snd (product_train 1 1 (fun _ rows => Ok (firstn 1 rows)) (fun _ rows => nth 0 rows []) (A2 2 [[1; 2]; [3; 4]]%Z)
             (snd (product_initialize product_new))) in
  fst (product_quantize 1 (A2 1 [[5]; [6]]%Z) q) = Ok [[0]; [0]]%Z /\
  fst (product_dequantize 1 (A2 1 [[7]]%Z) q) = Raise EQuant.
Proof. vm_compute. auto. Qed.

(** ** Persistence managers *)

Section PersistErrors.
  Context {V O : Type} {PL : Payload V O}.
  Context (wide : list pid -> option (list pid)).

  Inductive tensor_method : forall A, M (tensor V O) A -> Prop :=
  | tm_init : tensor_method _ tensor_initialize
  | tm_save_state o path : tensor_method _ (tensor_save_state o path)
  | tm_load_state path : tensor_method _ (tensor_load_state path)
  | tm_save_vectors v ids path : tensor_method _ (tensor_save_vectors wide v ids path)
  | tm_load_vectors path : tensor_method _ (tensor_load_vectors path)
  | tm_save_index o path : tensor_method _ (tensor_save_index o path)
  | tm_load_index path : tensor_method _ (tensor_load_index path)
  | tm_close : tensor_method _ tensor_close.

  Inductive incr_method : forall A, M (incr V O) A -> Prop :=
  | nm_init : incr_method _ incr_initialize
  | nm_save_state o path : incr_method _ (incr_save_state o path)
  | nm_load_state dirorder path : incr_method _ (incr_load_state dirorder path)
  | nm_save_vectors v ids path : incr_method _ (incr_save_vectors wide v ids path)
  | nm_load_vectors path : incr_method _ (incr_load_vectors path)
  | nm_save_index o path : incr_method _ (incr_save_index o path)
  | nm_load_index path : incr_method _ (incr_load_index path)
  | nm_close : incr_method _ incr_close.

  Theorem C154_persistence A :
    (forall f : M (tensor V O) A, tensor_method A f -> only EPersist f) /\
    (forall f : M (incr V O) A, incr_method A f -> only EPersist f).
  Proof.
    split; intros f Hf; destruct Hf;
      unfold tensor_initialize, tensor_save_state, tensor_load_state, tensor_save_vectors, tensor_load_vectors,
        tensor_save_index, tensor_load_index, tensor_close, incr_initialize, incr_save_state, incr_load_state,
        incr_save_vectors, incr_load_vectors, incr_save_index, incr_load_index, incr_close, set_init;
      only_tac.
  Qed.
End PersistErrors.

(** An object that cannot be pickled; a file that is no pickle. *)
Example C154_persistence_met :
  fst (tensor_save_state 13%Z (py "s") demo1) = Raise EPersist /\
  fst (tensor_load_state (py "v.npz") (snd (tensor_save_vectors no_wide [1%Z] [IStr (py "x")] (py "v.npz") demo1))) = Raise EPersist.
Proof. vm_compute. auto. Qed.

(** ** The client *)

(** A call through the client raises what the index raises, or ValoriError; initialise raises
    ValoriError only. *)
Theorem C154_client {X S Q P F Mt Orc} (C : storage_class S (list F) Mt) (IC : index_class X S F Mt Orc)
    (CQ : component Q) (CP : component P) :
  (forall o, only EValori (fl_initialize (Q := Q) (P := P) C IC CQ CP o)) /\
  ((forall A (f : M (X * S) A), index_method IC A f -> only EIndex f) ->
   forall (c : fclient X S Q P) e,
     (forall o fresh arr md, fst (fl_insert IC o fresh arr md c) = Raise e -> e = EValori \/ e = EIndex) /\
     (forall o q k, fst (fl_search IC o q k c) = Raise e -> e = EValori \/ e = EIndex) /\
     (forall ids, fst (fl_delete IC ids c) = Raise e -> e = EValori \/ e = EIndex) /\
     (forall o id v md, fst (fl_update IC o id v md c) = Raise e -> e = EValori \/ e = EIndex)).
Proof.
  split.
  - intros o. unfold fl_initialize. apply only_wrap.
  - intros HI c e.
    assert (G : forall A (f : M (X * S) A), index_method IC A f ->
              fst (fc_guarded (fc_on_index f) c) = Raise e -> e = EValori \/ e = EIndex).
    { intros A f Hf. unfold fc_guarded, bind, get. destruct (negb (fc_init c)).
      - cbn. intros E. injection E as <-. auto.
      - unfold fc_on_index, zoom. destruct (f _) as [r w] eqn:Er. cbn. intros ->. right. eapply HI; eauto. }
    repeat split; intros; eapply G; try eassumption; constructor.
Qed.

(** ** Processors, registry and pipeline *)

Theorem C154_processors {F} `{Num F} k text lib w d c :
  only EProcessing (chunker_initialize k) /\ only EProcessing (chunker_process k text) /\
  only EProcessing cleaner_initialize /\ only EProcessing (cleaner_process lib w d) /\
  only EProcessing (emb_initialize (F := F) c).
Proof.
  repeat split.
  - unfold chunker_initialize. only_tac. apply only_lift. intros e. unfold chunk_initialize.
    destruct (_ <=? _)%Z; [congruence|]. destruct (_ <=? _)%Z; congruence.
  - unfold chunker_process. only_tac. apply only_lift. intros e. unfold chunk_process, raw_chunks.
    destruct (k_strategy k); try discriminate; [|cbn; congruence].
    match goal with |- context [fixed_size_chunking k ?t] => destruct (C59_terminates k t) as [cs ->] end. discriminate.
  - unfold cleaner_initialize. only_tac.
  - unfold cleaner_process. only_tac.
  - unfold emb_initialize. only_tac.
Qed.

(** The embedding processor passes on what its model raises, unchanged. *)
Section EmbedErrors.
  Context {F : Type} `{Num F}.
  Context (encode : pystr -> result (list F)) (md5 : pystr -> result pystr) (c : embed_config).

  Theorem C154_embedding_partial d :
    (forall t, fails_only EProcessing (encode t)) -> (forall t, fails_only EProcessing (md5 t)) ->
    only EProcessing (emb_process encode md5 c d).
  Proof.
    intros He Hm.
    assert (Hn : forall k t, only EProcessing (generate_new encode c k t)).
    { intros k t. unfold generate_new. apply only_bind.
      - apply only_lift. unfold run_model. destruct (e_type c); try apply He. intros e. congruence.
      - intros v. apply only_bind; [intros s e s'; cbv; congruence|]. intros l. only_tac. }
    assert (Hg : forall t, only EProcessing (generate_embedding encode md5 c t)).
    { intros t. unfold generate_embedding. destruct (is_blank t); [intros s e s'; cbv; congruence|].
      destruct (e_cached c); [|apply Hn]. apply only_bind; [apply only_lift, Hm|]. intros k.
      apply only_bind; [apply only_get|]. intros s. destruct (dget k (m_cache s)); [only_tac|apply Hn]. }
    assert (Hc : forall cs, only EProcessing (embed_chunks encode md5 c cs)).
    { induction cs as [|[t|] cs IH]; cbn; [apply only_ret| |exact IH].
      apply only_bind; [apply Hg|]. intros l. apply only_bind; [exact IH|]. intros ls. apply only_ret. }
    unfold emb_process. apply only_bind; [apply only_get|]. intros s. destruct (negb _); [apply only_raise|].
    apply only_bind.
    { destruct (ed_text d); only_tac; apply Hg. }
    intros e. apply only_bind; [|intros; apply only_ret].
    destruct (ed_chunks d); only_tac; apply Hc.
  Qed.

  (** Whatever the model raises, and ValueError for a batch size of 0. *)
  Theorem C154_embedding_refuted e :
    (forall t, encode t = Raise e) -> e_type c = TSentence -> e_cached c = false ->
    fst (emb_process encode md5 c (MkEmbDoc (Some (py "one")) None) (snd (emb_initialize c new_embedder))) = Raise e /\
    (e_batch c = 0%Z -> fst (emb_batch encode md5 c [py "one"] (snd (emb_initialize c new_embedder))) = Raise EValue).
  Proof.
    intros He Ht Hc. split.
    - unfold emb_process, emb_initialize, generate_embedding, generate_new, run_model. rewrite Ht, Hc. cbn. now rewrite He.
    - intros Hb. unfold emb_batch, emb_initialize. rewrite Ht, Hb. reflexivity.
  Qed.
End EmbedErrors.

Section PipeErrors.
  Context {F : Type} `{Num F}.
  Context {Parser Path Meta : Type}.
  Context (build : parser_class -> conf -> result Parser).
  Context (can_parse : Parser -> Path -> result bool) (parse : Parser -> Path -> result (pdoc F Path Meta))
    (class_name : Parser -> pystr)
    (lib : text_lib) (encode : pystr -> result (list F)) (md5 : pystr -> result pystr)
    (read_clean : conf -> result clean_config) (read_chunk : conf -> result chunk_config)
    (read_embed : conf -> result embed_config).

  (** The registry, if the parsers themselves raise only ParsingError (C139) and can_parse does
      not raise. *)
  Theorem C154_registry_partial (s : registry Parser) file name n cls config :
    (forall p f, exists b, can_parse p f = Ok b) ->
    fails_only EParsing (get_parser can_parse s file name) /\
    ((forall p f, fails_only EParsing (parse p f)) -> fails_only EParsing (parse_document can_parse parse s file name)) /\
    only EParsing (add_parser build n cls config) /\ only EParsing (remove_parser (Parser := Parser) n).
  Proof.
    intros Hc.
    assert (Hs : forall ps, exists l, suitable can_parse ps file = Ok l).
    { induction ps as [|[m p] ps [l IH]]; cbn; [eauto|]. destruct (Hc p file) as [b ->]. cbn. rewrite IH. cbn. eauto. }
    assert (Hg : fails_only EParsing (get_parser can_parse s file name)).
    { intros e. unfold get_parser. destruct (Hs (g_parsers s)) as [l ->]. cbn.
      destruct (negb _); [congruence|].
      assert (D : forall r : list (Z * (pystr * Parser)),
        match r with [] => Raise EParsing | (_, (_, p)) :: _ => Ok p end = Raise e -> e = EParsing).
      { intros [|[? [? ?]] ?]; congruence. }
      destruct name as [[|ch t]|]; [apply D| |apply D]. destruct (dget _ _); congruence. }
    split; [exact Hg|]. split.
    - intros Hp e. unfold parse_document. destruct (get_parser can_parse s file name) as [p|x]; cbn.
      + apply Hp.
      + intros E. injection E as ->. now apply Hg.
    - split; unfold add_parser, remove_parser; only_tac.
  Qed.

  (** The pipeline, whatever the parsers, the processors and the model raise; a failed document in a
      batch is recorded with the same kind of exception. *)
  Theorem C154_pipeline :
    only EProcessing (pipe_initialize (F := F) build read_clean read_chunk read_embed) /\
    (forall file name, only EProcessing (process_document can_parse parse class_name lib encode md5 file name)) /\
    (forall text (meta : Meta), only EProcessing (process_text (Parser := Parser) (Path := Path) lib encode md5 text meta)) /\
    (forall files, only EProcessing (batch_process_documents can_parse parse class_name lib encode md5 files)) /\
    (forall files s l file e,
       fst (batch_process_documents can_parse parse class_name lib encode md5 files s) = Ok l ->
       In (Failed file e) l -> e = EProcessing).
  Proof.
    assert (Hd : forall file name, only EProcessing (process_document can_parse parse class_name lib encode md5 file name)).
    { intros file name. unfold process_document. only_tac. }
    split; [unfold pipe_initialize; apply only_wrap|]. split; [exact Hd|].
    split; [intros; unfold process_text; only_tac|].
    set (body := fun file => try_except (d <- process_document can_parse parse class_name lib encode md5 file None ;; ret (Done d))
                                        (fun e => ret (Failed file e))).
    assert (Hb : forall file s, exists b s', body file s = (Ok b, s') /\ (forall f e, b = Failed f e -> e = EProcessing)).
    { intros file s. unfold body, try_except, bind.
      destruct (process_document _ _ _ _ _ _ file None s) as [[d|x] t] eqn:E; cbn.
      - eexists _, _. split; [reflexivity|]. discriminate.
      - eexists _, _. split; [reflexivity|]. intros f e Ee. injection Ee as _ <-. eapply Hd. exact E. }
    assert (Hm : forall files s, exists l s', mapM files body s = (Ok l, s') /\
              forall f e, In (Failed f e) l -> e = EProcessing).
    { induction files as [|f files IH]; intros s; cbn.
      - eexists _, _. split; [reflexivity|]. intros f e [].
      - unfold bind. destruct (Hb f s) as (b & s1 & -> & H1). destruct (IH s1) as (l & s2 & -> & H2).
        eexists _, _. split; [reflexivity|]. intros f' e [Hb'|Hin]; [eapply H1; exact Hb'|eauto]. }
    split.
    - intros files s e s'. unfold batch_process_documents, bind, get. destruct (negb _); [cbv; congruence|].
      match goal with |- context [mapM files ?b s] => change (mapM files b s) with (mapM files body s) end.
      destruct (Hm files s) as (l & t & -> & _). congruence.
    - intros files s l file e. unfold batch_process_documents, bind, get. destruct (negb _); [discriminate|].
      match goal with |- context [mapM files ?b s] => change (mapM files b s) with (mapM files body s) end.
      destruct (Hm files s) as (l' & t & -> & Hl). cbn. intros E. injection E as <-. apply Hl.
  Qed.
End PipeErrors.

(** A registry whose configuration is not a table of tables raises AttributeError. *)
Theorem C154_registry_refuted {Parser} (build : parser_class -> conf -> result Parser) v :
  fst (reg_initialize build (new_registry (CTable [(py "parsers", CValue v)]))) = Raise EAttr.
Proof. reflexivity. Qed.

(** The flat index meets what [C154_client] asks, over any backend. *)
Example C154_client_met A (f : M (flat Z * mem (list Z) Z) A) :
  index_method (flat_class mem_class MCosine) A f -> only EIndex f.
Proof. apply (C154_indexes mem_class MCosine 1 1 1 1 A). Qed.

Example C154_processors_met :
  fst (chunker_initialize (MkChunkConfig FixedSize 0 0 0 0 []) new_chunker) = Raise EProcessing /\
  fst (chunker_process (MkChunkConfig OtherStrategy 5 0 0 0 []) (Some (py "abc"))
         (snd (chunker_initialize (MkChunkConfig OtherStrategy 5 0 0 0 []) new_chunker))) = Raise EProcessing.
Proof. vm_compute. auto. Qed.

(** A model of its own kind; and one that raises something else. *)
Example C154_embedding_met :
  (let encode t := match t with [] => Raise EProcessing | ch :: _ => Ok [Z.of_N ch] end in
   forall t, fails_only EProcessing (encode t)) /\ (forall t, fails_only EProcessing (plain_hash t)) /\
  exists c, e_type c = TSentence /\ e_cached c = false /\ e_batch c = 0%Z.
Proof.
  split; [intros encode [|ch t] e; cbn; congruence|]. split; [intros t e; unfold plain_hash; congruence|].
  exists (MkEmb [] TSentence 0 false false). auto.
Qed.

Example C154_pipeline_met :
  exists s0 d1 d2 s',
    pipe_initialize toy_build toy_clean toy_chunk toy_embed (new_pipeline demo_config) = (Ok tt, s0) /\
    batch_process_documents toy_can demo_content (fun _ => py "P") demo_clean_lib toy_encode plain_hash
      [py ".txt"; py ".md"; py ".pdf"] s0
    = (Ok [Done d1; Failed (py ".md") EProcessing; Done d2], s').
Proof. eexists _, _, _, _. split; [vm_compute; reflexivity|]. vm_compute. reflexivity. Qed.

Example C154_registry_met : forall p f, exists b, toy_can p f = Ok b.
Proof. intros p f. unfold toy_can. eauto. Qed.

Print Assumptions C154_storage.
Print Assumptions C154_indexes.
Print Assumptions C154_lsh_annoy_partial.
Print Assumptions C154_lsh_refuted.
Print Assumptions C154_quantizers.
Print Assumptions C154_persistence.
Print Assumptions C154_client.
Print Assumptions C154_processors.
Print Assumptions C154_embedding_partial.
Print Assumptions C154_embedding_refuted.
Print Assumptions C154_registry_partial.
Print Assumptions C154_registry_refuted.
Print Assumptions C154_pipeline.
