(** C153: a component that has not been initialised, or has been closed, refuses every working call
    with the exception of its own kind and changes nothing. *)

From Coq Require Import List Arith ZArith NArith Bool String.
From Verif Require Import PyBase BaseLemmas PyMore PyValue Payload StorageModel StorageSpec StorageRun Num ClientModel
  FlatModel IvfModel HnswModel LshModel AnnoyModel ScalarModel ProductModel FsModel PersistModel FullClientModel ChunkModel
  CleanModel EmbedModel PipelineModel InfoModel Demo DemoIndex
  PropsTensor PropsEmbed PropsRegistry PropsPipeline.
Import ListNotations.
Open Scope py_scope.

(** ** Out of service *)

(** The call [m] on the state [s] raises [e] and leaves [s] as it was. *)
Definition refuses {S A} (e : exn) (m : M S A) (s : S) : Prop := m s = (Raise e, s).

(** The states of an object that is out of service: a new object; an object whose close just returned,
    whatever happened to it before; such an object after working calls ([work]) and after whatever other
    code does to the things around it ([others]). *)
Inductive idle {S} (fresh : S -> Prop) (stop : M S unit) (work : forall A, M S A -> Prop)
    (others : S -> S -> Prop) : S -> Prop :=
| idle_new s : fresh s -> idle fresh stop work others s
| idle_closed s : fst (stop s) = Ok tt -> idle fresh stop work others (snd (stop s))
| idle_call A (m : M S A) s :
    idle fresh stop work others s -> work A m -> idle fresh stop work others (snd (m s))
| idle_others s s' :
    idle fresh stop work others s -> others s s' -> idle fresh stop work others s'.

Lemma idle_refuses {S} (e : exn) (on : S -> bool) (fresh : S -> Prop) (stop : M S unit)
    (work : forall A, M S A -> Prop) (others : S -> S -> Prop) :
  (forall s, fresh s -> on s = false) ->
  (forall s, fst (stop s) = Ok tt -> on (snd (stop s)) = false) ->
  (forall s s', others s s' -> on s' = on s) ->
  (forall A (m : M S A) s, work A m -> on s = false -> refuses e m s) ->
  forall s A (m : M S A), idle fresh stop work others s -> work A m -> refuses e m s.
Proof.
  intros Hn Hs Ho Hw s A m Hi Hm. apply Hw; [exact Hm|]. clear m Hm. induction Hi as [s H|s H|B m s Hi IH Hm|s s' Hi IH H].
  - auto.
  - auto.
  - rewrite (Hw _ _ _ Hm IH). exact IH.
  - rewrite (Ho _ _ H). exact IH.
Qed.

(** Nothing else touches the object. *)
Definition nobody {S} (s s' : S) : Prop := s' = s.

(** ** Storage backends *)

(** The working calls of a backend; storing under the empty id is treated below. *)
Inductive storage_call {S V Mt} (C : storage_class S V Mt) : forall A, M S A -> Prop :=
| sw_store id v m : id <> [] -> storage_call C _ (sc_store C id v m)
| sw_retrieve id : storage_call C _ (sc_retrieve C id)
| sw_delete id : storage_call C _ (sc_delete C id)
| sw_update id v m : storage_call C _ (sc_update C id v m)
| sw_list limit : storage_call C _ (sc_list C limit).

(** Other code writes and removes files in the directory. *)
Definition disk_files {V Mt} (s s' : disk V Mt) : Prop :=
  exists vs ms, s' = MkDisk vs ms (d_count s) (d_init s).
Definition hybrid_files {V Mt} (s s' : hybrid V Mt) : Prop :=
  exists d, disk_files (h_disk s) d /\ s' = MkHybrid (h_memory s) d (h_limit s) (StorageModel.h_init s).

Section StorageIdle.
  Context {V Mt : Type} `{Payload V Mt} `{Unicode}.
  Context (dirorder : list pystr -> list pystr).

  (** A backend out of service. *)
  Definition mem_idle := idle (fun s : mem V Mt => s = mem_new) (sc_close mem_class) (storage_call mem_class) nobody.
  Definition disk_idle := idle (fun s : disk V Mt => exists vs ms, s = disk_new vs ms)
    (sc_close (disk_class dirorder)) (storage_call (disk_class dirorder)) disk_files.
  Definition hybrid_idle := idle (fun s : hybrid V Mt => exists limit vs ms, s = hybrid_new limit vs ms)
    (sc_close (hybrid_class dirorder)) (storage_call (hybrid_class dirorder)) hybrid_files.

  Theorem C153_storage_partial :
    (forall s A (m : M (mem V Mt) A), mem_idle s -> storage_call mem_class A m -> refuses EStorage m s) /\
    (forall s A (m : M (disk V Mt) A), disk_idle s -> storage_call (disk_class dirorder) A m -> refuses EStorage m s) /\
    (forall s A (m : M (hybrid V Mt) A), hybrid_idle s -> storage_call (hybrid_class dirorder) A m -> refuses EStorage m s).
  Proof.
    repeat split.
    - apply (idle_refuses EStorage (fun s => m_init s)).
      + intros s ->. reflexivity.
      + reflexivity.
      + intros s s' ->. reflexivity.
      + intros A m s Hm Hs. destruct Hm as [[|c id] v md Hid|id|id|id v md|limit]; [now elim Hid|..];
          destruct s as [vs ms n u b]; cbn in Hs; subst b; reflexivity.
    - apply (idle_refuses EStorage (fun s => d_init s)).
      + intros s (vs & ms & ->). reflexivity.
      + reflexivity.
      + intros s s' (vs & ms & ->). reflexivity.
      + intros A m s Hm Hs. destruct Hm as [[|c id] v md Hid|id|id|id v md|limit]; [now elim Hid|..];
          destruct s as [vs ms n b]; cbn in Hs; subst b; reflexivity.
    - apply (idle_refuses EStorage (fun s => StorageModel.h_init s)).
      + intros s (limit & vs & ms & ->). reflexivity.
      + reflexivity.
      + intros s s' (d & _ & ->). reflexivity.
      + intros A m s Hm Hs. destruct Hm as [[|c id] v md Hid|id|id|id v md|limit]; [now elim Hid|..];
          destruct s as [me d n b]; cbn in Hs; subst b; reflexivity.
  Qed.

  (** The empty id is looked at before the flag: store answers False. *)
  Theorem C153_empty_id_refuted (v : V) (md : option Mt) :
    mem_idle mem_new /\ fst (sc_store mem_class [] v md mem_new) = Ok false.
  Proof. split; [now apply idle_new|reflexivity]. Qed.
End StorageIdle.

(** A hybrid backend that was used, closed, and whose directory was then written by someone else. *)
Example C153_storage_met :
  let C := hybrid_class (Mt := Z) demo_order in
  let s := snd (sc_close C (after C (hybrid_new 10 [] []) [OInit; OStore (py "a") [1; 2]%Z None])) in
  hybrid_idle demo_order (MkHybrid (h_memory s) (MkDisk [(py "b", FGood [3]%Z)] [] (d_count (h_disk s)) (d_init (h_disk s))) 10 (StorageModel.h_init s)) /\
  storage_call C _ (sc_retrieve C (py "a")).
Proof.
  cbv zeta. split; [|constructor].
  eapply idle_others; [now apply (idle_closed _ _ _ _ (after (hybrid_class demo_order) (hybrid_new 10 [] []) [OInit; OStore (py "a") [1; 2]%Z None]))|].
  eexists. split; [eexists _, _; reflexivity|]. reflexivity.
Qed.

(** ** Indexes *)

(** The working calls of an index. *)
Inductive index_call {X S F Mt Orc} (IC : index_class X S F Mt Orc) : forall A, M (X * S) A -> Prop :=
| xw_insert o fresh arr md : index_call IC _ (ix_insert IC o fresh arr md)
| xw_search o q k : index_call IC _ (ix_search IC o q k)
| xw_delete ids : index_call IC _ (ix_delete IC ids)
| xw_update o id v md : index_call IC _ (ix_update IC o id v md).

(** The same without the calls treated below: deleting ([dels] false), and inserting something
    that is not a vector or a matrix without giving metadata. *)
Inductive index_call_but {X S F Mt Orc} (dels : bool) (IC : index_class X S F Mt Orc) : forall A, M (X * S) A -> Prop :=
| xb_insert o fresh arr md : (md = None -> arr <> Nd) -> index_call_but dels IC _ (ix_insert IC o fresh arr md)
| xb_search o q k : index_call_but dels IC _ (ix_search IC o q k)
| xb_delete ids : dels = true -> index_call_but dels IC _ (ix_delete IC ids)
| xb_update o id v md : index_call_but dels IC _ (ix_update IC o id v md).

(** The backend is used by other code. *)
Definition backend_used {X S} (w w' : X * S) : Prop := fst w' = fst w.

(** An index out of service, over a backend in any state. *)
Definition index_idle {X S F Mt Orc} (IC : index_class X S F Mt Orc) (work : forall A, M (X * S) A -> Prop) :=
  idle (fun w => fst w = ix_new IC) (ix_close IC) work backend_used.

Section IndexIdle.
  Context {F Mt S : Type} `{Num F} `{Payload (list F) Mt}.
  Context (C : storage_class S (list F) Mt).

  (** The flat, inverted-file and graph indexes. *)
  Theorem C153_indexes mt nc np m ef :
    (forall w A (f : M (flat F * S) A), index_idle (flat_class C mt) (index_call (flat_class C mt)) w ->
       index_call (flat_class C mt) A f -> refuses EIndex f w) /\
    (forall w A (f : M (ivf F * S) A), index_idle (ivf_class C nc np mt) (index_call (ivf_class C nc np mt)) w ->
       index_call (ivf_class C nc np mt) A f -> refuses EIndex f w) /\
    (forall w A (f : M (hnsw F * S) A), index_idle (hnsw_class C m ef mt) (index_call (hnsw_class C m ef mt)) w ->
       index_call (hnsw_class C m ef mt) A f -> refuses EIndex f w).
  Proof.
    repeat split.
    - apply (idle_refuses EIndex (fun w => f_init (fst w))).
      + intros w E. now rewrite E.
      + reflexivity.
      + intros w w' E. now rewrite E.
      + intros A f [x s] Hf Hx. destruct Hf; destruct x; cbn in Hx; subst; reflexivity.
    - apply (idle_refuses EIndex (fun w => IvfModel.i_init (fst w))).
      + intros w E. now rewrite E.
      + reflexivity.
      + intros w w' E. now rewrite E.
      + intros A f [x s] Hf Hx. destruct Hf; destruct x; cbn in Hx; subst; reflexivity.
    - apply (idle_refuses EIndex (fun w => HnswModel.h_init (fst w))).
      + intros w E. now rewrite E.
      + reflexivity.
      + intros w w' E. now rewrite E.
      + intros A f [x s] Hf Hx. destruct Hf; destruct x; cbn in Hx; subst; reflexivity.
  Qed.

  Context (n_tables hash_size n_proj : nat) (lmt : lsh_metric) (threshold : F) (empty : Mt) (amt : annoy_metric).
  Let LC := lsh_class (S := S) n_tables hash_size n_proj lmt threshold empty.
  Let AC := annoy_class (S := S) amt empty.

  (** The LSH and Annoy indexes, without the calls refuted below. *)
  Theorem C153_lsh_annoy_partial :
    (forall w A (f : M _ A), index_idle LC (index_call_but false LC) w -> index_call_but false LC A f -> refuses EIndex f w) /\
    (forall w A (f : M _ A), index_idle AC (index_call_but true AC) w -> index_call_but true AC A f -> refuses EIndex f w).
  Proof.
    split.
    - apply (idle_refuses EIndex (fun w => l_init (fst w))).
      + intros w E. now rewrite E.
      + reflexivity.
      + intros w w' E. now rewrite E.
      + intros A f [x s] Hf Hx. destruct Hf as [o fresh arr md Hn|o q k|ids Hd|o id v md]; [| |discriminate|].
        * destruct x; cbn in Hx; subst. destruct md; [reflexivity|]. destruct arr; [reflexivity..|]. now elim Hn.
        * destruct x; cbn in Hx; subst; reflexivity.
        * destruct x; cbn in Hx; subst; reflexivity.
    - apply (idle_refuses EIndex (fun w => a_init (fst w))).
      + intros w E. now rewrite E.
      + reflexivity.
      + intros w w' E. now rewrite E.
      + intros A f [x s] Hf Hx. destruct Hf as [o fresh arr md Hn|o q k|ids Hd|o id v md].
        * destruct x; cbn in Hx; subst. destruct md; [reflexivity|]. destruct arr; [reflexivity..|]. now elim Hn.
        * destruct x; cbn in Hx; subst; reflexivity.
        * destruct x; cbn in Hx; subst.
          unfold refuses. cbn. unfold on_ann, zoom, an_delete, wrap, bind, lift. cbn.
          destruct (rmap to_int ids); reflexivity.
        * destruct x as [vs ms dim nx lib bu b]; cbn in Hx; subst. unfold refuses. cbn.
          unfold on_ann, zoom, an_update, wrap, bind, lift, get. cbn.
          destruct (to_int id) as [z|]; [|reflexivity]. destruct (_ <=? z)%Z; [reflexivity|].
          destruct md; [reflexivity|]. destruct (py_index ms z); reflexivity.
  Qed.

  (** Deleting from an LSH index out of service answers False. *)
  Theorem C153_lsh_delete_refuted (s : S) ids :
    index_idle LC (index_call LC) (lsh_new, s) /\ fst (ix_delete LC ids (lsh_new, s)) = Ok false.
  Proof. split; [now apply idle_new|reflexivity]. Qed.

  (** Inserting a single number without metadata asks for its length first. *)
  Theorem C153_insert_number_refuted (s : S) o o' fresh :
    (index_idle LC (index_call LC) (lsh_new, s) /\ fst (ix_insert LC o fresh Nd None (lsh_new, s)) = Raise EType) /\
    (index_idle AC (index_call AC) (an_new, s) /\ fst (ix_insert AC o' fresh Nd None (an_new, s)) = Raise EType).
  Proof. repeat split; now apply idle_new. Qed.
End IndexIdle.

(** A flat index that was filled and closed, over a backend that still holds the record. *)
Example C153_indexes_met :
  let C := mem_class (V := list Z) (Mt := Z) in
  let IC := flat_class C MEuclidean in
  let w := snd (ix_insert IC (fun l => seq 0 (List.length l)) (fun _ => py "a") (Mat [[1; 2]]%Z) None
                  (snd (ix_init IC (fun l => seq 0 (List.length l)) (ix_new IC, after C mem_new [OInit])))) in
  f_ids (fst w) = [py "a"] /\ index_idle IC (index_call IC) (snd (ix_close IC w)) /\
  m_vectors (snd (snd (ix_close IC w))) = [(py "a", [1; 2]%Z)].
Proof. cbv zeta. repeat split. now apply idle_closed. Qed.

(** An LSH index that was filled and closed, after a refused search. *)
Example C153_lsh_annoy_met :
  let IC := lsh_class (S := unit) (F := Z) 1 1 1 LEuclidean 0%Z 0%Z in
  let o := MkLshOrc (fun _ => [[1; 1]%Z]) [0%Z] (fun l => l) in
  let w := snd (ix_insert IC o (fun _ => []) (Mat [[1; 2]]%Z) None (snd (ix_init IC o (ix_new IC, tt)))) in
  l_vectors (fst w) = [Some [1; 2]%Z] /\
  index_idle IC (index_call_but false IC) (snd (ix_search IC o (Vec [1; 2]%Z) 1 (snd (ix_close IC w)))).
Proof.
  cbv zeta. split; [vm_compute; reflexivity|]. apply idle_call; [now apply idle_closed|apply xb_search].
Qed.

(** ** The client *)

(** The working calls of a client. *)
Inductive client_call {X S Q P F Mt Orc} (C : storage_class S (list F) Mt) (IC : index_class X S F Mt Orc)
    (CQ : component Q) (CP : component P) : forall A, M (fclient X S Q P) A -> Prop :=
| cw_insert o fresh arr md : client_call C IC CQ CP _ (fl_insert IC o fresh arr md)
| cw_search o q k : client_call C IC CQ CP _ (fl_search IC o q k)
| cw_delete ids : client_call C IC CQ CP _ (fl_delete IC ids)
| cw_update o id v md : client_call C IC CQ CP _ (fl_update IC o id v md)
| cw_stats : client_call C IC CQ CP _ (fl_stats C IC CQ CP).

(** Other code uses the components; the client itself is left alone. *)
Definition components_used {X S Q P} (c c' : fclient X S Q P) : Prop :=
  exists x s q p, c' = MkFull x s q p (fc_init c).

(** A client with any components, provided its close returned. *)
Theorem C153_client {X S Q P F Mt Orc} (C : storage_class S (list F) Mt) (IC : index_class X S F Mt Orc)
    (CQ : component Q) (CP : component P) c A (f : M (fclient X S Q P) A) :
  idle (fun c => exists s0 q p, c = fl_new IC s0 q p) (fl_close C IC CQ CP) (client_call C IC CQ CP) components_used c ->
  client_call C IC CQ CP A f -> refuses EValori f c.
Proof.
  apply (idle_refuses EValori fc_init).
  - intros c' (s0 & q & p & ->). reflexivity.
  - intros c'. unfold fl_close, bind.
    repeat match goal with |- context [match ?m with _ => _ end] => destruct m as [[?|?] ?]; try discriminate end.
    reflexivity.
  - intros c' c'' (x & s & q & p & ->). reflexivity.
  - intros B g c' Hg Hc. destruct Hg; destruct c'; cbn in Hc; subst; reflexivity.
Qed.

(** A client with a quantizer and a persistence manager, used and closed. *)
Example C153_client_met :
  let C := mem_class (V := list Z) (Mt := Z) in
  let IC := flat_class C MEuclidean in
  let o := fun l : list Z => seq 0 (List.length l) in
  let c := snd (fl_insert IC o (fun _ => py "a") (Mat [[1; 2]]%Z) None
             (snd (fl_initialize C IC product_component tensor_component o
                     (fl_new IC mem_new (Some (product_new (F := Z))) (Some demo0))))) in
  fc_init c = true /\ f_ids (fc_index c) = [py "a"] /\
  idle (fun c => exists s0 q p, c = fl_new IC s0 q p) (fl_close C IC product_component tensor_component)
    (client_call C IC product_component tensor_component) components_used
    (snd (fl_close C IC product_component tensor_component c)).
Proof. cbv zeta. split; [vm_compute; reflexivity|]. split; [vm_compute; reflexivity|]. now apply idle_closed. Qed.

(** ** Quantizers *)

Inductive scalar_call (bits : nat) (rnd rnd32 : _) : forall A, M scalarq A -> Prop :=
| qw_train vectors : scalar_call bits rnd rnd32 _ (scalar_train bits rnd vectors)
| qw_quantize vectors : scalar_call bits rnd rnd32 _ (scalar_quantize bits rnd vectors)
| qw_dequantize codes : scalar_call bits rnd rnd32 _ (scalar_dequantize rnd rnd32 codes).

Inductive product_call {F} `{Num F} (m k : nat) : forall A, M (productq F) A -> Prop :=
| pw_train kmeans cmean vectors : product_call m k _ (product_train m k kmeans cmean vectors)
| pw_quantize vectors : product_call m k _ (product_quantize m vectors)
| pw_dequantize codes : product_call m k _ (product_dequantize m codes)
| pw_distance query codes : product_call m k _ (product_distance m query codes).

Theorem C153_quantizers {F} `{Num F} bits rnd rnd32 m k :
  (forall s A (f : M scalarq A),
     idle (fun s => s = scalar_new) scalar_close (scalar_call bits rnd rnd32) nobody s ->
     scalar_call bits rnd rnd32 A f -> refuses EQuant f s) /\
  (forall s A (f : M (productq F) A),
     idle (fun s => s = product_new) product_close (product_call m k) nobody s ->
     product_call m k A f -> refuses EQuant f s).
Proof.
  split.
  - apply (idle_refuses EQuant sq_init).
    + intros s ->. reflexivity.
    + reflexivity.
    + intros s s' ->. reflexivity.
    + intros A f s Hf Hs. destruct Hf; destruct s; cbn in Hs; subst; reflexivity.
  - apply (idle_refuses EQuant pq_init).
    + intros s ->. reflexivity.
    + reflexivity.
    + intros s s' ->. reflexivity.
    + intros A f s Hf Hs. destruct Hf; destruct s; cbn in Hs; subst; reflexivity.
Qed.

(** A product quantizer that was trained and closed. *)
Example C153_quantizers_met :
  let q := snd (product_train 1 1 (fun _ rows => Ok (firstn 1 rows)) (fun _ rows => nth 0 rows []) (A2 2 [[1; 2]; [3; 4]]%Z)
             (snd (product_initialize product_new))) in
  pq_trained q = true /\
  idle (fun s => s = product_new) product_close (product_call 1 1) nobody (snd (product_close q)).
Proof. cbv zeta. split; [vm_compute; reflexivity|now apply idle_closed]. Qed.

(** ** Persistence managers *)

Section PersistIdle.
  Context {V O : Type} {PL : Payload V O}.
  Context (wide : list pid -> option (list pid)).

  Inductive tensor_call : forall A, M (tensor V O) A -> Prop :=
  | tw_save_state o path : tensor_call _ (tensor_save_state o path)
  | tw_load_state path : tensor_call _ (tensor_load_state path)
  | tw_save_vectors v ids path : tensor_call _ (tensor_save_vectors wide v ids path)
  | tw_load_vectors path : tensor_call _ (tensor_load_vectors path)
  | tw_save_index o path : tensor_call _ (tensor_save_index o path)
  | tw_load_index path : tensor_call _ (tensor_load_index path).

  Inductive incr_call : forall A, M (incr V O) A -> Prop :=
  | nw_save_state o path : incr_call _ (incr_save_state o path)
  | nw_load_state dirorder path : incr_call _ (incr_load_state dirorder path)
  | nw_save_vectors v ids path : incr_call _ (incr_save_vectors wide v ids path)
  | nw_load_vectors path : incr_call _ (incr_load_vectors path)
  | nw_save_index o path : incr_call _ (incr_save_index o path)
  | nw_load_index path : incr_call _ (incr_load_index path).

  (** Other code writes and removes files. *)
  Definition tensor_files (s s' : tensor V O) : Prop :=
    exists fs, s' = MkTensor fs (t_base s) (t_init s) (t_saves s) (t_loads s).
  Definition incr_files (s s' : incr V O) : Prop :=
    exists fs, s' = MkIncr fs (i_base s) (i_interval s) (PersistModel.i_init s) (PersistModel.i_count s) (i_last s).

  Theorem C153_persistence :
    (forall s A (f : M (tensor V O) A),
       idle (fun s => exists fs base, s = tensor_new fs base) tensor_close tensor_call tensor_files s ->
       tensor_call A f -> refuses EPersist f s) /\
    (forall s A (f : M (incr V O) A),
       idle (fun s => exists fs base interval, s = incr_new fs base interval) incr_close incr_call incr_files s ->
       incr_call A f -> refuses EPersist f s).
  Proof.
    split.
    - apply (idle_refuses EPersist t_init).
      + intros s (fs & base & ->). reflexivity.
      + reflexivity.
      + intros s s' (fs & ->). reflexivity.
      + intros A f s Hf Hs. destruct Hf; destruct s; cbn in Hs; subst; reflexivity.
    - apply (idle_refuses EPersist PersistModel.i_init).
      + intros s (fs & base & n & ->). reflexivity.
      + reflexivity.
      + intros s s' (fs & ->). reflexivity.
      + intros A f s Hf Hs. destruct Hf; destruct s; cbn in Hs; subst; reflexivity.
  Qed.
End PersistIdle.

(** A manager that saved something and was closed, after which other code emptied the disk. *)
Example C153_persistence_met :
  let s := snd (tensor_save_state 4%Z (py "sub/state") demo1) in
  t_saves s = 1 /\
  idle (fun s => exists fs base, s = tensor_new fs base) tensor_close (tensor_call no_wide) tensor_files
    (MkTensor (MkFs [] None false) [py "d"] false (t_saves (snd (tensor_close s))) (t_loads (snd (tensor_close s)))).
Proof.
  cbv zeta. split; [vm_compute; reflexivity|].
  eapply idle_others; [now apply (idle_closed _ _ _ _ (snd (tensor_save_state 4%Z (py "sub/state") demo1)))|].
  eexists. reflexivity.
Qed.

(** ** Processors, the parser registry and the pipeline *)

Inductive chunker_call : forall A, M chunker A -> Prop :=
| kw_process k text : chunker_call _ (chunker_process k text).

Inductive cleaner_call : forall A, M cleaner A -> Prop :=
| lw_process lib w d : cleaner_call _ (cleaner_process lib w d).

Section ProcessIdle.
  Context {F : Type} `{Num F}.
  Context (encode : pystr -> result (list F)) (md5 : pystr -> result pystr) (c : embed_config).

  Inductive embedder_call : forall A, M (@embedder F) A -> Prop :=
  | ew_process d : embedder_call _ (emb_process encode md5 c d)
  | ew_batch texts : embedder_call _ (emb_batch encode md5 c texts).

  (** The cache is cleared, or a caller writes into an array it was given. *)
  Definition embedder_touched (s s' : @embedder F) : Prop :=
    s' = snd (emb_clear s) \/ exists l v, s' = snd (emb_write l v s).

  Definition embedder_idle := idle (fun s => s = new_embedder) emb_close embedder_call embedder_touched.

  Theorem C153_processors :
    (forall s A (f : M chunker A), idle (fun s => s = new_chunker) chunker_close chunker_call nobody s ->
       chunker_call A f -> refuses EProcessing f s) /\
    (forall s A (f : M cleaner A), idle (fun s => s = new_cleaner) cleaner_close cleaner_call nobody s ->
       cleaner_call A f -> refuses EProcessing f s) /\
    (forall s A (f : M embedder A), embedder_idle s -> embedder_call A f -> refuses EProcessing f s).
  Proof.
    repeat split.
    - apply (idle_refuses EProcessing ch_ready).
      + intros s ->. reflexivity.
      + reflexivity.
      + intros s s' ->. reflexivity.
      + intros A f s Hf Hs. destruct Hf; destruct s; cbn in Hs; subst; reflexivity.
    - apply (idle_refuses EProcessing cl_ready).
      + intros s ->. reflexivity.
      + reflexivity.
      + intros s s' ->. reflexivity.
      + intros A f s Hf Hs. destruct Hf; destruct s; cbn in Hs; subst; reflexivity.
    - apply (idle_refuses EProcessing m_ready).
      + intros s ->. reflexivity.
      + reflexivity.
      + intros s s' [->|(l & v & ->)]; reflexivity.
      + intros A f s Hf Hs. destruct Hf; destruct s; cbn in Hs; subst; reflexivity.
  Qed.

  (** Out of service the embedding processor gives 0 as the dimension and does not run the model. *)
  Theorem C153_dimension s : embedder_idle s -> emb_dimension encode md5 c s = (Ok 0, s).
  Proof.
    intros Hi. assert (E : m_ready s = false).
    { induction Hi as [s ->|s H0|A f s Hi IH Hf|s s' Hi IH [->|(l & v & ->)]].
      - reflexivity.
      - reflexivity.
      - destruct Hf; destruct s; cbn in IH; subst; reflexivity.
      - exact IH.
      - exact IH. }
    unfold emb_dimension, bind, get. cbn. rewrite E. reflexivity.
  Qed.
End ProcessIdle.

Section RegistryIdle.
  Context {Parser Path Doc : Type}.
  Context (build : parser_class -> conf -> result Parser).
  Context (can_parse : Parser -> Path -> result bool) (parse : Parser -> Path -> result Doc).

  (** Looking a parser up and parsing leave the registry as it is. *)
  Inductive registry_call : forall A, M (registry Parser) A -> Prop :=
  | rw_get file name : registry_call _ (fun s => (get_parser can_parse s file name, s))
  | rw_parse file name : registry_call _ (fun s => (parse_document can_parse parse s file name, s)).

  (** Parsers are added and removed. *)
  Definition registry_changed (s s' : registry Parser) : Prop :=
    (exists name cls config, s' = snd (add_parser build name cls config s)) \/
    (exists name, s' = snd (remove_parser name s)).

  Theorem C153_registry s A (f : M (registry Parser) A) :
    idle (fun s => exists config, s = new_registry config) reg_close registry_call registry_changed s ->
    registry_call A f -> refuses EParsing f s.
  Proof.
    apply (idle_refuses EParsing g_ready).
    - intros t (config & ->). reflexivity.
    - reflexivity.
    - intros t t' [(name & cls & config & ->)|(name & ->)].
      + unfold add_parser. unfold bind, wrap, lift, modify, get. cbn. destruct (build cls config); reflexivity.
      + unfold remove_parser, bind, modify. cbn. destruct (dmem name (g_parsers t)); cbn; destruct (dmem name _); reflexivity.
    - intros B g t Hg Ht. destruct Hg; unfold refuses, parse_document, get_parser; rewrite Ht; reflexivity.
  Qed.
End RegistryIdle.

Section PipelineIdle.
  Context {F : Type} `{Num F}.
  Context {Parser Path Meta : Type}.
  Context (can_parse : Parser -> Path -> result bool) (parse : Parser -> Path -> result (pdoc F Path Meta))
    (class_name : Parser -> pystr)
    (lib : text_lib) (encode : pystr -> result (list F)) (md5 : pystr -> result pystr).

  Inductive pipeline_call : forall A, M (pipeline F Parser) A -> Prop :=
  | lw_document file name : pipeline_call _ (process_document can_parse parse class_name lib encode md5 file name)
  | lw_text text (meta : Meta) : pipeline_call _ (process_text (Path := Path) lib encode md5 text meta)
  | lw_batch files : pipeline_call _ (batch_process_documents can_parse parse class_name lib encode md5 files).

  Theorem C153_pipeline s A (f : M (pipeline F Parser) A) :
    idle (fun s => exists config, s = new_pipeline config) pipe_close pipeline_call nobody s ->
    pipeline_call A f -> refuses EProcessing f s.
  Proof.
    apply (idle_refuses EProcessing l_ready).
    - intros t (config & ->). reflexivity.
    - reflexivity.
    - intros t t' ->. reflexivity.
    - intros B g t Hg Ht. destruct Hg; destruct t; cbn in Ht; subst; reflexivity.
  Qed.
End PipelineIdle.

(** An embedding processor that embedded a text, was closed and had its cache cleared; a registry
    and a pipeline closed after they were initialised. *)
Example C153_processors_met :
  let s := snd (emb_process toy_encode plain_hash toy_config (MkEmbDoc (Some (py "one")) None)
                  (snd (emb_initialize toy_config new_embedder))) in
  m_made s = 1 /\ embedder_idle toy_encode plain_hash toy_config (snd (emb_clear (snd (emb_close s)))).
Proof.
  cbv zeta. split; [vm_compute; reflexivity|].
  eapply idle_others; [now apply idle_closed|]. left. reflexivity.
Qed.

Example C153_registry_met :
  let s := snd (reg_initialize toy_build (new_registry (CTable []))) in
  g_ready s = true /\
  idle (fun s => exists config, s = new_registry config) reg_close (registry_call toy_can demo_content)
    (registry_changed toy_build) (snd (add_parser toy_build (py "text") ClsText (CTable []) (snd (reg_close s)))).
Proof.
  cbv zeta. split; [vm_compute; reflexivity|].
  eapply idle_others; [now apply idle_closed|]. left. eexists _, _, _. reflexivity.
Qed.

Example C153_pipeline_met :
  let s := snd (pipe_initialize toy_build toy_clean toy_chunk toy_embed (new_pipeline demo_config)) in
  l_ready s = true /\
  idle (fun s => exists config, s = new_pipeline config) pipe_close
    (pipeline_call toy_can demo_content (fun _ => py "P") demo_clean_lib toy_encode plain_hash) nobody (snd (pipe_close s)).
Proof. cbv zeta. split; [vm_compute; reflexivity|now apply idle_closed]. Qed.

Print Assumptions C153_storage_partial.
Print Assumptions C153_empty_id_refuted.
Print Assumptions C153_indexes.
Print Assumptions C153_lsh_annoy_partial.
Print Assumptions C153_lsh_delete_refuted.
Print Assumptions C153_insert_number_refuted.
Print Assumptions C153_client.
Print Assumptions C153_quantizers.
Print Assumptions C153_persistence.
Print Assumptions C153_processors.
Print Assumptions C153_dimension.
Print Assumptions C153_registry.
Print Assumptions C153_pipeline.
