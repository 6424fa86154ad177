(** The client with its optional quantizer and persistence manager spelled out.

    Source: /repo/src/valori/client.py:16-126.  [ClientModel] keeps of the two optional components
    only the outcomes of their [initialize] and [close]; here they are objects with a state. *)

From Coq Require Import List Arith ZArith NArith Bool.
From Verif Require Import PyBase Payload StorageModel StorageSpec StorageRun Num ClientModel DbSpec ClientRun.
From Verif Require Import XReal ScalarModel ProductModel FsModel PersistModel.
Import ListNotations.
Open Scope py_scope.

(** What [VectorDBClient] calls on an optional component: [initialize] (client.py:56-60), [close]
    (client.py:116-120) and [get_stats] (client.py:108-112; only whether it raises).  [co_reopen]
    is what a new process constructs: a new object, over the same files. *)
Record component (Q : Type) : Type := {
  co_init : M Q unit;
  co_close : M Q unit;
  co_stats : Q -> result unit;
  co_reopen : Q -> Q
}.
Arguments co_init {Q} _.
Arguments co_close {Q} _.
Arguments co_stats {Q} _ _.
Arguments co_reopen {Q} _ _.

(** Fields of [VectorDBClient]; client.py:43-48 ([config] is never read). *)
Record fclient (X S Q P : Type) : Type := MkFull {
  fc_index : X; fc_storage : S; fc_quant : option Q; fc_pers : option P; fc_init : bool }.
Arguments MkFull {X S Q P} _ _ _ _ _.
Arguments fc_index {X S Q P} _.
Arguments fc_storage {X S Q P} _.
Arguments fc_quant {X S Q P} _.
Arguments fc_pers {X S Q P} _.
Arguments fc_init {X S Q P} _.

Section Full.
  Context {X S F Mt Orc Q P : Type}.
  Context (C : storage_class S (list F) Mt) (IC : index_class X S F Mt Orc).
  Context (CQ : component Q) (CP : component P).

  (** Calls on [self.index], [self.storage_backend]. *)
  Definition fc_on_index {A} : M (X * S) A -> M (fclient X S Q P) A :=
    zoom (fun c => (fc_index c, fc_storage c))
         (fun w c => MkFull (fst w) (snd w) (fc_quant c) (fc_pers c) (fc_init c)).
  Definition fc_on_storage {A} : M S A -> M (fclient X S Q P) A :=
    zoom fc_storage (fun t c => MkFull (fc_index c) t (fc_quant c) (fc_pers c) (fc_init c)).

  (** [if self.quantizer: self.quantizer.m()]; client.py:56-57, 108-109, 119-120. *)
  Definition if_quant (m : M Q unit) : M (fclient X S Q P) unit :=
    fun c => match fc_quant c with
             | None => (Ok tt, c)
             | Some q => let (r, q') := m q in
                         (r, MkFull (fc_index c) (fc_storage c) (Some q') (fc_pers c) (fc_init c))
             end.

  (** [if self.persistence_manager: self.persistence_manager.m()]; client.py:59-60, 111-112,
      116-117. *)
  Definition if_pers (m : M P unit) : M (fclient X S Q P) unit :=
    fun c => match fc_pers c with
             | None => (Ok tt, c)
             | Some p => let (r, p') := m p in
                         (r, MkFull (fc_index c) (fc_storage c) (fc_quant c) (Some p') (fc_init c))
             end.

  (** [self._initialized = b]; client.py:62, 126. *)
  Definition fc_set (b : bool) : M (fclient X S Q P) unit :=
    modify (fun c => MkFull (fc_index c) (fc_storage c) (fc_quant c) (fc_pers c) b).

  (** client.py:50-64. *)
  Definition fl_initialize (o : Orc) : M (fclient X S Q P) unit :=
    wrap EValori
      (fc_on_storage (sc_init C) ;;;
       fc_on_index (ix_init IC o) ;;;
       if_quant (co_init CQ) ;;;
       if_pers (co_init CP) ;;;
       fc_set true).

  (** The guard of client.py:70-71, 79-80, 86-87, 93-94, 100-101. *)
  Definition fc_guarded {A} (m : M (fclient X S Q P) A) : M (fclient X S Q P) A :=
    c <- get ;; if negb (fc_init c) then raise EValori else m.

  (** client.py:66-73. *)
  Definition fl_insert o fresh arr metadata : M (fclient X S Q P) (list pystr) :=
    fc_guarded (fc_on_index (ix_insert IC o fresh arr metadata)).

  (** client.py:75-80. *)
  Definition fl_search o q k : M (fclient X S Q P) (list (hit F Mt)) :=
    fc_guarded (fc_on_index (ix_search IC o q k)).

  (** client.py:82-87. *)
  Definition fl_delete ids : M (fclient X S Q P) bool :=
    fc_guarded (fc_on_index (ix_delete IC ids)).

  (** client.py:89-96. *)
  Definition fl_update o id v m : M (fclient X S Q P) bool :=
    fc_guarded (fc_on_index (ix_update IC o id v m)).

  (** client.py:98-114, the reports reduced to the two vector counts. *)
  Definition fl_stats : M (fclient X S Q P) (option Z * option Z) :=
    fc_guarded (st <- fc_on_storage (sc_stats C) ;;
               c <- get ;;
               if_quant (fun q => (co_stats CQ q, q)) ;;;
               if_pers (fun p => (co_stats CP p, p)) ;;;
               ret (ix_count IC (fc_index c),
                    match st with Some (n, _) => Some n | None => None end)).

  (** client.py:116-126. *)
  Definition fl_close : M (fclient X S Q P) unit :=
    if_pers (co_close CP) ;;;
    if_quant (co_close CQ) ;;;
    fc_on_index (ix_close IC) ;;;
    fc_on_storage (sc_close C) ;;;
    fc_set false.

  (** A new process: all objects are constructed again. *)
  Definition fl_reopen (c : fclient X S Q P) : fclient X S Q P :=
    MkFull (ix_new IC) (sc_reopen C (fc_storage c)) (option_map (co_reopen CQ) (fc_quant c))
           (option_map (co_reopen CP) (fc_pers c)) false.

  (** Turn the outcome of a method of client.py:50-126 into an observation. *)
  Definition fobs {A} (f : A -> cret F Mt) (r : result A * fclient X S Q P)
      : cret F Mt * fclient X S Q P :=
    match r with
    | (Ok a, s) => (f a, s)
    | (Raise e, s) => (AExn e, s)
    end.

  (** Dispatch one call; client.py:50-126.  The list of outcomes in [CInit] and [CClose] is not looked at: the
      components themselves are here. *)
  Definition fl_step (c : fclient X S Q P) (o : cop F Mt Orc) : cret F Mt * fclient X S Q P :=
    match o with
    | CInit o _ => fobs (fun _ => AUnit) (fl_initialize o c)
    | CInsert o fresh arr meta => fobs AIds (fl_insert o fresh arr meta c)
    | CSearch o q k => fobs AHits (fl_search o q k c)
    | CDelete ids => fobs ABool (fl_delete ids c)
    | CUpdate o id v m => fobs ABool (fl_update o id v m c)
    | CStats => fobs (fun x => ACounts (fst x) (snd x)) (fl_stats c)
    | CClose _ => fobs (fun _ => AUnit) (fl_close c)
    | CReopen => (AUnit, fl_reopen c)
    end.

  (** Run a history of calls on client.py:16-126, collecting the answers. *)
  Fixpoint fl_run (c : fclient X S Q P) (ops : list (cop F Mt Orc))
      : list (cret F Mt) * fclient X S Q P :=
    match ops with
    | [] => ([], c)
    | o :: ops' =>
        let (r, c') := fl_step c o in
        let (rs, c'') := fl_run c' ops' in
        (r :: rs, c'')
    end.

  (** client.py:26-48. *)
  Definition fl_new (s0 : S) (q : option Q) (p : option P) : fclient X S Q P :=
    MkFull (ix_new IC) s0 q p false.
End Full.

(** ** The components that exist *)

(** quantization/scalar.py:33-40, 204-236 (no branch raises: the ranges are guarded by
    [is not None]), 238-246. *)
Definition scalar_component : component scalarq := {|
  co_init := scalar_initialize;
  co_close := scalar_close;
  co_stats := fun _ => Ok tt;
  co_reopen := fun _ => scalar_new
|}.

(** quantization/product.py:33-38, 219-262, 264-270. *)
Definition product_component {F} : component (productq F) := {|
  co_init := product_initialize;
  co_close := product_close;
  co_stats := fun _ => Ok tt;
  co_reopen := fun _ => product_new
|}.

(** The part of a SAQ quantizer its life cycle depends on: whether [self.pca] has the attribute
    [explained_variance_ratio_], [_trained], [_initialized]; saq.py:62-71 (initialize: a new PCA
    without the attribute, [_trained] keeps its value), 73-134 and 217-222 (a successful train
    assigns the attribute; the PCA itself is never fitted), 644-653 (close). *)
Record saqlife : Type := MkSaqlife { sl_ratio : bool; sl_trained : bool; sl_init : bool }.

(** saq.py:38-53, a new quantizer; 73-134, a successful train. *)
Definition saq_life_new : saqlife := MkSaqlife false false false.
Definition saq_life_train (s : saqlife) : saqlife := MkSaqlife true true (sl_init s).

(** saq.py:615-642: a trained quantizer reports [self.pca.explained_variance_ratio_]. *)
Definition saq_component : component saqlife := {|
  co_init := modify (fun s => MkSaqlife false (sl_trained s) true);
  co_close := modify (fun _ => saq_life_new);
  co_stats := fun s =>
    if negb (sl_init s) then Ok tt
    else if sl_trained s then (if sl_ratio s then Ok tt else Raise EAttr) else Ok tt;
  co_reopen := fun _ => saq_life_new
|}.

(** persistence/tensor.py:32-39, 164-196 (every exception is turned into a report), 198-200. *)
Definition tensor_component {V O} : component (tensor V O) := {|
  co_init := tensor_initialize;
  co_close := tensor_close;
  co_stats := fun _ => Ok tt;
  co_reopen := fun t => tensor_new (reboot (t_fs t)) (t_base t)
|}.

(** persistence/incremental.py:38-55, 194-232 (likewise), 234-236. *)
Definition incr_component {V O} : component (incr V O) := {|
  co_init := incr_initialize;
  co_close := incr_close;
  co_stats := fun _ => Ok tt;
  co_reopen := fun t => incr_new (reboot (i_fs t)) (i_base t) (i_interval t)
|}.
