(** Properties C106 to C108: the processing pipeline (model: PipelineModel.v). *)

From Coq Require Import String List Arith ZArith NArith Bool Lia.
From Verif Require Import PyBase PyMore Num PyValue ChunkModel CleanModel BatchModel EmbedModel PipelineModel PropsEmbed PropsRegistry.
Import ListNotations.
Open Scope py_scope.

(** ** C106 *)

Section Order.
  Context {F : Type} {num : Num F} {Parser : Type}.
  Context (build : parser_class -> conf -> result Parser)
          (read_clean : conf -> result clean_config) (read_chunk : conf -> result chunk_config)
          (read_embed : conf -> result embed_config).

  (** The processor a configuration entry asks for, freshly made. *)
  Definition made_from (name : pystr) (c : conf) (q : processor F) : Prop :=
    (name = py "cleaning" /\ exists w, read_clean c = Ok w /\ q = QClean w) \/
    (name = py "chunking" /\ exists k, read_chunk c = Ok k /\ (0 < k_size k)%Z /\ (k_overlap k < k_size k)%Z /\ q = QChunk k) \/
    (name = py "embedding" /\ exists e, read_embed c = Ok e /\ known_type e /\ q = QEmbed e (MkEmbedder [] [] 0 0 0 true)).

  (** The processors of a configuration: for each of the three names that occurs, in this order. *)
  Inductive made_all (cs : conf) : list pystr -> list (processor F) -> Prop :=
  | MANil : made_all cs [] []
  | MASkip n ns qs : conf_entry cs n = None -> made_all cs ns qs -> made_all cs (n :: ns) qs
  | MAMake n ns c q qs : conf_entry cs n = Some c -> made_from n c q -> made_all cs ns qs ->
      made_all cs (n :: ns) (q :: qs).
End Order.

Lemma add_cleaning_spec {F} {num : Num F} {Parser} read_clean read_chunk read_embed c (s s' : pipeline F Parser) :
  add_cleaning read_clean c s = (Ok tt, s') ->
  exists q, made_from read_clean read_chunk read_embed (py "cleaning") c q /\
            s' = set_processors (l_processors s ++ [q]) s.
Proof.
  unfold add_cleaning, bind, lift. destruct (read_clean c) as [w|] eqn:E; [|discriminate].
  intros Eq. injection Eq as <-. exists (QClean w). split; [|reflexivity]. left. eauto.
Qed.

Lemma add_chunking_spec {F} {num : Num F} {Parser} read_clean read_chunk read_embed c (s s' : pipeline F Parser) :
  add_chunking read_chunk c s = (Ok tt, s') ->
  exists q, made_from read_clean read_chunk read_embed (py "chunking") c q /\
            s' = set_processors (l_processors s ++ [q]) s.
Proof.
  unfold add_chunking, bind, lift. destruct (read_chunk c) as [k|] eqn:E; [|discriminate].
  unfold chunk_initialize. destruct (Z.leb_spec (k_size k) 0); [discriminate|].
  destruct (Z.leb_spec (k_size k) (k_overlap k)); [discriminate|].
  intros Eq. injection Eq as <-. exists (QChunk k). split; [|reflexivity]. right. left.
  split; [reflexivity|]. exists k. auto.
Qed.

Lemma add_embedding_spec {F} {num : Num F} {Parser} read_clean read_chunk read_embed c (s s' : pipeline F Parser) :
  add_embedding read_embed c s = (Ok tt, s') ->
  exists q, made_from read_clean read_chunk read_embed (py "embedding") c q /\
            s' = set_processors (l_processors s ++ [q]) s.
Proof.
  unfold add_embedding, bind, lift. destruct (read_embed c) as [e|] eqn:E; [|discriminate].
  unfold emb_initialize, modify, raise. destruct (e_type e) eqn:Et; simpl; intros Eq; try discriminate;
    injection Eq as <-; eexists; (split; [|reflexivity]); right; right; (split; [reflexivity|]);
    exists e; (split; [assumption|split; [|reflexivity]]); intros n; congruence.
Qed.

(** An initialised new pipeline has the configured processors, each once, cleaning before chunking
    before embedding whatever the order in the configuration, and all freshly made. *)
Theorem C106_processors_partial :
  forall (F : Type) (num : Num F) (Parser : Type) (build : parser_class -> conf -> result Parser)
         read_clean read_chunk read_embed (c : conf) (s : pipeline F Parser),
    pipe_initialize build read_clean read_chunk read_embed (new_pipeline c) = (Ok tt, s) ->
    exists cs, conf_get c (py "processors") = Ok cs /\
      made_all read_clean read_chunk read_embed cs
        [py "cleaning"; py "chunking"; py "embedding"] (l_processors s).
Proof.
  intros F num Parser build read_clean read_chunk read_embed c s.
  unfold pipe_initialize, wrap, bind, get, lift, modify. simpl.
  destruct (conf_get c (py "parsers")) as [pc|]; [|discriminate].
  destruct (reg_initialize build (new_registry pc)) as [[[]|] g]; [|discriminate].
  destruct (conf_get c (py "processors")) as [cs|] eqn:Ec; [|discriminate].
  set (s0 := set_registry _ _). assert (E0 : l_processors s0 = []) by reflexivity. clearbody s0.
  intros E. exists cs. split; [reflexivity|]. revert E.
  unfold when_configured.
  destruct (conf_entry cs (py "cleaning")) as [c1|] eqn:E1.
  - destruct (add_cleaning read_clean c1 s0) as [[[]|] s1] eqn:A1; [|discriminate].
    apply (add_cleaning_spec read_clean read_chunk read_embed) in A1. destruct A1 as (q1 & M1 & ->).
    destruct (conf_entry cs (py "chunking")) as [c2|] eqn:E2.
    + destruct (add_chunking read_chunk c2 _) as [[[]|] s2] eqn:A2; [|discriminate].
      apply (add_chunking_spec read_clean read_chunk read_embed) in A2. destruct A2 as (q2 & M2 & ->).
      destruct (conf_entry cs (py "embedding")) as [c3|] eqn:E3.
      * destruct (add_embedding read_embed c3 _) as [[[]|] s3] eqn:A3; [|discriminate].
        apply (add_embedding_spec read_clean read_chunk read_embed) in A3. destruct A3 as (q3 & M3 & ->).
        intros E. injection E as <-. simpl. rewrite E0. simpl.
        repeat (eapply MAMake; eauto). constructor.
      * intros E. injection E as <-. simpl. rewrite E0. simpl.
        eapply MAMake; eauto. eapply MAMake; eauto. apply MASkip; auto. constructor.
    + unfold ret. destruct (conf_entry cs (py "embedding")) as [c3|] eqn:E3.
      * destruct (add_embedding read_embed c3 _) as [[[]|] s3] eqn:A3; [|discriminate].
        apply (add_embedding_spec read_clean read_chunk read_embed) in A3. destruct A3 as (q3 & M3 & ->).
        intros E. injection E as <-. simpl. rewrite E0. simpl.
        eapply MAMake; eauto. apply MASkip; auto. eapply MAMake; eauto. constructor.
      * intros E. injection E as <-. simpl. rewrite E0. simpl.
        eapply MAMake; eauto. apply MASkip; auto. apply MASkip; auto. constructor.
  - unfold ret at 1. destruct (conf_entry cs (py "chunking")) as [c2|] eqn:E2.
    + destruct (add_chunking read_chunk c2 _) as [[[]|] s2] eqn:A2; [|discriminate].
      apply (add_chunking_spec read_clean read_chunk read_embed) in A2. destruct A2 as (q2 & M2 & ->).
      destruct (conf_entry cs (py "embedding")) as [c3|] eqn:E3.
      * destruct (add_embedding read_embed c3 _) as [[[]|] s3] eqn:A3; [|discriminate].
        apply (add_embedding_spec read_clean read_chunk read_embed) in A3. destruct A3 as (q3 & M3 & ->).
        intros E. injection E as <-. simpl. rewrite E0. simpl.
        apply MASkip; auto. eapply MAMake; eauto. eapply MAMake; eauto. constructor.
      * intros E. injection E as <-. simpl. rewrite E0. simpl.
        apply MASkip; auto. eapply MAMake; eauto. apply MASkip; auto. constructor.
    + unfold ret. destruct (conf_entry cs (py "embedding")) as [c3|] eqn:E3.
      * destruct (add_embedding read_embed c3 _) as [[[]|] s3] eqn:A3; [|discriminate].
        apply (add_embedding_spec read_clean read_chunk read_embed) in A3. destruct A3 as (q3 & M3 & ->).
        intros E. injection E as <-. simpl. rewrite E0. simpl.
        apply MASkip; auto. apply MASkip; auto. eapply MAMake; eauto. constructor.
      * intros E. injection E as <-. simpl. rewrite E0. simpl.
        apply MASkip; auto. apply MASkip; auto. apply MASkip; auto. constructor.
Qed.

From Verif Require Import Demo DemoIndex.

(** Initialising twice appends every processor again. *)
Theorem C106_twice_refuted :
  exists (c : conf) s1 s2,
    let init := pipe_initialize (F := Z) toy_build toy_clean toy_chunk toy_embed in
    init (new_pipeline c) = (Ok tt, s1) /\ init s1 = (Ok tt, s2) /\
    map processor_name (l_processors s2) =
      [py "CleaningProcessor"; py "ChunkingProcessor"; py "EmbeddingProcessor";
       py "CleaningProcessor"; py "ChunkingProcessor"; py "EmbeddingProcessor"].
Proof.
  exists (CTable readme_config). eexists _, _. split; [vm_compute; reflexivity|].
  split; vm_compute; reflexivity.
Qed.

(** An initialisation that fails half-way keeps the processors it had made: the next one, say after
    the model has become available, adds them again. *)
Theorem C106_half_way_refuted :
  exists (c : conf) e s1 s2,
    pipe_initialize (F := Z) toy_build toy_clean toy_chunk (fun _ => Raise EOs) (new_pipeline c) = (Raise e, s1) /\
    pipe_initialize (F := Z) toy_build toy_clean toy_chunk toy_embed s1 = (Ok tt, s2) /\
    map processor_name (l_processors s2) =
      [py "CleaningProcessor"; py "ChunkingProcessor";
       py "CleaningProcessor"; py "ChunkingProcessor"; py "EmbeddingProcessor"].
Proof.
  exists (CTable readme_config). eexists _, _, _. split; [vm_compute; reflexivity|].
  split; vm_compute; reflexivity.
Qed.

(** After [close] initialising again gives what a new pipeline gives. *)
Theorem C106_close :
  forall (F : Type) (num : Num F) (Parser : Type) (build : parser_class -> conf -> result Parser)
         read_clean read_chunk read_embed (s : pipeline F Parser),
    let init := pipe_initialize build read_clean read_chunk read_embed in
    init (snd (pipe_close s)) = init (new_pipeline (l_config s)).
Proof. reflexivity. Qed.

Example C106_case :
  exists s, pipe_initialize (F := Z) toy_build toy_clean toy_chunk toy_embed
              (new_pipeline (CTable [(py "processors", CTable [(py "embedding", CTable []); (py "cleaning", CTable [])])]))
            = (Ok tt, s) /\ map processor_name (l_processors s) = [py "CleaningProcessor"; py "EmbeddingProcessor"].
Proof. eexists. split; vm_compute; reflexivity. Qed.

(** * What a document becomes *)

Section Reference.
  Context {F : Type} {num : Num F} {Path Meta : Type}.
  Context (lib : text_lib) (encode : pystr -> result (list F)) (md5 : pystr -> result pystr).

  (** The texts the embedding processors of a pipeline get to see for a document. *)
  Fixpoint embedded (qs : list (processor F)) (d : document) : list pystr :=
    match qs with
    | [] => []
    | QClean w :: r => embedded r (clean_process lib w d)
    | QChunk k :: r => match chunk_document k d with Ok d' => embedded r d' | Raise _ => [] end
    | QEmbed _ _ :: r =>
        (match d_text d with Some t => [t] | None => [] end) ++
        (match d_chunks d with Some cs => map c_text cs | None => [] end) ++ embedded r d
    end.

  Definition view (d : pdoc F Path Meta) : document := MkDoc (x_text d) (x_chunks d).

  (** Two processors differing only in what their caches hold. *)
  Definition alike (q q' : processor F) : Prop :=
    match q, q' with
    | QClean w, QClean w' => w = w'
    | QChunk k, QChunk k' => k = k'
    | QEmbed c _, QEmbed c' _ => c = c'
    | _, _ => False
    end.

  Lemma embedded_alike qs : forall qs' d, Forall2 alike qs qs' -> embedded qs d = embedded qs' d.
  Proof.
    induction qs as [|q qs IH]; intros qs' d Ha; inversion Ha as [|? q' ? qs'' H1 H2]; subst; [reflexivity|].
    destruct q, q'; simpl in H1; try contradiction; subst; simpl.
    - now apply IH.
    - destruct (chunk_document k0 d); [now apply IH|reflexivity].
    - f_equal. f_equal. now apply IH.
  Qed.

  (** What the pipeline computes without any cache. *)
  Definition plain_answer (c : embed_config) (t : pystr) : result (list F) :=
    if is_blank t then Ok (repeat nzero 384) else rbind (encode t) (fun v => Ok (finish c v)).

  Lemma plain_embeds c t : embeds encode c t (plain_answer c t).
  Proof. apply answer_embeds. Qed.

  Definition plain_step (q : processor F) (d : pdoc F Path Meta) : result (pdoc F Path Meta) :=
    match q with
    | QEmbed c _ =>
        rbind (match x_text d with Some t => rbind (plain_answer c t) (fun v => Ok (Some v)) | None => Ok (x_embedding d) end) (fun e =>
        rbind (match x_chunks d with
               | Some cs => rbind (rmap (fun x => plain_answer c (c_text x)) cs) (fun vs => Ok (Some vs))
               | None => Ok (x_chunk_embeddings d) end) (fun ce =>
        Ok (MkPDoc (x_text d) (x_chunks d) e ce (x_meta d) (x_pipeline d))))
    | _ => fst (apply_processor lib encode md5 q d)
    end.

  Fixpoint plain_all (qs : list (processor F)) (d : pdoc F Path Meta) : result (pdoc F Path Meta) :=
    match qs with
    | [] => Ok d
    | q :: r => rbind (plain_step q d) (plain_all r)
    end.

  Lemma plain_alike qs : forall qs' d, Forall2 alike qs qs' -> plain_all qs d = plain_all qs' d.
  Proof.
    induction qs as [|q qs IH]; intros qs' d Ha; inversion Ha as [|? q' ? qs'' H1 H2]; subst; [reflexivity|].
    simpl. assert (E : plain_step q d = plain_step q' d)
      by (destruct q, q'; simpl in H1; try contradiction; subst; reflexivity).
    rewrite E. destruct (plain_step q' d); simpl; [now apply IH|reflexivity].
  Qed.

  Context (T : pystr -> Prop).

  Definition good (q : processor F) : Prop :=
    match q with
    | QEmbed c s => known_type c /\ keys_apart md5 c T /\ sound encode md5 c T s /\ m_ready s = true
    | _ => True
    end.

  Lemma chunks_run c (Hk : keys_apart md5 c T) (Ht : known_type c) cs : forall s,
    (forall x, In x cs -> T (c_text x)) -> sound encode md5 c T s ->
    let (r, s') := embed_chunks encode md5 c (map (fun x => Some (c_text x)) cs) s in
    sound encode md5 c T s' /\ grows s s' /\
    rbind r (fun ls => Ok (read_all s' ls)) = rmap (fun x => plain_answer c (c_text x)) cs /\
    (forall ls, r = Ok ls -> forall l, In l ls -> exists v, nth_error (m_heap s') l = Some v).
  Proof.
    induction cs as [|x cs IH]; intros s HT Hs; simpl.
    - split; [exact Hs|]. split; [apply grows_refl|]. split; [reflexivity|].
      intros ls E. injection E as <-. intros l [].
    - unfold bind at 1.
      pose proof (generate_sound encode md5 c T Hk Ht (c_text x) s (HT x (or_introl eq_refl)) Hs) as G.
      destruct (generate_embedding encode md5 c (c_text x) s) as [[l|e] s1].
      + destruct G as (G1 & G2 & G3 & G4). destruct (G4 l eq_refl) as [v Ev]. simpl in G3. rewrite Ev in G3.
        assert (Ea : plain_answer c (c_text x) = Ok v) by (symmetry; exact G3).
        unfold bind. specialize (IH s1 (fun y Hy => HT y (or_intror Hy)) G1). rewrite Ea.
        destruct (embed_chunks encode md5 c _ s1) as [[ls|e] s2]; destruct IH as (I1 & I2 & I3 & I4).
        * split; [exact I1|]. split; [eapply grows_trans; eauto|].
          assert (Ev2 : nth_error (m_heap s2) l = Some v) by (eapply grows_nth; eauto).
          split.
          -- simpl in *. rewrite <- I3. simpl. rewrite (nth_error_nth _ _ _ Ev2). reflexivity.
          -- intros ls' E. injection E as <-. intros l' [<-|Hl]; eauto.
        * split; [exact I1|]. split; [eapply grows_trans; eauto|]. split; [|discriminate].
          simpl in *. rewrite <- I3. reflexivity.
      + destruct G as (G1 & G2 & G3 & G4). split; [exact G1|]. split; [exact G2|]. split; [|discriminate].
        assert (Ea : plain_answer c (c_text x) = Raise e) by (symmetry; exact G3). rewrite Ea. reflexivity.
  Qed.

  (** One processor computes what it would without its cache. *)
  Lemma step_plain q d : good q -> (forall t, In t (embedded [q] (view d)) -> T t) ->
    let (r, q') := apply_processor lib encode md5 q d in
    good q' /\ alike q q' /\ r = plain_step q d.
  Proof.
    intros Hg HT. destruct q as [w|k|c s]; [simpl; auto..|].
    destruct Hg as (Ht & Hk & Hs & Hr). simpl in HT. rewrite app_nil_r in HT. unfold view in HT. simpl in HT.
    unfold apply_processor, emb_process. unfold bind at 1, get. rewrite Hr. cbn [negb ed_text ed_chunks].
    unfold plain_step.
    assert (Text : let (r, s1) := (match x_text d with
                      | Some t => l <- generate_embedding encode md5 c t ;; ret (Some l)
                      | None => ret None end) s in
              sound encode md5 c T s1 /\ grows s s1 /\
              match r with
              | Ok None => x_text d = None
              | Ok (Some l) => exists t v, x_text d = Some t /\ plain_answer c t = Ok v /\ nth_error (m_heap s1) l = Some v
              | Raise e => exists t, x_text d = Some t /\ plain_answer c t = Raise e
              end).
    { destruct (x_text d) as [t|]; [|split; [exact Hs|split; [apply grows_refl|reflexivity]]].
      pose proof (generate_sound encode md5 c T Hk Ht t s (HT t (or_introl eq_refl)) Hs) as G. unfold bind.
      destruct (generate_embedding encode md5 c t s) as [[l|e] s1]; destruct G as (G1 & G2 & G3 & G4);
        (split; [exact G1|split; [exact G2|]]).
      - destruct (G4 l eq_refl) as [v Ev]. simpl in G3. rewrite Ev in G3. exists t, v. auto.
      - exists t. auto. }
    unfold bind at 1.
    destruct ((match x_text d with
                      | Some t => l <- generate_embedding encode md5 c t ;; ret (Some l)
                      | None => ret None end) s) as [[o|e] s1]; destruct Text as (S1 & S2 & S3).
    2: { destruct S3 as (t & -> & ->). simpl.
         split; [split; [exact Ht|split; [exact Hk|split; [exact S1|destruct S2 as [_ ->]; exact Hr]]]|auto]. }
    assert (Re : match x_text d with Some t => rbind (plain_answer c t) (fun v => Ok (Some v)) | None => Ok (x_embedding d) end
                 = Ok (match o with Some l => Some (nth l (m_heap s1) []) | None => x_embedding d end)).
    { destruct o as [l|].
      - destruct S3 as (t & v & -> & -> & Ev). simpl. now rewrite (nth_error_nth _ _ _ Ev).
      - now rewrite S3. }
    rewrite Re. cbn [rbind].
    destruct (x_chunks d) as [cs|] eqn:Ec; cbn [option_map].
    - unfold bind at 1. unfold bind at 1.
      assert (HTc : forall x, In x cs -> T (c_text x)).
      { intros x Hx. apply HT. apply in_or_app. right. now apply in_map. }
      pose proof (chunks_run c Hk Ht cs s1 HTc S1) as C.
      destruct (embed_chunks encode md5 c (map (fun x => Some (c_text x)) cs) s1) as [[ls|e] s2];
        destruct C as (C1 & C2 & C3 & C4).
      + cbn [ret rbind fst snd] in *. rewrite <- C3. cbn [rbind].
        split; [split; [exact Ht|split; [exact Hk|split; [exact C1|destruct C2 as [_ ->], S2 as [_ ->]; exact Hr]]]|].
        split; [reflexivity|]. f_equal. f_equal.
        destruct o as [l|]; [|reflexivity]. destruct S3 as (t & v & _ & _ & Ev). f_equal.
        rewrite (nth_error_nth _ _ _ Ev). apply nth_error_nth. eapply grows_nth; eauto.
      + cbn [rbind] in *. rewrite <- C3.
        split; [split; [exact Ht|split; [exact Hk|split; [exact C1|destruct C2 as [_ ->], S2 as [_ ->]; exact Hr]]]|].
        split; reflexivity.
    - unfold ret. unfold bind at 1. cbn [rbind fst snd].
      split; [split; [exact Ht|split; [exact Hk|split; [exact S1|destruct S2 as [_ ->]; exact Hr]]]|].
      split; reflexivity.
  Qed.

  Lemma plain_step_view q d d' : plain_step q d = Ok d' ->
    forall qs, (forall t, In t (embedded qs (view d')) -> In t (embedded (q :: qs) (view d))).
  Proof.
    destruct q as [w|k|c s]; intros E qs t Hin; simpl in *.
    - injection E as <-. exact Hin.
    - unfold view at 1. destruct (chunk_document k (MkDoc (x_text d) (x_chunks d))) as [d1|]; [|discriminate].
      injection E as <-. unfold view in Hin. simpl in Hin. now destruct d1.
    - assert (Ev : view d' = view d).
      { destruct (match x_text d with Some t => rbind (plain_answer c t) (fun v => Ok (Some v)) | None => Ok (x_embedding d) end);
          [|discriminate]. simpl in E.
        destruct (match x_chunks d with Some cs => rbind (rmap (fun x => plain_answer c (c_text x)) cs) (fun vs => Ok (Some vs))
                    | None => Ok (x_chunk_embeddings d) end); [|discriminate]. injection E as <-. reflexivity. }
      rewrite Ev in Hin. apply in_or_app. right. apply in_or_app. now right.
  Qed.

  Lemma embedded_first q qs d t : In t (embedded [q] d) -> In t (embedded (q :: qs) d).
  Proof.
    destruct q as [w|k|c s]; simpl; [tauto|destruct (chunk_document k d); simpl; tauto|].
    rewrite app_nil_r, !in_app_iff. tauto.
  Qed.

  Lemma alike_refl q : alike q q.
  Proof. destruct q; reflexivity. Qed.

  Lemma all_plain qs : forall d, Forall good qs -> (forall t, In t (embedded qs (view d)) -> T t) ->
    let (r, qs') := apply_all lib encode md5 qs d in
    Forall good qs' /\ Forall2 alike qs qs' /\ r = plain_all qs d.
  Proof.
    induction qs as [|q qs IH]; intros d Hg HT; [simpl; auto|].
    inversion Hg; subst. simpl.
    pose proof (step_plain q d H1 (fun t Hin => HT t (embedded_first q qs _ t Hin))) as S.
    destruct (apply_processor lib encode md5 q d) as [[d'|e] q']; destruct S as (G & A & E).
    - rewrite <- E. cbn [rbind].
      specialize (IH d' H2 (fun t Hin => HT t (plain_step_view q d d' (eq_sym E) qs t Hin))).
      destruct (apply_all lib encode md5 qs d') as [r qs']; destruct IH as (I1 & I2 & I3). auto.
    - rewrite <- E. split; [constructor; auto|]. split; [|reflexivity].
      constructor; [exact A|]. clear. induction qs; constructor; auto using alike_refl.
  Qed.
End Reference.

(** * Histories of a pipeline *)

Section Histories.
  Context {F : Type} {num : Num F} {Parser Path Meta : Type}.
  Context (build : parser_class -> conf -> result Parser)
          (can_parse : Parser -> Path -> result bool)
          (parse : Parser -> Path -> result (pdoc F Path Meta))
          (class_name : Parser -> pystr)
          (lib : text_lib) (encode : pystr -> result (list F)) (md5 : pystr -> result pystr)
          (read_clean : conf -> result clean_config) (read_chunk : conf -> result chunk_config)
          (read_embed : conf -> result embed_config).

  (** What a program does with an initialised pipeline. *)
  Inductive pipe_op : Type :=
  | ODocument (file : Path) (name : option pystr)
  | OText (text : pystr) (meta : Meta)
  | OBatch (files : list Path).

  Definition pipe_do (o : pipe_op) : M (pipeline F Parser) unit :=
    match o with
    | ODocument file name => _ <- process_document can_parse parse class_name lib encode md5 file name ;; ret tt
    | OText text meta => _ <- process_text (Path := Path) lib encode md5 text meta ;; ret tt
    | OBatch files => _ <- batch_process_documents can_parse parse class_name lib encode md5 files ;; ret tt
    end.

  Definition pipe_after (ops : list pipe_op) (s : pipeline F Parser) : pipeline F Parser :=
    fold_left (fun s o => snd (pipe_do o s)) ops s.

  (** The documents a pipeline with a registry works on. *)
  Definition parsed (g : registry Parser) (file : Path) (name : option pystr) : list (pdoc F Path Meta) :=
    match parse_document can_parse parse g file name with Ok d => [d] | Raise _ => [] end.
  Definition docs_of (g : registry Parser) (o : pipe_op) : list (pdoc F Path Meta) :=
    match o with
    | ODocument file name => parsed g file name
    | OText text meta => [MkPDoc (Some text) None None None meta None]
    | OBatch files => concat (map (fun f => parsed g f None) files)
    end.

  (** The texts embedded for some documents. *)
  Definition texts_in (qs : list (processor F)) (docs : list (pdoc F Path Meta)) (t : pystr) : Prop :=
    exists d, In d docs /\ In t (embedded lib qs (view d)).

  (** The hash tells them apart, for every embedding processor there is. *)
  Definition apart (qs : list (processor F)) (T : pystr -> Prop) : Prop :=
    forall c s, In (QEmbed c s) qs -> keys_apart md5 c T.

  (** Same parsers and processors, caches aside. *)
  Definition same (T : pystr -> Prop) (s0 s : pipeline F Parser) : Prop :=
    l_registry s = l_registry s0 /\ l_ready s = l_ready s0 /\
    Forall2 alike (l_processors s0) (l_processors s) /\ Forall (good encode md5 T) (l_processors s).

  Lemma alike_trans_all : forall (a b c : list (processor F)),
    Forall2 alike a b -> Forall2 alike b c -> Forall2 alike a c.
  Proof.
    induction a as [|x a IH]; intros b c H1 H2; inversion H1; subst; inversion H2; subst; constructor.
    - destruct x, y, y0; simpl in *; try contradiction; congruence.
    - eapply IH; eauto.
  Qed.

  Lemma alike_names : forall (a b : list (processor F)), Forall2 alike a b ->
    map processor_name a = map processor_name b.
  Proof.
    induction 1 as [|x y a b H1 H2 IH]; simpl; [reflexivity|]. f_equal; [|exact IH].
    destruct x, y; simpl in *; try contradiction; reflexivity.
  Qed.

  Lemma initialised_same T c s0 :
    pipe_initialize build read_clean read_chunk read_embed (new_pipeline c) = (Ok tt, s0) ->
    apart (l_processors s0) T -> same T s0 s0.
  Proof.
    intros E Ha. split; [reflexivity|]. split; [reflexivity|]. split.
    - clear Ha. induction (l_processors s0); constructor; auto using alike_refl.
    - destruct (C106_processors_partial F num Parser build read_clean read_chunk read_embed c s0 E) as (cs & _ & Hm).
      apply Forall_forall. intros q Hq. destruct q as [w|k|e s]; [exact I..|].
      specialize (Ha e s Hq).
      assert (known_type e /\ s = MkEmbedder [] [] 0 0 0 true) as [Ht ->].
      { clear -Hm Hq. induction Hm as [|n ns qs H1 H2 IH|n ns c q qs H1 H2 H3 IH]; auto; [destruct Hq|].
        destruct Hq as [->|Hq]; auto. destruct H2 as [(_ & w & _ & E)|[(_ & k & _ & _ & _ & E)|(_ & e' & _ & Hk & E)]];
          try discriminate. injection E as -> ->. auto. }
      split; [exact Ht|]. split; [exact Ha|]. split; [|reflexivity]. intros k l Hd. discriminate.
  Qed.

  Lemma run_same T s0 s (d : pdoc F Path Meta) : same T s0 s -> (forall t, In t (embedded lib (l_processors s0) (view d)) -> T t) ->
    let (r, s') := run_processors lib encode md5 d s in
    same T s0 s' /\ r = plain_all lib encode md5 (l_processors s0) d.
  Proof.
    intros (H1 & H2 & H3 & H4) HT. unfold run_processors.
    pose proof (all_plain lib encode md5 T (l_processors s) d H4) as P.
    destruct (apply_all lib encode md5 (l_processors s) d) as [r qs].
    destruct P as (P1 & P2 & P3).
    { intros t Hin. apply HT. now rewrite (embedded_alike lib (l_processors s0) (l_processors s)). }
    split.
    - split; [exact H1|]. split; [exact H2|]. simpl. split; [|exact P1]. eapply alike_trans_all; eauto.
    - rewrite P3. symmetry. now apply plain_alike.
  Qed.

  Lemma parser_used_same T s0 s file name : same T s0 s ->
    parser_used can_parse class_name s file name = parser_used can_parse class_name s0 file name.
  Proof. intros (H1 & _). unfold parser_used. now rewrite H1. Qed.

  (** What [process_document] answers without any cache. *)
  Definition plain_document (s0 : pipeline F Parser) (g : registry Parser) (file : Path) (name : option pystr) :
      result (pdoc F Path Meta) :=
    match rbind (parse_document can_parse parse g file name) (plain_all lib encode md5 (l_processors s0)) with
    | Ok d => Ok (with_meta (MkMeta (Some file) (Some (parser_used can_parse class_name s0 file name))
                                    (map processor_name (l_processors s0))) d)
    | Raise _ => Raise EProcessing
    end.

  Lemma document_same T s0 s g file name : same T s0 s -> l_ready s0 = true -> l_registry s0 = Some g ->
    (forall t, texts_in (l_processors s0) (parsed g file name) t -> T t) ->
    let (r, s') := process_document can_parse parse class_name lib encode md5 file name s in
    same T s0 s' /\ r = plain_document s0 g file name.
  Proof.
    intros Hs Hr Hg HT. assert (Hs' := Hs). destruct Hs' as (H1 & H2 & H3 & H4).
    unfold process_document, bind at 1, get. rewrite H2, Hr. cbn [negb]. rewrite H1, Hg.
    unfold wrap, plain_document. unfold bind at 1, lift. unfold texts_in, parsed in HT.
    destruct (parse_document can_parse parse g file name) as [d|e]; [|auto].
    unfold bind at 1. pose proof (run_same T s0 s d Hs) as R.
    destruct (run_processors lib encode md5 d s) as [r s'].
    destruct R as (R1 & R2); [intros t Hin; apply HT; exists d; split; [now left|exact Hin]|].
    cbn [rbind]. rewrite <- R2. destruct r as [d'|e]; [|auto].
    unfold bind, ret. split; [exact R1|]. rewrite (parser_used_same T s0 s' file name R1).
    destruct R1 as (_ & _ & A & _). now rewrite (alike_names _ _ A).
  Qed.

  Definition plain_text (s0 : pipeline F Parser) (text : pystr) (meta : Meta) : result (pdoc F Path Meta) :=
    match plain_all lib encode md5 (l_processors s0) (MkPDoc (Some text) None None None meta None) with
    | Ok d => Ok (with_meta (MkMeta None None (map processor_name (l_processors s0))) d)
    | Raise _ => Raise EProcessing
    end.

  Lemma text_same T s0 s text meta : same T s0 s -> l_ready s0 = true ->
    (forall t, In t (embedded lib (l_processors s0) (MkDoc (Some text) None)) -> T t) ->
    let (r, s') := process_text lib encode md5 text meta s in
    same T s0 s' /\ r = plain_text s0 text meta.
  Proof.
    intros Hs Hr HT. assert (Hs' := Hs). destruct Hs' as (H1 & H2 & H3 & H4).
    unfold process_text, bind at 1, get. rewrite H2, Hr. cbn [negb].
    unfold wrap, plain_text. unfold bind at 1.
    pose proof (run_same T s0 s (MkPDoc (Some text) None None None meta None) Hs HT) as R.
    destruct (run_processors lib encode md5 _ s) as [r s']. destruct R as (R1 & R2).
    rewrite <- R2. destruct r as [d'|e]; [|auto].
    unfold bind, ret. split; [exact R1|].
    destruct R1 as (_ & _ & A & _). now rewrite (alike_names _ _ A).
  Qed.

  (** One result per file, in order: the document, or an entry naming the file. *)
  Definition entry_of (file : Path) (r : result (pdoc F Path Meta)) : batch_entry :=
    match r with Ok d => Done d | Raise e => Failed file e end.

  Lemma batch_same T s0 g files : l_ready s0 = true -> l_registry s0 = Some g -> forall s, same T s0 s ->
    (forall t, texts_in (l_processors s0) (concat (map (fun f => parsed g f None) files)) t -> T t) ->
    let (r, s') := batch_process_documents can_parse parse class_name lib encode md5 files s in
    same T s0 s' /\ r = Ok (map (fun f => entry_of f (plain_document s0 g f None)) files).
  Proof.
    intros Hr Hg s Hs HT. unfold batch_process_documents, bind at 1, get.
    destruct Hs as (H1 & H2 & H3) eqn:Ehs. rewrite H2, Hr. cbn [negb].
    assert (Hs' : same T s0 s) by exact Hs. clear Ehs H1 H2 H3 Hs. revert s Hs' HT.
    induction files as [|f files IH]; intros s Hs HT; [simpl; auto|]. cbn [mapM].
    unfold bind at 1, try_except at 1. unfold bind at 1.
    pose proof (document_same T s0 s g f None Hs Hr Hg) as D.
    destruct (process_document can_parse parse class_name lib encode md5 f None s) as [r s1].
    destruct D as (D1 & D2).
    { intros t (d & Hd & Hin). apply HT. exists d. split; [|exact Hin]. simpl. apply in_or_app. now left. }
    specialize (IH s1 D1).
    assert (Next : forall x, (let (r0, s') := (ys <- mapM files (fun file => try_except
               (d <- process_document can_parse parse class_name lib encode md5 file None;; ret (Done d))
               (fun e => ret (Failed file e)));; ret (x :: ys)) s1 in
             same T s0 s' /\ r0 = Ok (x :: map (fun f0 => entry_of f0 (plain_document s0 g f0 None)) files))).
    { intros x. unfold bind at 1.
      destruct (mapM files _ s1) as [r0 s'] eqn:Em.
      destruct IH as (I1 & I2).
      { intros t (d & Hd & Hin). apply HT. exists d. split; [|exact Hin]. simpl. apply in_or_app. now right. }
      rewrite I2. unfold ret. auto. }
    cbn [map]. rewrite <- D2.
    destruct r as [d|e]; unfold ret at 1; apply Next.
  Qed.

  Lemma ops_same (T : pystr -> Prop) s0 g ops : l_ready s0 = true -> l_registry s0 = Some g ->
    (forall t, texts_in (l_processors s0) (concat (map (docs_of g) ops)) t -> T t) ->
    forall s, same T s0 s -> same T s0 (pipe_after ops s).
  Proof.
    intros Hr Hg. induction ops as [|o ops IH]; intros HT s Hs; [exact Hs|]. simpl.
    assert (HT1 : forall t, texts_in (l_processors s0) (docs_of g o) t -> T t).
    { intros t (d & Hd & Hin). apply HT. exists d. split; [|exact Hin]. simpl. apply in_or_app. now left. }
    apply IH.
    { intros t (d & Hd & Hin). apply HT. exists d. split; [|exact Hin]. simpl. apply in_or_app. now right. }
    destruct o as [file name|text meta|files]; simpl; unfold bind.
    - pose proof (document_same T s0 s g file name Hs Hr Hg HT1) as D.
      destruct (process_document _ _ _ _ _ _ file name s) as [[d|e] s']; apply D.
    - pose proof (text_same T s0 s text meta Hs Hr) as D.
      destruct (process_text lib encode md5 text meta s) as [[d|e] s']; apply D;
        intros t Hin; apply HT1; eexists; (split; [left; reflexivity|exact Hin]).
    - pose proof (batch_same T s0 g files Hr Hg s Hs HT1) as D.
      destruct (batch_process_documents _ _ _ _ _ _ files s) as [[d|e] s']; apply D.
  Qed.
End Histories.

(** ** C108 *)

(** What a document or a text gets does not depend on what the pipeline processed before.
    Partial: the hash of the embedding cache tells the embedded texts apart. *)
Theorem C108_history_partial :
  forall (F : Type) (num : Num F) (Parser Path Meta : Type) (build : parser_class -> conf -> result Parser)
         can_parse (parse : Parser -> Path -> result (pdoc F Path Meta)) class_name lib encode md5
         read_clean read_chunk read_embed c s0 g (ops : list pipe_op),
    let s := pipe_after can_parse parse class_name lib encode md5 ops s0 in
    let document file name := process_document can_parse parse class_name lib encode md5 file name in
    let text t meta := process_text (Path := Path) (Meta := Meta) lib encode md5 t meta in
    pipe_initialize build read_clean read_chunk read_embed (new_pipeline c) = (Ok tt, s0) ->
    l_registry s0 = Some g ->
    forall o, apart md5 (l_processors s0)
      (texts_in lib (l_processors s0) (docs_of can_parse parse g o ++ concat (map (docs_of can_parse parse g) ops))) ->
    match o with
    | ODocument file name => fst (document file name s) = fst (document file name s0)
    | OText t meta => fst (text t meta s) = fst (text t meta s0)
    | OBatch files =>
        exists s', batch_process_documents can_parse parse class_name lib encode md5 files s =
          (Ok (map (fun f => match fst (document f None s0) with Ok d => Done d | Raise e => Failed f e end) files), s')
    end.
Proof.
  intros F num Parser Path Meta build can_parse parse class_name lib encode md5 read_clean read_chunk read_embed
    c s0 g ops s document text E Hg o Ha.
  set (T := texts_in lib (l_processors s0) (docs_of can_parse parse g o ++ concat (map (docs_of can_parse parse g) ops))) in *.
  destruct (init_registry build read_clean read_chunk read_embed c s0 E) as (Hr & _).
  assert (S0 : same encode md5 T s0 s0) by (eapply initialised_same; eauto).
  assert (Hs : same encode md5 T s0 s).
  { eapply ops_same; eauto. intros t (d & Hd & Hin). exists d. split; [|exact Hin].
    apply in_or_app. now right. }
  assert (HT : forall t, texts_in lib (l_processors s0) (docs_of can_parse parse g o) t -> T t).
  { intros t (d & Hd & Hin). exists d. split; [|exact Hin]. apply in_or_app. now left. }
  destruct o as [file name|t meta|files].
  - pose proof (document_same can_parse parse class_name lib encode md5 T s0 s g file name Hs Hr Hg HT) as D.
    pose proof (document_same can_parse parse class_name lib encode md5 T s0 s0 g file name S0 Hr Hg HT) as D0.
    unfold document. destruct (process_document _ _ _ _ _ _ file name s).
    destruct (process_document _ _ _ _ _ _ file name s0). simpl. destruct D as [_ ->], D0 as [_ ->]. reflexivity.
  - assert (HT' : forall u, In u (embedded lib (l_processors s0) (MkDoc (Some t) None)) -> T u).
    { intros u Hin. apply HT. eexists. split; [left; reflexivity|exact Hin]. }
    pose proof (text_same (Path := Path) lib encode md5 T s0 s t meta Hs Hr HT') as D.
    pose proof (text_same (Path := Path) lib encode md5 T s0 s0 t meta S0 Hr HT') as D0.
    unfold text. destruct (process_text (Path := Path) lib encode md5 t meta s).
    destruct (process_text (Path := Path) lib encode md5 t meta s0). simpl. destruct D as [_ ->], D0 as [_ ->]. reflexivity.
  - pose proof (batch_same can_parse parse class_name lib encode md5 T s0 g files Hr Hg s Hs HT) as B.
    destruct (batch_process_documents _ _ _ _ _ _ files s) as [r s']. destruct B as [_ ->].
    exists s'. f_equal. f_equal. apply map_ext_in. intros f Hf.
    assert (HTf : forall t, texts_in lib (l_processors s0) (parsed can_parse parse g f None) t -> T t).
    { intros t (d & Hd & Hin). apply HT. exists d. split; [|exact Hin]. apply in_concat.
      exists (parsed can_parse parse g f None). split; [|exact Hd]. apply in_map_iff. now exists f. }
    pose proof (document_same can_parse parse class_name lib encode md5 T s0 s0 g f None S0 Hr Hg HTf) as D0.
    unfold document. destruct (process_document _ _ _ _ _ _ f None s0). simpl. destruct D0 as [_ ->]. reflexivity.
Qed.

(** ** C107 *)

Section Content.
  Context {F : Type} {num : Num F} {Path Meta : Type}.
  Context (lib : text_lib) (encode : pystr -> result (list F)).

  (** What the full pipeline is to make of a text: the cleaned text, its chunks, the embedding of
      the cleaned text and, chunk by chunk, the embeddings of the chunks. *)
  Definition worked_out (w : clean_config) (k : chunk_config) (e : embed_config) (text : pystr)
      (d : pdoc F Path Meta) : Prop :=
    exists cs v vs,
      x_text d = Some (clean_text lib w text) /\
      chunk_process k (clean_text lib w text) = Ok cs /\ x_chunks d = Some cs /\
      x_embedding d = Some v /\ embeds encode e (clean_text lib w text) (Ok v) /\
      x_chunk_embeddings d = Some vs /\
      Forall2 (fun v c => embeds encode e (c_text c) (Ok v)) vs cs.
End Content.

Lemma plain_worked {F} {num : Num F} {Path Meta} lib encode md5 w k e s (d d' : pdoc F Path Meta) text :
  x_text d = Some text ->
  plain_all lib encode md5 [QClean w; QChunk k; QEmbed e s] d = Ok d' ->
  worked_out lib encode w k e text d' /\ x_meta d' = x_meta d.
Proof.
  intros Ht E. cbn [plain_all plain_step apply_processor fst rbind] in E. rewrite Ht in E.
  unfold clean_process, chunk_document in E. cbn [d_text d_chunks option_map x_text x_chunks] in E.
  destruct (chunk_process k (clean_text lib w text)) as [cs|x] eqn:Ec; [|discriminate].
  cbn [rbind d_text d_chunks x_text x_chunks x_embedding x_chunk_embeddings] in E.
  pose proof (plain_embeds encode e (clean_text lib w text)) as Pe.
  destruct (plain_answer encode e (clean_text lib w text)) as [v|x] eqn:Ea; [|discriminate].
  cbn [rbind] in E.
  destruct (rmap (fun x => plain_answer encode e (c_text x)) cs) as [vs|x] eqn:Er; [|discriminate].
  injection E as <-. split; [|reflexivity].
  exists cs, v, vs. split; [reflexivity|]. split; [exact Ec|]. split; [reflexivity|]. split; [reflexivity|].
  split; [exact Pe|]. split; [reflexivity|].
  clear -Er. revert vs Er. induction cs as [|c cs IH]; intros vs E; simpl in E.
  - injection E as <-. constructor.
  - pose proof (plain_embeds encode e (c_text c)) as Pe.
    destruct (plain_answer encode e (c_text c)) as [v|]; [|discriminate]. simpl in E.
    destruct (rmap (fun x => plain_answer encode e (c_text x)) cs) as [vs'|]; [|discriminate].
    injection E as <-. constructor; auto.
Qed.

(** After any history, a text or a file that goes through comes out cleaned, cut and embedded, with
    everything else as it was.  Partial: as C108. *)
Theorem C107_content_partial :
  forall (F : Type) (num : Num F) (Parser Path Meta : Type) (build : parser_class -> conf -> result Parser)
         can_parse (parse : Parser -> Path -> result (pdoc F Path Meta)) class_name lib encode md5
         read_clean read_chunk read_embed c s0 g (ops : list pipe_op) w k e st,
    let s := pipe_after can_parse parse class_name lib encode md5 ops s0 in
    let names := [py "CleaningProcessor"; py "ChunkingProcessor"; py "EmbeddingProcessor"] in
    pipe_initialize build read_clean read_chunk read_embed (new_pipeline c) = (Ok tt, s0) ->
    l_registry s0 = Some g -> l_processors s0 = [QClean w; QChunk k; QEmbed e st] ->
    (forall text meta,
       apart md5 (l_processors s0)
         (texts_in lib (l_processors s0) (docs_of can_parse parse g (OText text meta) ++ concat (map (docs_of can_parse parse g) ops))) ->
       forall d, fst (process_text (Path := Path) lib encode md5 text meta s) = Ok d ->
         worked_out lib encode w k e text d /\ x_meta d = meta /\ x_pipeline d = Some (MkMeta None None names)) /\
    (forall file name,
       apart md5 (l_processors s0)
         (texts_in lib (l_processors s0) (docs_of can_parse parse g (ODocument file name) ++ concat (map (docs_of can_parse parse g) ops))) ->
       forall d, fst (process_document can_parse parse class_name lib encode md5 file name s) = Ok d ->
         exists p d0 text,
           get_parser can_parse g file name = Ok p /\ parse p file = Ok d0 /\ x_text d0 = Some text /\
           worked_out lib encode w k e text d /\ x_meta d = x_meta d0 /\
           option_map pm_processors (x_pipeline d) = Some names /\
           (no_name name -> option_map pm_parser (x_pipeline d) = Some (Some (class_name p)))).
Proof.
  intros F num Parser Path Meta build can_parse parse class_name lib encode md5 read_clean read_chunk read_embed
    c s0 g ops w k e st s names E Hg Hq.
  destruct (init_registry build read_clean read_chunk read_embed c s0 E) as (Hr & _).
  assert (Setup : forall o, apart md5 (l_processors s0)
       (texts_in lib (l_processors s0) (docs_of can_parse parse g o ++ concat (map (docs_of can_parse parse g) ops))) ->
     let T := texts_in lib (l_processors s0) (docs_of can_parse parse g o ++ concat (map (docs_of can_parse parse g) ops)) in
     same encode md5 T s0 s /\ forall t, texts_in lib (l_processors s0) (docs_of can_parse parse g o) t -> T t).
  { intros o Ha T. split.
    - eapply ops_same; eauto.
      + intros t (d & Hd & Hin). exists d. split; [|exact Hin]. apply in_or_app. now right.
      + eapply initialised_same; eauto.
    - intros t (d & Hd & Hin). exists d. split; [|exact Hin]. apply in_or_app. now left. }
  split.
  - intros text meta Ha d Ed. destruct (Setup (OText text meta) Ha) as [Hs HT].
    assert (HT' : forall u, In u (embedded lib (l_processors s0) (MkDoc (Some text) None)) ->
      texts_in lib (l_processors s0) (docs_of can_parse parse g (OText text meta) ++ concat (map (docs_of can_parse parse g) ops)) u).
    { intros u Hin. apply HT. eexists. split; [left; reflexivity|exact Hin]. }
    pose proof (text_same (Path := Path) lib encode md5 _ s0 s text meta Hs Hr HT') as D.
    destruct (process_text (Path := Path) lib encode md5 text meta s) as [r s']. simpl in Ed. subst r. destruct D as [_ D].
    unfold plain_text in D. rewrite Hq in D.
    destruct (plain_all lib encode md5 _ _) as [d1|] eqn:Ep; [|discriminate].
    apply plain_worked with (text := text) in Ep; [|reflexivity]. destruct Ep as [W M].
    injection D as ->. split; [exact W|]. split; [exact M|reflexivity].
  - intros file name Ha d Ed. destruct (Setup (ODocument file name) Ha) as [Hs HT].
    pose proof (document_same can_parse parse class_name lib encode md5 _ s0 s g file name Hs Hr Hg HT) as D.
    destruct (process_document _ _ _ _ _ _ file name s) as [r s']. simpl in Ed. subst r. destruct D as [_ D].
    unfold plain_document, parse_document in D. rewrite Hq in D.
    destruct (get_parser can_parse g file name) as [p|] eqn:Eg; [|discriminate]. cbn [rbind] in D.
    destruct (parse p file) as [d0|] eqn:Epp; [|discriminate]. cbn [rbind] in D.
    destruct (plain_all lib encode md5 _ _) as [d1|] eqn:Ep; [|discriminate].
    destruct (x_text d0) as [text|] eqn:Et.
    2: { exfalso. cbn [plain_all plain_step apply_processor fst rbind] in Ep. rewrite Et in Ep.
         unfold clean_process, chunk_document in Ep. simpl in Ep. discriminate. }
    apply plain_worked with (text := text) in Ep; [|exact Et]. destruct Ep as [W M].
    injection D as ->. exists p, d0, text. split; [reflexivity|]. split; [exact Epp|]. split; [exact Et|].
    split; [exact W|]. split; [exact M|]. split; [reflexivity|].
    intros Hn. cbn [with_meta x_pipeline option_map pm_parser]. f_equal. f_equal.
    unfold parser_used. rewrite Hg. destruct Hn as [->| ->]; (unfold get_parser in *; rewrite Eg; reflexivity).
Qed.

(** A pipeline with the text parser, one level deeper than documented, and all three processors; a
    file is its suffix, its content the suffix many times over. *)
Definition demo_config : conf :=
  CTable [(py "parsers", CTable [(py "parsers", CTable [(py "text", CTable []); (py "pdf", CTable [])])]);
          (py "processors", CTable [(py "cleaning", CTable []); (py "chunking", CTable []); (py "embedding", CTable [])])].
Definition demo_content (p : list pystr) (file : pystr) : result (pdoc Z pystr nat) :=
  if eqb file (py ".md") then Raise EParsing
  else Ok (MkPDoc (Some (concat (repeat (file ++ py " ") 14))) None None None 7 None).
Definition demo_clean_lib : text_lib := MkLib (fun s => s) (fun s => s) (fun s => s) (fun s => s).

Example C107_case :
  exists s0 g w k e st d,
    pipe_initialize toy_build toy_clean toy_chunk toy_embed (new_pipeline demo_config) = (Ok tt, s0) /\
    l_registry s0 = Some g /\ l_processors s0 = [QClean w; QChunk k; QEmbed e st] /\
    (forall T, apart plain_hash (l_processors s0) T) /\
    fst (process_document toy_can demo_content (fun _ => py "P") demo_clean_lib toy_encode plain_hash (py ".txt") None s0) = Ok d /\
    option_map (@length _) (x_chunks d) = option_map (@length _) (x_chunk_embeddings d) /\ x_meta d = 7 /\
    option_map pm_parser (x_pipeline d) = Some (Some (py "P")).
Proof.
  eexists _, _, _, _, _, _, _. split; [vm_compute; reflexivity|]. split; [reflexivity|]. split; [reflexivity|].
  split.
  - intros T c s _. split; [intros t _ _; eexists; reflexivity|].
    intros t u _ _ _ _ E. injection E as E. now apply key_content_inj in E.
  - split; [vm_compute; reflexivity|]. vm_compute. auto.
Qed.

(** A batch with a file that cannot be parsed and a file no parser takes. *)
Example C108_case :
  exists s0 d1 d2 s',
    pipe_initialize toy_build toy_clean toy_chunk toy_embed (new_pipeline demo_config) = (Ok tt, s0) /\
    batch_process_documents toy_can demo_content (fun _ => py "P") demo_clean_lib toy_encode plain_hash
      [py ".txt"; py ".md"; py ".pdf"; py ".zip"; py ".txt"] s0
    = (Ok [Done d1; Failed (py ".md") EProcessing; Done d2; Failed (py ".zip") EProcessing; Done d1], s').
Proof. eexists _, _, _, _. split; [vm_compute; reflexivity|]. vm_compute. reflexivity. Qed.

Print Assumptions C106_processors_partial.
Print Assumptions C106_twice_refuted.
Print Assumptions C106_half_way_refuted.
Print Assumptions C106_close.
Print Assumptions C107_content_partial.
Print Assumptions C108_history_partial.
