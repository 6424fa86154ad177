(** Property C161: vectors from files (model: FilesModel.v). *)

From Coq Require Import String List Arith ZArith NArith Lia Bool.
From Verif Require Import PyBase PyMore PyValue BaseLemmas Num Demo DemoIndex
  CleanModel ChunkModel BatchModel EmbedModel PipelineModel PropsEmbed PropsRegistry PropsPipeline FilesModel.
From Verif Require PropsDocSearch.
Import ListNotations.
Open Scope py_scope.
Open Scope nat_scope.

(** ** Spec *)

Section Spec.
  Context {F : Type} {num : Num F} {Parser Path Meta : Type}.
  Context (can_parse : Parser -> Path -> result bool)
          (parse : Parser -> Path -> result (pdoc F Path Meta))
          (lib : text_lib) (encode : pystr -> result (list F)).

  (** What a file is to give: [v] is the embedding of the cleaned text its parser finds, [m] the
      parser's metadata.  The chunks the parser cuts can be embedded too, after cleaning. *)
  Definition gives (g : registry Parser) (w : clean_config) (e : embed_config) (name : option pystr)
      (file : Path) (v : list F) (m : Meta) : Prop :=
    exists pr d text,
      get_parser can_parse g file name = Ok pr /\ parse pr file = Ok d /\ x_text d = Some text /\
      embeds encode e (clean_text lib w text) (Ok v) /\
      (forall cs c, x_chunks d = Some cs -> In c cs -> exists cv, embeds encode e (clean_text lib w (c_text c)) (Ok cv)) /\
      m = x_meta d.

  (** One vector and one metadata entry for each file that gives them, in the order of the files. *)
  Inductive given g w e name : list Path -> list (list F) -> list Meta -> Prop :=
  | GiNone : given g w e name [] [] []
  | GiTaken file v m files vs ms : gives g w e name file v m -> given g w e name files vs ms ->
      given g w e name (file :: files) (v :: vs) (m :: ms)
  | GiLeft file files vs ms : (forall v m, ~ gives g w e name file v m) -> given g w e name files vs ms ->
      given g w e name (file :: files) vs ms.
End Spec.

(** ** Lemmas *)

Section Lemmas.
  Context {F : Type} {num : Num F} {Parser Path Meta : Type}.
  Context (can_parse : Parser -> Path -> result bool)
          (parse : Parser -> Path -> result (pdoc F Path Meta))
          (class_name : Parser -> pystr)
          (lib : text_lib) (encode : pystr -> result (list F)) (md5 : pystr -> result pystr).
  Context (s0 : pipeline F Parser) (g : registry Parser) (w : clean_config) (e : embed_config) (st : @embedder F)
          (name : option pystr).
  Context (Hr : l_ready s0 = true) (Hg : l_registry s0 = Some g)
          (Hq : l_processors s0 = [QClean w; QEmbed e st]).
  Context (Htext : forall p f d, parse p f = Ok d -> x_text d <> None).

  Lemma document_gives file :
    match plain_document can_parse parse class_name lib encode md5 s0 g file name with
    | Ok r => exists v, x_embedding r = Some v /\ gives can_parse parse lib encode g w e name file v (x_meta r)
    | Raise _ => forall v m, ~ gives can_parse parse lib encode g w e name file v m
    end.
  Proof.
    unfold plain_document, parse_document. rewrite Hq.
    destruct (get_parser can_parse g file name) as [pr|x] eqn:Eg; cbn [rbind].
    2: { intros v m (pr & d0 & text & E & _). congruence. }
    destruct (parse pr file) as [d0|x] eqn:Ep; cbn [rbind].
    2: { intros v m (pr' & d0 & text & E & E2 & _). congruence. }
    destruct (x_text d0) as [text|] eqn:Et; [|destruct (Htext _ _ _ Ep Et)].
    cbn [plain_all plain_step apply_processor fst rbind]. unfold clean_process.
    cbn [d_text d_chunks x_text x_chunks x_embedding x_chunk_embeddings x_meta x_pipeline]. rewrite Et.
    cbn [option_map].
    destruct (plain_answer encode e (clean_text lib w text)) as [v|x] eqn:Ev; cbn [rbind].
    2: { intros v m (pr' & d1 & text' & E1 & E2 & E3 & E4 & _).
         assert (pr' = pr) by congruence. subst pr'. assert (d1 = d0) by congruence. subst d1.
         assert (text' = text) by congruence. subst text'.
         apply PropsDocSearch.embeds_plain in E4. congruence. }
    destruct (x_chunks d0) as [cs|] eqn:Ec; cbn [option_map].
    2: { cbn. exists v. split; [reflexivity|]. exists pr, d0, text.
         split; [exact Eg|]. split; [exact Ep|]. split; [exact Et|].
         split; [now apply PropsDocSearch.embeds_plain|]. split; [congruence|reflexivity]. }
    destruct (rmap (fun x => plain_answer encode e (c_text x))
                (map (fun c => with_text c (clean_text lib w (c_text c))) cs)) as [vs|x] eqn:Ev2; cbn [rbind].
    - cbn. exists v. split; [reflexivity|]. exists pr, d0, text.
      split; [exact Eg|]. split; [exact Ep|]. split; [exact Et|].
      split; [now apply PropsDocSearch.embeds_plain|]. split; [|reflexivity].
      intros cs' c E Hc. assert (cs' = cs) by congruence. subst cs'. clear -Ev2 Hc.
      revert vs Ev2. induction cs as [|c0 cs IH]; intros vs Ev2; [destruct Hc|]. cbn in Ev2.
      destruct (plain_answer encode e (clean_text lib w (c_text c0))) as [cv|] eqn:E0; cbn in Ev2; [|discriminate].
      destruct (rmap _ _) as [vs'|] eqn:E1; cbn in Ev2; [|discriminate].
      destruct Hc as [<-|Hc]; [exists cv; now apply PropsDocSearch.embeds_plain|]. eapply IH; eauto.
    - intros v' m (pr' & d1 & text' & E1 & E2 & E3 & E4 & E5 & _).
      assert (pr' = pr) by congruence. subst pr'. assert (d1 = d0) by congruence. subst d1.
      specialize (fun c => E5 cs c Ec). clear -Ev2 E5.
      revert x Ev2. induction cs as [|c0 cs IH]; intros x Ev2; [discriminate|]. cbn in Ev2.
      destruct (E5 c0 (or_introl eq_refl)) as [cv Ecv]. apply PropsDocSearch.embeds_plain in Ecv. rewrite Ecv in Ev2.
      cbn in Ev2. destruct (rmap _ _) as [vs'|] eqn:E1; cbn in Ev2; [discriminate|].
      eapply IH; [|reflexivity]. intros c Hc. apply E5. now right.
  Qed.

  Lemma taken_given (T : pystr -> Prop) files : forall s, same encode md5 T s0 s ->
    (forall f t, In f files -> texts_in lib (l_processors s0) (parsed can_parse parse g f name) t -> T t) ->
    exists parts s', mapM files (take_file can_parse parse class_name lib encode md5 name) s = (Ok parts, s') /\
      given can_parse parse lib encode g w e name files (map fst (concat parts)) (map snd (concat parts)).
  Proof.
    induction files as [|f files IH]; intros s Hs HT; cbn [mapM].
    - exists [], s. split; [reflexivity|constructor].
    - unfold bind at 1. unfold take_file at 1, try_except. unfold bind at 1.
      pose proof (document_same can_parse parse class_name lib encode md5 T s0 s g f name Hs Hr Hg
                    (fun t => HT f t (or_introl eq_refl))) as D.
      pose proof (document_gives f) as G.
      destruct (process_document can_parse parse class_name lib encode md5 f name s) as [r s1].
      destruct D as [D1 D2]. rewrite <- D2 in G.
      destruct (IH s1 D1) as (parts & s2 & E & Hgi); [intros f' t Hf; apply HT; now right|].
      destruct r as [d|x]; unfold ret at 1.
      + destruct G as (v & Ev & G). rewrite Ev. unfold bind. rewrite E. unfold ret.
        eexists _, s2. split; [reflexivity|]. cbn. now constructor.
      + unfold bind. rewrite E. unfold ret. eexists _, s2. split; [reflexivity|]. cbn. now apply GiLeft.
  Qed.
End Lemmas.

(** ** C161 *)

(** With a configuration that gives the pipeline a registry [g] of parsers, cleaning and embedding,
    the result has one vector and one metadata entry for each file that can be parsed and embedded,
    in order; other files are left out.  Partial: for the configuration the function really builds
    see below; no file at all, or embeddings of different lengths, raise ValueError; and the hash of
    the embedding cache must tell the texts apart. *)
Theorem C161_files_partial :
  forall (F : Type) (num : Num F) (Parser Path Meta : Type) (build : parser_class -> conf -> result Parser)
         can_parse (parse : Parser -> Path -> result (pdoc F Path Meta)) class_name lib encode md5
         read_clean read_chunk read_embed c s0 g w e st files name,
    pipe_initialize build read_clean read_chunk read_embed (new_pipeline c) = (Ok tt, s0) ->
    l_registry s0 = Some g -> l_processors s0 = [QClean w; QEmbed e st] ->
    (forall p f d, parse p f = Ok d -> x_text d <> None) ->
    apart md5 (l_processors s0)
      (texts_in lib (l_processors s0) (concat (map (fun f => parsed can_parse parse g f name) files))) ->
    exists vs ms,
      given can_parse parse lib encode g w e name files vs ms /\
      let r := vectors_from_files build can_parse parse class_name lib encode md5 read_clean read_chunk read_embed
                 c files name in
      (vs <> [] -> (forall v v', In v vs -> In v' vs -> List.length v = List.length v') -> r = Ok (vs, ms)) /\
      (vs = [] \/ (exists v v', In v vs /\ In v' vs /\ List.length v <> List.length v') -> r = Raise EValue).
Proof.
  intros F num Parser Path Meta build can_parse parse class_name lib encode md5 read_clean read_chunk read_embed
    c s0 g w e st files name E Hg Hq Htext Ha.
  destruct (init_registry build read_clean read_chunk read_embed c s0 E) as (Hr & _).
  set (T := texts_in lib (l_processors s0) (concat (map (fun f => parsed can_parse parse g f name) files))) in *.
  assert (S0 : same encode md5 T s0 s0) by (eapply initialised_same; eauto).
  destruct (taken_given can_parse parse class_name lib encode md5 s0 g w e st name Hr Hg Hq Htext T files s0 S0)
    as (parts & s' & Em & Hgi).
  { intros f t Hf (d & Hd & Hin). exists d. split; [|exact Hin]. apply in_concat.
    exists (parsed can_parse parse g f name). split; [|exact Hd]. apply in_map_iff. now exists f. }
  eexists _, _. split; [exact Hgi|]. cbv zeta.
  assert (Ega : exists s'', gather build can_parse parse class_name lib encode md5 read_clean read_chunk read_embed
                  files name (new_pipeline c) = (Ok (concat parts), s'')).
  { eexists. unfold gather. unfold bind at 1. rewrite E. unfold bind at 1. rewrite Em. reflexivity. }
  destruct Ega as [s'' Ega]. unfold vectors_from_files. rewrite Ega. cbn [fst rbind]. unfold as_arrays, np_array.
  destruct (concat parts) as [|[v0 m0] rest]; cbn [map fst].
  { split; [congruence|reflexivity]. }
  set (all := v0 :: map fst rest). split.
  - intros _ Hlen.
    replace (forallb _ all) with true; [reflexivity|]. symmetry. apply forallb_forall. intros v Hv.
    apply Nat.eqb_eq. apply Hlen; [exact Hv|now left].
  - intros [Hn|(v & v' & Hv & Hv' & Hd)]; [discriminate|].
    destruct (forallb _ all) eqn:Ef; [|reflexivity].
    exfalso. rewrite forallb_forall in Ef. apply Hd.
    pose proof (Ef v Hv) as E1. pose proof (Ef v' Hv') as E2. apply Nat.eqb_eq in E1, E2. congruence.
Qed.

(** What the configuration of the function holds. *)
Lemma files_config_reads model :
  exists ps qs,
    conf_get (files_config model) (py "parsers") = Ok ps /\ conf_get ps (py "parsers") = Ok (CTable []) /\
    conf_get (files_config model) (py "processors") = Ok qs /\
    conf_entry qs (py "cleaning") = Some (CTable [(py "normalize_whitespace", CValue (PBool true))]) /\
    conf_entry qs (py "chunking") = None /\
    conf_entry qs (py "embedding") = Some (CTable [(py "model_name", CValue (PStr model))]).
Proof. eexists _, _. repeat split. Qed.

(** The configuration of create_vectors_from_files puts the parsers one level too high: the
    pipeline has none, no file can be processed, and the call raises whatever the files hold. *)
Theorem C161_always_raises :
  forall (F : Type) (num : Num F) (Parser Path Meta : Type) (build : parser_class -> conf -> result Parser)
         can_parse (parse : Parser -> Path -> result (pdoc F Path Meta)) class_name lib encode md5
         read_clean read_chunk read_embed files name model,
    exists x, create_vectors_from_files build can_parse parse class_name lib encode md5 read_clean read_chunk read_embed
                files name model = Raise x /\
      ((exists w e, read_clean (CTable [(py "normalize_whitespace", CValue (PBool true))]) = Ok w /\
                    read_embed (CTable [(py "model_name", CValue (PStr model))]) = Ok e /\ known_type e) ->
       x = EValue).
Proof.
  intros F num Parser Path Meta build can_parse parse class_name lib encode md5 read_clean read_chunk read_embed
    files name model.
  unfold create_vectors_from_files, vectors_from_files, gather. unfold bind at 1.
  destruct (pipe_initialize build read_clean read_chunk read_embed (new_pipeline (files_config model)))
    as [[[]|x] s0] eqn:E.
  - exists EValue. split; [|reflexivity].
    destruct (init_registry build read_clean read_chunk read_embed _ _ E) as (Hr & _).
    assert (Hl : exists g, l_registry s0 = Some g /\ g_parsers g = []).
    { destruct (files_config_reads model) as (ps & qs & R1 & R2 & R3 & R4 & R5 & R6).
      revert E. unfold pipe_initialize, wrap, bind, get, lift, modify, ret. cbn [new_pipeline l_config]. rewrite R1.
      unfold reg_initialize, bind, get, lift, modify. cbn [new_registry g_config]. rewrite R2. cbn [conf_items forM].
      unfold ret. rewrite R3. unfold when_configured. rewrite R4, R5, R6. unfold ret.
      unfold add_cleaning, add_embedding, append_processor, bind, lift, modify.
      destruct (read_clean _) as [w|]; [|discriminate].
      destruct (read_embed _) as [ec|]; [|discriminate].
      destruct (e_type ec) eqn:Ety; unfold emb_initialize; rewrite Ety; cbn; intros [= <-]; cbn; eauto. }
    destruct Hl as (g & Hg & Hp).
    assert (Hm : forall fs s, l_ready s = true -> l_registry s = Some g ->
      exists parts s', mapM fs (take_file can_parse parse class_name lib encode md5 name) s = (Ok parts, s') /\
        concat parts = []).
    { induction fs as [|f fs IH]; intros s H1 H2; cbn [mapM]; [exists [], s; auto|].
      unfold bind at 1, take_file at 1, try_except. unfold bind at 1.
      unfold process_document at 1. unfold bind at 1, get. rewrite H1. cbn [negb]. rewrite H2.
      unfold wrap. unfold bind at 1, lift.
      assert (Eg : parse_document can_parse parse g f name = Raise EParsing).
      { unfold parse_document, get_parser. destruct (negb (g_ready g)); [reflexivity|].
        rewrite Hp. destruct name as [[|ch n]|]; reflexivity. }
      rewrite Eg. unfold ret at 1.
      destruct (IH s H1 H2) as (parts & s' & Em & Ec). unfold bind. rewrite Em. unfold ret.
      exists ([] :: parts), s'. auto. }
    destruct (Hm files s0 Hr Hg) as (parts & s' & Em & Ec).
    unfold bind at 1. rewrite Em. cbn [bind pipe_close modify ret fst rbind]. now rewrite Ec.
  - exists x. split; [reflexivity|]. intros (w & ec & Ew & Ee & Hk). exfalso. revert E.
    destruct (files_config_reads model) as (ps & qs & R1 & R2 & R3 & R4 & R5 & R6).
    unfold pipe_initialize, wrap, bind, get, lift, modify, ret. cbn [new_pipeline l_config]. rewrite R1.
    unfold reg_initialize, bind, get, lift, modify. cbn [new_registry g_config]. rewrite R2. cbn [conf_items forM].
    unfold ret. rewrite R3. unfold when_configured. rewrite R4, R5, R6. unfold ret.
    unfold add_cleaning, add_embedding, append_processor, bind, lift, modify. rewrite Ew, Ee.
    unfold emb_initialize. destruct (e_type ec) as [| | |n] eqn:Et; cbn; try discriminate. now destruct (Hk n).
Qed.

(** ** Cases *)

(** The parsers one level deeper. *)
Definition nested_config : conf :=
  CTable [(py "parsers", CTable [(py "parsers", CTable [(py "text", CTable [])])]);
          (py "processors", CTable [(py "cleaning", CTable []); (py "embedding", CTable [])])].

Definition from_files (files : list pystr) : result (list (list Z) * list unit) :=
  vectors_from_files PropsDocSearch.file_build PropsDocSearch.file_can PropsDocSearch.file_parse (fun _ => py "TextParser")
    demo_clean_lib PropsDocSearch.letters_Z plain_hash toy_clean toy_chunk toy_embed nested_config files None.

(** The hypotheses of C161_files_partial hold of three files, one of which cannot be read. *)
Example C161_case :
  exists s0 g w e st,
    pipe_initialize PropsDocSearch.file_build toy_clean toy_chunk toy_embed (new_pipeline nested_config) = (Ok tt, s0) /\
    l_registry s0 = Some g /\ l_processors (F := Z) s0 = [QClean w; QEmbed e st] /\
    (forall p f d, PropsDocSearch.file_parse (F := Z) p f = Ok d -> x_text d <> None) /\
    (forall T, apart plain_hash (l_processors s0) T) /\
    from_files [py "a.txt"; py "lost.txt"; py "c.txt"] = Ok ([[7; 1]; [5; 1]]%Z, [tt; tt]).
Proof.
  eexists _, _, _, _, _. split; [vm_compute; reflexivity|]. split; [reflexivity|]. split; [reflexivity|]. split.
  { intros p f d. unfold PropsDocSearch.file_parse. destruct (PropsDocSearch.file_text f); [|discriminate].
    intros [= <-]. discriminate. }
  split; [|vm_compute; reflexivity].
  intros T c s _. split; [intros t _ _; eexists; reflexivity|].
  intros t u _ _ _ _ E. injection E as E. now apply key_content_inj in E.
Qed.

(** C161 is false of the function as it is: a file that a parser of the named kind can read gives
    ValueError. *)
Theorem C161_refuted :
  exists (file : pystr) (model : pystr) text,
    PropsDocSearch.file_text file = Some text /\ ~ white text /\
    create_vectors_from_files (F := Z) PropsDocSearch.file_build PropsDocSearch.file_can PropsDocSearch.file_parse
      (fun _ => py "TextParser") demo_clean_lib PropsDocSearch.letters_Z plain_hash toy_clean toy_chunk toy_embed
      [file] (Some (py "text")) model = Raise EValue.
Proof.
  exists (py "c.txt"), (py "m"). eexists. split; [reflexivity|]. split; [|vm_compute; reflexivity].
  intros W. apply is_blank_white in W. vm_compute in W. discriminate.
Qed.

(** With the parsers in place it is still false when a file without text is among the others: its
    embedding has another length and no vector at all comes back. *)
Theorem C161_blank_refuted :
  exists (files : list pystr) blank vs ms,
    from_files files = Ok (vs, ms) /\ match PropsDocSearch.file_text blank with Some t => white t | None => False end /\
    from_files (files ++ [blank]) = Raise EValue.
Proof.
  exists [py "a.txt"; py "c.txt"], (py "blank.txt"). eexists _, _. split; [vm_compute; reflexivity|].
  split; [apply is_blank_white; vm_compute; reflexivity|]. vm_compute. reflexivity.
Qed.

Print Assumptions C161_files_partial.
Print Assumptions C161_always_raises.
Print Assumptions C161_refuted.
Print Assumptions C161_blank_refuted.
