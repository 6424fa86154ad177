(** Property C160: documents put through a pipeline into a database are found again by questions
    (model: DocSearchModel.v). *)

From Coq Require Import String List Arith ZArith NArith Lia Bool Reals Lra Permutation Sorted.
From Verif Require Import PyBase PyMore PyValue BaseLemmas Payload StorageModel StorageSpec StorageRun
  StorageThms StorageOk Num RealNum ClientModel DbSpec ClientRun ClientProofs FlatModel FlatProofs
  HnswModel HnswProofs PropsFlat PropsHnsw PropsSimilarity Demo DemoIndex
  CleanModel ChunkModel BatchModel EmbedModel PipelineModel PropsEmbed PropsRegistry PropsPipeline DocSearchModel.
From Verif Require PropsFactory.
Import ListNotations.
Open Scope py_scope.
Open Scope nat_scope.

(** ** Spec *)

Section Spec.
  Context {F : Type} {num : Num F} {Parser Path Meta Orc : Type}.
  Context (can_parse : Parser -> Path -> result bool)
          (parse : Parser -> Path -> result (pdoc F Path Meta))
          (class_name : Parser -> pystr)
          (lib : text_lib) (encode : pystr -> result (list F))
          (name_of suffix_of : Path -> pystr).

  (** What is to be recorded of a file: its parser's text, cleaned, has the embedding [v]; all its
      chunks can be embedded too; [m] tells the file's name and suffix, the length of the cleaned
      text, the number of chunks and the parser. *)
  Definition filed (g : registry Parser) (w : clean_config) (k : chunk_config) (e : embed_config)
      (file : Path) (v : list F) (m : dict pystr pyval) : Prop :=
    exists pr d0 text cs,
      get_parser can_parse g file None = Ok pr /\ parse pr file = Ok d0 /\ x_text d0 = Some text /\
      embeds encode e (clean_text lib w text) (Ok v) /\
      chunk_process k (clean_text lib w text) = Ok cs /\
      (forall c, In c cs -> exists cv, embeds encode e (c_text c) (Ok cv)) /\
      m = [(py "file_name", PStr (name_of file)); (py "file_type", PStr (suffix_of file));
           (py "text_length", PInt (Z.of_nat (List.length (clean_text lib w text))));
           (py "num_chunks", PInt (Z.of_nat (List.length cs)));
           (py "parser_used", PStr (class_name pr))].

  (** The records of a session: one for each file that can be recorded, in order. *)
  Inductive filing g w k e : list (@desk_op Path Orc) -> list (entry (list F) (dict pystr pyval)) -> Prop :=
  | FiNone : filing g w k e [] []
  | FiAsk o t n ops recs : filing g w k e ops recs -> filing g w k e (DAsk o t n :: ops) recs
  | FiKept o id file v m ops recs : filed g w k e file v m -> filing g w k e ops recs ->
      filing g w k e (DStore o id file :: ops) ((id, (v, Some m)) :: recs)
  | FiSkipped o id file ops recs : (forall v m, ~ filed g w k e file v m) -> filing g w k e ops recs ->
      filing g w k e (DStore o id file :: ops) recs.
End Spec.

(** The ids drawn, the files and the questions of a session. *)
Definition ids_of {Path Orc} (ops : list (@desk_op Path Orc)) : list pystr :=
  flat_map (fun op => match op with DStore _ id _ => [id] | DAsk _ _ _ => [] end) ops.
Definition files_of {Path Orc} (ops : list (@desk_op Path Orc)) : list Path :=
  flat_map (fun op => match op with DStore _ _ f => [f] | DAsk _ _ _ => [] end) ops.
Definition questions_of {Path Orc} (ops : list (@desk_op Path Orc)) : list pystr :=
  flat_map (fun op => match op with DStore _ _ _ => [] | DAsk _ t _ => [t] end) ops.
Definition draws_of {Path Orc} (ops : list (@desk_op Path Orc)) : list Orc :=
  map (fun op => match op with DStore o _ _ => o | DAsk o _ _ => o end) ops.

(** ** Lemmas *)

Lemma db_conforms_app {F Mt Orc} p sok a : forall (s : sstate (list F) Mt) (b : list (cop F Mt Orc)) rs,
  db_conforms p sok s (a ++ b) rs ->
  exists ra rb, rs = ra ++ rb /\ List.length ra = List.length a /\
    db_conforms p sok s a ra /\ db_conforms p sok (db_after p s a) b rb.
Proof.
  induction a as [|o a IH]; intros s b rs H; cbn [app] in H.
  - exists [], rs. cbn. auto.
  - destruct rs as [|r rs]; [destruct H|]. cbn [db_conforms] in H. destruct H as [H1 H2].
    apply IH in H2 as (ra & rb & -> & Hl & Ha & Hb). exists (r :: ra), rb. cbn. auto.
Qed.

Section Generic.
  Context {F S X Orc : Type} {num : Num F} `{Payload (list F) doc_meta} (C : storage_class S (list F) doc_meta)
          (IC : index_class X S F doc_meta Orc).
  Context (reinit : bool) (orc_ok : Orc -> Prop) (p : bool) (s0 : S)
          (sok : list (entry (list F) doc_meta) -> list F -> Z -> cret F doc_meta -> Prop).
  Context (CONF : forall ops, all_fit reinit (fun _ => True) orc_ok p fresh_db ops ->
             db_conforms p sok fresh_db ops (cl_answers C IC s0 ops)).

  (** The database is what a history of calls leaves, and holds these records. *)
  Definition holds (c : client X S) (recs : list (entry (list F) doc_meta)) : Prop :=
    exists ops, c = cl_after C IC s0 ops /\ all_fit reinit (fun _ => True) orc_ok p fresh_db ops /\
      db_after p fresh_db ops = MkS true recs.

  Lemma holds_step c recs op recs' : holds c recs -> fits reinit (fun _ => True) orc_ok (MkS true recs) op ->
    db_next p (MkS true recs) op = MkS true recs' ->
    let (r, c') := cl_step C IC c op in holds c' recs' /\ db_ans sok (MkS true recs) op r.
  Proof.
    intros (ops & -> & Hfit & Ha) Hop Hn.
    assert (Hfit2 : all_fit reinit (fun _ => True) orc_ok p fresh_db (ops ++ [op])).
    { apply all_fit_app. split; auto. rewrite Ha. cbn. auto. }
    pose proof (CONF _ Hfit2) as Hc. unfold cl_answers in Hc.
    rewrite PropsFactory.cl_run_app in Hc. cbn [fst] in Hc.
    assert (Eafter : cl_after C IC s0 (ops ++ [op]) = snd (cl_step C IC (cl_after C IC s0 ops) op)).
    { unfold cl_after. rewrite PropsFactory.cl_run_app. cbn [snd cl_run].
      now destruct (cl_step C IC _ op). }
    fold (cl_after C IC s0 ops) in Hc. cbn [cl_run] in Hc.
    destruct (cl_step C IC (cl_after C IC s0 ops) op) as [r c'].
    apply db_conforms_app in Hc as (ra & rb & Er & Hl & _ & Hb). rewrite Ha in Hb.
    destruct rb as [|r1 [|? ?]]; [destruct Hb| |destruct Hb as [_ []]]. destruct Hb as [Hb _].
    assert (r1 = r) as ->. { cbn [fst] in Er. apply app_inj_tail in Er. symmetry. tauto. }
    split; [|exact Hb]. exists (ops ++ [op]). split; [symmetry; exact Eafter|]. split; [exact Hfit2|].
    unfold db_after. rewrite fold_left_app. fold (db_after p fresh_db ops). rewrite Ha. cbn. exact Hn.
  Qed.

  Lemma holds_init o : orc_ok o ->
    let (r, c) := cl_initialize C IC o [] (MkClient (ix_new IC) s0 false) in r = Ok tt /\ holds c [].
  Proof.
    intros Ho. assert (Hf : all_fit reinit (fun _ => True) orc_ok p fresh_db [CInit o []]) by (cbn; auto).
    pose proof (CONF _ Hf) as Hc. unfold cl_answers, cl_new in Hc.
    assert (Hh : holds (cl_after C IC s0 [CInit o []]) []).
    { exists [CInit o []]. split; [reflexivity|]. split; [exact Hf|]. unfold db_after. cbn. now destruct p. }
    unfold cl_after, cl_new in Hh. cbn [cl_run cl_step] in Hc, Hh.
    destruct (cl_initialize C IC o [] _) as [[[]|e] c]; cbn in Hc, Hh; destruct Hc as [Hc _]; [auto|discriminate].
  Qed.

  Lemma holds_insert c recs o id v m : holds c recs -> orc_ok o -> uuid_like id -> ~ In id (map fst recs) ->
    meta_ok (Some m) ->
    let (r, c') := cl_insert IC o (fun _ => id) (Mat [v]) (Some [Some m]) c in
    (exists l, r = Ok l) /\ holds c' (recs ++ [(id, (v, Some m))]).
  Proof.
    intros Hh Ho Hu Hf Hm.
    pose proof (holds_step c recs (CInsert o (fun _ => id) (Mat [v]) (Some [Some m])) (recs ++ [(id, (v, Some m))]) Hh) as St.
    cbn [cl_step] in St. destruct (cl_insert IC o _ _ _ c) as [[l|e] c']; cbn [cobs] in St.
    - split; [eauto|]. apply St; [|reflexivity]. split; auto. intros _. split; [|split].
      + split; [intros i j; cbn; lia|]. intros i _. auto.
      + constructor; auto.
      + intros l0 m0 [= <-] [<-|[]]. exact Hm.
    - exfalso. destruct St as [_ St]; [|reflexivity|discriminate]. split; auto. intros _. split; [|split].
      + split; [intros i j; cbn; lia|]. intros i _. auto.
      + constructor; auto.
      + intros l0 m0 [= <-] [<-|[]]. exact Hm.
  Qed.

  Lemma holds_search c recs o q n : holds c recs -> orc_ok o ->
    let (r, c') := cl_search IC o (Vec q) n c in
    holds c' recs /\ sok recs q n (match r with Ok l => AHits l | Raise e => AExn e end).
  Proof.
    intros Hh Ho. pose proof (holds_step c recs (CSearch o (Vec q) n) recs Hh Ho eq_refl) as St.
    cbn [cl_step] in St. destruct (cl_search IC o (Vec q) n c) as [[l|e] c']; exact St.
  Qed.

  Context {Parser Path Meta : Type}.
  Context (can_parse : Parser -> Path -> result bool)
          (parse : Parser -> Path -> result (pdoc F Path Meta))
          (class_name : Parser -> pystr)
          (lib : text_lib) (encode : pystr -> result (list F)) (md5 : pystr -> result pystr)
          (name_of suffix_of : Path -> pystr) (no_meta : Meta).
  Context (sd sq : pipeline F Parser) (g : registry Parser) (w : clean_config) (k : chunk_config)
          (e e' : embed_config) (st st' : @embedder F).
  Context (Hrd : l_ready sd = true) (Hrq : l_ready sq = true) (Hg : l_registry sd = Some g)
          (Hqd : l_processors sd = [QClean w; QChunk k; QEmbed e st]) (Hqq : l_processors sq = [QEmbed e' st']).
  Context (Td Tq : pystr -> Prop).

  Lemma embeds_plain c t v : embeds encode c t (Ok v) <-> plain_answer encode c t = Ok v.
  Proof.
    pose proof (plain_embeds encode c t) as P. split.
    - intros E. unfold embeds in *. destruct P as (P1 & P2 & P3), E as (E1 & E2 & E3).
      destruct (is_blank t) eqn:B.
      + assert (white t) as W by now apply is_blank_white. rewrite (P1 W), (E1 W). reflexivity.
      + assert (~ white t) as W by (intros W; apply is_blank_white in W; congruence).
        destruct (encode t) as [u|x] eqn:Eu.
        * rewrite (P2 W u eq_refl), (E2 W u eq_refl). reflexivity.
        * specialize (E3 W x eq_refl). discriminate.
    - intros <-. exact P.
  Qed.

  (** Processing a file gives its record, or raises when there is none to give. *)
  Lemma document_filed file :
    match plain_document can_parse parse class_name lib encode md5 sd g file None with
    | Ok r => exists v, x_embedding r = Some v /\
                filed can_parse parse class_name lib encode name_of suffix_of g w k e file v
                  (doc_metadata name_of suffix_of file r)
    | Raise _ => forall v m, ~ filed can_parse parse class_name lib encode name_of suffix_of g w k e file v m
    end.
  Proof.
    unfold plain_document, parse_document. rewrite Hqd.
    destruct (get_parser can_parse g file None) as [pr|x] eqn:Eg; cbn [rbind].
    2: { intros v m (pr & d0 & text & cs & E & _). congruence. }
    destruct (parse pr file) as [d0|x] eqn:Ep; cbn [rbind].
    2: { intros v m (pr' & d0 & text & cs & E & E2 & _). congruence. }
    destruct (x_text d0) as [text|] eqn:Et.
    2: { cbn [plain_all plain_step apply_processor fst rbind]. rewrite Et.
         unfold clean_process, chunk_document. cbn. intros v m (pr' & d1 & text & cs & E & E2 & E3 & _). congruence. }
    destruct (plain_all lib encode md5 _ d0) as [d1|x] eqn:Ea.
    - pose proof (plain_worked _ _ _ _ _ _ _ _ _ _ Et Ea) as [(cs & v & vs & W1 & W2 & W3 & W4 & W5 & W6 & W7) _].
      exists v. split; [exact W4|]. exists pr, d0, text, cs. split; [exact Eg|]. split; [exact Ep|].
      split; [exact Et|]. split; [exact W5|]. split; [exact W2|]. split.
      + intros c Hc. clear -W7 Hc. induction W7 as [|a b l l' H1 H2 IH]; [destruct Hc|]. destruct Hc as [<-|Hc]; eauto.
      + unfold doc_metadata. cbn [with_meta x_text x_chunks x_pipeline pm_parser]. rewrite W1, W3.
        unfold parser_used. rewrite Hg, Eg. reflexivity.
    - intros v m (pr' & d2 & text' & cs & E1 & E2 & E3 & E4 & E5 & E6 & _).
      assert (pr' = pr) by congruence. subst pr'. assert (d2 = d0) by congruence. subst d2.
      assert (text' = text) by congruence. subst text'.
      cbn [plain_all plain_step apply_processor fst rbind] in Ea. rewrite Et in Ea.
      unfold clean_process, chunk_document in Ea. cbn [d_text d_chunks option_map x_text x_chunks] in Ea.
      rewrite E5 in Ea. cbn [rbind d_text d_chunks x_text x_chunks x_embedding x_chunk_embeddings] in Ea.
      apply embeds_plain in E4. rewrite E4 in Ea. cbn [rbind] in Ea.
      assert (exists vs, rmap (fun x => plain_answer encode e (c_text x)) cs = Ok vs) as [vs Ev].
      { clear -E6. induction cs as [|c cs IH]; cbn; [eauto|].
        destruct (E6 c (or_introl eq_refl)) as [cv Ec]. apply embeds_plain in Ec. rewrite Ec. cbn.
        destruct IH as [vs ->]; [intros c' Hc; apply E6; now right|]. cbn. eauto. }
      rewrite Ev in Ea. discriminate.
  Qed.
  (** The state of a session so far. *)
  Definition going (wd : desk F Parser X S) (recs : list (entry (list F) doc_meta)) : Prop :=
    same encode md5 Td sd (k_docs wd) /\ same encode md5 Tq sq (k_query wd) /\ holds (k_client wd) recs.

  Let file_texts file t := texts_in lib (l_processors sd) (parsed can_parse parse g file None) t.
  Let fdd := filed can_parse parse class_name lib encode name_of suffix_of g w k e.

  Lemma store_going wd recs o id file : going wd recs -> orc_ok o -> uuid_like id -> ~ In id (map fst recs) ->
    (forall t, file_texts file t -> Td t) -> (forall v m, fdd file v m -> meta_ok (Some m)) ->
    let (r, wd') := store_document can_parse parse class_name lib encode md5 name_of suffix_of IC o id file wd in
    r = Ok tt /\
    ((exists v m, fdd file v m /\ going wd' (recs ++ [(id, (v, Some m))])) \/
     ((forall v m, ~ fdd file v m) /\ going wd' recs)).
  Proof.
    intros (G1 & G2 & G3) Ho Hu Hf HT Hm. unfold store_document, try_except, on_docs, on_client, zoom.
    unfold bind at 1.
    pose proof (document_same can_parse parse class_name lib encode md5 Td sd (k_docs wd) g file None G1 Hrd Hg HT) as D.
    destruct (process_document can_parse parse class_name lib encode md5 file None (k_docs wd)) as [r sd'].
    destruct D as [D1 ->]. pose proof (document_filed file) as DF.
    destruct (plain_document can_parse parse class_name lib encode md5 sd g file None) as [r|x].
    - destruct DF as (v & Ev & Hfd). rewrite Ev. unfold bind at 1. cbn [k_client k_docs k_query].
      pose proof (holds_insert (k_client wd) recs o id v _ G3 Ho Hu Hf (Hm _ _ Hfd)) as Hi.
      destruct (cl_insert IC o _ _ _ (k_client wd)) as [r' c']. destruct Hi as [[l ->] Hi]. cbn.
      split; [reflexivity|]. left. exists v, (doc_metadata name_of suffix_of file r). split; [exact Hfd|].
      split; [exact D1|]. split; [exact G2|exact Hi].
    - cbn. split; [reflexivity|]. right. split; [exact DF|]. split; [exact D1|]. split; [exact G2|exact G3].
  Qed.

  Lemma ask_going wd recs o text n : going wd recs -> orc_ok o -> Tq text ->
    let (r, wd') := ask (Path := Path) lib encode md5 no_meta IC o text n wd in
    going wd' recs /\
    (forall q, embeds encode e' text (Ok q) -> sok recs q n (match r with Ok l => AHits l | Raise x => AExn x end)) /\
    (forall q, embeds encode e' text (Ok q) -> r = fst (cl_search IC o (Vec q) n (k_client wd))).
  Proof.
    intros (G1 & G2 & G3) Ho HT. unfold ask, on_query, on_client, zoom. unfold bind at 1.
    pose proof (text_same (Path := Path) lib encode md5 Tq sq (k_query wd) text no_meta G2 Hrq) as D.
    destruct (process_text (Path := Path) lib encode md5 text no_meta (k_query wd)) as [r sq'].
    destruct D as [D1 D2].
    { rewrite Hqq. cbn. intros t Ht. destruct Ht as [<-|[]]. exact HT. }
    unfold plain_text in D2. rewrite Hqq in D2. cbn [plain_all plain_step x_text x_chunks x_chunk_embeddings rbind] in D2.
    destruct (plain_answer encode e' text) as [q|x] eqn:Ea; cbn [rbind] in D2; subst r.
    - cbn [with_meta x_embedding k_client].
      pose proof (holds_search (k_client wd) recs o q n G3 Ho) as Hs.
      destruct (cl_search IC o (Vec q) n (k_client wd)) as [r' c'] eqn:Es. destruct Hs as [Hs1 Hs2].
      split; [split; [exact G1|split; [exact D1|exact Hs1]]|].
      split; intros q' Eq; apply embeds_plain in Eq; assert (q' = q) as -> by congruence; [exact Hs2|now rewrite Es].
    - split; [split; [exact G1|split; [exact D1|exact G3]]|].
      split; intros q' Eq; apply embeds_plain in Eq; congruence.
  Qed.
  Lemma session_going ops : forall wd recs, going wd recs -> Forall orc_ok (draws_of ops) ->
    NoDup (map fst recs ++ ids_of ops) -> Forall uuid_like (ids_of ops) ->
    (forall t, In t (questions_of ops) -> Tq t) ->
    (forall f t, In f (files_of ops) -> file_texts f t -> Td t) ->
    (forall f v m, In f (files_of ops) -> fdd f v m -> meta_ok (Some m)) ->
    exists more, filing can_parse parse class_name lib encode name_of suffix_of g w k e ops more /\
      going (desk_after can_parse parse class_name lib encode md5 name_of suffix_of no_meta IC ops wd) (recs ++ more).
  Proof.
    induction ops as [|op ops IH]; intros wd recs Hg0 Ho Hn Hu Hq Hf Hm.
    - exists []. rewrite app_nil_r. split; [constructor|exact Hg0].
    - destruct op as [o id file|o t n]; cbn in Ho, Hn, Hu, Hq, Hf, Hm; inversion Ho; subst.
      + inversion Hu; subst.
        assert (~ In id (map fst recs)) as Hid.
        { apply NoDup_remove_2 in Hn. intros Hin. apply Hn. apply in_or_app. now left. }
        pose proof (store_going wd recs o id file Hg0 H2 H4 Hid (fun t => Hf file t (or_introl eq_refl))
                      (fun v m => Hm file v m (or_introl eq_refl))) as St.
        cbn [desk_after fold_left desk_do].
        destruct (store_document _ _ _ _ _ _ _ _ IC o id file wd) as [r wd']. cbn [snd].
        destruct St as [_ [(v & m & Hfd & St)|[Hno St]]].
        * assert (Hn' : NoDup (map fst (recs ++ [(id, (v, Some m))]) ++ ids_of ops))
            by (rewrite map_app, <- app_assoc; exact Hn).
          destruct (IH wd' _ St H3 Hn' H5 Hq (fun f t Hin => Hf f t (or_intror Hin))
                      (fun f v m Hin => Hm f v m (or_intror Hin))) as (more & Hmore & Hgo).
          exists ((id, (v, Some m)) :: more). split; [now constructor|]. now rewrite <- app_assoc in Hgo.
        * assert (Hn' : NoDup (map fst recs ++ ids_of ops)) by now apply NoDup_remove_1 in Hn.
          destruct (IH wd' _ St H3 Hn' H5 Hq (fun f t Hin => Hf f t (or_intror Hin))
                      (fun f v m Hin => Hm f v m (or_intror Hin))) as (more & Hmore & Hgo).
          exists more. split; [now constructor|exact Hgo].
      + pose proof (ask_going wd recs o t n Hg0 H2 (Hq t (or_introl eq_refl))) as St.
        cbn [desk_after fold_left desk_do].
        destruct (ask lib encode md5 no_meta IC o t n wd) as [r wd']. cbn [snd]. destruct St as [St _].
        destruct (IH wd' _ St H3 Hn Hu (fun t Hin => Hq t (or_intror Hin)) Hf Hm) as (more & Hmore & Hgo).
        exists more. split; [now constructor|exact Hgo].
  Qed.
End Generic.

Lemma filing_length {F} {num : Num F} {Parser Path Meta Orc} can_parse (parse : Parser -> Path -> result (pdoc F Path Meta))
    class_name lib encode name_of suffix_of g w k e (ops : list (@desk_op Path Orc)) recs id v m :
  filing can_parse parse class_name lib encode name_of suffix_of g w k e ops recs -> In (id, (v, m)) recs ->
  exists f m', In f (files_of ops) /\ m = Some m' /\ In id (ids_of ops) /\
    filed can_parse parse class_name lib encode name_of suffix_of g w k e f v m'.
Proof.
  induction 1 as [|o t n ops recs Hf IH|o i file v0 m0 ops recs Hfd Hf IH|o i file ops recs Hno Hf IH]; intros Hin.
  - destruct Hin.
  - destruct (IH Hin) as (f & m' & ? & ? & ? & ?). exists f, m'. cbn. auto.
  - destruct Hin as [[= <- <- <-]|Hin].
    + exists file, m0. cbn. auto.
    + destruct (IH Hin) as (f & m' & ? & ? & ? & ?). exists f, m'. cbn. auto.
  - destruct (IH Hin) as (f & m' & ? & ? & ? & ?). exists f, m'. cbn. auto.
Qed.

(** Opening gives two initialised pipelines and an empty database. *)
Lemma open_desk_ok {F S X Orc Parser} {num : Num F} `{Payload (list F) doc_meta} (C : storage_class S (list F) doc_meta)
    (IC : index_class X S F doc_meta Orc) reinit orc_ok p s0 sok
    (CONF : forall ops, all_fit reinit (fun _ => True) orc_ok p fresh_db ops ->
             db_conforms p sok fresh_db ops (cl_answers C IC s0 ops))
    build read_clean read_chunk read_embed cd cq o (wd : desk F Parser X S) : orc_ok o ->
  open_desk C IC build read_clean read_chunk read_embed cd cq o s0 = Ok wd ->
  pipe_initialize build read_clean read_chunk read_embed (new_pipeline cd) = (Ok tt, k_docs wd) /\
  pipe_initialize build read_clean read_chunk read_embed (new_pipeline cq) = (Ok tt, k_query wd) /\
  holds C IC reinit orc_ok p s0 (k_client wd) [].
Proof.
  intros Ho. unfold open_desk.
  destruct (pipe_initialize build read_clean read_chunk read_embed (new_pipeline cd)) as [[[]|x] sd]; [|discriminate].
  destruct (pipe_initialize build read_clean read_chunk read_embed (new_pipeline cq)) as [[[]|x] sq]; [|discriminate].
  cbn [rbind]. pose proof (holds_init C IC reinit orc_ok p s0 sok CONF o Ho) as Hi.
  destruct (cl_initialize C IC o [] _) as [r c]. destruct Hi as [-> Hi]. cbn [rbind]. intros [= <-]. auto.
Qed.

Section Theorems.
  Context {S Parser Path Meta : Type} `{Payload (list R) doc_meta} `{Unicode} (C : storage_class S (list R) doc_meta).
  Context (build : parser_class -> conf -> result Parser)
          (can_parse : Parser -> Path -> result bool)
          (parse : Parser -> Path -> result (pdoc R Path Meta))
          (class_name : Parser -> pystr)
          (lib : text_lib) (encode : pystr -> result (list R)) (md5 : pystr -> result pystr)
          (read_clean : conf -> result clean_config) (read_chunk : conf -> result chunk_config)
          (read_embed : conf -> result embed_config)
          (name_of suffix_of : Path -> pystr) (no_meta : Meta).

  (** A session as in the example: documents are cleaned, cut and embedded, questions embedded; the
      ids are uuids not used before, the hash of the embedding caches tells the texts apart, and
      the documents' descriptions can be stored. *)
  Record proper_session {X Orc} (orc_ok : Orc -> Prop) (wd : desk R Parser X S) (g : registry Parser)
      (w : clean_config) (k : chunk_config) (e e' : embed_config) (ops : list (@desk_op Path Orc)) (text : pystr) : Prop := {
    ps_registry : l_registry (k_docs wd) = Some g;
    ps_docs : exists st, l_processors (k_docs wd) = [QClean w; QChunk k; QEmbed e st];
    ps_query : exists st, l_processors (k_query wd) = [QEmbed e' st];
    ps_draws : Forall orc_ok (draws_of ops);
    ps_ids : NoDup (ids_of ops);
    ps_uuids : Forall uuid_like (ids_of ops);
    ps_hash_docs : apart md5 (l_processors (k_docs wd))
      (fun t => exists f, In f (files_of ops) /\
                  texts_in lib (l_processors (k_docs wd)) (parsed can_parse parse g f None) t);
    ps_hash_query : apart md5 (l_processors (k_query wd)) (fun t => In t (text :: questions_of ops));
    ps_meta : forall f v m, In f (files_of ops) ->
      filed can_parse parse class_name lib encode name_of suffix_of g w k e f v m -> meta_ok (Some m)
  }.

  (** The session up to now, whatever the index. *)
  Lemma session_so_far {X Orc} (IC : index_class X S R doc_meta Orc) reinit (orc_ok : Orc -> Prop) p s0 sok
      (CONF : forall ops, all_fit reinit (fun _ => True) orc_ok p fresh_db ops ->
               db_conforms p sok fresh_db ops (cl_answers C IC s0 ops))
      cd cq o wd g w k e e' ops text :
    orc_ok o -> open_desk C IC build read_clean read_chunk read_embed cd cq o s0 = Ok wd ->
    proper_session orc_ok wd g w k e e' ops text ->
    let now := desk_after can_parse parse class_name lib encode md5 name_of suffix_of no_meta IC ops wd in
    exists recs,
      filing can_parse parse class_name lib encode name_of suffix_of g w k e ops recs /\
      holds C IC reinit orc_ok p s0 (k_client now) recs /\
      forall o' n q, orc_ok o' -> embeds encode e' text (Ok q) ->
        fst (ask (Path := Path) lib encode md5 no_meta IC o' text n now) =
          fst (cl_search IC o' (Vec q) n (k_client now)) /\
        sok recs q n (match fst (ask (Path := Path) lib encode md5 no_meta IC o' text n now) with
                      | Ok l => AHits l | Raise x => AExn x end).
  Proof.
    intros Ho Eo [Hg [st Hqd] [st' Hqq] Hdr Hids Huu Hhd Hhq Hm] now.
    destruct (open_desk_ok C IC reinit orc_ok p s0 sok CONF _ _ _ _ _ _ _ _ Ho Eo) as (Id & Iq & Hh).
    destruct (init_registry build read_clean read_chunk read_embed cd _ Id) as (Hrd & _).
    destruct (init_registry build read_clean read_chunk read_embed cq _ Iq) as (Hrq & _).
    set (Td := fun t => exists f, In f (files_of ops) /\
                  texts_in lib (l_processors (k_docs wd)) (parsed can_parse parse g f None) t) in *.
    set (Tq := fun t => In t (text :: questions_of ops)) in *.
    assert (Hgo : going C IC reinit orc_ok p s0 encode md5 (k_docs wd) (k_query wd) Td Tq wd []).
    { split; [|split]; [| |exact Hh].
      - exact (initialised_same build encode md5 read_clean read_chunk read_embed Td cd _ Id Hhd).
      - exact (initialised_same build encode md5 read_clean read_chunk read_embed Tq cq _ Iq Hhq). }
    destruct (session_going C IC reinit orc_ok p s0 sok CONF can_parse parse class_name lib encode md5 name_of suffix_of
                no_meta (k_docs wd) (k_query wd) g w k e e' st st' Hrd Hrq Hg Hqd Hqq Td Tq ops wd [] Hgo Hdr)
      as (recs & Hf & Hnow); auto.
    { intros t Ht. now right. }
    { intros f t Hin Ht. exists f. auto. }
    exists recs. cbn [app] in Hnow. split; [exact Hf|]. split; [apply Hnow|].
    intros o' n q Ho' Eq.
    pose proof (ask_going (Path := Path) C IC reinit orc_ok p s0 sok CONF lib encode md5 no_meta (k_docs wd) (k_query wd) e' st'
                  Hrq Hqq Td Tq now recs o' text n Hnow Ho' (or_introl eq_refl)) as A.
    destruct (ask (Path := Path) lib encode md5 no_meta IC o' text n now) as [r wd']. destruct A as (_ & A1 & A2).
    split; [now apply A2|now apply A1].
  Qed.

  Context (s0 : S) (p : bool) (mt : metric) (HB : library_backend C s0 p) (Hmt : mt = MCosine \/ mt = MEuclidean).

  (** C160 with the flat index: after any session, a question is answered with the recorded
      documents whose embeddings are closest to the question's, closest first. *)
  Theorem C160_flat_partial cd cq o wd g w k e e' ops text q argsort n :
    argsort_ok o ->
    open_desk C (flat_class C mt) build read_clean read_chunk read_embed cd cq o s0 = Ok wd ->
    proper_session argsort_ok wd g w k e e' ops text ->
    let now := desk_after can_parse parse class_name lib encode md5 name_of suffix_of no_meta (flat_class C mt) ops wd in
    exists recs,
      filing can_parse parse class_name lib encode name_of suffix_of g w k e ops recs /\
      (argsort_ok argsort -> embeds encode e' text (Ok q) -> q <> [] ->
       (forall id v m, In (id, (v, m)) recs -> List.length v = List.length q) -> (0 <= n)%Z ->
       exists hits,
         fst (ask (Path := Path) lib encode md5 no_meta (flat_class C mt) argsort text n now) = Ok hits /\
         nearest (fun a b => if Rle_dec a b then true else false) (real_distance mt q) recs
                 (Nat.min (Z.to_nat n) (List.length recs)) hits).
  Proof.
    intros Ho Eo Hp now.
    destruct (session_so_far (flat_class C mt) true argsort_ok p s0 (flat_ok mt)
                (fun l => C16_flat_history_conforms C s0 p mt l HB) cd cq o wd g w k e e' ops text Ho Eo Hp)
      as (recs & Hf & (cops & Ec & Hfit & Ha) & Hask).
    exists recs. split; [exact Hf|]. intros Harg Eq Hq Hlen Hn.
    destruct (Hask argsort n q Harg Eq) as [E1 _]. fold now in E1, Ec.
    assert (Hcl : c_init (cl_after C (flat_class C mt) s0 cops) = true).
    { destruct (library_ok C s0 p HB) as (b & sz & A & HC & HA).
      destruct (client_conforms C _ p b sz A HC true _ argsort_ok (flat_ok mt) _ _
                  (flat_index_ok C mt p b sz A HC true) s0 cops HA Hfit) as [_ HR].
      rewrite (proj1 HR), Ha. reflexivity. }
    destruct (C16_flat_exact_knn_real C s0 p mt cops argsort q n HB Hfit Hcl Harg Hmt Hq) as (hits & Eh & Hnear); auto.
    { rewrite Ha. exact Hlen. }
    rewrite Ha in Hnear. exists hits. split; [|exact Hnear].
    rewrite E1, Ec. cbn [cl_step] in Eh.
    revert Eh. generalize (cl_search (flat_class C mt) argsort (Vec q) n (cl_after C (flat_class C mt) s0 cops)).
    intros [[l|x] c'] Eh; cbn [cobs fst] in Eh |- *; congruence.
  Qed.

  (** C160 with the graph index: every answer is a recorded document at its true distance, in
      order, at most as many as asked for. *)
  Theorem C160_hnsw_partial m ef cd cq o wd g w k e e' ops text q rnd n :
    (0 <= m)%Z -> sample_ok o ->
    open_desk C (hnsw_class C m ef mt) build read_clean read_chunk read_embed cd cq o s0 = Ok wd ->
    proper_session sample_ok wd g w k e e' ops text ->
    let now := desk_after can_parse parse class_name lib encode md5 name_of suffix_of no_meta (hnsw_class C m ef mt) ops wd in
    exists recs,
      filing can_parse parse class_name lib encode name_of suffix_of g w k e ops recs /\
      (sample_ok rnd -> embeds encode e' text (Ok q) ->
       (forall id v m, In (id, (v, m)) recs -> List.length v = List.length q) -> (0 <= n)%Z ->
       exists hits,
         fst (ask (Path := Path) lib encode md5 no_meta (hnsw_class C m ef mt) rnd text n now) = Ok hits /\
         List.length hits <= Z.to_nat n /\
         StronglySorted (fun a b => (h_dist a <= h_dist b)%R) hits /\
         forall h, In h hits -> exists v, In (h_id h, (v, h_meta h)) recs /\ h_dist h = real_distance mt q v).
  Proof.
    intros Hm Ho Eo Hp now.
    destruct (session_so_far (hnsw_class C m ef mt) false sample_ok p s0 (hnsw_ok mt)
                (fun l => C27_hnsw_history_conforms C s0 p m ef mt l HB Hm) cd cq o wd g w k e e' ops text Ho Eo Hp)
      as (recs & Hf & _ & Hask).
    exists recs. split; [exact Hf|]. intros Hr Eq Hlen Hn.
    destruct (Hask rnd n q Hr Eq) as [_ E2]. fold now in E2.
    assert (Hpd : forall id v m, In (id, (v, m)) recs -> pair_distance mt q v = Ok (real_distance mt q v)).
    { intros id v m' Hin. apply C43_indexes_agree; auto. symmetry. eauto. }
    destruct (ask (Path := Path) lib encode md5 no_meta (hnsw_class C m ef mt) rnd text n now) as [[hits|x] wd']; cbn [fst] in *.
    2: { destruct E2 as (_ & id & v & m' & e0 & Hin & E). rewrite (Hpd _ _ _ Hin) in E. discriminate. }
    exists hits. split; [reflexivity|]. destruct E2 as [Gt Gs Gl]. split; [auto|]. split.
    - clear -Gs. induction Gs as [|a l Hs IH Hf]; constructor; auto. eapply Forall_impl; [|exact Hf].
      intros b Hb. simpl in Hb. destruct (Rle_dec _ _) in Hb; auto. discriminate.
    - intros h Hh. destruct (Gt h Hh) as (v & Hin & Ed). exists v. split; [exact Hin|].
      rewrite (Hpd _ _ _ Hin) in Ed. congruence.
  Qed.

  (** C160, with the flat index: who asks for the cleaned text of a recorded document gets an
      answer at distance zero first. *)
  Theorem C160_own_text_partial cd cq o wd g w k e e' ops text argsort n f v m :
    argsort_ok o ->
    open_desk C (flat_class C mt) build read_clean read_chunk read_embed cd cq o s0 = Ok wd ->
    proper_session argsort_ok wd g w k e e' ops text ->
    argsort_ok argsort -> (1 <= n)%Z ->
    In f (files_of ops) -> filed can_parse parse class_name lib encode name_of suffix_of g w k e f v m ->
    embeds encode e' text (Ok v) -> v <> [] -> (mt = MCosine -> exists x, In x v /\ x <> 0%R) ->
    (forall f' v' m', In f' (files_of ops) ->
       filed can_parse parse class_name lib encode name_of suffix_of g w k e f' v' m' -> List.length v' = List.length v) ->
    let now := desk_after can_parse parse class_name lib encode md5 name_of suffix_of no_meta (flat_class C mt) ops wd in
    exists h rest,
      fst (ask (Path := Path) lib encode md5 no_meta (flat_class C mt) argsort text n now) = Ok (h :: rest) /\
      h_dist h = 0%R /\
      exists f' v' m', In f' (files_of ops) /\ h_meta h = Some m' /\ real_distance mt v v' = 0%R /\
        filed can_parse parse class_name lib encode name_of suffix_of g w k e f' v' m'.
  Proof.
    intros Ho Eo Hp Harg Hn Hin Hfd Hemb Hv Hz Hlen now.
    destruct (C160_flat_partial cd cq o wd g w k e e' ops text v argsort n Ho Eo Hp) as (recs & Hf & Hask).
    assert (Hrec : forall id v' m', In (id, (v', m')) recs -> List.length v' = List.length v).
    { intros id v' m' Hi. destruct (filing_length _ _ _ _ _ _ _ _ _ _ _ _ _ _ _ _ Hf Hi) as (f' & m1 & A & B & _ & D).
      eapply Hlen; eauto. }
    destruct (Hask Harg Hemb Hv Hrec ltac:(lia)) as (hits & E & Hnear). fold now in E.
    assert (Hthere : exists id, In (id, (v, Some m)) recs).
    { clear -Hf Hin Hfd.
      assert (U : forall v' m', filed can_parse parse class_name lib encode name_of suffix_of g w k e f v' m' -> v' = v /\ m' = m).
      { intros v' m' (pr & d0 & t & cs & A1 & A2 & A3 & A4 & A5 & _ & A7).
        destruct Hfd as (pr' & d0' & t' & cs' & B1 & B2 & B3 & B4 & B5 & _ & B7).
        assert (pr' = pr) by congruence. subst pr'. assert (d0' = d0) by congruence. subst d0'.
        assert (t' = t) by congruence. subst t'. apply embeds_plain in A4, B4.
        split; [congruence|]. rewrite A7, B7. congruence. }
      induction Hf as [|o t n ops recs Hf IH|o i file v0 m0 ops recs Hfd' Hf IH|o i file ops recs Hno Hf IH];
        cbn in Hin.
      - destruct Hin.
      - auto.
      - destruct Hin as [->|Hin].
        + destruct (U _ _ Hfd') as [-> ->]. exists i. now left.
        + destruct (IH Hin) as [id Hid]. exists id. now right.
      - destruct Hin as [->|Hin]; [now destruct (Hno v m)|auto]. }
    destruct Hthere as [id Hid].
    assert (List.length recs <> 0) as Hl by (destruct recs; [destruct Hid|discriminate]).
    destruct Hnear as [N1 N2 N3 N4 N5]. unfold doc_meta in *.
    destruct hits as [|h rest]; [cbn in N1; lia|].
    exists h, rest. split; [exact E|].
    destruct (N3 h (or_introl eq_refl)) as (v' & Hv' & Ed).
    assert (Hself : real_distance mt v v = 0%R) by (apply PropsFactory.real_distance_self; auto).
    assert (Hle : (h_dist h <= 0)%R).
    { rewrite <- Hself. destruct (in_dec (list_eq_dec N.eq_dec) id (map h_id (h :: rest))) as [Hi|Hi].
      - apply in_map_iff in Hi as (h1 & E1 & H1).
        destruct (N3 h1 H1) as (v1 & Hv1 & Ed1).
        destruct Hp as [_ _ _ _ Hids _ _ _ _].
        assert (v1 = v) as ->.
        { assert (NoDup (map fst recs)) as ND.
          { clear -Hf Hids.
            assert (Sub : forall ops recs, filing can_parse parse class_name lib encode name_of suffix_of g w k e ops recs ->
                      NoDup (ids_of (Path := Path) (Orc := list R -> list nat) ops) -> NoDup (map fst recs) /\ incl (map fst recs) (ids_of ops)).
            { clear. intros ops recs Hf. induction Hf as [|o t n ops recs Hf IH|o i file v0 m0 ops recs Hfd' Hf IH|o i file ops recs Hno Hf IH];
                cbn; intros Hn.
              - split; [constructor|intros x []].
              - auto.
              - apply NoDup_cons_iff in Hn as [Hn1 Hn2]. destruct (IH Hn2) as [I1 I2]. split.
                + constructor; auto.
                + intros x [<-|Hx]; [now left|right; auto].
              - apply NoDup_cons_iff in Hn as [Hn1 Hn2]. destruct (IH Hn2) as [I1 I2]. split; auto. intros x Hx. right. auto. }
            now apply (Sub ops recs Hf). }
          clear -ND Hv1 Hid E1. subst id.
          assert (forall r1 r2, In (h_id h1, r1) recs -> In (h_id h1, r2) recs -> r1 = r2) as U.
          { clear -ND. induction recs as [|[i r] recs IH]; intros r1 r2 A B; [destruct A|].
            cbn in ND. apply NoDup_cons_iff in ND as [ND1 ND2].
            destruct A as [A|A], B as [B|B].
            - congruence.
            - exfalso. apply ND1. injection A as -> _. change (h_id h1) with (fst (h_id h1, r2)). now apply in_map.
            - exfalso. apply ND1. injection B as -> _. change (h_id h1) with (fst (h_id h1, r1)). now apply in_map.
            - eauto. }
          specialize (U _ _ Hv1 Hid). congruence. }
        rewrite <- Ed1. destruct H1 as [E2|H1]; [rewrite E2; apply Rle_refl|].
        apply StronglySorted_inv in N4 as [_ N4]. rewrite Forall_forall in N4. specialize (N4 h1 H1). cbv beta in N4.
        destruct (Rle_dec _ _) in N4; [auto|discriminate N4].
      - specialize (N5 id v (Some m) h Hid Hi (or_introl eq_refl)). cbv beta in N5.
        destruct (Rle_dec _ _) in N5; [auto|discriminate N5]. }
    assert (Hge : (0 <= h_dist h)%R).
    { rewrite Ed. apply PropsFactory.real_distance_pos. symmetry. eauto. }
    assert (h_dist h = 0%R) as E0 by lra. split; [exact E0|].
    destruct (filing_length _ _ _ _ _ _ _ _ _ _ _ _ _ _ _ _ Hf Hv') as (f' & m' & A & B & _ & D).
    exists f', v', m'. split; [exact A|]. split; [exact B|]. split; [lra|exact D].
  Qed.
End Theorems.

(** ** Cases *)

(** Dictionaries can be copied and pickled. *)
#[local] Instance doc_payload {V} : Payload (list V) doc_meta := {|
  nbytes v := (4 * N.of_nat (List.length v))%N;
  strbytes m := 5%N;
  copyable m := true;
  picklable m := true
|}.

(** The example's configuration, the parsers one level deeper (see C106). *)
Definition docs_config : conf :=
  CTable [(py "parsers", CTable [(py "parsers", CTable [(py "text", CTable [])])]);
          (py "processors", CTable [(py "cleaning", CTable []); (py "chunking", CTable []); (py "embedding", CTable [])])].
Definition query_config : conf := CTable [(py "processors", CTable [(py "embedding", CTable [])])].

(** A file is its name; four of them have texts. *)
Definition file_text (file : pystr) : option pystr :=
  dget file [(py "a.txt", py "one  two"); (py "b.txt", py "four+sir"); (py "c.txt", py "three"); (py "blank.txt", py "  ")].
Definition file_can (_ : unit) (file : pystr) : result bool :=
  Ok (match file_text file with Some _ => true | None => false end).
Definition file_parse {F} (_ : unit) (file : pystr) : result (pdoc F pystr unit) :=
  match file_text file with Some t => Ok (MkPDoc (Some t) None None None tt None) | None => Raise EParsing end.
Definition file_build (cls : parser_class) (_ : conf) : result unit := Ok tt.
(** Models that count the letters of a text. *)
Definition letters_R (t : pystr) : result (list R) := Ok [INR (List.length t); 1%R].
Definition letters_Z (t : pystr) : result (list Z) := Ok [Z.of_nat (List.length t); 1%Z].

Definition no_suffix (_ : pystr) : pystr := py ".txt".
Definition three_ops {F} {num : Num F} : list (@desk_op pystr (list F -> list nat)) :=
  [DStore stable_argsort (demo_ids 97 0) (py "a.txt"); DAsk stable_argsort (py "eight ch") 1;
   DStore stable_argsort (demo_ids 97 1) (py "lost.txt"); DStore stable_argsort (demo_ids 97 2) (py "c.txt")].

(** The hypotheses of C160 hold of a session over the reals; one file cannot be read. *)
Example C160_case :
  exists wd g w k e e' v m,
    open_desk (mem_class (V := list R) (Mt := doc_meta)) (flat_class mem_class MEuclidean) file_build toy_clean toy_chunk
      toy_embed docs_config query_config stable_argsort mem_new = Ok wd /\
    library_backend (mem_class (V := list R) (Mt := doc_meta)) mem_new false /\
    argsort_ok (F := R) stable_argsort /\
    proper_session file_can file_parse (fun _ => py "TextParser") demo_clean_lib letters_R plain_hash (fun f => f) no_suffix
      argsort_ok wd g w k e e' three_ops (py "three") /\
    In (py "c.txt") (files_of (three_ops (F := R))) /\
    filed file_can file_parse (fun _ => py "TextParser") demo_clean_lib letters_R (fun f => f) no_suffix g w k e (py "c.txt") v m /\
    embeds letters_R e' (py "three") (Ok v) /\ v <> [].
Proof.
  eexists _, _, _, _, _, _, _, _. split; [vm_compute; reflexivity|]. split; [constructor|].
  split; [exact stable_argsort_ok|].
  assert (Hap : forall (qs : list (processor R)) T, apart plain_hash qs T).
  { intros qs T c s _. split; [intros t _ _; eexists; reflexivity|].
    intros t u _ _ _ _ E. injection E as E. now apply key_content_inj in E. }
  split.
  - constructor.
    + reflexivity.
    + eexists. reflexivity.
    + eexists. reflexivity.
    + repeat constructor; apply stable_argsort_ok.
    + cbn. repeat constructor; cbn; intuition discriminate.
    + cbn. repeat constructor; try discriminate; lia.
    + apply Hap.
    + apply Hap.
    + intros f v m _ _. split; reflexivity.
  - split; [cbn; auto|]. split.
    + exists tt. do 3 eexists. split; [vm_compute; reflexivity|]. split; [reflexivity|]. split; [reflexivity|].
      split; [apply embeds_plain; reflexivity|]. split; [vm_compute; reflexivity|]. split; [|reflexivity].
      intros c []. 
    + split; [apply embeds_plain; reflexivity|discriminate].
Qed.

(** A desk over the integers, what it holds after some documents, and what it then answers. *)
Definition small_desk : result (desk Z unit (flat Z) (mem (list Z) doc_meta)) :=
  open_desk mem_class (flat_class mem_class MEuclidean) file_build toy_clean toy_chunk toy_embed docs_config query_config
    stable_argsort mem_new.
Definition small_answer (files : list pystr) (text : pystr) (n : Z) : result (list (hit Z doc_meta)) :=
  rbind small_desk (fun wd =>
    fst (ask (Path := pystr) demo_clean_lib letters_Z plain_hash tt (flat_class mem_class MEuclidean) stable_argsort text n
           (desk_after file_can file_parse (fun _ => py "TextParser") demo_clean_lib letters_Z plain_hash (fun f => f) no_suffix
              tt (flat_class mem_class MEuclidean)
              (map (fun '(i, f) => DStore stable_argsort (demo_ids 97 i) f) (combine (seq 0 (List.length files)) files)) wd))).

(** The names of the documents answered. *)
Definition names_answered (r : result (list (hit Z doc_meta))) : result (list (option pyval)) :=
  rbind r (fun hits => Ok (map (fun h => match h_meta h with Some m => dget (py "file_name") m | None => None end) hits)).

Example C160_found : names_answered (small_answer [py "a.txt"; py "lost.txt"; py "c.txt"] (py "three") 2) =
  Ok [Some (PStr (py "c.txt")); Some (PStr (py "a.txt"))].
Proof. vm_compute. reflexivity. Qed.

(** C160 is false once a document without text is among them: its embedding has another length, and
    from then on every question raises. *)
Theorem C160_blank_refuted :
  exists files blank text n,
    names_answered (small_answer files text n) = Ok [Some (PStr (py "c.txt"))] /\
    match file_text blank with Some t => white t | None => False end /\
    small_answer (files ++ [blank]) text n = Raise EIndex.
Proof.
  exists [py "a.txt"; py "c.txt"], (py "blank.txt"), (py "three"), 1%Z.
  split; [vm_compute; reflexivity|]. split; [apply is_blank_white; vm_compute; reflexivity|]. vm_compute. reflexivity.
Qed.

(** C160 is false of a document's own text as it stands in the file: documents are cleaned,
    questions are not, and another document may come first. *)
Theorem C160_own_file_refuted :
  exists files file text,
    In file files /\ file_text file = Some text /\
    names_answered (small_answer files text 1) = Ok [Some (PStr (py "b.txt"))] /\ file <> py "b.txt".
Proof.
  exists [py "a.txt"; py "b.txt"], (py "a.txt"), (py "one  two").
  split; [now left|]. split; [reflexivity|]. split; [vm_compute; reflexivity|discriminate].
Qed.

Print Assumptions C160_flat_partial.
Print Assumptions C160_hnsw_partial.
Print Assumptions C160_own_text_partial.
Print Assumptions C160_blank_refuted.
Print Assumptions C160_own_file_refuted.
