(** What C107 and C108 leave open: the cache of the embedding processor takes two texts for one
    when their hashes agree, and with any hash of 32 hexadecimal digits there are such texts. *)

From Coq Require Import String List Arith ZArith NArith Bool Lia.
From Verif Require Import PyBase PyMore BaseLemmas Num PyValue ChunkModel CleanModel BatchModel EmbedModel PipelineModel.
From Verif Require Import PropsEmbed PropsRegistry PropsPipeline DemoIndex.
Import ListNotations.
Open Scope py_scope.

Section Collide.
  Context (md5 : pystr -> pystr).

  (** A model that tells texts of different lengths apart. *)
  Definition by_length (t : pystr) : result (list Z) := Ok [Z.of_nat (length t)].
  Definition hash (x : pystr) : result pystr := Ok (md5 x).
  Definition plain_embedding : embed_config := MkEmb (py "m") TSentence 32 true false.
  Notation c := plain_embedding.
  Notation gen := (generate_embedding by_length hash c).

  (** What a call leaves in place. *)
  Definition keeps (s s' : @embedder Z) : Prop :=
    m_ready s' = m_ready s /\ (exists more, m_heap s' = m_heap s ++ more) /\
    (forall k l, dget k (m_cache s) = Some l -> dget k (m_cache s') = Some l).

  Lemma keeps_refl s : keeps s s.
  Proof. split; [reflexivity|]. split; [exists []; now rewrite app_nil_r|auto]. Qed.

  Lemma keeps_trans s1 s2 s3 : keeps s1 s2 -> keeps s2 s3 -> keeps s1 s3.
  Proof.
    intros (R1 & (m1 & H1) & C1) (R2 & (m2 & H2) & C2). split; [congruence|]. split.
    - exists (m1 ++ m2). now rewrite H2, H1, app_assoc.
    - auto.
  Qed.

  Lemma keeps_nth s s' l v : keeps s s' -> nth_error (m_heap s) l = Some v -> nth_error (m_heap s') l = Some v.
  Proof.
    intros (_ & (m & E) & _) Hl. rewrite E. rewrite nth_error_app1; [exact Hl|].
    apply nth_error_Some. congruence.
  Qed.

  Lemma gen_new t s : is_blank t = false -> dget (md5 (key_content c t)) (m_cache s) = None ->
    exists l s', gen t s = (Ok l, s') /\ keeps s s' /\
      nth_error (m_heap s') l = Some [Z.of_nat (length t)] /\
      dget (md5 (key_content c t)) (m_cache s') = Some l.
  Proof.
    intros Hb Hd. eexists _, _. split.
    { unfold generate_embedding. rewrite Hb. cbn [e_cached plain_embedding].
      unfold bind at 1, lift at 1, hash. unfold bind at 1, get at 1. rewrite Hd.
      unfold generate_new, run_model, bind, lift, alloc, finish, modify, ret, by_length.
      cbn [e_type e_normal plain_embedding]. reflexivity. }
    split; [|split].
    - split; [reflexivity|]. split; [eexists; reflexivity|]. intros k l Hk.
      cbn [m_cache count_texts remember]. destruct (eqb_spec k (md5 (key_content c t))) as [->|Hn].
      + congruence.
      + now rewrite dget_dset_other.
    - cbn [m_heap count_texts remember]. rewrite nth_error_app2 by lia. now rewrite Nat.sub_diag.
    - cbn [m_cache count_texts remember]. apply dget_dset_same.
  Qed.

  Lemma gen_hit t s l : is_blank t = false -> dget (md5 (key_content c t)) (m_cache s) = Some l ->
    gen t s = (Ok l, add_hit s).
  Proof.
    intros Hb Hd. unfold generate_embedding. rewrite Hb. cbn [e_cached plain_embedding].
    unfold bind at 1, lift at 1, hash. unfold bind at 1, get at 1. now rewrite Hd.
  Qed.

  Lemma gen_ok t s : exists l s', gen t s = (Ok l, s') /\ keeps s s'.
  Proof.
    destruct (is_blank t) eqn:Hb.
    - unfold generate_embedding. rewrite Hb. unfold alloc. eexists _, _. split; [reflexivity|].
      split; [reflexivity|]. split; [eexists; reflexivity|auto].
    - destruct (dget (md5 (key_content c t)) (m_cache s)) as [l|] eqn:Hd.
      + exists l, (add_hit s). split; [now apply gen_hit|]. split; [reflexivity|]. split; [exists []; symmetry; apply app_nil_r|auto].
      + destruct (gen_new t s Hb Hd) as (l & s' & E & K & _). eauto.
  Qed.

  Lemma chunks_ok cs : forall s, exists ls s', embed_chunks by_length hash c cs s = (Ok ls, s') /\ keeps s s'.
  Proof.
    induction cs as [|[t|] cs IH]; intros s; cbn [embed_chunks].
    - eexists _, _. split; [reflexivity|apply keeps_refl].
    - destruct (gen_ok t s) as (l & s1 & E1 & K1). destruct (IH s1) as (ls & s2 & E2 & K2).
      eexists _, _. split; [unfold bind; rewrite E1, E2; reflexivity|]. eapply keeps_trans; eauto.
    - apply IH.
  Qed.

  (** The embedding of a text no entry of the cache is taken for, and of one where there is one. *)
  Lemma process_new t cs s : m_ready s = true -> is_blank t = false ->
    dget (md5 (key_content c t)) (m_cache s) = None ->
    exists l ls s', emb_process by_length hash c (MkEmbDoc (Some t) (Some cs)) s = (Ok (Some l, Some ls), s') /\
      nth_error (m_heap s') l = Some [Z.of_nat (length t)] /\
      dget (md5 (key_content c t)) (m_cache s') = Some l /\ m_ready s' = true.
  Proof.
    intros Hr Hb Hd. destruct (gen_new t s Hb Hd) as (l & s1 & E1 & K1 & N1 & D1).
    destruct (chunks_ok cs s1) as (ls & s2 & E2 & K2).
    exists l, ls, s2. split; [|split; [|split]].
    - unfold emb_process, bind, get. rewrite Hr. cbn [negb ed_text ed_chunks]. rewrite E1. unfold ret.
      now rewrite E2.
    - eapply keeps_nth; eauto.
    - now apply K2.
    - destruct K1 as (R1 & _), K2 as (R2 & _). congruence.
  Qed.

  Lemma process_hit t cs s l v : m_ready s = true -> is_blank t = false ->
    dget (md5 (key_content c t)) (m_cache s) = Some l -> nth_error (m_heap s) l = Some v ->
    exists ls s', emb_process by_length hash c (MkEmbDoc (Some t) (Some cs)) s = (Ok (Some l, Some ls), s') /\
      nth_error (m_heap s') l = Some v.
  Proof.
    intros Hr Hb Hd Hv. destruct (chunks_ok cs (add_hit s)) as (ls & s2 & E2 & K2).
    exists ls, s2. split.
    - unfold emb_process, bind, get. rewrite Hr. cbn [negb ed_text ed_chunks]. rewrite (gen_hit t s l Hb Hd).
      unfold ret. now rewrite E2.
    - eapply keeps_nth; [exact K2|exact Hv].
  Qed.
End Collide.

(** Nothing to clean; paragraphs as chunks. *)
Definition no_cleaning : clean_config := MkClean false false false false false false false [] 1 50.
Definition by_paragraph : chunk_config := MkChunkConfig Semantic 1000 100 50 2000 default_separators.

Lemma no_cleaning_same lib t : clean_text lib no_cleaning t = t.
Proof. destruct t; reflexivity. Qed.

(** A pipeline with all three processors, freshly initialised. *)
Definition fresh_pipe : pipeline Z (list pystr) :=
  snd (pipe_initialize (F := Z) toy_build (fun _ => Ok no_cleaning) (fun _ => Ok by_paragraph)
         (fun _ => Ok plain_embedding) (new_pipeline demo_config)).

(** Such a pipeline at work on one text. *)
Lemma text_run md5 lib (t : pystr) (s : @embedder Z) (g : option (registry (list pystr))) l ls s' :
  emb_process by_length (hash md5) plain_embedding
    (MkEmbDoc (Some t) (Some (map (fun x => Some (c_text x)) (filter_by_size by_paragraph (semantic_chunking by_paragraph t))))) s
    = (Ok (Some l, Some ls), s') ->
  exists d : pdoc Z pystr nat,
  process_text lib by_length (hash md5) t 0
    (MkPipe demo_config g [QClean no_cleaning; QChunk by_paragraph; QEmbed plain_embedding s] true)
  = (Ok d, MkPipe demo_config g [QClean no_cleaning; QChunk by_paragraph; QEmbed plain_embedding s'] true) /\
  x_embedding d = Some (nth l (m_heap s') []).
Proof.
  intros E. eexists. split.
  - unfold process_text, wrap, bind, get, run_processors, ret. cbn [l_ready negb l_processors apply_all apply_processor].
    unfold clean_process, chunk_document, chunk_process, raw_chunks.
    cbn [d_text d_chunks x_text x_chunks option_map k_strategy by_paragraph rbind x_embedding x_chunk_embeddings x_meta x_pipeline].
    rewrite no_cleaning_same. rewrite E. cbn [rbind fst snd]. reflexivity.
  - reflexivity.
Qed.

(** For every hash of 32 hexadecimal digits there are a model and two texts such that the pipeline,
    having processed the first, gives the second the embedding of the first. *)
Lemma collision :
  forall (md5 : pystr -> pystr) lib, (forall s, hex_digest (md5 s)) ->
    exists t u s (d d0 : pdoc Z pystr nat),
      ~ white u /\ length t <> length u /\
      s = snd (process_text (Path := pystr) (Meta := nat) lib by_length (hash md5) t 0 fresh_pipe) /\
      fst (process_text lib by_length (hash md5) u 0 s) = Ok d /\
      x_embedding d = Some [Z.of_nat (length t)] /\
      fst (process_text lib by_length (hash md5) u 0 fresh_pipe) = Ok d0 /\
      x_embedding d0 = Some [Z.of_nat (length u)].
Proof.
  intros md5 lib Hhex. set (text := fun i : nat => repeat 97%N (S i)).
  destruct (pigeonhole (fun i => md5 (key_content plain_embedding (text i))) (all_strings (py "0123456789abcdef") 32))
    as (i & j & Hij & E).
  { intros i. destruct (Hhex (key_content plain_embedding (text i))). now apply all_strings_In. }
  assert (Hw : forall k, ~ white (text k)).
  { intros k Hw. specialize (Hw 97%N ltac:(simpl; auto)). discriminate. }
  assert (Hb : forall k, is_blank (text k) = false).
  { intros k. destruct (is_blank (text k)) eqn:Eb; auto. apply is_blank_white in Eb. now apply Hw in Eb. }
  assert (Ef : exists g, fresh_pipe = MkPipe demo_config g
                 [QClean no_cleaning; QChunk by_paragraph; QEmbed plain_embedding (MkEmbedder [] [] 0 0 0 true)] true).
  { eexists. vm_compute. reflexivity. }
  destruct Ef as [g Ef]. rewrite Ef.
  set (cs := fun k => map (fun x => Some (c_text x)) (filter_by_size by_paragraph (semantic_chunking by_paragraph (text k)))).
  destruct (process_new md5 (text i) (cs i) (MkEmbedder [] [] 0 0 0 true) eq_refl (Hb i) eq_refl)
    as (l & ls & s1 & E1 & N1 & D1 & R1).
  destruct (process_new md5 (text j) (cs j) (MkEmbedder [] [] 0 0 0 true) eq_refl (Hb j) eq_refl)
    as (l0 & ls0 & s0 & E0 & N0 & _ & _).
  rewrite E in D1.
  destruct (process_hit md5 (text j) (cs j) s1 l _ R1 (Hb j) D1 N1) as (ls2 & s2 & E2 & N2).
  destruct (text_run md5 lib (text i) _ g _ _ _ E1) as (d1 & P1 & _).
  destruct (text_run md5 lib (text j) _ g _ _ _ E0) as (d0 & P0 & X0).
  destruct (text_run md5 lib (text j) _ g _ _ _ E2) as (d2 & P2 & X2).
  exists (text i), (text j), (snd (process_text (Path := pystr) (Meta := nat) lib by_length (hash md5) (text i) 0
     (MkPipe demo_config g [QClean no_cleaning; QChunk by_paragraph; QEmbed plain_embedding (MkEmbedder [] [] 0 0 0 true)] true))), d2, d0.
  split; [apply Hw|]. split.
  { unfold text. rewrite !repeat_length. lia. }
  split; [reflexivity|]. rewrite P1. cbn [snd]. rewrite P2, P0. split; [reflexivity|].
  split; [rewrite X2; now rewrite (nth_error_nth _ _ _ N2)|]. split; [reflexivity|].
  rewrite X0. now rewrite (nth_error_nth _ _ _ N0).
Qed.

(** C108: what a text gets depends on what was processed before. *)
Theorem C108_collision_refuted :
  forall (md5 : pystr -> pystr) lib, (forall s, hex_digest (md5 s)) ->
    exists (encode : pystr -> result (list Z)) read_clean read_chunk read_embed (config : conf) (s0 : pipeline Z (list pystr)) t u,
      pipe_initialize toy_build read_clean read_chunk read_embed (new_pipeline config) = (Ok tt, s0) /\
      let s := snd (process_text (Path := pystr) lib encode (fun x => Ok (md5 x)) t 0 s0) in
      fst (process_text (Path := pystr) lib encode (fun x => Ok (md5 x)) u 0 s) <>
      fst (process_text (Path := pystr) lib encode (fun x => Ok (md5 x)) u 0 s0).
Proof.
  intros md5 lib Hhex. destruct (collision md5 lib Hhex) as (t & u & s & d & d0 & _ & Hn & Es & Ed & Xd & E0 & X0).
  exists by_length, (fun _ => Ok no_cleaning), (fun _ => Ok by_paragraph), (fun _ => Ok plain_embedding), demo_config, fresh_pipe, t, u.
  split; [vm_compute; reflexivity|]. cbv zeta.
  change (fun x => Ok (md5 x)) with (hash md5). rewrite <- Es, Ed, E0. intros E. injection E as ->.
  rewrite Xd in X0. injection X0 as X0. lia.
Qed.

(** C107: the embedding of a processed text need not be that of the text. *)
Theorem C107_collision_refuted :
  forall (md5 : pystr -> pystr) lib, (forall s, hex_digest (md5 s)) ->
    exists (encode : pystr -> result (list Z)) w k e (config : conf) (s0 : pipeline Z (list pystr)) t u d,
      pipe_initialize toy_build (fun _ => Ok w) (fun _ => Ok k) (fun _ => Ok e) (new_pipeline config) = (Ok tt, s0) /\
      map processor_name (l_processors s0) = [py "CleaningProcessor"; py "ChunkingProcessor"; py "EmbeddingProcessor"] /\
      (let s := snd (process_text (Path := pystr) lib encode (fun x => Ok (md5 x)) t 0 s0) in
       fst (process_text (Path := pystr) lib encode (fun x => Ok (md5 x)) u 0 s) = Ok d) /\
      ~ worked_out lib encode w k e u d.
Proof.
  intros md5 lib Hhex. destruct (collision md5 lib Hhex) as (t & u & s & d & d0 & Hw & Hn & Es & Ed & Xd & _ & _).
  exists by_length, no_cleaning, by_paragraph, plain_embedding, demo_config, fresh_pipe, t, u, d.
  split; [vm_compute; reflexivity|]. split; [vm_compute; reflexivity|]. split.
  { cbv zeta. change (fun x => Ok (md5 x)) with (hash md5). rewrite <- Es. exact Ed. }
  intros (cs & v & vs & _ & _ & _ & Xv & (_ & He & _) & _).
  rewrite no_cleaning_same in He. specialize (He Hw _ eq_refl). cbn in He. injection He as ->.
  rewrite Xd in Xv. injection Xv as Xv. lia.
Qed.

(** A hash of this kind. *)
Example collision_hypotheses_met : forall s : pystr, hex_digest ((fun _ => repeat 48%N 32) s).
Proof.
  intros s. split; [reflexivity|]. rewrite Forall_forall. intros x Hx. apply repeat_spec in Hx. subst. simpl. auto.
Qed.

Print Assumptions C108_collision_refuted.
Print Assumptions C107_collision_refuted.
