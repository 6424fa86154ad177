(** C145, C149, C150: what the document side reports about itself. *)

From Coq Require Import String List Arith ZArith NArith QArith Lia Bool Sorting.Sorted Lqa.
From Coq Require Import ZifyBool ZifyNat.
From Verif Require Import PyBase PyMore PyValue BaseLemmas Num ChunkModel ChunkProofs CleanModel EmbedModel PipelineModel ExtractModel InfoModel
  PropsChunk PropsClean PropsRegistry DemoIndex.
Import ListNotations.
Open Scope nat_scope.

Lemma NoDup_app_disj {A} (l1 l2 : list A) :
  NoDup l1 -> NoDup l2 -> (forall x, In x l1 -> ~ In x l2) -> NoDup (l1 ++ l2).
Proof.
  intros H1 H2. induction H1 as [|a l1 Ha H1 IH]; simpl; auto. intros Hd. constructor.
  - rewrite in_app_iff. intros [Hi|Hi]; auto. eapply Hd; eauto.
  - apply IH. intros x Hx. apply Hd. auto.
Qed.

(** ** C145: parsers *)

(** The order of strings: by the first code point that differs, a start before the whole. *)
Inductive before : pystr -> pystr -> Prop :=
| BNil y b : before [] (y :: b)
| BHead x y a b : (x < y)%N -> before (x :: a) (y :: b)
| BTail x a b : before a b -> before (x :: a) (x :: b).

Lemma str_ltb_spec a : forall b, str_ltb a b = true <-> before a b.
Proof.
  induction a as [|x a IH]; intros b.
  - destruct b as [|y b]; cbn [str_ltb]; split; intros E; try discriminate; [inversion E|constructor|reflexivity].
  - destruct b as [|y b]; cbn [str_ltb]; [split; intros E; [discriminate|inversion E]|].
    rewrite orb_true_iff, andb_true_iff, N.ltb_lt, N.eqb_eq, IH. split.
    + intros [E|[-> E]]; [now apply BHead|now apply BTail].
    + intros E. inversion E; subst; auto.
Qed.

Lemma before_trans a b c : before a b -> before b c -> before a c.
Proof.
  intros H. revert c. induction H as [y b|x y a b Hxy|x a b H IH]; intros c Hc; inversion Hc; subst; try (constructor; auto; lia).
Qed.

Lemma before_total a : forall b, a <> b -> ~ before a b -> before b a.
Proof.
  induction a as [|x a IH]; intros b Hne Hn; destruct b as [|y b].
  - congruence.
  - destruct Hn. constructor.
  - constructor.
  - destruct (N.lt_trichotomy x y) as [H|[->|H]].
    + destruct Hn. now constructor.
    + apply BTail. apply IH; [congruence|]. intros H. apply Hn. now constructor.
    + now constructor.
Qed.

Lemma In_set_insert x y l : In y (set_insert x l) <-> y = x \/ In y l.
Proof.
  induction l as [|z l IH]; cbn [set_insert]; [cbn; intuition|]. destruct (eqb_spec x z) as [->|]; [cbn; intuition|].
  destruct (str_ltb x z); cbn [In]; [intuition|]. rewrite IH. intuition.
Qed.

Lemma set_insert_sorted x l : StronglySorted before l -> StronglySorted before (set_insert x l).
Proof.
  induction l as [|z l IH]; intros Hs; cbn [set_insert]; [repeat constructor|]. destruct (eqb_spec x z) as [->|Hne]; [exact Hs|].
  apply StronglySorted_inv in Hs as [Hs Hz]. destruct (str_ltb x z) eqn:E.
  - apply str_ltb_spec in E. constructor; [constructor; auto|]. constructor; [exact E|].
    eapply Forall_impl; [|exact Hz]. intros a Ha. eapply before_trans; eauto.
  - constructor; [auto|]. apply Forall_forall. intros y Hy. apply In_set_insert in Hy as [->|Hy].
    + apply before_total; [exact Hne|]. intros Hb. apply str_ltb_spec in Hb. congruence.
    + rewrite Forall_forall in Hz. auto.
Qed.

Lemma sorted_set_spec l : StronglySorted before (sorted_set l) /\ forall x, In x (sorted_set l) <-> In x l.
Proof.
  unfold sorted_set. induction l as [|y l [IH1 IH2]]; cbn [fold_right]; [split; [constructor|reflexivity]|].
  split; [now apply set_insert_sorted|]. intros x. rewrite In_set_insert, IH2. cbn. intuition.
Qed.

(** The formats of an initialised registry are the formats of its parsers, each once and in order. *)
Theorem C145_formats {Parser} (formats : Parser -> list pystr) (s : registry Parser) :
  StronglySorted before (reg_supported formats s) /\
  forall f, In f (reg_supported formats s) <-> g_ready s = true /\ exists n p, In (n, p) (g_parsers s) /\ In f (formats p).
Proof.
  unfold reg_supported. destruct (sorted_set_spec (reg_formats formats s)) as [H1 H2]. split; [exact H1|].
  intros f. rewrite H2. unfold reg_formats. destruct (g_ready s); cbn [negb].
  - rewrite in_concat. split.
    + intros (x & Hx & Hf). apply in_map_iff in Hx as ([n p] & <- & Hin). split; [reflexivity|]. exists n, p. auto.
    + intros (_ & n & p & Hin & Hf). exists (formats p). split; [|exact Hf]. apply in_map_iff. exists (n, p). auto.
  - split; [intros []|]. intros [E _]. discriminate.
Qed.

Lemma fold_dset {Parser E} (g : Parser -> E) (ps : list (pystr * Parser)) : forall d,
  NoDup (map fst ps) -> (forall n, In n (map fst ps) -> ~ In n (dkeys d)) ->
  fold_left (fun d e => dset (fst e) (g (snd e)) d) ps d = d ++ map (fun e => (fst e, g (snd e))) ps.
Proof.
  induction ps as [|[n p] ps IH]; intros d Hn Hf; cbn [fold_left map fst snd]; [now rewrite app_nil_r|].
  inversion Hn as [|? ? H1 H2]; subst. rewrite dset_notin by (apply Hf; now left). rewrite IH; [now rewrite <- app_assoc|exact H2|].
  intros m Hm. unfold dkeys. rewrite map_app, in_app_iff. cbn. intros [Hin|[<-|[]]]; [|contradiction].
  apply (Hf m); [now right|exact Hin].
Qed.

Lemma fold_missing {C E} (e : E) (cs : list (pystr * C)) : forall d, NoDup (map fst cs) ->
  fold_left (fun d c => if dmem (fst c) d then d else dset (fst c) e d) cs d =
  d ++ map (fun n => (n, e)) (filter (fun n => negb (memb n (dkeys d))) (map fst cs)).
Proof.
  induction cs as [|[n c] cs IH]; intros d Hn; cbn [fold_left map fst filter]; [now rewrite app_nil_r|].
  inversion Hn as [|? ? H1 H2]; subst.
  assert (Em : dmem n d = memb n (dkeys d)).
  { apply eq_true_iff_eq. rewrite memb_In. unfold dmem. split.
    - destruct (dget n d) as [v|] eqn:Eg; [|discriminate]. intros _. apply dget_In. eauto.
    - intros Hin. apply dget_In in Hin as (v & ->). reflexivity. }
  rewrite Em. destruct (memb n (dkeys d)) eqn:Ek; cbn [negb]; [now apply IH|].
  apply memb_false in Ek. rewrite dset_notin by exact Ek. rewrite IH by exact H2. rewrite <- app_assoc. cbn [app map]. do 2 f_equal. f_equal.
  apply filter_ext_in. intros m Hm. f_equal. apply eq_true_iff_eq. rewrite !memb_In. unfold dkeys. rewrite map_app, in_app_iff. cbn.
  split; [intros [H|[<-|[]]]; [exact H|contradiction]|auto].
Qed.

(** The report of an initialised registry: the parsers it has, with their formats and statistics,
    are available; then come the classes it has no parser of, as unavailable.  Nothing else is
    listed, and nothing twice. *)
Theorem C145_parsers {Parser Stats} (formats : Parser -> list pystr) (stats : Parser -> Stats) (s : registry Parser) :
  g_ready s = true -> NoDup (map fst (g_parsers s)) -> NoDup (map fst (g_classes s)) ->
  let r := get_parser_info formats stats s in
  pr_ready r = Some true /\ pr_formats r = Some (reg_supported formats s) /\ NoDup (map fst (pr_parsers r)) /\
  (forall n e, In (n, e) (pr_parsers r) <->
     (exists p, In (n, p) (g_parsers s) /\ e = MkParserEntry true (formats p) (Some (stats p))) \/
     (In n (map fst (g_classes s)) /\ ~ In n (map fst (g_parsers s)) /\ e = MkParserEntry false [] None)) /\
  exists keep, map fst (pr_parsers r) = map fst (g_parsers s) ++ filter keep (map fst (g_classes s)).
Proof.
  intros Hr Hp Hc. cbv zeta. unfold get_parser_info. rewrite Hr. cbn [negb pr_ready pr_formats pr_parsers].
  split; [reflexivity|]. split; [reflexivity|].
  rewrite (fold_dset (fun p => MkParserEntry true (formats p) (Some (stats p)))); [|exact Hp|intros n _ []]. cbn [app].
  rewrite (fold_missing (MkParserEntry false [] None)) by exact Hc.
  set (avail := map _ (g_parsers s)).
  assert (Ek : dkeys avail = map fst (g_parsers s)) by (unfold dkeys, avail; rewrite map_map; apply map_ext; intros [? ?]; reflexivity).
  rewrite Ek. set (rest := filter _ _).
  assert (Er : forall n, In n rest <-> In n (map fst (g_classes s)) /\ ~ In n (map fst (g_parsers s))).
  { intros n. unfold rest. rewrite filter_In, negb_true_iff. apply and_iff_compat_l. now rewrite memb_false. }
  assert (E1 : map fst (avail ++ map (fun n => (n, MkParserEntry false [] None)) rest) = map fst (g_parsers s) ++ rest).
  { rewrite map_app, map_map. cbn. rewrite map_id. f_equal. exact Ek. }
  split; [|split].
  - rewrite E1. clear E1. assert (HN : NoDup rest) by (apply NoDup_filter; exact Hc).
    apply NoDup_app_disj; [exact Hp|exact HN|]. intros x Hx Hx'. apply Er in Hx' as [_ Hx']. contradiction.
  - intros n e. rewrite in_app_iff. unfold avail. split.
    + intros [Hi|Hi]; apply in_map_iff in Hi.
      * destruct Hi as ([m p] & E & Hin). injection E as <- <-. left. exists p. auto.
      * destruct Hi as (m & E & Hin). injection E as <- <-. right. apply Er in Hin as [H1 H2]. auto.
    + intros [(p & Hin & ->)|(H1 & H2 & ->)]; [left|right]; apply in_map_iff.
      * exists (n, p). auto.
      * exists n. split; [reflexivity|now apply Er].
  - eexists. exact E1.
Qed.

(** Before [initialize] and after [close] nothing is reported. *)
Theorem C145_not_ready {Parser Stats} (formats : Parser -> list pystr) (stats : Parser -> Stats) (s : registry Parser) config :
  get_parser_info formats stats (new_registry config) = MkParserReport [] None None /\
  get_parser_info formats stats (snd (reg_close s)) = MkParserReport [] None None.
Proof. split; reflexivity. Qed.

(** After initialising a new registry all four kinds are listed; those configured that could be
    made are available. *)
Theorem C145_initialised {Parser Stats} (build : parser_class -> conf -> result Parser)
    (formats : Parser -> list pystr) (stats : Parser -> Stats) (top d : list (pystr * conf)) :
  dget (py "parsers") top = Some (CTable d) -> NoDup (map fst d) ->
  exists s, reg_initialize build (new_registry (CTable top)) = (Ok tt, s) /\
    forall n e, In (n, e) (pr_parsers (get_parser_info formats stats s)) <->
      exists cls, stands_for n cls /\
        ((exists c p, In (n, c) d /\ build cls c = Ok p /\ e = MkParserEntry true (formats p) (Some (stats p))) \/
         ((forall c p, In (n, c) d -> build cls c <> Ok p) /\ e = MkParserEntry false [] None)).
Proof.
  intros Hd Hn. destruct (C104_initialise Parser build top d Hd Hn) as (s & Es & Hr & Hin & keep & Hk).
  exists s. split; [exact Es|].
  assert (Hc : g_classes s = builtin_classes).
  { assert (G : forall l s0, g_classes (snd (forM l (register build) s0)) = g_classes s0).
    { induction l as [|[m c] l IH]; intros s0; [reflexivity|]. cbn [forM]. unfold bind at 1.
      unfold register at 1. unfold bind at 1, get at 1. cbn [fst snd].
      destruct (dget m (g_classes s0)) as [cls|]; [|apply IH].
      destruct (build cls c); [unfold modify; now rewrite IH|apply IH]. }
    unfold reg_initialize, bind, get, lift in Es. simpl in Es. rewrite Hd in Es. simpl in Es.
    specialize (G d (new_registry (CTable top))). destruct (forM d (register build) (new_registry (CTable top))) as [[u|x] s1]; [|discriminate].
    injection Es as <-. cbn [snd] in G. exact G. }
  assert (HNp : NoDup (map fst (g_parsers s))) by (rewrite Hk; now apply NoDup_filter).
  assert (HNc : NoDup (map fst (g_classes s))) by (rewrite Hc; repeat constructor; cbn; intuition discriminate).
  destruct (C145_parsers formats stats s Hr HNp HNc) as (_ & _ & _ & H & _). intros n e. rewrite H. rewrite Hc. clear H.
  assert (Hst : forall m, In m (map fst builtin_classes) <-> exists cls, stands_for m cls).
  { intros m. split.
    - cbn. intros [<-|[<-|[<-|[<-|[]]]]]; eexists; constructor.
    - intros (cls & S). inversion S; cbn; auto. }
  assert (Huniq : forall m c1 c2, stands_for m c1 -> stands_for m c2 -> c1 = c2).
  { intros m c1 c2 S1 S2. apply builtin_spec in S1. apply builtin_spec in S2. congruence. }
  split.
  - intros [(p & Hp & ->)|(H1 & H2 & ->)].
    + apply Hin in Hp as (cls & c & I1 & I2 & I3). exists cls. split; [exact I2|]. left. exists c, p. auto.
    + apply Hst in H1 as (cls & S). exists cls. split; [exact S|]. right. split; [|reflexivity]. intros c p Ic Eb. apply H2.
      apply in_map_iff. exists (n, p). split; [reflexivity|]. apply Hin. eauto.
  - intros (cls & S & [(c & p & Ic & Eb & ->)|(Hno & ->)]).
    + left. exists p. split; [|reflexivity]. apply Hin. eauto.
    + right. split; [apply Hst; eauto|]. split; [|reflexivity]. intros Hi. apply in_map_iff in Hi as ([m p] & Em & Hi). cbn in Em. subst m.
      apply Hin in Hi as (cls' & c & I1 & I2 & I3). rewrite (Huniq _ _ _ S I2) in Hno. exact (Hno _ _ I1 I3).
Qed.

(** ** C145: the pipeline *)

(** What the pipeline reports: the names of its processors in their order, and the report and the
    formats of its registry; before [initialize], only that it is not initialised.  Only embedding
    processors may change, and only they may make it raise. *)
Theorem C145_pipeline {F} {num : Num F} {Parser Stats} (formats : Parser -> list pystr) (stats : Parser -> Stats) encode md5
    (s : pipeline F Parser) :
  let '(r, s') := get_pipeline_info formats stats encode md5 s in
  l_registry s' = l_registry s /\ l_ready s' = l_ready s /\ l_config s' = l_config s /\
  map processor_name (l_processors s') = map processor_name (l_processors s) /\
  (forall i q, nth_error (l_processors s) i = Some q -> (forall c m, q <> QEmbed c m) -> nth_error (l_processors s') i = Some q) /\
  (l_ready s = false -> r = Ok (MkPipeReport false None None None) /\ s' = s) /\
  (l_ready s = true -> forall rep, r = Ok rep ->
     pp_ready rep = true /\ option_map (map fst) (pp_processors rep) = Some (map processor_name (l_processors s)) /\
     pp_parsers rep = option_map (get_parser_info formats stats) (l_registry s) /\
     pp_formats rep = Some (match l_registry s with Some g => reg_supported formats g | None => [] end)) /\
  (forall e, r = Raise e -> exists c m, In (QEmbed c m) (l_processors s) /\ fst (emb_get_stats encode md5 c m) = Raise e).
Proof.
  unfold get_pipeline_info. destruct (l_ready s) eqn:Hr; cbn [negb].
  2:{ cbv beta iota. do 5 (split; [auto|]). split; [auto|]. split; discriminate. }
  assert (G : forall qs, let '(x, qs') := processors_info encode md5 qs in
    map processor_name qs' = map processor_name qs /\
    (forall i q, nth_error qs i = Some q -> (forall c m, q <> QEmbed c m) -> nth_error qs' i = Some q) /\
    (forall l, x = Ok l -> map fst l = map processor_name qs) /\
    (forall e, x = Raise e -> exists c m, In (QEmbed c m) qs /\ fst (emb_get_stats encode md5 c m) = Raise e)).
  { induction qs as [|q qs IH]; cbn [processors_info].
    { split; [reflexivity|]. split; [auto|]. split; [|discriminate]. intros l E. injection E as <-. reflexivity. }
    destruct (processors_info encode md5 qs) as [y r'] eqn:Er. destruct IH as (I1 & I2 & I3 & I4).
    assert (Hplain : forall q0 st, let '(x, qs') := (answer (cons (processor_name q0, st)) y, q0 :: r') in
      map processor_name qs' = map processor_name (q0 :: qs) /\
      (forall i q, nth_error (q0 :: qs) i = Some q -> (forall c m, q <> QEmbed c m) -> nth_error qs' i = Some q) /\
      (forall l, x = Ok l -> map fst l = map processor_name (q0 :: qs)) /\
      (forall e, x = Raise e -> exists c m, In (QEmbed c m) (q0 :: qs) /\ fst (emb_get_stats encode md5 c m) = Raise e)).
    { intros q0 st. split; [cbn; congruence|]. split; [intros [|i] q1; [auto|apply I2]|]. split.
      - intros l. destruct y as [l0|]; [|discriminate]. intros E. injection E as <-. cbn. now rewrite (I3 l0 eq_refl).
      - intros e. destruct y as [l0|e0]; [discriminate|]. intros E. injection E as ->. destruct (I4 e eq_refl) as (c & m & H1 & H2).
        exists c, m. split; [now right|exact H2]. }
    destruct q as [w|k|c m]; [apply Hplain|apply Hplain|].
    destruct (emb_get_stats encode md5 c m) as [x m'] eqn:Em. destruct x as [st|e]; cbn [answer rbind].
    - split; [cbn; congruence|]. split.
      { intros [|i] q; cbn [nth_error]; [|apply I2]. intros E Hq. injection E as <-. now destruct (Hq c m). }
      split.
      + intros l. destruct y as [l0|]; [|discriminate]. intros E. injection E as <-. cbn. now rewrite (I3 l0 eq_refl).
      + intros e. destruct y as [l0|e0]; [discriminate|]. intros E. injection E as ->. destruct (I4 e eq_refl) as (c' & m0 & H1 & H2).
        exists c', m0. split; [now right|exact H2].
    - split; [reflexivity|]. split.
      { intros [|i] q; cbn [nth_error]; [|auto]. intros E Hq. injection E as <-. now destruct (Hq c m). }
      split; [discriminate|]. intros e' E. injection E as <-. exists c, m. split; [now left|now rewrite Em]. }
  specialize (G (l_processors s)). destruct (processors_info encode md5 (l_processors s)) as [x qs'].
  destruct G as (G1 & G2 & G3 & G4). cbn [set_processors l_registry l_ready l_config l_processors].
  split; [reflexivity|]. split; [exact Hr|]. split; [reflexivity|]. split; [exact G1|]. split; [exact G2|]. split; [discriminate|]. split.
  - intros _ rep. destruct x as [l|]; [|discriminate]. cbn [rbind]. intros E. injection E as <-. cbn. rewrite (G3 l eq_refl). auto.
  - intros e. destruct x as [l|e0]; [discriminate|]. cbn [rbind]. intros E. injection E as ->. now apply G4.
Qed.

Definition toy_embedder : pipeline Z pystr :=
  MkPipe (CTable []) (Some (MkReg (CTable []) [(py "pdf", py "P"); (py "mine", py "M")] builtin_classes true))
    [QClean default_cleaning; QEmbed (MkEmb (py "m") TSentence 2 true false) (MkEmbedder [] [] 0 0 0 true)] true.
Definition toy_formats (p : pystr) : list pystr := match p with [80%N] => [py ".pdf"] | _ => [py ".md"; py ".pdf"; py ".m"] end.

Example C145_example :
  get_parser_info toy_formats (fun p => p) (MkReg (CTable []) [(py "pdf", py "P"); (py "mine", py "M")] builtin_classes true) =
    MkParserReport [(py "pdf", MkParserEntry true [py ".pdf"] (Some (py "P")));
                    (py "mine", MkParserEntry true [py ".md"; py ".pdf"; py ".m"] (Some (py "M")));
                    (py "text", MkParserEntry false [] None); (py "office", MkParserEntry false [] None);
                    (py "docling", MkParserEntry false [] None)]
      (Some [py ".m"; py ".md"; py ".pdf"]) (Some true) /\
  match fst (get_pipeline_info toy_formats (fun p => p) (fun _ => Ok [1; 2]%Z) (fun k => Ok k) toy_embedder) with
  | Ok rep => option_map (map fst) (pp_processors rep) = Some [py "CleaningProcessor"; py "EmbeddingProcessor"] /\
              pp_formats rep = Some [py ".m"; py ".md"; py ".pdf"]
  | Raise _ => False
  end.
Proof. vm_compute. auto. Qed.

(** Asking is not free of effects: the same question asked again is answered differently, and it
    fails when the model does. *)
Theorem C145_asking_refuted : exists (s : pipeline Z pystr) encode md5,
  (let '(r, s1) := get_pipeline_info toy_formats (fun p => p) encode md5 s in
   exists rep, r = Ok rep /\ fst (get_pipeline_info toy_formats (fun p => p) encode md5 s1) <> Ok rep) /\
  exists broken, l_ready s = true /\ fst (get_pipeline_info toy_formats (fun p => p) broken md5 s) = Raise EOs.
Proof.
  exists toy_embedder, (fun _ => Ok [1; 2]%Z), (fun k => Ok k). split.
  - vm_compute. eexists. split; [reflexivity|]. discriminate.
  - exists (fun _ => Raise EOs). split; reflexivity.
Qed.

(** ** C149: the chunking processor's counters *)

Inductive chunker_op : Type := KInit | KProcess (text : option pystr) | KClose.

(** What a call returns. *)
Inductive chunker_out : Type := KDone | KChunks (l : list chunk) | KFailed (e : exn).

Definition chunker_step (k : chunk_config) (o : chunker_op) (s : chunker) : chunker_out * chunker :=
  match o with
  | KInit => let '(r, s') := chunker_initialize k s in (match r with Ok _ => KDone | Raise e => KFailed e end, s')
  | KProcess t => let '(r, s') := chunker_process k t s in (match r with Ok l => KChunks l | Raise e => KFailed e end, s')
  | KClose => let '(r, s') := chunker_close s in (match r with Ok _ => KDone | Raise e => KFailed e end, s')
  end.

Fixpoint chunker_run (k : chunk_config) (ops : list chunker_op) (s : chunker) : list chunker_out * chunker :=
  match ops with
  | [] => ([], s)
  | o :: r => let '(x, s') := chunker_step k o s in let '(xs, s'') := chunker_run k r s' in (x :: xs, s'')
  end.

(** The spec: whether the processor is open, the texts handed to it while it was, and the chunks
    handed back. *)
Definition opens (k : chunk_config) : Prop := (0 < k_size k)%Z /\ (k_overlap k < k_size k)%Z.

Inductive taken (k : chunk_config) : bool -> list chunker_op -> list pystr -> Prop :=
| TkNil b : taken k b [] []
| TkInit b ops l : opens k -> taken k true ops l -> taken k b (KInit :: ops) l
| TkRefused b ops l : ~ opens k -> taken k b ops l -> taken k b (KInit :: ops) l
| TkClose b ops l : taken k false ops l -> taken k b (KClose :: ops) l
| TkText t ops l : taken k true ops l -> taken k true (KProcess (Some t) :: ops) (t :: l)
| TkNoText ops l : taken k true ops l -> taken k true (KProcess None :: ops) l
| TkShut o ops l : taken k false ops l -> taken k false (KProcess o :: ops) l.

Definition returned (outs : list chunker_out) : list chunk :=
  flat_map (fun o => match o with KChunks l => l | _ => [] end) outs.

Lemma chunker_counts k ops : forall s outs s', chunker_run k ops s = (outs, s') ->
  ch_created s' = ch_created s + length (returned outs) /\
  exists texts, taken k (ch_ready s) ops texts /\ ch_chars s' = ch_chars s + length (concat texts).
Proof.
  induction ops as [|o ops IH]; intros s outs s' E; cbn [chunker_run] in E.
  - injection E as <- <-. split; [cbn; lia|]. exists []. split; [constructor|cbn; lia].
  - destruct (chunker_step k o s) as [x s1] eqn:E1. destruct (chunker_run k ops s1) as [xs s2] eqn:E2. injection E as <- <-.
    destruct (IH _ _ _ E2) as (H1 & texts & H2 & H3). cbn [returned flat_map]. fold (returned xs). rewrite app_length.
    destruct o as [|t|]; cbn [chunker_step] in E1.
    + unfold chunker_initialize, bind, lift, chunk_initialize in E1.
      destruct (Z.leb_spec (k_size k) 0); [|destruct (Z.leb_spec (k_size k) (k_overlap k))].
      * injection E1 as <- <-. split; [cbn; lia|]. exists texts. split; [|exact H3]. apply TkRefused; [unfold opens; lia|exact H2].
      * injection E1 as <- <-. split; [cbn; lia|]. exists texts. split; [|exact H3]. apply TkRefused; [unfold opens; lia|exact H2].
      * injection E1 as <- <-. cbn in *. split; [lia|]. exists texts. split; [|exact H3]. apply TkInit; [unfold opens; lia|exact H2].
    + unfold chunker_process, bind, get, lift, modify, ret, raise in E1. destruct (ch_ready s) eqn:Er; cbn [negb] in E1.
      * destruct t as [t|].
        -- destruct (chunk_process k t) as [l|e]; injection E1 as <- <-; cbn in *.
           ++ split; [lia|]. exists (t :: texts). split; [constructor; congruence|]. cbn. rewrite app_length. lia.
           ++ split; [lia|]. exists (t :: texts). split; [constructor; congruence|]. cbn. rewrite app_length. lia.
        -- injection E1 as <- <-. split; [cbn; lia|]. exists texts. split; [constructor; congruence|exact H3].
      * injection E1 as <- <-. split; [cbn; lia|]. exists texts. split; [constructor; congruence|exact H3].
    + injection E1 as <- <-. cbn in *. split; [lia|]. exists texts. split; [constructor; exact H2|exact H3].
Qed.

Lemma taken_fun k b ops l1 : taken k b ops l1 -> forall l2, taken k b ops l2 -> l1 = l2.
Proof. induction 1; intros l2 H2; inversion H2; subst; try tauto; try f_equal; auto. Qed.

(** After any calls: chunks_created counts the chunks handed back, total_characters_processed the
    characters of the texts handed in while the processor was open, even those of calls that
    failed, and average_chunk_size is their quotient. *)
Theorem C149_counters k ops texts : taken k false ops texts ->
  let '(outs, s) := chunker_run k ops new_chunker in
  let st := chunker_stats s in
  cs_created st = length (returned outs) /\ cs_chars st = length (concat texts) /\
  (returned outs <> [] -> cs_average st * inject_Z (Z.of_nat (length (returned outs))) == inject_Z (Z.of_nat (length (concat texts))))%Q /\
  (returned outs = [] -> cs_average st == inject_Z (Z.of_nat (length (concat texts))))%Q.
Proof.
  intros Ht. destruct (chunker_run k ops new_chunker) as [outs s] eqn:E. destruct (chunker_counts _ _ _ _ _ E) as (H1 & texts' & H2 & H3).
  cbn in H1, H2, H3. rewrite <- (taken_fun _ _ _ _ Ht _ H2) in H3. cbn [chunker_stats cs_created cs_chars cs_average].
  split; [exact H1|]. split; [exact H3|]. rewrite H1, H3. split.
  - intros Hne. rewrite Nat.max_l by (destruct (returned outs); [congruence|cbn; lia]).
    field. intros Hz. apply Hne. destruct (returned outs) as [|c l]; [reflexivity|]. exfalso.
    cbn [length] in Hz. unfold Qeq in Hz. cbn [inject_Z Qnum Qden] in Hz. lia.
  - intros ->. cbn [length Nat.max]. change (inject_Z (Z.of_nat 1)) with 1%Q. field.
Qed.

(** A text without blanks is cut into pieces that are kept whole. *)
Lemma slice_len {A} a b (l : list A) : (0 <= a <= b)%Z -> (b <= zlen l)%Z -> zlen (slice a b l) = (b - a)%Z.
Proof.
  intros H1 H2. destruct (slice_split l a b H1 H2) as (_ & E1 & E2). rewrite zlen_app in E2. lia.
Qed.

Lemma solid_strip (s : pystr) : Forall (fun c => py_space c = false) s -> py_strip s = s.
Proof.
  intros H. apply strip_trimmed. exists [], []. rewrite app_nil_r. split; [reflexivity|]. split; [constructor|]. split; [constructor|].
  rewrite Forall_forall in H. split; intros c r ->; apply H; [now left|]. apply in_or_app. right. now left.
Qed.

Lemma slice_solid a b (s : pystr) : (0 <= a <= b)%Z -> (b <= zlen s)%Z -> Forall (fun c => py_space c = false) s ->
  py_strip (slice a b s) = slice a b s.
Proof.
  intros H1 H2 Hs. apply solid_strip. destruct (slice_split s a b H1 H2) as (E & _). rewrite E in Hs.
  apply Forall_app in Hs as [_ Hs]. now apply Forall_app in Hs as [Hs _].
Qed.

Lemma cut_whole text end_of size : Forall (fun c => py_space c = false) text ->
  (forall start, (0 <= start < zlen text)%Z -> (start < end_of start <= zlen text)%Z /\ (end_of start - start <= size)%Z) ->
  forall fuel start id cs, (0 <= start <= zlen text)%Z -> cut_loop text end_of 0 fuel start id = Ok cs ->
  (fold_right (fun c n => zlen (c_text c) + n) 0 cs = zlen text - start)%Z /\
  Forall (fun c => (0 < zlen (c_text c) <= size)%Z) cs.
Proof.
  intros Hs He. induction fuel as [|fuel IH]; intros start id cs H0; cbn [cut_loop];
    destruct (Z.ltb_spec start (zlen text)) as [Hl|Hl]; try discriminate;
    try (intros E; injection E as <-; cbn; split; [lia|constructor]).
  destruct (He start) as [[H1 H2] H3]; [lia|]. rewrite slice_solid by (auto; lia).
  pose proof (slice_len start (end_of start) text ltac:(lia) ltac:(lia)) as HL.
  assert (Hm : Z.max (end_of start - 0) (start + 1) = end_of start) by lia. rewrite Hm.
  destruct (slice start (end_of start) text) as [|c t] eqn:Esl; [cbn in HL; lia|]. rewrite <- Esl in *. clear Esl.
  destruct (cut_loop text end_of 0 fuel (end_of start) (S id)) as [rest|] eqn:Er; [|discriminate]. cbn [rbind].
  intros E. injection E as <-. assert (Hn : (0 <= end_of start <= zlen text)%Z) by lia.
  destruct (IH _ _ _ Hn Er) as [I1 I2]. cbn [fold_right c_text]. rewrite HL. split; [lia|].
  constructor; [cbn [c_text]; lia|exact I2].
Qed.

Lemma sum_lengths (cs : list chunk) :
  fold_right (fun c n => (zlen (c_text c) + n)%Z) 0%Z cs = Z.of_nat (length (concat (map c_text cs))).
Proof. induction cs as [|c cs IH]; cbn; [reflexivity|]. rewrite IH, app_length. unfold zlen. lia. Qed.

(** average_chunk_size is the average size of the chunks for one text without blanks, cut by size
    without overlap, if no piece is too small or too large to be kept. *)
Theorem C149_average_partial k text : k_strategy k = FixedSize -> opens k -> k_overlap k = 0%Z ->
  (0 <= k_min k <= 1)%Z -> (k_size k <= k_max k)%Z -> text <> [] -> Forall (fun c => py_space c = false) text ->
  exists cs s, chunker_run k [KInit; KProcess (Some text)] new_chunker = ([KDone; KChunks cs], s) /\ cs <> [] /\
    (cs_average (chunker_stats s) * inject_Z (Z.of_nat (length cs)) == inject_Z (Z.of_nat (length (concat (map c_text cs)))))%Q.
Proof.
  intros Hk Ho Hov Hmin Hmax Hne Hs.
  assert (Hacc : accepted k) by (apply accepted_spec; destruct Ho; lia).
  assert (He : forall start, (0 <= start < zlen text)%Z -> (start < fixed_end k text start <= zlen text)%Z /\ (fixed_end k text start - start <= k_size k)%Z).
  { intros start Hst. exact (proj2 (fixed_end_spec k text start Hacc ltac:(lia) Hst)). }
  destruct (cut_ends text (fixed_end k text) 0) as [cs Ec].
  assert (Hz0 : (0 <= 0 <= zlen text)%Z) by (unfold zlen; lia).
  destruct (cut_whole text (fixed_end k text) (k_size k) Hs He _ _ _ _ Hz0 Ec) as [HS HF].
  assert (Hp : chunk_process k text = Ok cs).
  { unfold chunk_process, raw_chunks, fixed_size_chunking. rewrite Hk, Hov, Ec. cbn [rbind]. f_equal. unfold filter_by_size.
    clear - HF Hmin Hmax. induction HF as [|c cs Hc HF IH]; cbn [filter]; [reflexivity|].
    destruct (Z.leb_spec (k_min k) (zlen (c_text c))); [|lia]. destruct (Z.leb_spec (zlen (c_text c)) (k_max k)); [|lia]. cbn. now rewrite IH. }
  assert (Hcs : cs <> []). { intros ->. cbn in HS. destruct text; [congruence|]. unfold zlen in HS. cbn in HS. lia. }
  exists cs. eexists. split.
  { cbn [chunker_run chunker_step]. unfold chunker_initialize, chunk_initialize, bind, lift.
    destruct Ho. destruct (Z.leb_spec (k_size k) 0); [lia|]. destruct (Z.leb_spec (k_size k) (k_overlap k)); [lia|].
    unfold modify. unfold chunker_process, bind, get, lift, modify, ret. cbn. rewrite Hp. reflexivity. }
  split; [exact Hcs|]. cbn [chunker_stats cs_average ch_chars ch_created].
  rewrite sum_lengths, Z.sub_0_r in HS. unfold zlen in HS. apply Nat2Z.inj in HS. rewrite HS. cbn [Nat.add].
  rewrite Nat.max_l by (destruct cs; [congruence|cbn; lia]). field.
  intros Hz. apply Hcs. destruct cs as [|c l]; [reflexivity|]. exfalso. unfold Qeq in Hz. cbn [length inject_Z Qnum Qden] in Hz. lia.
Qed.

Example C149_example :
  let k := MkChunkConfig FixedSize 3 0 1 9 [] in
  let '(outs, s) := chunker_run k [KProcess (Some (py "early")); KInit; KProcess (Some (py "abcdefgh")); KProcess None; KClose; KProcess (Some (py "late"))] new_chunker in
  map c_text (returned outs) = [py "abc"; py "def"; py "gh"] /\ ch_chars s = 8 /\ (cs_average (chunker_stats s) == 8 # 3)%Q /\
  taken k false [KProcess (Some (py "early")); KInit; KProcess (Some (py "abcdefgh")); KProcess None; KClose; KProcess (Some (py "late"))] [py "abcdefgh"].
Proof.
  vm_compute. repeat split; auto. apply TkShut. apply TkInit; [split; reflexivity|]. repeat constructor.
Qed.

(** It is not in general: pieces that overlap, are trimmed or are dropped make it another number, and
    a text that is refused counts too. *)
Theorem C149_average_refuted : exists k text cs s,
  chunker_run k [KInit; KProcess (Some text)] new_chunker = ([KDone; KChunks cs], s) /\ cs <> [] /\
  ~ (cs_average (chunker_stats s) * inject_Z (Z.of_nat (length cs)) == inject_Z (Z.of_nat (length (concat (map c_text cs)))))%Q.
Proof.
  exists (MkChunkConfig FixedSize 4 2 1 9 []), (py "abcdefgh"). eexists _, _. split; [vm_compute; reflexivity|]. split; [discriminate|].
  vm_compute. discriminate.
Qed.

Theorem C149_refused_refuted : exists k text s,
  chunker_run k [KInit; KProcess (Some text)] new_chunker = ([KDone; KFailed EProcessing], s) /\
  cs_chars (chunker_stats s) = length text /\ text <> [] /\
  (inject_Z (k_size k) < cs_average (chunker_stats s))%Q.
Proof.
  exists (MkChunkConfig OtherStrategy 4 2 1 9 []), (py "abcdefgh"). eexists. split; [vm_compute; reflexivity|].
  split; [reflexivity|]. split; [discriminate|]. vm_compute. reflexivity.
Qed.

(** ** C150: the cleaning processor's counters *)

Inductive cleaner_op : Type := LInit | LProcess (d : document) | LClose.
Inductive cleaner_out : Type := LDone | LDoc (d : document) | LFailed (e : exn).

Section Cleaner.
  Context (lib : text_lib) (w : clean_config).

  Definition cleaner_step (o : cleaner_op) (s : cleaner) : cleaner_out * cleaner :=
    match o with
    | LInit => let '(r, s') := cleaner_initialize s in (match r with Ok _ => LDone | Raise e => LFailed e end, s')
    | LProcess d => let '(r, s') := cleaner_process lib w d s in (match r with Ok d' => LDoc d' | Raise e => LFailed e end, s')
    | LClose => let '(r, s') := cleaner_close s in (match r with Ok _ => LDone | Raise e => LFailed e end, s')
    end.

  Fixpoint cleaner_run (ops : list cleaner_op) (s : cleaner) : list cleaner_out * cleaner :=
    match ops with
    | [] => ([], s)
    | o :: r => let '(x, s') := cleaner_step o s in let '(xs, s'') := cleaner_run r s' in (x :: xs, s'')
    end.

  (** The documents that were taken and what came back for each. *)
  Fixpoint cleaned (ops : list cleaner_op) (outs : list cleaner_out) : list (document * document) :=
    match ops, outs with
    | LProcess d :: r, LDoc d' :: xs => (d, d') :: cleaned r xs
    | _ :: r, _ :: xs => cleaned r xs
    | _, _ => []
    end.

  Definition text_of (d : document) : pystr := match d_text d with Some t => t | None => [] end.
  Definition total (l : list document) : nat := length (flat_map text_of l).

  Lemma cleaner_counts ops : forall s outs s', cleaner_run ops s = (outs, s') ->
    cl_docs s' = cl_docs s + length (cleaned ops outs) /\
    cl_before s' = cl_before s + total (map fst (cleaned ops outs)) /\
    cl_after s' = cl_after s + total (map snd (cleaned ops outs)).
  Proof.
    unfold total. induction ops as [|o ops IH]; intros s outs s' E; cbn [cleaner_run] in E.
    - injection E as <- <-. cbn. lia.
    - destruct (cleaner_step o s) as [x s1] eqn:E1. destruct (cleaner_run ops s1) as [xs s2] eqn:E2. injection E as <- <-.
      destruct (IH _ _ _ E2) as (H1 & H2 & H3). destruct o as [|d|]; cbn [cleaner_step] in E1.
      + injection E1 as <- <-. cbn in *. lia.
      + unfold cleaner_process, bind, get, modify, ret, raise in E1. destruct (cl_ready s); cbn [negb] in E1.
        * destruct (d_text d) as [t|] eqn:Et; injection E1 as <- <-; cbn [cleaned map fst snd flat_map] in *;
            rewrite !app_length; unfold text_of at 1 3, clean_process; rewrite Et; cbn in *; lia.
        * injection E1 as <- <-. cbn in *. lia.
      + injection E1 as <- <-. cbn in *. lia.
  Qed.

  (** After any calls: the counters are the number of documents taken and the lengths of their
      texts before and after, those of the chunks left out; the ratio is the quotient, 0 without
      characters. *)
  Theorem C150_counters ops :
    let '(outs, s) := cleaner_run ops new_cleaner in
    let st := cleaner_stats s in
    let l := cleaned ops outs in
    ls_docs st = length l /\ ls_before st = total (map fst l) /\ ls_after st = total (map snd l) /\
    ls_removed st = (Z.of_nat (total (map fst l)) - Z.of_nat (total (map snd l)))%Z /\
    (total (map fst l) = 0%nat -> ls_ratio st == 0)%Q /\
    (total (map fst l) <> 0%nat -> ls_ratio st * inject_Z (Z.of_nat (total (map fst l))) == inject_Z (Z.of_nat (total (map snd l))))%Q.
  Proof.
    destruct (cleaner_run ops new_cleaner) as [outs s] eqn:E. destruct (cleaner_counts _ _ _ _ E) as (H1 & H2 & H3).
    cbn in H1, H2, H3. cbv zeta. cbn [cleaner_stats ls_docs ls_before ls_after ls_removed ls_ratio].
    split; [exact H1|]. split; [exact H2|]. split; [exact H3|]. split; [now rewrite H2, H3|]. rewrite H2, H3. split.
    - intros ->. reflexivity.
    - intros Hne. destruct (Nat.ltb_spec 0 (total (map fst (cleaned ops outs)))) as [Hl|Hl]; [|lia]. field.
      intros Hz. apply Hne. unfold Qeq in Hz. cbn [inject_Z Qnum Qden] in Hz. lia.
  Qed.

  (** ** The ratio *)

  Lemma remove_tags_len s : forall b, length (remove_tags b s) <= length s.
  Proof.
    induction s as [|c s IH]; intros b; cbn [remove_tags]; [lia|]. destruct b.
    - destruct (c =? 62)%N; cbn; [specialize (IH false)|specialize (IH true)]; lia.
    - destruct (_ && _)%bool; cbn; [specialize (IH true)|specialize (IH false)]; lia.
  Qed.

  Lemma sub_runs_len p s : forall b, length (sub_runs p b s) <= length s.
  Proof.
    induction s as [|c s IH]; intros b; cbn [sub_runs]; [lia|].
    destruct (p c); [destruct b; cbn; specialize (IH true); lia|cbn; specialize (IH false); lia].
  Qed.

  Lemma strip_len s : length (py_strip s) <= length s.
  Proof. destruct (py_strip_trimmed s) as (u & v & E & _). rewrite E at 2. rewrite !app_length. lia. Qed.

  Lemma join_len ws : length (py_join (py " ") ws) = length (concat ws) + (length ws - 1).
  Proof.
    induction ws as [|x ws IH]; [reflexivity|]. destruct ws as [|y ws].
    - cbn. rewrite app_nil_r. lia.
    - rewrite join_cons by discriminate. rewrite app_length. cbn [length]. rewrite IH. cbn. rewrite !app_length. lia.
  Qed.

  Lemma split_words_len s : forall acc, length (concat (split_words acc s)) + (length (split_words acc s) - 1) <= length acc + length s.
  Proof.
    induction s as [|c s IH]; intros acc; cbn [split_words].
    - destruct acc as [|a acc]; cbn [concat length]; [lia|]. rewrite app_nil_r, rev_length. cbn. lia.
    - destruct (py_space c).
      + destruct acc as [|a acc].
        * specialize (IH []). cbn in *. lia.
        * specialize (IH []). cbn [concat length] in *. rewrite app_length, rev_length. cbn [length] in *. lia.
      + specialize (IH (c :: acc)). cbn [length] in *. lia.
  Qed.

  Lemma filter_words_len f (ws : list pystr) :
    length (concat (filter f ws)) + (length (filter f ws) - 1) <= length (concat ws) + (length ws - 1).
  Proof.
    assert (H : length (concat (filter f ws)) <= length (concat ws) /\ length (filter f ws) <= length ws).
    { induction ws as [|x ws IH]; cbn; [lia|]. destruct (f x); cbn; rewrite ?app_length; lia. }
    lia.
  Qed.

  (** With library functions that do not lengthen a text, cleaning does not. *)
  Definition no_longer (f : pystr -> pystr) : Prop := forall s, length (f s) <= length s.

  Lemma clean_len t : no_longer (l_unescape lib) -> no_longer (l_nfkd lib) -> no_longer (l_special lib) -> no_longer (l_lower lib) ->
    length (clean_text lib w t) <= length t.
  Proof.
    intros H1 H2 H3 H4. unfold clean_text. destruct t as [|c t]; [reflexivity|]. set (t0 := c :: t).
    assert (P : length (prepare lib w t0) <= length t0).
    { unfold prepare. set (a := if w_html w then _ else _).
      assert (length a <= length t0). { unfold a. destruct (w_html w); [|lia]. eapply Nat.le_trans; [apply remove_tags_len|apply H1]. }
      set (b := if w_unicode w then _ else _). assert (length b <= length a). { unfold b. destruct (w_unicode w); [apply H2|lia]. }
      destruct (w_special w); [specialize (H3 b)|]; lia. }
    set (a := prepare lib w t0) in *. clearbody a.
    set (b := if w_space w then _ else _). assert (Hb : length b <= length a).
    { unfold b. destruct (w_space w); [|lia]. eapply Nat.le_trans; [apply strip_len|apply sub_runs_len]. } clearbody b.
    set (d := if w_extra w then _ else _). assert (Hd : length d <= length b).
    { unfold d. destruct (w_extra w); [apply sub_runs_len|lia]. } clearbody d.
    set (e := if w_lower w then _ else _). assert (He : length e <= length d).
    { unfold e. destruct (w_lower w); [apply H4|lia]. } clearbody e.
    destruct (w_stop w && _)%bool; [|lia].
    rewrite join_len. pose proof (filter_words_len (keep_word lib w) (py_split e)). pose proof (split_words_len e []).
    unfold py_split in *. cbn [length] in *. lia.
  Qed.

  Lemma cleaned_docs ops : forall s outs s', cleaner_run ops s = (outs, s') ->
    Forall (fun p => snd p = clean_process lib w (fst p)) (cleaned ops outs).
  Proof.
    induction ops as [|o ops IH]; intros s outs s' E; cbn [cleaner_run] in E.
    - injection E as <- <-. constructor.
    - destruct (cleaner_step o s) as [x s1] eqn:E1. destruct (cleaner_run ops s1) as [xs s2] eqn:E2. injection E as <- <-.
      specialize (IH _ _ _ E2). destruct o as [|d|]; cbn [cleaner_step] in E1; [injection E1 as <- <-; exact IH| |injection E1 as <- <-; exact IH].
      unfold cleaner_process, bind, get, modify, ret, raise in E1. destruct (cl_ready s); cbn [negb] in E1.
      + destruct (d_text d); injection E1 as <- <-; cbn [cleaned]; constructor; auto.
      + injection E1 as <- <-. exact IH.
  Qed.

  (** The ratio is never negative; it is at most one, and the number of characters removed is not
      negative, if the library functions do not lengthen a text. *)
  Theorem C150_ratio_partial ops :
    let st := cleaner_stats (snd (cleaner_run ops new_cleaner)) in
    (0 <= ls_ratio st)%Q /\
    (no_longer (l_unescape lib) -> no_longer (l_nfkd lib) -> no_longer (l_special lib) -> no_longer (l_lower lib) ->
     (ls_ratio st <= 1)%Q /\ (0 <= ls_removed st)%Z).
  Proof.
    destruct (cleaner_run ops new_cleaner) as [outs s] eqn:E. cbv zeta. cbn [snd cleaner_stats ls_ratio ls_removed].
    assert (HQ : (0 < cl_before s) -> (0 < inject_Z (Z.of_nat (cl_before s)))%Q).
    { intros H. change 0%Q with (inject_Z 0). rewrite <- Zlt_Qlt. lia. }
    split.
    - destruct (Nat.ltb_spec 0 (cl_before s)) as [Hl|Hl]; [|lra]. apply Qle_shift_div_l; [auto|]. rewrite Qmult_0_l.
      change 0%Q with (inject_Z 0). rewrite <- Zle_Qle. lia.
    - intros H1 H2 H3 H4. destruct (cleaner_counts _ _ _ _ E) as (_ & B1 & B2). cbn in B1, B2.
      assert (HL : cl_after s <= cl_before s).
      { rewrite B1, B2. pose proof (cleaned_docs _ _ _ _ E) as HF. clear - HF H1 H2 H3 H4. unfold total.
        induction HF as [|[d d'] l Hd HF IH]; cbn [map flat_map fst snd length]; [lia|]. rewrite !app_length. cbn in Hd. subst d'.
        unfold text_of at 1 3, clean_process. cbn [d_text]. destruct (d_text d) as [t|]; cbn [option_map]; [|cbn; lia].
        pose proof (clean_len t H1 H2 H3 H4). lia. }
      split; [|lia]. destruct (Nat.ltb_spec 0 (cl_before s)) as [Hl|Hl]; [|lra]. apply Qle_shift_div_r; [auto|].
      rewrite Qmult_1_l, <- Zle_Qle. lia.
  Qed.
End Cleaner.

Definition plain_lib : text_lib := MkLib (fun s => s) (fun s => s) (fun s => s) (fun s => s).

Example C150_example :
  let '(outs, s) := cleaner_run plain_lib default_cleaning
     [LInit; LProcess (MkDoc (Some (py " a <b>c</b> ")) None); LProcess (MkDoc None (Some [MkChunk 0 (py " x ") 0 3])); LClose;
      LProcess (MkDoc (Some (py "late")) None)] new_cleaner in
  cleaner_stats s = MkCleanStats 2 12 3 (3 # 12) 9 false /\
  no_longer (l_unescape plain_lib) /\ no_longer (l_nfkd plain_lib).
Proof. vm_compute. auto. Qed.

(** Characters removed can be negative, the ratio above one: normalisation makes some characters
    longer. *)
Theorem C150_ratio_refuted : exists lib w text,
  (forall s, l_nfkd lib s = flat_map (fun c => if (c =? 64257)%N then py "fi" else [c]) s) /\
  let st := cleaner_stats (snd (cleaner_run lib w [LInit; LProcess (MkDoc (Some text) None)] new_cleaner)) in
  (1 < ls_ratio st)%Q /\ (ls_removed st < 0)%Z.
Proof.
  exists (MkLib (fun s => s) (flat_map (fun c => if (c =? 64257)%N then py "fi" else [c])) (fun s => s) (fun s => s)),
    default_cleaning, [64257%N]. split; [reflexivity|]. vm_compute. auto.
Qed.

Print Assumptions C145_formats.
Print Assumptions C145_parsers.
Print Assumptions C145_not_ready.
Print Assumptions C145_initialised.
Print Assumptions C145_pipeline.
Print Assumptions C145_asking_refuted.
Print Assumptions C149_counters.
Print Assumptions C149_average_partial.
Print Assumptions C149_average_refuted.
Print Assumptions C149_refused_refuted.
Print Assumptions C150_counters.
Print Assumptions C150_ratio_partial.
Print Assumptions C150_ratio_refuted.
