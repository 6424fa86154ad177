(** C139, C140, C141: when the parsers answer, and what the text and PDF parsers make of a file. *)

From Coq Require Import String List Arith ZArith NArith Lia Bool Sorted.
From Coq Require Import ZifyBool ZifyNat.
From Verif Require Import PyBase PyMore PyValue BaseLemmas ChunkModel ChunkProofs CleanModel PipelineModel
  ParserChoiceModel ExtractModel PropsChunk PropsParse PropsClean PropsSemantic.
Import ListNotations.
Open Scope Z_scope.

(** ** C139: when the parsers answer *)

(** The file passes the checks: the parser is ready, the file is there, its lower-cased suffix is
    one of the [formats], and its [size] can be found out and is at most [max]. *)
Definition readable (lower : pystr -> pystr) (formats : list pystr) (max : Z) (x : source) (size : Z) : Prop :=
  x_initialized x = true /\ x_exists x = true /\ In (lower (path_suffix (x_path x))) formats /\
  x_stat x = Ok size /\ size <= max.

Definition text_formats := [py ".txt"; py ".md"; py ".rst"; py ".log"; py ".csv"].
Definition pdf_formats := [py ".pdf"].
Definition excel_formats := [py ".xlsx"; py ".xls"].
Definition docling_formats := [py ".pdf"; py ".docx"; py ".pptx"; py ".html"; py ".xml"; py ".txt"].

Definition answers {A} (r : result A) : Prop := exists a, r = Ok a.

Lemma guarded_Ok {A} lower cls max x (rest : Z -> result A) a :
  guarded lower cls max x rest = Ok a <->
  exists size, readable lower (class_formats (fun _ => []) cls) max x size /\ rest size = Ok a.
Proof.
  unfold guarded, readable, class_can_parse. split.
  - destruct (x_initialized x); [|discriminate]. destruct (x_exists x); [|discriminate]. cbn [negb].
    destruct (memb _ _) eqn:Em; [|discriminate]. apply memb_In in Em.
    destruct (x_stat x) as [size|]; [|discriminate]. cbn [rbind].
    destruct (Z.ltb_spec max size); [discriminate|].
    destruct (rest size) as [b|] eqn:E; [|discriminate]. intros H'. injection H' as <-.
    exists size. repeat split; auto.
  - intros (size & (H1 & H2 & H3 & H4 & H5) & E). rewrite H1, H2, H4. cbn [negb].
    apply memb_In in H3. rewrite H3. cbn [rbind]. destruct (Z.ltb_spec max size); [lia|]. now rewrite E.
Qed.

Lemma guarded_Raise {A} lower cls max x (rest : Z -> result A) e :
  guarded lower cls max x rest = Raise e -> e = EParsing.
Proof.
  unfold guarded. destruct (negb (x_initialized x)); [congruence|]. destruct (negb (x_exists x)); [congruence|].
  destruct (class_can_parse _ _ _ _) as [[|]|]; [|congruence|congruence].
  destruct (rbind _ _); congruence.
Qed.

(** Whatever goes wrong, the caller sees a [ParsingError]. *)
Theorem C139_errors {T G} lower detect decode o u tables max x bytes pages f size figures (elements : result (list (@element T G))) e :
  (text_parse lower detect decode o x bytes = Raise e -> e = EParsing) /\
  (pdf_parse lower u max x pages = Raise e -> e = EParsing) /\
  (office_parse lower u tables max x f = Raise e -> e = EParsing) /\
  (docling_parse lower size tables figures max x elements = Raise e -> e = EParsing).
Proof. repeat split; apply guarded_Raise. Qed.

(** The encoding used for the bytes [bs]: the configured one, or what the detection says. *)
Definition chosen (detect : list N -> option pystr) (o : text_options) (bs : list N) (e : option pystr) : Prop :=
  (to_encoding o = py "auto" /\ e = detect bs) \/ (to_encoding o <> py "auto" /\ e = Some (to_encoding o)).

Lemma text_parse_Ok lower detect decode o x bytes d :
  text_parse lower detect decode o x bytes = Ok d <->
  exists size bs e t chunks, readable lower text_formats (to_max o) x size /\ bytes = Ok bs /\ chosen detect o bs e /\
    decode e bs = Ok t /\
    (if (u_size (to_cut o) <? zlen (universal_newlines t))%Z then text_chunks (to_cut o) (universal_newlines t) else Ok []) = Ok chunks /\
    d = MkTextDoc (universal_newlines t) size e
          (if (100 <? length (universal_newlines t))%nat then is_english lower (firstn 1000 (universal_newlines t)) else false)
          chunks (length (split_paragraphs (universal_newlines t))).
Proof.
  unfold text_parse. rewrite guarded_Ok. split.
  - intros (size & HR & E). revert E. unfold answer.
    destruct bytes as [bs|]; [|destruct (eqb _ _); discriminate].
    assert (HC : exists e, chosen detect o bs e /\
      (if eqb (to_encoding o) (py "auto") then Ok (detect bs) else Ok (Some (to_encoding o))) = Ok e).
    { destruct (eqb_spec (to_encoding o) (py "auto")) as [Ea|Ea]; eexists; (split; [|reflexivity]); [left|right]; auto. }
    destruct HC as (e & HC & Ee). cbn [rbind]. rewrite Ee. cbn [rbind].
    destruct (decode e bs) as [t|] eqn:Ed; [|discriminate]. cbn [rbind]. cbv zeta.
    destruct (if (u_size (to_cut o) <? _)%Z then _ else _) as [chunks|] eqn:Ec; [|discriminate]. cbn [rbind].
    intros E. injection E as <-. exists size, bs, e, t, chunks. repeat (split; [assumption || reflexivity|]). reflexivity.
  - intros (size & bs & e & t & chunks & HR & -> & HC & Ed & Ec & ->). exists size. split; [exact HR|].
    unfold answer. cbn [rbind].
    replace (if eqb (to_encoding o) (py "auto") then Ok (detect bs) else Ok (Some (to_encoding o))) with (Ok e).
    2:{ destruct HC as [[Ha ->]|[Ha ->]]; [now rewrite Ha, eqb_refl|now rewrite eqb_neq by exact Ha]. }
    cbn [rbind]. rewrite Ed. cbn [rbind]. cbv zeta. rewrite Ec. reflexivity.
Qed.

Lemma text_chunks_end u text : exists cs, (if (u_size u <? zlen text)%Z then text_chunks u text else Ok []) = Ok cs.
Proof. destruct (_ <? _)%Z; [apply (C78_terminates u text [])|eauto]. Qed.

(** The text parser answers exactly when the file passes the checks and its bytes can be read and
    decoded. *)
Theorem C139_text lower detect decode o x bytes :
  answers (text_parse lower detect decode o x bytes) <->
  exists size bs e, readable lower text_formats (to_max o) x size /\ bytes = Ok bs /\ chosen detect o bs e /\
    answers (decode e bs).
Proof.
  split.
  - intros (d & E). apply text_parse_Ok in E as (size & bs & e & t & chunks & H1 & H2 & H3 & H4 & _).
    exists size, bs, e. repeat (split; [assumption|]). exists t. exact H4.
  - intros (size & bs & e & H1 & H2 & H3 & t & H4).
    destruct (text_chunks_end (to_cut o) (universal_newlines t)) as [cs Ec].
    eexists. apply text_parse_Ok. exists size, bs, e, t, cs. repeat (split; [eassumption|]). reflexivity.
Qed.

(** The PDF parser answers exactly when the file passes the checks and the reader can open it:
    no page can make it fail. *)
Theorem C139_pdf lower u max x pages :
  answers (pdf_parse lower u max x pages) <->
  exists size, readable lower pdf_formats max x size /\ answers pages.
Proof.
  unfold answers, pdf_parse. split.
  - intros (d & E). apply guarded_Ok in E as (size & HR & E). exists size. split; [exact HR|].
    destruct pages as [l|]; [eauto|discriminate].
  - intros (size & HR & l & ->). cbn [rbind]. destruct (pdf_loop 0 l) as [parts entries] eqn:Ep.
    set (info := map _ entries).
    assert (exists cs, (if (u_size u <? zlen (py_join [10; 10]%N parts))%Z then pdf_chunks u (py_join [10; 10]%N parts) info else Ok []) = Ok cs) as [cs Ec].
    { destruct (_ <? _)%Z; [apply C78_terminates|eauto]. }
    eexists. apply guarded_Ok. exists size. split; [exact HR|]. cbv zeta. fold info. rewrite Ec. reflexivity.
Qed.

(** The Office parser answers exactly when the file passes the checks and the library for its
    suffix can open it; for a workbook, when besides no sheet is a chart sheet. *)
Theorem C139_office lower u tables max x f :
  answers (office_parse lower u tables max x f) <->
  exists size suffix, suffix = lower (path_suffix (x_path x)) /\ readable lower [suffix] max x size /\
    ((suffix = py ".docx" /\ answers (of_docx f)) \/
     (In suffix excel_formats /\ exists sheets, of_excel f = Ok sheets /\ Forall (fun s => sh_rows s <> None) sheets) \/
     (suffix = py ".pptx" /\ answers (of_pptx f))).
Proof.
  unfold answers, office_parse. set (suffix := lower (path_suffix (x_path x))). split.
  - intros (d & E). apply guarded_Ok in E as (size & (H1 & H2 & H3 & H4 & H5) & E). exists size, suffix.
    split; [reflexivity|]. split; [repeat split; auto; now left|]. revert E. fold suffix. unfold answer at 1.
    destruct (eqb_spec suffix (py ".docx")) as [Es|Es].
    { intros E. left. split; [exact Es|]. unfold parse_docx, answer in E. destruct (of_docx f); [eauto|discriminate]. }
    destruct (memb suffix _) eqn:Em.
    { intros E. right. left. apply memb_In in Em. split; [exact Em|]. unfold parse_excel, answer in E.
      destruct (of_excel f) as [sheets|]; [|discriminate]. exists sheets. split; [reflexivity|]. cbn [rbind] in E.
      destruct (excel_loop sheets) as [l|] eqn:El; [|discriminate]. clear - El. revert l El.
      induction sheets as [|s sheets IH]; intros l El; constructor; cbn [excel_loop] in El; destruct (sh_rows s) as [rows|]; try discriminate.
      destruct (sheet_text rows); [eauto|]. cbv zeta in El. destruct (excel_loop sheets); [eauto|discriminate]. }
    destruct (eqb_spec suffix (py ".pptx")) as [Ep|Ep]; [|discriminate].
    intros E. right. right. split; [exact Ep|]. unfold parse_pptx, answer in E. destruct (of_pptx f); [eauto|discriminate].
  - intros (size & s & Es0 & HR & H). subst s.
    assert (HR' : In suffix (class_formats (fun _ => []) ClsOffice) -> readable lower (class_formats (fun _ => []) ClsOffice) max x size).
    { destruct HR as (? & ? & _ & ? & ?). repeat split; auto. }
    assert (HO : forall t, exists cs, office_chunks u t = Ok cs) by (intros t; apply (C78_terminates u t [])).
    destruct H as [[Es (d & Ed)]|[[Es (sheets & Ed & HF)]|[Es (d & Ed)]]].
    + destruct (HO (py_join [10]%N (map fst (docx_paragraphs (dx_paragraphs d))))) as [cs Ec].
      eexists. apply guarded_Ok. exists size. split; [apply HR'; rewrite Es; now left|]. fold suffix. rewrite Es, eqb_refl.
      unfold parse_docx. rewrite Ed. cbn [rbind]. rewrite Ec. reflexivity.
    + assert (exists l, excel_loop sheets = Ok l) as [l El].
      { clear - HF. induction sheets as [|s sheets IH]; [cbn; eauto|]. inversion HF as [|? ? H1 H2]; subst. cbn [excel_loop].
        destruct (sh_rows s) as [rows|]; [|congruence]. destruct (IH H2) as [l ->]. destruct (sheet_text rows); cbn [rbind]; eauto. }
      destruct (HO (py_join [10; 10]%N (map fst l))) as [cs Ec].
      eexists. apply guarded_Ok. exists size. split; [apply HR'; right; destruct Es as [<-|[<-|[]]]; [left|right; left]; reflexivity|].
      fold suffix. rewrite eqb_neq by (destruct Es as [<-|[<-|[]]]; vm_compute; discriminate).
      replace (memb suffix [py ".xlsx"; py ".xls"]) with true by (symmetry; apply memb_In; exact Es).
      unfold parse_excel. rewrite Ed. cbn [rbind]. rewrite El. cbn [rbind]. rewrite Ec. reflexivity.
    + destruct (HO (py_join [10; 10]%N (map fst (pptx_slides d)))) as [cs Ec].
      eexists. apply guarded_Ok. exists size. split; [apply HR'; rewrite Es; cbn; auto|]. fold suffix. rewrite Es.
      change (eqb (py ".pptx") (py ".docx")) with false. change (memb (py ".pptx") [py ".xlsx"; py ".xls"]) with false.
      rewrite eqb_refl. cbn iota. unfold parse_pptx. rewrite Ed. cbn [rbind]. rewrite Ec. reflexivity.
Qed.

(** The docling parser answers exactly when the file passes the checks and can be converted. *)
Theorem C139_docling {T G} lower size tables figures max x (elements : result (list (@element T G))) :
  answers (docling_parse lower size tables figures max x elements) <->
  exists bytes, readable lower docling_formats max x bytes /\ answers elements.
Proof.
  unfold answers, docling_parse. split.
  - intros (d & E). apply guarded_Ok in E as (bytes & HR & E). exists bytes. split; [exact HR|].
    destruct elements; [eauto|discriminate].
  - intros (bytes & HR & l & ->). eexists. apply guarded_Ok. exists bytes. split; [exact HR|]. reflexivity.
Qed.

Definition demo_source (path : pystr) : source := MkSource true path true (Ok 12).

Example C139_example :
  answers (text_parse (fun s => s) (fun _ => None) (fun _ bs => Ok bs) (MkTextOptions (py "auto") (MkCutConfig 1000 100) 50)
    (demo_source (py "a/notes.md")) (Ok (py "one"))) /\
  answers (pdf_parse (fun s => s) (MkCutConfig 1000 100) 50 (demo_source (py "x.pdf"))
    (Ok [MkPage (Raise EValue) None; MkPage (Ok (py "hello")) None])) /\
  answers (office_parse (fun s => s) (MkCutConfig 1000 100) true 50 (demo_source (py "x.xlsx"))
    (MkOfficeFile (Raise EValue) (Ok [MkSheet (py "S") (Some [[Some (py "1"); None]]) 1 2]) (Raise EValue))) /\
  office_parse (fun s => s) (MkCutConfig 1000 100) true 50 (demo_source (py "x.xlsx"))
    (MkOfficeFile (Raise EValue) (Ok [MkSheet (py "Chart") None 0 0]) (Raise EValue)) = Raise EParsing /\
  answers (docling_parse (T := nat) (G := nat) (fun s => s) 1000 true true 50 (demo_source (py "x.html")) (Ok [])).
Proof. repeat split; try (eexists; vm_compute; reflexivity). Qed.

(** ** C140: the text parser *)

(** [t] is [s] with every line end, of whichever of the three kinds, written as a newline. *)
Inductive newlines : pystr -> pystr -> Prop :=
| nl_nil : newlines [] []
| nl_crlf s t : newlines s t -> newlines (13 :: 10 :: s)%N (10 :: t)%N
| nl_cr s t : newlines s t -> (forall r, s <> 10 :: r)%N -> newlines (13 :: s)%N (10 :: t)%N
| nl_other c s t : c <> 13%N -> newlines s t -> newlines (c :: s) (c :: t).

Lemma universal_newlines_spec : forall n s, (length s <= n)%nat -> newlines s (universal_newlines s).
Proof.
  induction n as [|n IH]; intros s Hn.
  - destruct s; [constructor|simpl in Hn; lia].
  - destruct s as [|c r]; [constructor|]. simpl in Hn. cbn [universal_newlines].
    destruct (N.eqb_spec c 13) as [->|Hc].
    + destruct r as [|c2 r2]; [repeat constructor; discriminate|].
      destruct (N.eqb_spec c2 10) as [->|Hc2]; [constructor; apply IH; simpl in *; lia|].
      apply nl_cr; [apply IH; simpl in *; lia|]. intros r E. congruence.
    + constructor; [exact Hc|apply IH; lia].
Qed.

Lemma newlines_no_cr s t : newlines s t -> ~ In 13%N t.
Proof. induction 1; cbn [In]; intuition congruence. Qed.

Lemma newlines_same s t : newlines s t -> ~ In 13%N s -> t = s.
Proof. induction 1; cbn [In]; intros Hn; [reflexivity|tauto|tauto|]. f_equal. apply IHnewlines. tauto. Qed.

(** What the parser hands on of the file: the decoded text with its line ends unified, without a
    carriage return and unchanged if it had none; the size of the file; and the encoding that was
    used. *)
Theorem C140_text lower detect decode o x bytes d : text_parse lower detect decode o x bytes = Ok d ->
  exists bs t, bytes = Ok bs /\ chosen detect o bs (td_encoding d) /\ decode (td_encoding d) bs = Ok t /\
    x_stat x = Ok (td_size d) /\
    newlines t (td_text d) /\ ~ In 13%N (td_text d) /\ (~ In 13%N t -> td_text d = t).
Proof.
  intros E. apply text_parse_Ok in E as (size & bs & e & t & chunks & (_ & _ & _ & Hs & _) & Hb & HC & Ht & _ & ->). cbn.
  exists bs, t. pose proof (universal_newlines_spec _ t (le_n _)) as HN.
  repeat (split; [assumption|]). split; [eapply newlines_no_cr; eauto|]. intros. eapply newlines_same; eauto.
Qed.

Definition demo_options : text_options := MkTextOptions (py "utf-8") (MkCutConfig 10 2) 50.

Example C140_example : match text_parse (fun s => s) (fun _ => None) (fun _ bs => Ok bs) demo_options
    (demo_source (py "n.txt")) (Ok (py "a" ++ [13; 10; 13; 13; 10]%N ++ py "b. long enough")) with
  | Ok d => td_text d = py "a" ++ [10; 10; 10]%N ++ py "b. long enough" /\ td_paragraphs d = 2%nat /\
            map c_text (td_chunks d) = [py "a" ++ [10; 10; 10]%N ++ py "b. lon"; py "ong enough"; py "gh"; py "h"]
  | Raise _ => False end.
Proof. vm_compute. auto. Qed.

(** The chunks: none if the text fits in one, otherwise pieces of the text, in order, that leave
    nothing but blanks out. *)
Theorem C140_chunks lower detect decode o x bytes d : text_parse lower detect decode o x bytes = Ok d ->
  (zlen (td_text d) <= u_size (to_cut o) -> td_chunks d = []) /\
  (u_size (to_cut o) < zlen (td_text d) -> 0 < u_size (to_cut o) -> 0 <= u_overlap (to_cut o) ->
     good_cut (td_text d) (u_size (to_cut o)) (td_chunks d)).
Proof.
  intros E. apply text_parse_Ok in E as (size & bs & e & t & chunks & _ & _ & _ & _ & Ec & ->). cbn [td_text td_chunks].
  set (text := universal_newlines t) in *. split; intros Hl.
  - destruct (Z.ltb_spec (u_size (to_cut o)) (zlen text)); [lia|]. congruence.
  - intros Hs Ho. destruct (Z.ltb_spec (u_size (to_cut o)) (zlen text)); [|lia].
    destruct (C78_text_covers (to_cut o) text Hs Ho) as (cs & E1 & HG). congruence.
Qed.

(** [s] falls into [n] pieces at the leftmost, not overlapping, blank lines. *)
Inductive blank_line_pieces : pystr -> nat -> Prop :=
| bl_one s : ~ infix [10; 10]%N s -> blank_line_pieces s 1
| bl_more a b n : ~ infix [10; 10]%N (a ++ [10%N]) -> blank_line_pieces b n ->
    blank_line_pieces (a ++ [10; 10]%N ++ b) (S n).

Lemma not_infix_cons c s : ~ infix [10; 10]%N s -> (c = 10%N -> forall r, s <> 10%N :: r) -> ~ infix [10; 10]%N (c :: s).
Proof.
  intros Hn Hc (x & y & E). destruct x as [|a x].
  - injection E as -> ->. now eapply Hc.
  - injection E as -> ->. apply Hn. exists x, y. reflexivity.
Qed.

Lemma split_pieces : forall n s, (length s <= n)%nat -> blank_line_pieces s (length (split_paragraphs s)).
Proof.
  assert (Z0 : ~ infix [10; 10]%N []) by (intros (x & y & E); destruct x; discriminate).
  assert (Z1 : forall c, ~ infix [10; 10]%N [c]).
  { intros c. apply not_infix_cons; [exact Z0|]. intros; discriminate. }
  induction n as [|n IH]; intros s Hn.
  - destruct s; [|simpl in Hn; lia]. constructor. exact Z0.
  - destruct s as [|c [|c2 rest2]]; [constructor; exact Z0|constructor; apply Z1|].
    change (split_paragraphs (c :: c2 :: rest2)) with (if (c =? 10)%N && (c2 =? 10)%N then [] :: split_paragraphs rest2
      else match split_paragraphs (c2 :: rest2) with p :: ps => (c :: p) :: ps | [] => [[c]] end).
    destruct ((c =? 10)%N && (c2 =? 10)%N) eqn:Ec.
    + apply andb_true_iff in Ec as [E1 E2]. apply N.eqb_eq in E1, E2. subst c c2. cbn [length].
      apply (bl_more [] rest2); [apply Z1|]. apply IH. simpl in Hn. lia.
    + assert (Hne : c = 10%N -> c2 <> 10%N).
      { intros -> ->. discriminate. }
      replace (length (match split_paragraphs (c2 :: rest2) with p :: ps => (c :: p) :: ps | [] => [[c]] end))
        with (length (split_paragraphs (c2 :: rest2))).
      2:{ destruct (split_paragraphs_head _ (c2 :: rest2) (le_n _)) as (p & ps & -> & _). reflexivity. }
      pose proof (IH (c2 :: rest2) ltac:(simpl in *; lia)) as HP.
      remember (length (split_paragraphs (c2 :: rest2))) as k eqn:Ek. clear Ek.
      inversion HP as [s' Hi Es El|a b m Hi Hb Es El].
      * constructor. apply not_infix_cons; [exact Hi|]. intros H r E. injection E as E _. now apply Hne.
      * apply (bl_more (c :: a) b); [|exact Hb].
        cbn [app]. apply not_infix_cons; [exact Hi|]. intros H r E. destruct a as [|a0 a]; cbn [app] in Es, E.
        -- injection Es as Es _. now apply Hne.
        -- injection Es as Es _. injection E as E _. apply Hne; congruence.
Qed.

Lemma pieces_unique s n : blank_line_pieces s n -> forall m, blank_line_pieces s m -> n = m.
Proof.
  induction 1 as [s Hi|a b n Hi Hb IH]; intros m Hm.
  - inversion Hm as [s' Hi' Es El|a b k Hi' Hb' Es El]; [reflexivity|]. exfalso. apply Hi. subst s. exists a, b. reflexivity.
  - inversion Hm as [s' Hi' Es El|a' b' k Hi' Hb' Es El].
    + exfalso. apply Hi'. exists a, b. reflexivity.
    + assert (Ea : a' = a /\ b' = b).
      { clear - Hi Hi' Es. cbn [app] in Es. revert a' Hi' Es. induction a as [|c a IHa]; intros a' Hi' Es.
        - destruct a' as [|c' a']; cbn [app] in Es; [injection Es as ->; auto|].
          injection Es as -> E2. exfalso. apply Hi'. destruct a' as [|c2 a']; cbn [app] in *.
          + exists [], []. reflexivity.
          + injection E2 as -> _. exists [], (a' ++ [10%N]). reflexivity.
        - destruct a' as [|c' a']; cbn [app] in Es.
          + injection Es as <- E2. exfalso. apply Hi. destruct a as [|c2 a]; cbn [app] in *.
            * exists [], []. reflexivity.
            * injection E2 as <- _. exists [], (a ++ [10%N]). reflexivity.
          + injection Es as -> E2.
            destruct (IHa (fun H => Hi match H with ex_intro _ x (ex_intro _ y E) => ex_intro _ (c :: x) (ex_intro _ y (f_equal (cons c) E)) end) a'
              (fun H => Hi' match H with ex_intro _ x (ex_intro _ y E) => ex_intro _ (c :: x) (ex_intro _ y (f_equal (cons c) E)) end) E2) as [-> ->].
            auto. }
      destruct Ea as [-> ->]. f_equal. apply IH. exact Hb'.
Qed.

(** The number of paragraphs is the number of pieces at the blank lines, and no other number is:
    1 for an empty text, one more for every two newlines in a row. *)
Theorem C140_paragraphs lower detect decode o x bytes d : text_parse lower detect decode o x bytes = Ok d ->
  forall n, blank_line_pieces (td_text d) n <-> n = td_paragraphs d.
Proof.
  intros E. apply text_parse_Ok in E as (size & bs & e & t & chunks & _ & _ & _ & _ & _ & ->). cbn [td_text td_paragraphs].
  set (text := universal_newlines t). pose proof (split_pieces _ text (le_n _)) as HP. intros n. split.
  - intros Hn. exact (pieces_unique _ _ Hn _ HP).
  - intros ->. exact HP.
Qed.

Lemma py_in_spec sub s : py_in sub s = true <-> infix sub s.
Proof.
  unfold py_in, occurs_at. rewrite existsb_exists. split.
  - intros (p & _ & E). apply (proj1 (eqb_eq _ _)) in E. exists (firstn p s), (skipn (length sub) (skipn p s)).
    rewrite <- E at 1. rewrite (firstn_skipn (length sub)). now rewrite firstn_skipn.
  - intros (x & y & ->). exists (length x). split; [apply in_seq; rewrite !app_length; lia|].
    apply eqb_eq. rewrite skipn_app, skipn_all, Nat.sub_diag. cbn [skipn app].
    rewrite firstn_app, firstn_all, Nat.sub_diag. cbn [firstn]. apply app_nil_r.
Qed.

(** The language is "en" exactly for a text of more than 100 characters in whose first 1000
    characters, lower-cased, four of the twelve words are found, anywhere. *)
Theorem C140_language lower detect decode o x bytes d : text_parse lower detect decode o x bytes = Ok d ->
  td_english d = true <->
  100 < zlen (td_text d) /\
  exists ws, NoDup ws /\ (4 <= length ws)%nat /\
    Forall (fun w => In w [py "the"; py "and"; py "or"; py "but"; py "in"; py "on"; py "at"; py "to"; py "for"; py "of"; py "with"; py "by"] /\
                     infix w (lower (firstn 1000 (td_text d)))) ws.
Proof.
  intros E. apply text_parse_Ok in E as (size & bs & e & t & chunks & _ & _ & _ & _ & _ & ->). cbn [td_text td_english].
  set (text := universal_newlines t). unfold zlen. unfold is_english.
  assert (HD : NoDup english_words).
  { repeat constructor; vm_compute; intuition discriminate. }
  set (low := lower (firstn 1000 text)). fold english_words.
  destruct (Nat.ltb_spec 100 (length text)) as [Hl|Hl].
  2:{ split; [discriminate|]. lia. }
  rewrite Nat.ltb_lt. split.
  - intros H. split; [lia|]. exists (filter (fun w => py_in w low) english_words).
    split; [apply NoDup_filter; exact HD|]. split; [lia|]. apply Forall_forall. intros w Hw.
    apply filter_In in Hw as [H1 H2]. split; [exact H1|]. now apply py_in_spec.
  - intros (_ & ws & Hd & Hn & HF). rewrite Forall_forall in HF.
    assert (incl ws (filter (fun w => py_in w low) english_words)).
    { intros w Hw. apply HF in Hw as [H1 H2]. apply filter_In. split; [exact H1|]. now apply py_in_spec. }
    apply NoDup_incl_length in H; [lia|exact Hd].
Qed.

Definition demo_german : pystr :=
  py "butter mandel torte motor butter mandel torte motor butter mandel torte motor butter mandel torte motor ".

(** A text without a single English word is said to be English: the words are looked for inside
    other words. *)
Theorem C140_language_refuted : exists lower detect decode o x bytes d,
  text_parse lower detect decode o x bytes = Ok d /\ td_english d = true /\
  words_of (td_text d) (py_split (td_text d)) /\ forall w, In w (py_split (td_text d)) -> ~ In w english_words.
Proof.
  exists (fun s => s), (fun _ => None), (fun _ bs => Ok bs), (MkTextOptions (py "utf-8") (MkCutConfig 1000 0) 1000), (demo_source (py "n.txt")), (Ok demo_german).
  eexists. split; [vm_compute; reflexivity|]. split; [reflexivity|]. split; [apply py_split_words|].
  intros w Hw Hi. vm_compute in Hw, Hi.
  repeat (destruct Hw as [<-|Hw]; [intuition discriminate|]). destruct Hw.
Qed.

(** The encoding named by the metadata can be none at all: when the detection has no answer (as
    chardet has none for an empty file) the default "utf-8" is not used, for the entry is there. *)
Theorem C140_encoding_refuted : exists lower detect decode o x bytes d,
  text_parse lower detect decode o x bytes = Ok d /\ td_encoding d = None.
Proof.
  exists (fun s => s), (fun bs => match bs with [] => None | _ => Some (py "ascii") end), (fun _ bs => Ok bs),
    (MkTextOptions (py "auto") (MkCutConfig 1000 0) 1000), (demo_source (py "n.txt")), (Ok []).
  eexists. split; vm_compute; reflexivity.
Qed.

(** A configured encoding, or one that was detected, is the one that is named. *)
Theorem C140_encoding_partial lower detect decode o x bytes d : text_parse lower detect decode o x bytes = Ok d ->
  (to_encoding o <> py "auto" -> td_encoding d = Some (to_encoding o)) /\
  (to_encoding o = py "auto" -> forall bs e, bytes = Ok bs -> detect bs = Some e -> td_encoding d = Some e).
Proof.
  intros E. apply C140_text in E as (bs & t & Hb & HC & _). unfold chosen in HC. split; intros Ha.
  - destruct HC as [[? _]|[_ H]]; [contradiction|exact H].
  - intros bs' e Hb' He. destruct HC as [[_ H]|[H _]]; [congruence|contradiction].
Qed.

(** ** C141: the PDF parser *)

(** The pages whose text is read and not blank, with their numbers. *)
Definition has_text (pages : list page) (i : nat) (t : pystr) : Prop :=
  exists p, nth_error pages i = Some p /\ pg_text p = Ok t /\ forallb py_space t = false.

Inductive texts_from : nat -> list page -> list pystr -> Prop :=
| tf_nil n : texts_from n [] []
| tf_text n p t pages ts : pg_text p = Ok t -> forallb py_space t = false -> texts_from (S n) pages ts ->
    texts_from n (p :: pages) (t :: ts)
| tf_skip n p pages ts : (forall t, pg_text p = Ok t -> forallb py_space t = true) -> texts_from (S n) pages ts ->
    texts_from n (p :: pages) ts.

(** Whether the call for the images of a page raises. *)
Definition images_fail (p : page) : Prop := exists e, pg_images p = Some (Raise e).

(** "has_images" of a page. *)
Definition shows_images (p : page) : bool :=
  match pg_images p with Some (Ok (S _)) => true | _ => false end.

Lemma strip_match {A} t (a b : A) : match py_strip t with [] => a | _ => b end = if forallb py_space t then a else b.
Proof.
  pose proof (blank_strip t) as H. destruct (py_strip t).
  - rewrite <- H. reflexivity.
  - rewrite <- H. reflexivity.
Qed.

Lemma pdf_loop_texts pages : forall n, texts_from n pages (fst (pdf_loop n pages)).
Proof.
  induction pages as [|p pages IH]; intros n; [constructor|]. cbn [pdf_loop]. specialize (IH (S n)).
  destruct (pdf_loop (S n) pages) as [parts entries]. cbn [fst] in IH.
  destruct (pg_text p) as [t|] eqn:Et.
  - rewrite strip_match. destruct (forallb py_space t) eqn:Eb.
    + apply tf_skip; [|exact IH]. congruence.
    + destruct (pg_images p) as [[k|]|]; cbn [fst]; eapply tf_text; eauto.
  - apply tf_skip; [congruence|exact IH].
Qed.

Lemma pdf_loop_entries pages : forall n e, In e (snd (pdf_loop n pages)) <->
  exists i p t, nth_error pages i = Some p /\ pg_text p = Ok t /\ forallb py_space t = false /\ ~ images_fail p /\
    e = MkPageEntry (Z.of_nat (n + i) + 1) (zlen t) (shows_images p).
Proof.
  induction pages as [|p pages IH]; intros n e.
  { cbn. split; [tauto|]. intros (i & p & t & E & _). destruct i; discriminate. }
  assert (HS : (exists i q t, nth_error (p :: pages) i = Some q /\ pg_text q = Ok t /\ forallb py_space t = false /\ ~ images_fail q /\
      e = MkPageEntry (Z.of_nat (n + i) + 1) (zlen t) (shows_images q)) <->
    (exists t, pg_text p = Ok t /\ forallb py_space t = false /\ ~ images_fail p /\ e = MkPageEntry (Z.of_nat n + 1) (zlen t) (shows_images p)) \/
    In e (snd (pdf_loop (S n) pages))).
  { rewrite IH. split.
    - intros (i & q & t & E & H). destruct i as [|i].
      + injection E as <-. left. exists t. rewrite Nat.add_0_r in H. exact H.
      + right. exists i, q, t. rewrite <- Nat.add_succ_comm in H. auto.
    - intros [(t & H)|(i & q & t & E & H)].
      + exists 0%nat, p, t. rewrite Nat.add_0_r. auto.
      + exists (S i), q, t. rewrite <- Nat.add_succ_comm. auto. }
  rewrite HS. clear HS. cbn [pdf_loop]. destruct (pdf_loop (S n) pages) as [parts entries]. cbn [snd].
  destruct (pg_text p) as [t|] eqn:Et.
  - rewrite strip_match. destruct (forallb py_space t) eqn:Eb.
    + cbn [snd]. split; [auto|]. intros [(t' & H1 & H2 & _)|H]; [congruence|exact H].
    + unfold images_fail, shows_images. destruct (pg_images p) as [[k|x]|] eqn:Ei; cbn [snd In].
      * assert (Ek : (0 <? k)%nat = match k with S _ => true | O => false end) by now destruct k. rewrite Ek.
        split; intros [H|H]; auto; left.
        -- exists t. repeat split; auto. intros (e' & E'). congruence.
        -- destruct H as (t' & H1 & _ & _ & ->). congruence.
      * split; [auto|]. intros [(t' & H1 & H2 & H3 & _)|H]; [exfalso; apply H3; eauto|exact H].
      * split; intros [H|H]; auto; left.
        -- exists t. repeat split; auto. intros (e' & E'). congruence.
        -- destruct H as (t' & H1 & _ & _ & ->). congruence.
  - cbn [snd]. split; [auto|]. intros [(t' & H1 & _)|H]; [congruence|exact H].
Qed.

Lemma pdf_loop_sorted pages : forall n, StronglySorted Z.lt (map pe_number (snd (pdf_loop n pages))) /\
  Forall (fun m => Z.of_nat n < m) (map pe_number (snd (pdf_loop n pages))).
Proof.
  induction pages as [|p pages IH]; intros n; [split; constructor|]. specialize (IH (S n)) as [H1 H2]. cbn [pdf_loop].
  destruct (pdf_loop (S n) pages) as [parts entries]. cbn [snd] in H1, H2.
  assert (H3 : Forall (fun m => Z.of_nat n < m) (map pe_number entries)).
  { eapply Forall_impl; [|exact H2]. cbn. intros; lia. }
  assert (H4 : forall l b, StronglySorted Z.lt (map pe_number (MkPageEntry (Z.of_nat n + 1) l b :: entries)) /\
    Forall (fun m => Z.of_nat n < m) (map pe_number (MkPageEntry (Z.of_nat n + 1) l b :: entries))).
  { intros. cbn [map pe_number]. split; constructor; auto; [|lia]. eapply Forall_impl; [|exact H2]. cbn. intros; lia. }
  destruct (pg_text p) as [t|]; [|split; assumption]. rewrite strip_match. destruct (forallb py_space t); [split; assumption|].
  destruct (pg_images p) as [[k|]|]; cbn [snd]; try apply H4. split; assumption.
Qed.

Lemma pdf_parse_Ok lower u max x pages d : pdf_parse lower u max x pages = Ok d ->
  exists l size, pages = Ok l /\ x_stat x = Ok size /\
    pd_text d = py_join [10; 10]%N (fst (pdf_loop 0 l)) /\ pd_size d = size /\ pd_pages d = length l /\
    pd_with_text d = length (pd_entries d) /\ pd_entries d = snd (pdf_loop 0 l) /\
    (if (u_size u <? zlen (pd_text d))%Z
         then pdf_chunks u (pd_text d) (map (fun e => (pe_number e, pe_length e)) (pd_entries d)) else Ok []) = Ok (pd_chunks d) /\
    pd_minutes d = reading_time (pd_text d).
Proof.
  intros E. apply guarded_Ok in E as (size & (_ & _ & _ & Hs & _) & E). destruct pages as [l|]; [|discriminate]. cbn [rbind] in E.
  exists l, size. destruct (pdf_loop 0 l) as [parts entries] eqn:Ep. cbn [fst snd].
  destruct (if (u_size u <? _)%Z then _ else _) as [cs|] eqn:Ec; [|discriminate]. injection E as <-. cbn [pd_text pd_size pd_pages pd_with_text pd_entries pd_chunks pd_minutes].
  repeat (split; [assumption || reflexivity|]). reflexivity.
Qed.

(** The text is that of the pages that can be read and are not blank, in order, with a blank line
    between them; a page that cannot be read is left out.  The reading time is one minute for
    every 200 words. *)
Theorem C141_text lower u max x pages d : pdf_parse lower u max x pages = Ok d ->
  exists l ts, pages = Ok l /\ texts_from 0 l ts /\ pd_text d = py_join [10; 10]%N ts /\ pd_pages d = length l /\
    x_stat x = Ok (pd_size d) /\
    forall ws, words_of (pd_text d) ws -> 200 * Z.of_nat (pd_minutes d) <= zlen ws < 200 * (Z.of_nat (pd_minutes d) + 1).
Proof.
  intros E. apply pdf_parse_Ok in E as (l & size & E1 & E2 & E3 & E4 & E5 & E6 & E7 & E8 & E9).
  exists l, (fst (pdf_loop 0 l)). split; [exact E1|]. split; [apply pdf_loop_texts|]. split; [exact E3|].
  split; [exact E5|]. split; [congruence|]. intros ws Hw. rewrite E9. unfold reading_time. rewrite (words_unique _ _ Hw). unfold zlen.
  pose proof (Nat.div_mod (length ws) 200 ltac:(lia)). pose proof (Nat.mod_upper_bound (length ws) 200 ltac:(lia)). lia.
Qed.

(** The page entries are those of the pages in the text whose images can be counted, in order;
    their number is reported as the number of pages with text. *)
Theorem C141_entries lower u max x l d : pdf_parse lower u max x (Ok l) = Ok d ->
  pd_with_text d = length (pd_entries d) /\
  StronglySorted Z.lt (map pe_number (pd_entries d)) /\
  forall e, In e (pd_entries d) <->
    exists i p t, nth_error l i = Some p /\ pg_text p = Ok t /\ forallb py_space t = false /\ ~ images_fail p /\
      e = MkPageEntry (Z.of_nat i + 1) (zlen t) (shows_images p).
Proof.
  intros E. apply pdf_parse_Ok in E as (l' & size & E1 & E2 & E3 & E4 & E5 & E6 & E7 & E8 & E9). injection E1 as <-.
  split; [exact E6|]. rewrite E7. split; [apply pdf_loop_sorted|]. intros e. apply (pdf_loop_entries l 0).
Qed.

(** The text of a page for the chunker: a page that cannot be read counts as empty. *)
Definition page_text (p : page) : pystr := match pg_text p with Ok t => t | Raise _ => [] end.

Lemma pdf_loop_none l : Forall (fun p => ~ images_fail p) l -> forall n,
  fst (pdf_loop n l) = map snd (numbered n (map page_text l)) /\
  map (fun e => (pe_number e, pe_length e)) (snd (pdf_loop n l)) = map (fun p => (fst p, zlen (snd p))) (numbered n (map page_text l)).
Proof.
  induction 1 as [|p l Hp HF IH]; intros n; [split; reflexivity|]. cbn [pdf_loop map]. destruct (IH (S n)) as [H1 H2].
  destruct (pdf_loop (S n) l) as [parts entries]. cbn [fst snd] in H1, H2. unfold page_text at 1 3. cbn [numbered].
  destruct (pg_text p) as [t|]; [|cbn [forallb]; split; assumption]. rewrite strip_match.
  destruct (forallb py_space t); [split; assumption|].
  assert (HI := Hp). unfold images_fail in HI.
  destruct (pg_images p) as [[k|e]|]; [| exfalso; eauto |]; cbn [fst snd map pe_number pe_length]; split; congruence.
Qed.

(** If the images of every page can be counted, the entries match the text: there is one for every
    page in the text, and the chunks and their page numbers are those of C78, C79 and C93. *)
Theorem C141_chunks_partial lower u max x l d : pdf_parse lower u max x (Ok l) = Ok d ->
  Forall (fun p => ~ images_fail p) l ->
  pd_text d = pdf_text (map page_text l) /\
  (exists ts, texts_from 0 l ts /\ length ts = pd_with_text d) /\
  (zlen (pd_text d) <= u_size u -> pd_chunks d = []) /\
  (u_size u < zlen (pd_text d) -> pdf_chunks u (pd_text d) (pdf_info (map page_text l)) = Ok (pd_chunks d)).
Proof.
  intros E HF. apply pdf_parse_Ok in E as (l' & size & E1 & E2 & E3 & E4 & E5 & E6 & E7 & E8 & E9). injection E1 as <-.
  destruct (pdf_loop_none l HF 0) as [H1 H2]. unfold pdf_text, pdf_info. rewrite pdf_pages_numbered, <- H1, <- H2.
  split; [exact E3|]. split.
  { exists (fst (pdf_loop 0 l)). split; [apply pdf_loop_texts|]. rewrite E6, E7.
    rewrite <- (map_length (fun e => (pe_number e, pe_length e)) (snd (pdf_loop 0 l))), H2, H1, !map_length. reflexivity. }
  split; intros Hl.
  - destruct (Z.ltb_spec (u_size u) (zlen (pd_text d))); [lia|]. congruence.
  - destruct (Z.ltb_spec (u_size u) (zlen (pd_text d))); [|lia]. rewrite <- E7. exact E8.
Qed.

Definition demo_pages : list page :=
  [MkPage (Ok (py "first page")) None; MkPage (Raise EValue) None; MkPage (Ok (py "  ")) None;
   MkPage (Ok (py "fourth")) (Some (Ok 2%nat))].

Example C141_example :
  match pdf_parse (fun s => s) (MkCutConfig 14 2) 50 (demo_source (py "x.pdf")) (Ok demo_pages) with
  | Ok d => pd_text d = py "first page" ++ [10; 10]%N ++ py "fourth" /\ pd_pages d = 4%nat /\ pd_with_text d = 2%nat /\
            pd_entries d = [MkPageEntry 1 10 false; MkPageEntry 4 6 true] /\
            map (fun c => (c_text (fst c), snd c)) (pd_chunks d) =
              [(py "first page", 1); (py "fourth", 4); (py "th", 4); (py "h", 4)]
  | Raise _ => False end /\ Forall (fun p => ~ images_fail p) demo_pages.
Proof. split; [vm_compute; auto 6|]. repeat (constructor; [intros (e & E); discriminate|]). constructor. Qed.

(** If the images of a page cannot be counted, its text is in the document all the same but its
    entry is missing: the number of pages with text is too low, and a chunk made of the first page
    alone is said to be on the second. *)
Theorem C141_images_refuted : exists lower u max x l d ts c,
  pdf_parse lower u max x (Ok l) = Ok d /\ texts_from 0 l ts /\
  (pd_with_text d < length ts)%nat /\
  In (c, 2) (pd_chunks d) /\ nth_error ts 0 = Some (c_text c) /\ has_text l 0 (c_text c).
Proof.
  exists (fun s => s), (MkCutConfig 4 0), 50, (demo_source (py "x.pdf")),
    [MkPage (Ok (py "abcd")) (Some (Raise EKey)); MkPage (Ok (py "efgh")) None].
  eexists. exists [py "abcd"; py "efgh"], (MkChunk 0 (py "abcd") 0 4).
  split; [vm_compute; reflexivity|]. split.
  { eapply tf_text; [reflexivity|reflexivity|]. eapply tf_text; [reflexivity|reflexivity|]. constructor. }
  split; [vm_compute; lia|]. split; [vm_compute; now left|]. split; [reflexivity|].
  eexists. split; [reflexivity|]. split; reflexivity.
Qed.

Print Assumptions C139_errors.
Print Assumptions C139_text.
Print Assumptions C139_pdf.
Print Assumptions C139_office.
Print Assumptions C139_docling.
Print Assumptions C140_text.
Print Assumptions C140_chunks.
Print Assumptions C140_paragraphs.
Print Assumptions C140_language.
Print Assumptions C140_language_refuted.
Print Assumptions C140_encoding_refuted.
Print Assumptions C140_encoding_partial.
Print Assumptions C141_text.
Print Assumptions C141_entries.
Print Assumptions C141_chunks_partial.
Print Assumptions C141_images_refuted.
