(** C142, C143, C144: what the Office and docling parsers make of a file. *)

From Coq Require Import String List Arith ZArith NArith Lia Bool Sorted.
From Coq Require Import ZifyBool ZifyNat.
From Verif Require Import PyBase PyMore PyValue BaseLemmas ChunkModel ChunkProofs CleanModel PipelineModel
  ParserChoiceModel ExtractModel PropsChunk PropsParse PropsClean PropsExtract.
Import ListNotations.
Open Scope Z_scope.

(** ** Specification *)

(** [out] is what the elements of [l] contribute, in their order: [R a (Some b)] says that [a]
    contributes [b], [R a None] that it contributes nothing. *)
Inductive picks {A B} (R : A -> option B -> Prop) : list A -> list B -> Prop :=
| pk_nil : picks R [] []
| pk_take a b l out : R a (Some b) -> picks R l out -> picks R (a :: l) (b :: out)
| pk_skip a l out : R a None -> picks R l out -> picks R (a :: l) out.

(** The text without the blanks around it, if there is anything else. *)
Definition bare (s : pystr) (r : option pystr) : Prop :=
  match r with
  | Some t => trimmed t s /\ t <> []
  | None => forallb py_space s = true
  end.

(** A minute for every 200 words. *)
Definition minutes_for (text : pystr) (n : nat) : Prop :=
  exists ws, words_of text ws /\ 200 * Z.of_nat n <= zlen ws < 200 * (Z.of_nat n + 1).

Lemma picks_flat_map {A B} (R : A -> option B -> Prop) f l :
  (forall a, (f a = [] /\ R a None) \/ exists b, f a = [b] /\ R a (Some b)) -> picks R l (flat_map f l).
Proof.
  intros Hf. induction l as [|a l IH]; [constructor|]. cbn [flat_map].
  destruct (Hf a) as [[-> H]|(b & -> & H)]; cbn [app]; constructor; auto.
Qed.

Lemma picks_In {A B} (R : A -> option B -> Prop) l out : picks R l out -> forall a, In a l -> ~ R a None ->
  exists b, R a (Some b) /\ In b out.
Proof.
  induction 1 as [|a b l out HR HP IH|a l out HR HP IH]; intros a' Ha Hn; [destruct Ha| |].
  - destruct Ha as [<-|Ha]; [exists b; split; [exact HR|now left]|].
    destruct (IH a' Ha Hn) as (b' & H1 & H2). exists b'. split; [exact H1|now right].
  - destruct Ha as [<-|Ha]; [contradiction|]. exact (IH a' Ha Hn).
Qed.

Lemma picks_map {A B C} (R : A -> option B -> Prop) (S : A -> option C -> Prop) (g : B -> C) l out :
  picks R l out -> (forall a, R a None -> S a None) -> (forall a b, R a (Some b) -> S a (Some (g b))) ->
  picks S l (map g out).
Proof. intros H H1 H2. induction H; cbn [map]; constructor; auto. Qed.

Lemma bare_strip s : (py_strip s = [] /\ bare s None) \/ (py_strip s <> [] /\ bare s (Some (py_strip s))).
Proof.
  pose proof (blank_strip s) as H. destruct (py_strip s) as [|c t] eqn:E.
  - left. split; [reflexivity|]. cbn. rewrite <- H. reflexivity.
  - right. split; [discriminate|]. split; [|discriminate]. rewrite <- E. apply py_strip_trimmed.
Qed.

Lemma minutes_reading text : minutes_for text (reading_time text).
Proof.
  exists (py_split text). split; [apply py_split_words|]. unfold reading_time, zlen.
  pose proof (Nat.div_mod (length (py_split text)) 200 ltac:(lia)).
  pose proof (Nat.mod_upper_bound (length (py_split text)) 200 ltac:(lia)). lia.
Qed.

Lemma minutes_unique text n : minutes_for text n -> reading_time text = n.
Proof.
  intros (ws & H1 & H2). destruct (minutes_reading text) as (ws' & H3 & H4).
  apply words_unique in H1, H3. subst ws ws'. lia.
Qed.

Lemma infix_refl s : infix s s.
Proof. exists [], []. now rewrite app_nil_r. Qed.

Lemma infix_trans a b c : infix a b -> infix b c -> infix a c.
Proof.
  intros (x & y & ->) (u & v & ->). exists (u ++ x), (y ++ v). now rewrite !app_assoc.
Qed.

Lemma infix_app_r a b c : infix a c -> infix a (b ++ c).
Proof. intros (x & y & ->). exists (b ++ x), y. now rewrite app_assoc. Qed.

Lemma infix_app_l a b c : infix a b -> infix a (b ++ c).
Proof. intros (x & y & ->). exists x, (y ++ c). now rewrite !app_assoc. Qed.

Lemma join_infix sep p ps : In p ps -> infix p (py_join sep ps).
Proof.
  induction ps as [|q ps IH]; [intros []|]. intros [->|Hp].
  - destruct ps; [apply infix_refl|]. cbn [py_join]. apply infix_app_l. apply infix_refl.
  - destruct ps as [|r ps]; [destruct Hp|]. cbn [py_join]. apply infix_app_r. apply infix_app_r. apply IH. exact Hp.
Qed.

Lemma enumerate_nth {A} (l : list A) i a : nth_error l i = Some a -> In (i, a) (enumerate l).
Proof.
  unfold enumerate. replace i with (0 + i)%nat at 2 by lia. generalize 0%nat. revert i.
  induction l as [|x l IH]; intros i n E; [destruct i; discriminate|]. cbn [length seq combine]. destruct i as [|i].
  - injection E as ->. rewrite Nat.add_0_r. now left.
  - right. rewrite <- Nat.add_succ_comm. apply IH. exact E.
Qed.

(** ** C142: Word documents *)

(** A paragraph contributes its text without the blanks around it, and an entry with its number
    among all paragraphs. *)
Definition paragraph_spec (a : nat * (pystr * option pystr)) (r : option (pystr * paragraph_entry)) : Prop :=
  let '(i, (s, style)) := a in
  match r with
  | Some (t, e) => bare s (Some t) /\ pa_number e = Z.of_nat i + 1 /\ pa_length e = zlen t /\
                   (forall n, style = Some n -> pa_style e = n) /\ (style = None -> pa_style e = py "Normal")
  | None => bare s None
  end.

Lemma parse_docx_Ok u tables opened d : parse_docx u tables opened = Ok d ->
  exists w, opened = Ok w /\ dd_text d = py_join [10]%N (map fst (docx_paragraphs (dx_paragraphs w))) /\
    dd_paragraphs d = map snd (docx_paragraphs (dx_paragraphs w)) /\
    dd_tables d = (if tables then docx_tables (dx_tables w) else []) /\
    office_chunks u (dd_text d) = Ok (dd_chunks d) /\ dd_minutes d = reading_time (dd_text d).
Proof.
  unfold parse_docx. destruct opened as [w|]; [|discriminate]. cbn [rbind]. intros E. exists w.
  destruct (office_chunks u _) as [cs|] eqn:Ec; [|discriminate]. injection E as <-.
  cbn [dd_text dd_paragraphs dd_tables dd_chunks dd_minutes]. auto 8.
Qed.

Lemma docx_paragraphs_spec ps : picks paragraph_spec (enumerate ps) (docx_paragraphs ps).
Proof.
  unfold docx_paragraphs. apply picks_flat_map. intros (i, (s, style)). cbv zeta.
  destruct (bare_strip s) as [[E H]|[E H]].
  - left. rewrite E. split; [reflexivity|exact H].
  - right. destruct (py_strip s) as [|c t]; [congruence|]. eexists. split; [reflexivity|]. cbn. cbn in H.
    split; [exact H|]. split; [reflexivity|]. split; [reflexivity|]. split; [intros n ->; reflexivity|intros ->; reflexivity].
Qed.

(** The text is the paragraphs that are not blank, one a line; there is an entry for each, with
    its number; the text of every paragraph is in the text. *)
Theorem C142_paragraphs u tables w d : parse_docx u tables (Ok w) = Ok d ->
  (exists kept, picks paragraph_spec (enumerate (dx_paragraphs w)) kept /\
     dd_text d = py_join [10]%N (map fst kept) /\ dd_paragraphs d = map snd kept) /\
  (forall i s style t, nth_error (dx_paragraphs w) i = Some (s, style) -> bare s (Some t) -> infix t (dd_text d)) /\
  minutes_for (dd_text d) (dd_minutes d).
Proof.
  intros E. apply parse_docx_Ok in E as (w' & E1 & E2 & E3 & _ & _ & E6). injection E1 as <-.
  pose proof (docx_paragraphs_spec (dx_paragraphs w)) as HP. split; [eauto|]. split.
  - intros i s style t En Hb. apply enumerate_nth in En.
    destruct (picks_In _ _ _ HP _ En) as ([t' e] & H1 & H2).
    { cbn. intros Hn. destruct Hb as [Hb Ht]. apply strip_trimmed in Hb. apply Ht. rewrite <- Hb. apply py_strip_nil.
      apply forallb_forall. exact Hn. }
    cbn in H1. destruct H1 as ((H1 & _) & _). destruct Hb as [Hb _]. apply strip_trimmed in H1, Hb. assert (t' = t) as -> by congruence.
    rewrite E2. apply join_infix. apply in_map_iff. exists (t, e). auto.
  - rewrite E6. apply minutes_reading.
Qed.

(** The tables, if they are wanted: each with its number, the number of its rows, the number of
    cells of its first row, and the texts of all cells without the blanks around them. *)
Theorem C142_tables u w d : parse_docx u true (Ok w) = Ok d ->
  length (dd_tables d) = length (dx_tables w) /\
  forall k t, nth_error (dx_tables w) k = Some t ->
    exists e, nth_error (dd_tables d) k = Some e /\ ta_number e = Z.of_nat k + 1 /\ ta_rows e = length t /\
      (forall r rest, t = r :: rest -> ta_columns e = length r) /\ (t = [] -> ta_columns e = 0%nat) /\
      Forall2 (Forall2 (fun cell text => trimmed text cell)) t (ta_data e).
Proof.
  intros E. apply parse_docx_Ok in E as (w' & E1 & _ & _ & E4 & _). injection E1 as <-. rewrite E4. unfold docx_tables.
  split; [unfold enumerate; rewrite map_length, combine_length, seq_length; lia|]. intros k t En.
  assert (Ek : nth_error (enumerate (dx_tables w)) k = Some (k, t)).
  { unfold enumerate. clear - En. replace k with (0 + k)%nat at 2 by lia. generalize 0%nat. revert k En.
    induction (dx_tables w) as [|x l IH]; intros k En n; [destruct k; discriminate|]. cbn [length seq combine]. destruct k as [|k].
    - injection En as ->. now rewrite Nat.add_0_r.
    - cbn [nth_error]. rewrite <- Nat.add_succ_comm. apply IH. exact En. }
  match goal with |- context [map ?f (enumerate _)] => exists (f (k, t)); split; [exact (map_nth_error f k _ Ek)|] end.
  cbv beta iota zeta. cbn [ta_number ta_rows ta_columns ta_data].
  split; [reflexivity|]. split; [now rewrite map_length|]. split; [intros r rest ->; cbn [map]; now rewrite map_length|].
  split; [intros ->; reflexivity|].
  clear. induction t as [|r t IH]; cbn [map]; constructor; [|exact IH].
  induction r as [|c r IHr]; cbn [map]; constructor; [apply py_strip_trimmed|exact IHr].
Qed.

(** Without the option there are none; the text and the chunks do not depend on it. *)
Theorem C142_no_tables u w d d' : parse_docx u false (Ok w) = Ok d -> parse_docx u true (Ok w) = Ok d' ->
  dd_tables d = [] /\ dd_text d = dd_text d' /\ dd_chunks d = dd_chunks d'.
Proof.
  intros E E'. apply parse_docx_Ok in E as (w1 & E1 & E2 & _ & E4 & E5 & _), E' as (w2 & F1 & F2 & _ & _ & F5 & _).
  injection E1 as <-. injection F1 as <-. split; [exact E4|]. split; [congruence|]. rewrite E2 in E5. rewrite F2 in F5. congruence.
Qed.

(** The chunks of all three kinds of documents: pieces of the text in order, nothing but blanks
    left out. *)
Theorem C142_chunks u tables w sheets slides : 0 < u_size u -> 0 <= u_overlap u ->
  (forall d, parse_docx u tables w = Ok d -> good_cut (dd_text d) (u_size u) (dd_chunks d)) /\
  (forall d, parse_excel u sheets = Ok d -> good_cut (ed_text d) (u_size u) (ed_chunks d)) /\
  (forall d, parse_pptx u slides = Ok d -> good_cut (sd_text d) (u_size u) (sd_chunks d)).
Proof.
  intros Hs Ho.
  assert (HG : forall text cs, office_chunks u text = Ok cs -> good_cut text (u_size u) cs).
  { intros text cs E. destruct (C78_office_covers u text Hs Ho) as (cs' & E' & HG). congruence. }
  split; [|split].
  - intros d E. apply parse_docx_Ok in E as (w' & _ & _ & _ & _ & E & _). auto.
  - intros d E. unfold parse_excel in E. destruct sheets as [l|]; [|discriminate]. cbn [rbind] in E.
    destruct (excel_loop l) as [done|]; [|discriminate]. cbn [rbind] in E.
    destruct (office_chunks u _) as [cs|] eqn:Ec; [|discriminate]. injection E as <-. cbn. auto.
  - intros d E. unfold parse_pptx in E. destruct slides as [l|]; [|discriminate]. cbn [rbind] in E.
    destruct (office_chunks u _) as [cs|] eqn:Ec; [|discriminate]. injection E as <-. cbn. auto.
Qed.

Definition demo_docx : docx :=
  MkDocx [(py " Title ", Some (py "Heading 1")); (py "  ", None); (py "Body text.", None)]
    [[[py "Name "; py "Price"]; [py "Tea"; py " 3"]]].

Example C142_example : match parse_docx (MkCutConfig 10 2) true (Ok demo_docx) with
  | Ok d => dd_text d = py "Title" ++ [10%N] ++ py "Body text." /\
            dd_paragraphs d = [MkParagraphEntry 1 5 (py "Heading 1"); MkParagraphEntry 3 10 (py "Normal")] /\
            dd_tables d = [MkTableEntry 1 2 2 [[py "Name"; py "Price"]; [py "Tea"; py "3"]]]
  | Raise _ => False end /\
  match parse_docx (MkCutConfig 10 2) false (Ok demo_docx) with Ok d => dd_tables d = [] | Raise _ => False end.
Proof. vm_compute. auto. Qed.

(** What stands in a table is not in the text, and so in no chunk, though the tables are read. *)
Theorem C142_tables_refuted : exists u w d t r c,
  parse_docx u true (Ok w) = Ok d /\ In t (dx_tables w) /\ In r t /\ In c r /\ c <> [] /\ trimmed c c /\
  ~ infix c (dd_text d) /\ forall k, In k (dd_chunks d) -> ~ infix c (c_text k).
Proof.
  exists (MkCutConfig 100 0), demo_docx. eexists.
  exists [[py "Name "; py "Price"]; [py "Tea"; py " 3"]], [py "Tea"; py " 3"], (py "Tea").
  split; [vm_compute; reflexivity|]. split; [now left|]. split; [right; now left|]. split; [now left|]. split; [discriminate|].
  split; [apply (py_strip_trimmed (py "Tea"))|].
  split; [intros H; apply py_in_spec in H; vm_compute in H; discriminate|].
  intros k Hk. vm_compute in Hk. destruct Hk as [<-|[]]. intros H. apply py_in_spec in H. vm_compute in H. discriminate.
Qed.

(** ** C143: workbooks and slides *)

(** A cell contributes its value, if it has one; a row its values, if it has any. *)
Definition cell_spec (cell : option pystr) (r : option pystr) : Prop := r = cell.
Definition row_spec (row : list (option pystr)) (r : option pystr) : Prop :=
  exists vs, picks cell_spec row vs /\
    match r with Some line => vs <> [] /\ line = py_join (py " | ") vs | None => vs = [] end.

(** A sheet contributes the lines of its rows, if there are any: its text under a heading with
    its name, and an entry with the length of the text without the heading. *)
Definition sheet_spec (s : sheet) (r : option (pystr * sheet_entry)) : Prop :=
  exists rows lines, sh_rows s = Some rows /\ picks row_spec rows lines /\
    match r with
    | Some (text, e) =>
        lines <> [] /\ text = py "Sheet: " ++ sh_name s ++ [10%N] ++ py_join [10%N] lines /\
        e = MkSheetEntry (sh_name s) (sh_max_row s) (sh_max_column s) (zlen (py_join [10%N] lines))
    | None => lines = []
    end.

Lemma row_text_spec row : picks cell_spec row (row_text row).
Proof.
  unfold row_text. apply picks_flat_map. intros [c|]; [right; exists c|left]; split; reflexivity.
Qed.

Lemma sheet_text_spec rows : picks row_spec rows (sheet_text rows).
Proof.
  unfold sheet_text. apply picks_flat_map. intros row. pose proof (row_text_spec row) as H.
  destruct (row_text row) as [|v vs].
  - left. split; [reflexivity|]. exists []. auto.
  - right. eexists. split; [reflexivity|]. exists (v :: vs). split; [exact H|]. split; [discriminate|reflexivity].
Qed.

Lemma excel_loop_spec sheets : forall done, excel_loop sheets = Ok done -> picks sheet_spec sheets done.
Proof.
  induction sheets as [|s sheets IH]; intros done E; cbn [excel_loop] in E; [injection E as <-; constructor|].
  destruct (sh_rows s) as [rows|] eqn:Er; [|discriminate]. pose proof (sheet_text_spec rows) as HL.
  destruct (sheet_text rows) as [|l ls].
  - apply pk_skip; [|auto]. exists rows, []. auto.
  - cbv zeta in E. destruct (excel_loop sheets) as [rest|]; [|discriminate]. injection E as <-.
    apply pk_take; [|auto]. exists rows, (l :: ls). split; [exact Er|]. split; [exact HL|].
    split; [discriminate|]. split; reflexivity.
Qed.

Lemma parse_excel_Ok u l d : parse_excel u (Ok l) = Ok d ->
  exists done, excel_loop l = Ok done /\ ed_text d = py_join [10; 10]%N (map fst done) /\ ed_names d = map sh_name l /\
    ed_sheets d = map snd done /\ ed_cells d = fold_left (fun n e => n + se_rows e * se_columns e)%Z (map snd done) 0.
Proof.
  unfold parse_excel. cbn [rbind]. destruct (excel_loop l) as [done|]; [|discriminate]. cbn [rbind].
  destruct (office_chunks u _) as [cs|]; [|discriminate]. intros E. injection E as <-. exists done. cbn. auto.
Qed.

Fixpoint cells_of (es : list sheet_entry) : Z :=
  match es with [] => 0 | e :: es' => se_rows e * se_columns e + cells_of es' end.

(** The text is the sheets with a value, each under its heading, a line for every row with a value,
    with a blank line between sheets; all sheets' names are listed; "total_cells" counts the cells,
    filled or not, of the sheets with a value. *)
Theorem C143_sheets u l d : parse_excel u (Ok l) = Ok d ->
  exists kept, picks sheet_spec l kept /\ ed_text d = py_join [10; 10]%N (map fst kept) /\ ed_sheets d = map snd kept /\
    ed_names d = map sh_name l /\ ed_cells d = cells_of (map snd kept).
Proof.
  intros E. apply parse_excel_Ok in E as (done & E1 & E2 & E3 & E4 & E5). exists done.
  split; [now apply excel_loop_spec|]. split; [exact E2|]. split; [exact E4|]. split; [exact E3|]. rewrite E5.
  generalize (map snd done). intros es. rewrite <- (Z.add_0_l (cells_of es)). generalize 0.
  induction es as [|e es IH]; intros n; cbn [fold_left cells_of]; [lia|]. rewrite IH. lia.
Qed.

(** No value is lost: what stands in a cell is in the text. *)
Theorem C143_values u l d : parse_excel u (Ok l) = Ok d ->
  forall s rows row v, In s l -> sh_rows s = Some rows -> In row rows -> In (Some v) row -> infix v (ed_text d).
Proof.
  intros E s rows row v Hs Hr Hrow Hv. apply C143_sheets in E as (kept & HP & E2 & _).
  assert (Hline : forall vs, picks cell_spec row vs -> In v vs).
  { intros vs Hvs. destruct (picks_In _ _ _ Hvs _ Hv) as (b & H1 & H2); [discriminate|]. unfold cell_spec in H1. congruence. }
  destruct (picks_In _ _ _ HP _ Hs) as ([text e] & H1 & H2).
  { intros (rows' & lines & Hr' & HL & ->). assert (rows' = rows) as -> by congruence.
    destruct (picks_In _ _ _ HL _ Hrow) as (b & _ & []). intros (vs & Hvs & ->). exact (Hline _ Hvs). }
  destruct H1 as (rows' & lines & Hr' & HL & _ & -> & _). assert (rows' = rows) as -> by congruence.
  rewrite E2. apply infix_trans with (py_join [10%N] lines).
  - destruct (picks_In _ _ _ HL _ Hrow) as (line & H3 & H4).
    { intros (vs & Hvs & ->). exact (Hline _ Hvs). }
    destruct H3 as (vs & Hvs & _ & ->). apply infix_trans with (py_join (py " | ") vs); apply join_infix; auto.
  - eapply infix_trans; [|apply join_infix; apply in_map_iff; eexists; split; [reflexivity|exact H2]]. cbn [fst].
    do 3 apply infix_app_r. apply infix_refl.
Qed.

Definition demo_sheets : list sheet :=
  [MkSheet (py "Data") (Some [[Some (py "a"); None; Some (py "b")]; [None; None; None]; [Some (py "1"); Some (py "2"); None]]) 3 3;
   MkSheet (py "Blank") (Some [[None; None]]) 1 2;
   MkSheet (py "More") (Some [[Some (py "x")]]) 1 1].

Example C143_example : match parse_excel (MkCutConfig 1000 0) (Ok demo_sheets) with
  | Ok d => ed_text d = py "Sheet: Data" ++ [10%N] ++ py "a | b" ++ [10%N] ++ py "1 | 2" ++ [10; 10]%N ++
                        py "Sheet: More" ++ [10%N] ++ py "x" /\
            ed_sheets d = [MkSheetEntry (py "Data") 3 3 11; MkSheetEntry (py "More") 1 1 1] /\
            ed_names d = [py "Data"; py "Blank"; py "More"] /\ ed_cells d = 10
  | Raise _ => False end.
Proof. vm_compute. auto. Qed.

(** "total_cells" is not the number of cells of the workbook's sheets, though "sheets" counts them
    all: a sheet without a value is not counted. *)
Theorem C143_cells_refuted : exists u l d, parse_excel u (Ok l) = Ok d /\ length (ed_names d) = length l /\
  ed_cells d < fold_right (fun s n => sh_max_row s * sh_max_column s + n) 0 l.
Proof.
  exists (MkCutConfig 1000 0), demo_sheets. eexists. split; [vm_compute; reflexivity|]. split; vm_compute; reflexivity.
Qed.

(** A shape contributes its text without the blanks around it. *)
Definition shape_spec (shape : option pystr) (r : option pystr) : Prop :=
  match shape with Some s => bare s r | None => r = None end.

(** A slide contributes the texts of its shapes, if there are any, after its number. *)
Definition slide_spec (a : nat * list (option pystr)) (r : option (pystr * slide_entry)) : Prop :=
  exists texts, picks shape_spec (snd a) texts /\
    match r with
    | Some (text, e) =>
        texts <> [] /\ text = py "Slide " ++ str_nat (fst a + 1) ++ py ": " ++ py_join [10%N] texts /\
        e = MkSlideEntry (Z.of_nat (fst a) + 1) (zlen (py_join [10%N] texts)) (length texts)
    | None => texts = []
    end.

Lemma slide_text_spec shapes : picks shape_spec shapes (slide_text shapes).
Proof.
  unfold slide_text. apply picks_flat_map. intros [s|]; [|left; split; reflexivity].
  destruct (bare_strip s) as [[E H]|[E H]].
  - left. rewrite E. split; [reflexivity|exact H].
  - right. destruct (py_strip s) as [|c t]; [congruence|]. eexists. split; [reflexivity|exact H].
Qed.

Lemma pptx_slides_spec slides : picks slide_spec (enumerate slides) (pptx_slides slides).
Proof.
  unfold pptx_slides. apply picks_flat_map. intros (i, shapes). pose proof (slide_text_spec shapes) as H.
  destruct (slide_text shapes) as [|t ts].
  - left. split; [reflexivity|]. exists []. auto.
  - right. eexists. split; [reflexivity|]. exists (t :: ts). split; [exact H|]. split; [discriminate|].
    cbn [fst]. unfold slide_label. rewrite Nat.add_1_r, <- !app_assoc. split; reflexivity.
Qed.

Lemma parse_pptx_Ok u l d : parse_pptx u (Ok l) = Ok d ->
  sd_text d = py_join [10; 10]%N (map fst (pptx_slides l)) /\ sd_slides d = length l /\
  sd_entries d = map snd (pptx_slides l) /\ sd_minutes d = reading_time (sd_text d).
Proof.
  unfold parse_pptx. cbn [rbind]. cbv zeta. destruct (office_chunks u _) as [cs|]; [|discriminate]. cbn [rbind].
  intros E. injection E as <-. cbn [sd_text sd_slides sd_entries sd_minutes]. auto.
Qed.

(** The text is the slides with text, each after its number among all slides, with a blank line
    between slides; there is an entry for each, and the text of every shape is in the text. *)
Theorem C143_slides u l d : parse_pptx u (Ok l) = Ok d ->
  (exists kept, picks slide_spec (enumerate l) kept /\ sd_text d = py_join [10; 10]%N (map fst kept) /\
     sd_entries d = map snd kept) /\
  sd_slides d = length l /\ minutes_for (sd_text d) (sd_minutes d) /\
  (forall i shapes s t, nth_error l i = Some shapes -> In (Some s) shapes -> bare s (Some t) -> infix t (sd_text d)).
Proof.
  intros E. apply parse_pptx_Ok in E as (E1 & E2 & E3 & E4). pose proof (pptx_slides_spec l) as HP.
  split; [eauto|]. split; [exact E2|]. split; [rewrite E4; apply minutes_reading|].
  intros i shapes s t En Hs Hb. apply enumerate_nth in En.
  assert (HT : forall texts, picks shape_spec shapes texts -> In t texts).
  { intros texts Ht. destruct Hb as [Hb Hn]. apply strip_trimmed in Hb.
    destruct (picks_In _ _ _ Ht _ Hs) as (b & H1 & H2).
    { cbn. intros H. apply Hn. rewrite <- Hb. apply py_strip_nil. apply forallb_forall. exact H. }
    cbn in H1. destruct H1 as [H1 _]. apply strip_trimmed in H1. congruence. }
  destruct (picks_In _ _ _ HP _ En) as ([text e] & H1 & H2).
  { intros (texts & Ht & ->). exact (HT _ Ht). }
  destruct H1 as (texts & Ht & _ & -> & _). cbn [snd fst] in *. rewrite E1.
  eapply infix_trans; [|apply join_infix; apply in_map_iff; eexists; split; [reflexivity|exact H2]]. cbn [fst].
  do 3 apply infix_app_r. apply join_infix. auto.
Qed.

Example C143_slides_example : match parse_pptx (MkCutConfig 1000 0) (Ok [[Some (py " One "); None]; [None]; [Some (py "a"); Some (py " "); Some (py "b")]]) with
  | Ok d => sd_text d = py "Slide 1: One" ++ [10; 10]%N ++ py "Slide 3: a" ++ [10%N] ++ py "b" /\
            sd_entries d = [MkSlideEntry 1 3 1; MkSlideEntry 3 3 2] /\ sd_slides d = 3%nat
  | Raise _ => False end.
Proof. vm_compute. auto. Qed.

(** The slides cannot be told apart again in the text: two different presentations, of one and of
    two slides, have the same text. *)
Theorem C143_slides_refuted : exists u l1 l2 d1 d2,
  parse_pptx u (Ok l1) = Ok d1 /\ parse_pptx u (Ok l2) = Ok d2 /\ sd_text d1 = sd_text d2 /\ sd_slides d1 <> sd_slides d2.
Proof.
  exists (MkCutConfig 1000 0), [[Some (py "a" ++ [10; 10]%N ++ py "Slide 2: b")]], [[Some (py "a")]; [Some (py "b")]].
  do 2 eexists. split; [vm_compute; reflexivity|]. split; [vm_compute; reflexivity|]. split; [reflexivity|]. discriminate.
Qed.

(** ** C144: docling *)

Section Docling.
  Context {T G : Type}.
  Notation element := (@element T G).

  (** An element contributes its text without the blanks around it... *)
  Definition text_spec (e : element) (r : option pystr) : Prop := shape_spec (el_text e) r.

  (** ... and what was read of it as a table, if [word] is in its lower-cased label. *)
  Definition label_spec {X} (lower : pystr -> pystr) (word : pystr) (content : element -> option X)
      (e : element) (r : option X) : Prop :=
    (exists l, el_label e = Some l /\ infix word (lower l) /\ r = content e) \/
    ((forall l, el_label e = Some l -> ~ infix word (lower l)) /\ r = None).

  Lemma labelled_spec lower word (e : element) :
    (labelled lower word e = true <-> exists l, el_label e = Some l /\ infix word (lower l)).
  Proof.
    unfold labelled. destruct (el_label e) as [l|].
    - rewrite py_in_spec. split; [eauto|]. intros (l' & E & H). congruence.
    - split; [discriminate|]. intros (l' & E & _). discriminate.
  Qed.

  Lemma label_picks {X} lower word (content : element -> option X) l :
    picks (label_spec lower word content) l
      (flat_map (fun e => if labelled lower word e then match content e with Some t => [t] | None => [] end else []) l).
  Proof.
    apply picks_flat_map. intros e. pose proof (labelled_spec lower word e) as HL.
    destruct (labelled lower word e).
    - destruct (proj1 HL eq_refl) as (l' & H1 & H2). destruct (content e) as [t|] eqn:Ec.
      + right. exists t. split; [reflexivity|]. left. exists l'. auto.
      + left. split; [reflexivity|]. left. exists l'. auto.
    - left. split; [reflexivity|]. right. split; [|reflexivity]. intros l' H1 H2.
      assert (false = true) by (apply HL; eauto). discriminate.
  Qed.

  Lemma docling_parse_Ok lower size tables figures max x (l : list element) d :
    docling_parse lower size tables figures max x (Ok l) = Ok d ->
    x_stat x = Ok (gd_size d) /\
    d = MkDoclingDoc (py_join [10]%N (flat_map element_text l)) (gd_size d) (length (flat_map element_text l))
          (flat_map (element_table lower tables) l) (flat_map (element_figure lower figures) l)
          (docling_chunks size (flat_map element_text l)) (reading_time (py_join [10]%N (flat_map element_text l))).
  Proof.
    intros E. unfold docling_parse in E. apply guarded_Ok in E as (bytes & (_ & _ & _ & Hs & _) & E). cbn [rbind] in E.
    injection E as <-. cbn [gd_size]. auto.
  Qed.

  (** The text is the elements with text, one a line, and the chunks are made of the same texts (see
      C91); every element's text is in it; the counts are those of the lists. *)
  Theorem C144_text lower size tables figures max x (l : list element) d :
    docling_parse lower size tables figures max x (Ok l) = Ok d ->
    x_stat x = Ok (gd_size d) /\
    (exists texts, picks text_spec l texts /\ gd_text d = py_join [10]%N texts /\ gd_elements d = length texts /\
       gd_chunks d = docling_chunks size texts) /\
    minutes_for (gd_text d) (gd_minutes d) /\
    (forall e s t, In e l -> el_text e = Some s -> bare s (Some t) -> infix t (gd_text d)).
  Proof.
    intros E. apply docling_parse_Ok in E as (Hs & Ed). split; [exact Hs|].
    assert (HP : picks text_spec l (flat_map element_text l)).
    { apply picks_flat_map. intros e. unfold element_text, text_spec. destruct (el_text e) as [s|]; [|left; split; reflexivity].
      destruct (bare_strip s) as [[E H]|[E H]].
      - left. rewrite E. split; [reflexivity|exact H].
      - right. destruct (py_strip s) as [|c t]; [congruence|]. eexists. split; [reflexivity|exact H]. }
    rewrite Ed. cbn [gd_text gd_elements gd_chunks gd_minutes]. split; [eauto 6|]. split; [apply minutes_reading|].
    intros e s t He Et Hb. destruct Hb as [Hb Hn]. apply strip_trimmed in Hb.
    destruct (picks_In _ _ _ HP _ He) as (b & H1 & H2).
    { unfold text_spec. rewrite Et. cbn. intros H. apply Hn. rewrite <- Hb. apply py_strip_nil. apply forallb_forall. exact H. }
    unfold text_spec in H1. rewrite Et in H1. cbn in H1. destruct H1 as [H1 _]. apply strip_trimmed in H1.
    apply join_infix. congruence.
  Qed.

  (** The tables and figures, if they are wanted, are what was read of the elements whose label
      contains the word; none otherwise. *)
  Theorem C144_tables lower size tables figures max x (l : list element) d :
    docling_parse lower size tables figures max x (Ok l) = Ok d ->
    (tables = true -> picks (label_spec lower (py "table") el_table) l (gd_tables d)) /\
    (tables = false -> gd_tables d = []) /\
    (figures = true -> picks (label_spec lower (py "figure") el_figure) l (gd_figures d)) /\
    (figures = false -> gd_figures d = []).
  Proof.
    intros E. apply docling_parse_Ok in E as (_ & ->). cbn [gd_tables gd_figures].
    split; [intros ->; apply label_picks|]. split; [|split; [intros ->; apply label_picks|]]; intros ->; clear;
      (induction l as [|e l IH]; [reflexivity|exact IH]).
  Qed.
End Docling.

Example C144_example : match docling_parse (T := nat) (G := nat) (fun s => s) 8 true true 50 (demo_source (py "x.html"))
    (Ok [MkElement (Some (py " Head ")) (Some (py "title")) None None; MkElement None (Some (py "table")) (Some 7%nat) None;
         MkElement (Some (py "body")) (Some (py "figure of a table")) (Some 8%nat) (Some 9%nat)]) with
  | Ok d => gd_text d = py "Head" ++ [10%N] ++ py "body" /\ gd_tables d = [7; 8]%nat /\ gd_figures d = [9]%nat /\
            map c_text (gd_chunks d) = [py "Head" ++ [10%N] ++ py "body"] /\ gd_elements d = 2%nat
  | Raise _ => False end.
Proof. vm_compute. auto 6. Qed.

Print Assumptions C142_paragraphs.
Print Assumptions C142_tables.
Print Assumptions C142_no_tables.
Print Assumptions C142_chunks.
Print Assumptions C142_tables_refuted.
Print Assumptions C143_sheets.
Print Assumptions C143_values.
Print Assumptions C143_cells_refuted.
Print Assumptions C143_slides.
Print Assumptions C143_slides_refuted.
Print Assumptions C144_text.
Print Assumptions C144_tables.
