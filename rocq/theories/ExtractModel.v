(** Model of [parse] of the four parser classes of /repo/src/valori/parsers: the checks before
    the file is read, and what is made of the content of the file.  The chunkers are those of
    ChunkModel.v, the supported formats those of ParserChoiceModel.v.

    The libraries that open the files (chardet and Python's codecs, PyPDF2, python-docx, openpyxl,
    python-pptx, docling) are represented by what they answer: an arbitrary document, or an
    exception.  Of the metadata, the file's name and type and the fields copied from the library
    are left out. *)

From Coq Require Import String List Arith ZArith NArith Bool.
From Verif Require Import PyBase PyMore PyValue ChunkModel CleanModel PipelineModel ParserChoiceModel.
Import ListNotations.
Open Scope py_scope.

(** ** The checks shared by the parsers *)

(** What a parser finds out about the file: text_parser.py:36-51, pdf_parser.py:40-57,
    office_parser.py:44-59, docling_parser.py:50-65.  [x_stat] is [file_path.stat().st_size],
    which can raise. *)
Record source : Type := MkSource {
  x_initialized : bool;
  x_path : pystr;
  x_exists : bool;
  x_stat : result Z
}.

(** The same four places, and the [except] at the end of each method: text_parser.py:92-93,
    pdf_parser.py:155-156, office_parser.py:72-73, docling_parser.py:135-138.  [rest] is the method
    after the check of the size. *)
Definition guarded {A} (lower : pystr -> pystr) (cls : parser_class) (max_size : Z) (x : source)
    (rest : Z -> result A) : result A :=
  if negb (x_initialized x) then Raise EParsing
  else if negb (x_exists x) then Raise EParsing
  else match class_can_parse lower (fun _ => []) cls (x_path x) with
       | Ok true =>
           match rbind (x_stat x) (fun size =>
                 if (max_size <? size)%Z then Raise EParsing else rest size) with
           | Ok a => Ok a
           | Raise _ => Raise EParsing
           end
       | _ => Raise EParsing
       end.

(** [f] of an answer (used where a caller packs up what a callee returned, as at
    office_parser.py:63-68). *)
Definition answer {A B} (f : A -> B) (r : result A) : result B := rbind r (fun a => Ok (f a)).

(** ** text_parser.py *)

(** Reading in text mode ([open(..., "r")], text_parser.py:63-64): every line end becomes a
    newline. *)
Fixpoint universal_newlines (s : pystr) : pystr :=
  match s with
  | [] => []
  | c :: r =>
      if (c =? 13)%N then
        10%N :: match r with
                | c2 :: r2 => if (c2 =? 10)%N then universal_newlines r2 else universal_newlines r
                | [] => []
                end
      else c :: universal_newlines r
  end.

(** [sub in s]. *)
Definition py_in (sub s : pystr) : bool := existsb (occurs_at s sub) (seq 0 (S (length s))).

(** text_parser.py:108-121. *)
Definition english_words : list pystr :=
  [py "the"; py "and"; py "or"; py "but"; py "in"; py "on"; py "at"; py "to"; py "for"; py "of"; py "with"; py "by"].

(** text_parser.py:104-127: whether the answer is "en" (it is "unknown" otherwise). *)
Definition is_english (lower : pystr -> pystr) (text : pystr) : bool :=
  (3 <? length (filter (fun w => py_in w (lower text)) english_words))%nat.

(** The options of text_parser.py:25-28. *)
Record text_options : Type := MkTextOptions {
  to_encoding : pystr;
  to_cut : cut_config;
  to_max : Z
}.

(** text_parser.py:67-90. *)
Record text_doc : Type := MkTextDoc {
  td_text : pystr;
  td_size : Z;
  td_encoding : option pystr;
  td_english : bool;
  td_chunks : list chunk;
  td_paragraphs : nat
}.

(** [parse] (text_parser.py:34-93).  [bytes] is the content of the file, [detect] gives the
    "encoding" entry of chardet's answer (None when it has no idea), [decode] decodes with
    [errors="replace"]; it raises for an unknown encoding.  Without an encoding [open] uses the
    one of the locale. *)
Definition text_parse (lower : pystr -> pystr) (detect : list N -> option pystr)
    (decode : option pystr -> list N -> result pystr) (o : text_options) (x : source)
    (bytes : result (list N)) : result text_doc :=
  guarded lower ClsText (to_max o) x (fun size =>
  rbind (if eqb (to_encoding o) (py "auto") then answer detect bytes else Ok (Some (to_encoding o))) (fun encoding =>
  rbind (rbind bytes (decode encoding)) (fun decoded =>
  let text := universal_newlines decoded in
  let english := if (100 <? length text)%nat then is_english lower (firstn 1000 text) else false in
  rbind (if (u_size (to_cut o) <? zlen text)%Z then text_chunks (to_cut o) text else Ok []) (fun chunks =>
  Ok (MkTextDoc text size encoding english chunks (length (split_paragraphs text))))))).

(** ** pdf_parser.py *)

(** A page: what [extract_text()] answers, and the length of [get_images()], if the page has that
    method; pdf_parser.py:69-81. *)
Record page : Type := MkPage { pg_text : result pystr; pg_images : option (result nat) }.

(** pdf_parser.py:72-82. *)
Record page_entry : Type := MkPageEntry { pe_number : Z; pe_length : Z; pe_images : bool }.

(** pdf_parser.py:63-85: [text_parts] and [page_metadata]; [n] is [page_num].  The text is
    appended before the entry is made. *)
Fixpoint pdf_loop (n : nat) (pages : list page) : list pystr * list page_entry :=
  match pages with
  | [] => ([], [])
  | p :: rest =>
      let '(parts, entries) := pdf_loop (S n) rest in
      match pg_text p with
      | Raise _ => (parts, entries)
      | Ok t =>
          match py_strip t with
          | [] => (parts, entries)
          | _ =>
              match pg_images p with
              | None => (t :: parts, MkPageEntry (Z.of_nat n + 1) (zlen t) false :: entries)
              | Some (Ok k) => (t :: parts, MkPageEntry (Z.of_nat n + 1) (zlen t) (0 <? k)%nat :: entries)
              | Some (Raise _) => (t :: parts, entries)
              end
          end
      end
  end.

(** [len(text.split()) // 200]; pdf_parser.py:144-145, office_parser.py:133, 245,
    docling_parser.py:125. *)
Definition reading_time (text : pystr) : nat := length (py_split text) / 200.

(** pdf_parser.py:87-153.  "num_pages" and "pages" are the same, and so are
    "num_pages_with_text" and "pages_with_text". *)
Record pdf_doc : Type := MkPdfDoc {
  pd_text : pystr;
  pd_size : Z;
  pd_pages : nat;
  pd_with_text : nat;
  pd_entries : list page_entry;
  pd_chunks : list (chunk * Z);
  pd_minutes : nat
}.

(** [parse] (pdf_parser.py:38-156).  [opened] is what the reader makes of the file. *)
Definition pdf_parse (lower : pystr -> pystr) (u : cut_config) (max_size : Z) (x : source)
    (opened : result (list page)) : result pdf_doc :=
  guarded lower ClsPdf max_size x (fun size =>
  rbind opened (fun pages =>
  let '(parts, entries) := pdf_loop 0 pages in
  let full_text := py_join [10; 10]%N parts in
  rbind (if (u_size u <? zlen full_text)%Z
         then pdf_chunks u full_text (map (fun e => (pe_number e, pe_length e)) entries) else Ok []) (fun chunks =>
  Ok (MkPdfDoc full_text size (length pages) (length entries) entries chunks (reading_time full_text))))).

(** ** office_parser.py *)

(** A Word document: the paragraphs with the names of their styles, and the tables as rows of the
    texts of the cells; office_parser.py:79-114. *)
Record docx : Type := MkDocx {
  dx_paragraphs : list (pystr * option pystr);
  dx_tables : list (list (list pystr))
}.

(** office_parser.py:89-95. *)
Record paragraph_entry : Type := MkParagraphEntry { pa_number : Z; pa_length : Z; pa_style : pystr }.

(** office_parser.py:107-114. *)
Record table_entry : Type := MkTableEntry {
  ta_number : Z;
  ta_rows : nat;
  ta_columns : nat;
  ta_data : list (list pystr)
}.

(** office_parser.py:82-95: the texts and the entries, by [enumerate]. *)
Definition docx_paragraphs (ps : list (pystr * option pystr)) : list (pystr * paragraph_entry) :=
  flat_map (fun '(i, (t, style)) =>
    let text := py_strip t in
    match text with
    | [] => []
    | _ => [(text, MkParagraphEntry (Z.of_nat i + 1) (zlen text)
                     (match style with Some s => s | None => py "Normal" end))]
    end) (enumerate ps).

(** office_parser.py:99-114. *)
Definition docx_tables (ts : list (list (list pystr))) : list table_entry :=
  map (fun '(i, t) =>
    let data := map (map py_strip) t in
    MkTableEntry (Z.of_nat i + 1) (length data) (match data with r :: _ => length r | [] => 0 end) data)
  (enumerate ts).

(** office_parser.py:97-141. *)
Record docx_doc : Type := MkDocxDoc {
  dd_text : pystr;
  dd_paragraphs : list paragraph_entry;
  dd_tables : list table_entry;
  dd_chunks : list chunk;
  dd_minutes : nat
}.

(** [_parse_docx] (office_parser.py:75-141). *)
Definition parse_docx (u : cut_config) (extract_tables : bool) (opened : result docx) : result docx_doc :=
  rbind opened (fun d =>
  let ps := docx_paragraphs (dx_paragraphs d) in
  let full_text := py_join [10]%N (map fst ps) in
  let tables := if extract_tables then docx_tables (dx_tables d) else [] in
  rbind (office_chunks u full_text) (fun chunks =>
  Ok (MkDocxDoc full_text (map snd ps) tables chunks (reading_time full_text)))).

(** A sheet of a workbook: the rows of [iter_rows(values_only=True)], each cell as its [str] or
    None; None instead of the rows for a chart sheet, which has no such method;
    office_parser.py:152-175. *)
Record sheet : Type := MkSheet {
  sh_name : pystr;
  sh_rows : option (list (list (option pystr)));
  sh_max_row : Z;
  sh_max_column : Z
}.

(** office_parser.py:168-175. *)
Record sheet_entry : Type := MkSheetEntry { se_name : pystr; se_rows : Z; se_columns : Z; se_length : Z }.

(** office_parser.py:157-160. *)
Definition row_text (row : list (option pystr)) : list pystr :=
  flat_map (fun cell => match cell with Some c => [c] | None => [] end) row.

(** office_parser.py:154-163. *)
Definition sheet_text (rows : list (list (option pystr))) : list pystr :=
  flat_map (fun row => match row_text row with [] => [] | cells => [py_join (py " | ") cells] end) rows.

(** office_parser.py:149-175. *)
Fixpoint excel_loop (sheets : list sheet) : result (list (pystr * sheet_entry)) :=
  match sheets with
  | [] => Ok []
  | s :: rest =>
      match sh_rows s with
      | None => Raise EAttr
      | Some rows =>
          match sheet_text rows with
          | [] => excel_loop rest
          | lines =>
              let content := py_join [10]%N lines in
              rbind (excel_loop rest) (fun done =>
              Ok ((py "Sheet: " ++ sh_name s ++ [10%N] ++ content,
                   MkSheetEntry (sh_name s) (sh_max_row s) (sh_max_column s) (zlen content)) :: done))
          end
      end
  end.

(** office_parser.py:177-201. *)
Record excel_doc : Type := MkExcelDoc {
  ed_text : pystr;
  ed_names : list pystr;
  ed_sheets : list sheet_entry;
  ed_cells : Z;
  ed_chunks : list chunk
}.

(** [_parse_excel] (office_parser.py:143-201). *)
Definition parse_excel (u : cut_config) (opened : result (list sheet)) : result excel_doc :=
  rbind opened (fun sheets =>
  rbind (excel_loop sheets) (fun done =>
  let full_text := py_join [10; 10]%N (map fst done) in
  rbind (office_chunks u full_text) (fun chunks =>
  Ok (MkExcelDoc full_text (map sh_name sheets) (map snd done)
        (fold_left (fun n e => n + se_rows e * se_columns e)%Z (map snd done) 0%Z) chunks)))).

(** office_parser.py:222-228. *)
Record slide_entry : Type := MkSlideEntry { sl_number : Z; sl_length : Z; sl_shapes : nat }.

(** office_parser.py:213-217: a shape's text, if it has one. *)
Definition slide_text (shapes : list (option pystr)) : list pystr :=
  flat_map (fun shape =>
    match shape with
    | Some t => match py_strip t with [] => [] | s => [s] end
    | None => []
    end) shapes.

(** The start of office_parser.py:221: [f"Slide {slide_num + 1}: "]. *)
Definition slide_label (i : nat) : pystr := py "Slide " ++ str_nat (S i) ++ py ": ".

(** office_parser.py:209-228. *)
Definition pptx_slides (slides : list (list (option pystr))) : list (pystr * slide_entry) :=
  flat_map (fun '(i, shapes) =>
    match slide_text shapes with
    | [] => []
    | texts =>
        let content := py_join [10]%N texts in
        [(slide_label i ++ content, MkSlideEntry (Z.of_nat i + 1) (zlen content) (length texts))]
    end) (enumerate slides).

(** office_parser.py:230-253. *)
Record pptx_doc : Type := MkPptxDoc {
  sd_text : pystr;
  sd_slides : nat;
  sd_entries : list slide_entry;
  sd_chunks : list chunk;
  sd_minutes : nat
}.

(** [_parse_pptx] (office_parser.py:203-253). *)
Definition parse_pptx (u : cut_config) (opened : result (list (list (option pystr)))) : result pptx_doc :=
  rbind opened (fun slides =>
  let done := pptx_slides slides in
  let full_text := py_join [10; 10]%N (map fst done) in
  rbind (office_chunks u full_text) (fun chunks =>
  Ok (MkPptxDoc full_text (length slides) (map snd done) chunks (reading_time full_text)))).

(** The answers of [_parse_docx], [_parse_excel] and [_parse_pptx]. *)
Inductive office_doc : Type :=
| Word (d : docx_doc)
| Excel (d : excel_doc)
| Slides (d : pptx_doc).

(** What the three libraries make of the file; office_parser.py:79, 147, 207. *)
Record office_file : Type := MkOfficeFile {
  of_docx : result docx;
  of_excel : result (list sheet);
  of_pptx : result (list (list (option pystr)))
}.

(** [parse] (office_parser.py:42-73). *)
Definition office_parse (lower : pystr -> pystr) (u : cut_config) (extract_tables : bool) (max_size : Z)
    (x : source) (f : office_file) : result (Z * office_doc) :=
  guarded lower ClsOffice max_size x (fun size =>
  let suffix := lower (path_suffix (x_path x)) in
  answer (fun d => (size, d))
    (if eqb suffix (py ".docx") then answer Word (parse_docx u extract_tables (of_docx f))
     else if memb suffix [py ".xlsx"; py ".xls"] then answer Excel (parse_excel u (of_excel f))
     else if eqb suffix (py ".pptx") then answer Slides (parse_pptx u (of_pptx f))
     else Raise EParsing)).

(** ** docling_parser.py *)

Section Docling.
  (** Table and figure records. *)
  Context {T G : Type}.

  (** An element of the converted document: its text and its label, if it has them, and what
      [_extract_table_data] and [_extract_figure_data] (docling_parser.py:140-163) make of it:
      None for the empty dictionary they return when a property raises. *)
  Record element : Type := MkElement {
    el_text : option pystr;
    el_label : option pystr;
    el_table : option T;
    el_figure : option G
  }.

  (** docling_parser.py:100-133. *)
  Record docling_doc : Type := MkDoclingDoc {
    gd_text : pystr;
    gd_size : Z;
    gd_elements : nat;
    gd_tables : list T;
    gd_figures : list G;
    gd_chunks : list chunk;
    gd_minutes : nat
  }.

  (** docling_parser.py:77-78. *)
  Definition element_text (e : element) : list pystr :=
    match el_text e with
    | Some t => match py_strip t with [] => [] | s => [s] end
    | None => []
    end.

  (** docling_parser.py:83-84 and 93-94: the option is set and the label, lower-cased, contains
      the word. *)
  Definition labelled (lower : pystr -> pystr) (word : pystr) (e : element) : bool :=
    match el_label e with Some l => py_in word (lower l) | None => false end.

  (** docling_parser.py:81-88. *)
  Definition element_table (lower : pystr -> pystr) (wanted : bool) (e : element) : list T :=
    if wanted && labelled lower (py "table") e
    then match el_table e with Some t => [t] | None => [] end else [].

  (** docling_parser.py:91-98. *)
  Definition element_figure (lower : pystr -> pystr) (wanted : bool) (e : element) : list G :=
    if wanted && labelled lower (py "figure") e
    then match el_figure e with Some f => [f] | None => [] end else [].

  (** [parse] (docling_parser.py:48-138). *)
  Definition docling_parse (lower : pystr -> pystr) (size : Z) (tables figures : bool) (max_size : Z)
      (x : source) (opened : result (list element)) : result docling_doc :=
    guarded lower ClsDocling max_size x (fun bytes =>
    rbind opened (fun elements =>
    let text_content := flat_map element_text elements in
    let full_text := py_join [10]%N text_content in
    Ok (MkDoclingDoc full_text bytes (length text_content)
          (flat_map (element_table lower tables) elements)
          (flat_map (element_figure lower figures) elements)
          (docling_chunks size text_content) (reading_time full_text)))).
End Docling.
