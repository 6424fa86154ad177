(** Model of processors/cleaning.py. *)

From Coq Require Import String List Arith ZArith NArith Bool.
From Verif Require Import PyBase PyMore PyValue ChunkModel.
Import ListNotations.
Open Scope nat_scope.

(** What the library functions do to a text: [html.unescape], NFKD normalisation, replacement of
    the matches of the configured pattern by spaces, [str.lower].  They are not modelled: every
    theorem is for all of them. *)
Record text_lib : Type := MkLib {
  l_unescape : pystr -> pystr;
  l_nfkd : pystr -> pystr;
  l_special : pystr -> pystr;
  l_lower : pystr -> pystr
}.

(** cleaning.py:22-37; [w_stopwords] is the set made by [initialize], cleaning.py:45-79. *)
Record clean_config : Type := MkClean {
  w_html : bool;
  w_space : bool;
  w_special : bool;
  w_unicode : bool;
  w_extra : bool;
  w_lower : bool;
  w_stop : bool;
  w_stopwords : list pystr;
  w_min : Z;
  w_max : Z
}.

(** A configuration without any option: the defaults of cleaning.py:25-37. *)
Definition default_cleaning : clean_config := MkClean true true false true true false false [] 1 50.

(** cleaning.py:130: [re.sub(r"<[^>]+>", "", text)].  A match starts at a "<" that is not
    followed by ">" at once but by some ">" later, and ends with the first of those; [skip] is
    set inside a match. *)
Fixpoint remove_tags (skip : bool) (s : pystr) : pystr :=
  match s with
  | [] => []
  | c :: r =>
      if skip then (if (c =? 62)%N then remove_tags false r else remove_tags true r)
      else if (c =? 60)%N && match r with [] => false | d :: _ => negb (d =? 62)%N end && memb 62%N r
           then remove_tags true r
           else c :: remove_tags false r
  end.

(** [re.sub(p + "+", " ", text)] for a class [p] of characters: cleaning.py:143 and 149.
    [in_run] is set inside a match. *)
Fixpoint sub_runs (p : N -> bool) (in_run : bool) (s : pystr) : pystr :=
  match s with
  | [] => []
  | c :: r =>
      if p c then (if in_run then sub_runs p true r else 32%N :: sub_runs p true r)
      else c :: sub_runs p false r
  end.

(** [text.split()]: [word] is the word being read, in reverse. *)
Fixpoint split_words (word : pystr) (s : pystr) : list pystr :=
  match s with
  | [] => match word with [] => [] | _ => [rev word] end
  | c :: r =>
      if py_space c then match word with [] => split_words [] r | _ => rev word :: split_words [] r end
      else split_words (c :: word) r
  end.
Definition py_split (s : pystr) : list pystr := split_words [] s.

(** cleaning.py:127-138: the steps before the white space. *)
Definition prepare (lib : text_lib) (w : clean_config) (text : pystr) : pystr :=
  let text := if w_html w then remove_tags false (l_unescape lib text) else text in
  let text := if w_unicode w then l_nfkd lib text else text in
  if w_special w then l_special lib text else text.

(** cleaning.py:161-162. *)
Definition keep_word (lib : text_lib) (w : clean_config) (word : pystr) : bool :=
  negb (memb (l_lower lib word) (w_stopwords w)) && (w_min w <=? zlen word)%Z && (zlen word <=? w_max w)%Z.

(** cleaning.py:122-166. *)
Definition clean_text (lib : text_lib) (w : clean_config) (text : pystr) : pystr :=
  match text with
  | [] => []
  | _ =>
      let text := prepare lib w text in
      let text := if w_space w then py_strip (sub_runs py_space false text) else text in
      let text := if w_extra w then sub_runs (N.eqb 32) false text else text in
      let text := if w_lower w then l_lower lib text else text in
      if w_stop w && negb (eqb (w_stopwords w) []) then
        py_join (py " ") (filter (keep_word lib w) (py_split text))
      else text
  end.

(** The entries of the document data that the processors read or write. *)
Record document : Type := MkDoc { d_text : option pystr; d_chunks : option (list chunk) }.

Definition with_text (c : chunk) (text : pystr) : chunk := MkChunk (c_id c) text (c_start c) (c_end c).

(** cleaning.py:83-120 of an initialised processor; the statistics are left out. *)
Definition clean_process (lib : text_lib) (w : clean_config) (d : document) : document :=
  MkDoc (option_map (clean_text lib w) (d_text d))
        (option_map (map (fun c => with_text c (clean_text lib w (c_text c)))) (d_chunks d)).

(** chunking.py:62-86. *)
Definition chunk_document (k : chunk_config) (d : document) : result document :=
  match d_text d with
  | None => Raise EProcessing
  | Some text => rbind (chunk_process k text) (fun cs => Ok (MkDoc (d_text d) (Some cs)))
  end.
