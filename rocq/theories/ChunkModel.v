(** Model of the text cutters: processors/chunking.py and the [_create_chunks] methods of
    parsers/text_parser.py, pdf_parser.py, office_parser.py and docling_parser.py.

    Sizes and overlaps are integers.  A chunk's "length" is the length of its text and its
    "metadata" are constants of the strategy, so both are left out. *)

From Coq Require Import String List Arith ZArith NArith Bool.
From Verif Require Import PyBase PyMore PyValue.
Import ListNotations.
Open Scope nat_scope.

(** [len(s)] as an integer. *)
Definition zlen {A} (l : list A) : Z := Z.of_nat (length l).

(** ** [str.rfind] *)

(** [sub] occurs in [s] at [p]. *)
Definition occurs_at (s sub : pystr) (p : nat) : bool :=
  eqb (firstn (length sub) (skipn p s)) sub.

(** The last of the positions [lo], ..., [lo + n] where [sub] occurs. *)
Fixpoint rfind_down (s sub : pystr) (lo n : nat) : Z :=
  if occurs_at s sub (lo + n) then Z.of_nat (lo + n)
  else match n with
       | O => (-1)%Z
       | S n' => rfind_down s sub lo n'
       end.

(** CPython's treatment of the bounds: negative ones count from the end, the right one is
    clamped to the length. *)
Definition adjust (n k : Z) : Z := if (k <? 0)%Z then Z.max 0 (k + n) else k.

(** [s.rfind(sub, start, end)]. *)
Definition py_rfind (s sub : pystr) (start end_ : Z) : Z :=
  let n := zlen s in
  let e := Z.min n (adjust n end_) in
  let b := adjust n start in
  if (e - b <? zlen sub)%Z then (-1)%Z
  else rfind_down s sub (Z.to_nat b) (Z.to_nat (e - b - zlen sub)).

(** ** Chunks *)

Record chunk : Type := MkChunk { c_id : nat; c_text : pystr; c_start : Z; c_end : Z }.

(** The loop shared by chunking.py:94-121, text_parser.py:135-161, pdf_parser.py:175-205 and
    office_parser.py:272-294, with the chunker's own choice of the end of a piece.  Running out
    of [fuel] is an assertion error here; the theorems show that it never happens. *)
Fixpoint cut_loop (text : pystr) (end_of : Z -> Z) (overlap : Z) (fuel : nat) (start : Z) (id : nat) :
    result (list chunk) :=
  if (start <? zlen text)%Z then
    match fuel with
    | O => Raise EAssert
    | S fuel' =>
        let end_ := end_of start in
        let chunk_text := py_strip (slice start end_ text) in
        let next := Z.max (end_ - overlap) (start + 1) in
        match chunk_text with
        | [] => cut_loop text end_of overlap fuel' next id
        | _ =>
            rbind (cut_loop text end_of overlap fuel' next (S id)) (fun rest =>
            Ok (MkChunk id chunk_text start end_ :: rest))
        end
    end
  else Ok [].

Definition cut (text : pystr) (end_of : Z -> Z) (overlap : Z) : result (list chunk) :=
  cut_loop text end_of overlap (length text) 0 0.

(** ** processors/chunking.py *)

Inductive strategy : Type := FixedSize | Semantic | SlidingWindow | OtherStrategy.

(** chunking.py:22-37.  [preserve_whitespace] is not used by the code. *)
Record chunk_config : Type := MkChunkConfig {
  k_strategy : strategy;
  k_size : Z;
  k_overlap : Z;
  k_min : Z;
  k_max : Z;
  k_separators : list pystr
}.

(** A configuration without any option: the defaults of chunking.py:25-35. *)
Definition default_separators : list pystr :=
  [[10; 10]; [10]; py ". "; py "! "; py "? "; py " "]%N.
Definition default_chunking : chunk_config :=
  MkChunkConfig FixedSize 1000 100 50 2000 default_separators.

(** chunking.py:39-47: what [initialize] accepts. *)
Definition chunk_initialize (k : chunk_config) : result unit :=
  if (k_size k <=? 0)%Z then Raise EProcessing
  else if (k_size k <=? k_overlap k)%Z then Raise EProcessing
  else Ok tt.

(** chunking.py:214-225. *)
Fixpoint best_break (text : pystr) (lo start end_ : Z) (seps : list pystr) : Z :=
  match seps with
  | [] => end_
  | sep :: seps' =>
      let break_pos := py_rfind text sep start end_ in
      if (lo <? break_pos)%Z then (break_pos + zlen sep)%Z
      else best_break text lo start end_ seps'
  end.

Definition find_best_break (k : chunk_config) (text : pystr) (start end_ : Z) : Z :=
  best_break text (start + k_min k) start end_ (k_separators k).

(** chunking.py:95-101. *)
Definition fixed_end (k : chunk_config) (text : pystr) (start : Z) : Z :=
  let end_ := Z.min (start + k_size k) (zlen text) in
  if (end_ <? zlen text)%Z then
    let best := find_best_break k text start end_ in
    if (start + k_min k <? best)%Z then best else end_
  else end_.

(** chunking.py:88-123. *)
Definition fixed_size_chunking (k : chunk_config) (text : pystr) : result (list chunk) :=
  cut text (fixed_end k text) (k_overlap k).

(** [text.split("\n\n")]. *)
Fixpoint split_paragraphs (text : pystr) : list pystr :=
  match text with
  | [] => [[]]
  | c :: rest =>
      match rest with
      | c2 :: rest2 =>
          if (c =? 10)%N && (c2 =? 10)%N then [] :: split_paragraphs rest2
          else match split_paragraphs rest with
               | p :: ps => (c :: p) :: ps
               | [] => [[c]]
               end
      | [] => [[c]]
      end
  end.

(** The variables of the loop of chunking.py:133-168; the chunks so far in reverse. *)
Record sem_state : Type := MkSem { m_chunks : list chunk; m_current : pystr; m_start : Z; m_id : nat }.

(** chunking.py:143-155 and 171-182. *)
Definition sem_chunk (s : sem_state) : chunk :=
  MkChunk (m_id s) (py_strip (m_current s)) (m_start s) (m_start s + zlen (m_current s)).

(** chunking.py:135-168. *)
Definition sem_step (k : chunk_config) (s : sem_state) (paragraph0 : pystr) : sem_state :=
  let paragraph := py_strip paragraph0 in
  match paragraph with
  | [] => s
  | _ =>
      match m_current s with
      | [] => MkSem (m_chunks s) paragraph (m_start s) (m_id s)
      | _ =>
          if (k_size k <? zlen (m_current s) + zlen paragraph)%Z then
            let overlap_text :=
              if (k_overlap k <? zlen (m_current s))%Z then slice_from (- k_overlap k) (m_current s) else [] in
            let current := overlap_text ++ paragraph in
            MkSem (sem_chunk s :: m_chunks s) current
                  (Z.max 0 (m_start s + zlen current - k_overlap k)) (S (m_id s))
          else MkSem (m_chunks s) (m_current s ++ [10; 10]%N ++ paragraph) (m_start s) (m_id s)
      end
  end.

(** chunking.py:125-184. *)
Definition semantic_chunking (k : chunk_config) (text : pystr) : list chunk :=
  let s := fold_left (sem_step k) (split_paragraphs text) (MkSem [] [] 0 0) in
  rev (match m_current s with [] => m_chunks s | _ => sem_chunk s :: m_chunks s end).

(** [range(0, n, step)] for a positive step. *)
Definition window_starts (n : nat) (step : Z) : list Z :=
  filter (fun i => (i mod step =? 0)%Z) (map Z.of_nat (seq 0 n)).

(** chunking.py:192-210. *)
Fixpoint windows (k : chunk_config) (text : pystr) (starts : list Z) (id : nat) : list chunk :=
  match starts with
  | [] => []
  | i :: starts' =>
      let end_ := Z.min (i + k_size k) (zlen text) in
      let chunk_text := py_strip (slice i end_ text) in
      if (k_min k <=? zlen chunk_text)%Z then MkChunk id chunk_text i end_ :: windows k text starts' (S id)
      else windows k text starts' id
  end.

(** chunking.py:186-212; the step is positive in an initialised chunker. *)
Definition sliding_window_chunking (k : chunk_config) (text : pystr) : list chunk :=
  windows k text (window_starts (length text) (k_size k - k_overlap k)) 0.

(** chunking.py:227-238. *)
Definition filter_by_size (k : chunk_config) (chunks : list chunk) : list chunk :=
  filter (fun c => (k_min k <=? zlen (c_text c)) && (zlen (c_text c) <=? k_max k))%Z chunks.

(** chunking.py:68-76. *)
Definition raw_chunks (k : chunk_config) (text : pystr) : result (list chunk) :=
  match k_strategy k with
  | FixedSize => fixed_size_chunking k text
  | Semantic => Ok (semantic_chunking k text)
  | SlidingWindow => Ok (sliding_window_chunking k text)
  | OtherStrategy => Raise EProcessing
  end.

(** chunking.py:49-86 of an initialised chunker, for data with a "text"; the other entries of
    the data are copied and the statistics left out. *)
Definition chunk_process (k : chunk_config) (text : pystr) : result (list chunk) :=
  rbind (raw_chunks k text) (fun chunks => Ok (filter_by_size k chunks)).

(** ** Parsers *)

(** The options of text_parser.py:27-28, pdf_parser.py:26-27 and office_parser.py:26-27. *)
Record cut_config : Type := MkCutConfig { u_size : Z; u_overlap : Z }.

(** text_parser.py:136-145. *)
Definition text_end (u : cut_config) (text : pystr) (start : Z) : Z :=
  let end_ := Z.min (start + u_size u) (zlen text) in
  if (end_ <? zlen text)%Z then
    let break_point := Z.max (py_rfind text (py ".") start end_) (py_rfind text [10%N] start end_) in
    if (start + u_size u / 2 <? break_point)%Z then (break_point + 1)%Z else end_
  else end_.

(** text_parser.py:129-163. *)
Definition text_chunks (u : cut_config) (text : pystr) : result (list chunk) :=
  cut text (text_end u text) (u_overlap u).

(** pdf_parser.py:176-182. *)
Definition pdf_end (u : cut_config) (text : pystr) (start : Z) : Z :=
  let end_ := Z.min (start + u_size u) (zlen text) in
  if (end_ <? zlen text)%Z then
    let last_newline := py_rfind text [10; 10]%N start end_ in
    if (start + u_size u / 2 <? last_newline)%Z then (last_newline + 2)%Z else end_
  else end_.

(** What [page_metadata] says about a page: number and length of the text. *)
Definition page_info : Type := (Z * Z)%type.

(** pdf_parser.py:209-216. *)
Fixpoint page_from (current position : Z) (pages : list page_info) : option Z :=
  match pages with
  | [] => None
  | (number, len) :: pages' =>
      if (position <? current + len)%Z then Some number
      else page_from (current + len) position pages'
  end.

Definition page_for_position (position : Z) (pages : list page_info) : Z :=
  match page_from 0 position pages with
  | Some number => number
  | None => match rev pages with (number, _) :: _ => number | [] => 1%Z end
  end.

(** pdf_parser.py:167-207: each chunk with its page number. *)
Definition pdf_chunks (u : cut_config) (text : pystr) (pages : list page_info) : result (list (chunk * Z)) :=
  rbind (cut text (pdf_end u text) (u_overlap u)) (fun cs =>
  Ok (map (fun c => (c, page_for_position (c_start c) pages)) cs)).

(** [sep.join(parts)]. *)
Fixpoint py_join (sep : pystr) (parts : list pystr) : pystr :=
  match parts with
  | [] => []
  | [p] => p
  | p :: ps => p ++ sep ++ py_join sep ps
  end.

(** pdf_parser.py:64-87: the text and the page information made from the texts of the pages.
    Pages that cannot be read count as empty; the images are left out. *)
Definition pdf_pages (texts : list pystr) : list (Z * pystr) :=
  filter (fun p => negb (eqb (py_strip (snd p)) [])) (map (fun p => (Z.of_nat (fst p) + 1, snd p)%Z) (enumerate texts)).
Definition pdf_text (texts : list pystr) : pystr := py_join [10; 10]%N (map snd (pdf_pages texts)).
Definition pdf_info (texts : list pystr) : list page_info :=
  map (fun p => (fst p, zlen (snd p))) (pdf_pages texts).

(** office_parser.py:273-279. *)
Definition office_end (u : cut_config) (text : pystr) (start : Z) : Z :=
  let end_ := Z.min (start + u_size u) (zlen text) in
  if (end_ <? zlen text)%Z then
    let last_newline := py_rfind text [10%N] start end_ in
    if (start + u_size u / 2 <? last_newline)%Z then (last_newline + 1)%Z else end_
  else end_.

(** office_parser.py:264-296. *)
Definition office_chunks (u : cut_config) (text : pystr) : result (list chunk) :=
  cut text (office_end u text) (u_overlap u).

(** ** docling_parser.py *)

(** A chunk of docling_parser.py:178-189: "start_element" and "end_element" as [c_start] and
    [c_end]. *)
Definition docling_chunk (size : Z) (id : nat) (text : pystr) (last : Z) : chunk :=
  MkChunk id (py_strip text) (Z.of_nat id * size) last.

(** docling_parser.py:173-206: [i] is the position of the next element. *)
Fixpoint docling_loop (size : Z) (total : Z) (elements : list pystr) (i : Z) (id : nat) (current : pystr) :
    list chunk :=
  match elements with
  | [] => match py_strip current with
          | [] => []
          | _ => [docling_chunk size id current (total - 1)]
          end
  | e :: elements' =>
      let current' := current ++ e ++ [10%N] in
      if (size <=? zlen current')%Z then
        docling_chunk size id current' i :: docling_loop size total elements' (i + 1) (S id) []
      else docling_loop size total elements' (i + 1) id current'
  end.

(** docling_parser.py:165-208. *)
Definition docling_chunks (size : Z) (elements : list pystr) : list chunk :=
  docling_loop size (zlen elements) elements 0 0 [].
