(** Model of which files the built-in parsers take: [pathlib.PurePosixPath.suffix], the
    [get_supported_formats] and [can_parse] of the four parser classes of
    /repo/src/valori/parsers, and their use by the registry (PipelineModel.v). *)

From Coq Require Import String List Arith ZArith NArith Bool.
From Verif Require Import PyBase PyMore ChunkModel PipelineModel.
Import ListNotations.
Open Scope py_scope.

(** [path.split('/')]. *)
Fixpoint split_slash (s : pystr) : list pystr :=
  match s with
  | [] => [[]]
  | c :: r =>
      match split_slash r with
      | [] => [[c]]                                                 (* not reached *)
      | w :: ws => if N.eqb c 47 then [] :: w :: ws else (c :: w) :: ws
      end
  end.

(** [Path(path).name] on a POSIX system: the last component, components that are empty or a dot
    left out; the empty string if there is none. *)
Definition path_name (path : pystr) : pystr :=
  last (filter (fun w => negb (eqb w []) && negb (eqb w (py "."))) (split_slash path)) [].

(** [PurePath.suffix] of Python 3.8 to 3.13: [i = name.rfind('.')], the rest of the name from
    there if [0 < i < len(name) - 1]. *)
Definition path_suffix (path : pystr) : pystr :=
  let name := path_name path in
  let i := py_rfind name (py ".") 0 (zlen name) in
  if (0 <? i)%Z && (i <? zlen name - 1)%Z then skipn (Z.to_nat i) name else [].

(** [get_supported_formats] of the four classes; text_parser.py:95-97, pdf_parser.py:158-160,
    office_parser.py:255-257, docling_parser.py:210-212; for a class of the user's own an
    argument. *)
Definition class_formats (user : N -> list pystr) (cls : parser_class) : list pystr :=
  match cls with
  | ClsText => [py ".txt"; py ".md"; py ".rst"; py ".log"; py ".csv"]
  | ClsPdf => [py ".pdf"]
  | ClsOffice => [py ".docx"; py ".xlsx"; py ".xls"; py ".pptx"]
  | ClsDocling => [py ".pdf"; py ".docx"; py ".pptx"; py ".html"; py ".xml"; py ".txt"]
  | ClsUser n => user n
  end.

(** [can_parse]: the lower-cased suffix is among the formats; text_parser.py:99-102,
    pdf_parser.py:162-165, office_parser.py:259-262, docling_parser.py:214-217.  A class of the
    user's own is taken to do the same.  [str.lower] is an argument. *)
Definition class_can_parse (lower : pystr -> pystr) (user : N -> list pystr)
    (cls : parser_class) (file : pystr) : result bool :=
  Ok (memb (lower (path_suffix file)) (class_formats user cls)).

(** Construction and [initialize]: fails when a library the class needs is missing or its
    configuration is bad; a parser is represented by its class. *)
Definition class_build (usable : parser_class -> conf -> bool) (cls : parser_class) (c : conf)
    : result parser_class :=
  if usable cls c then Ok cls else Raise EParsing.
