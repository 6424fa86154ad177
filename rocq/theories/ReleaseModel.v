(** Model of the release scripts: /repo/scripts/release.py and /repo/scripts/clean_dist.py.

    The name and version are read from the texts of pyproject.toml and setup.cfg by the regular
    expressions of the scripts.  The dist directory is a list of entries; building, installing,
    uploading, the environment and the person asked are arbitrary answers.  What is printed is left
    out. *)

From Coq Require Import String List Arith ZArith NArith Bool.
From Verif Require Import PyBase PyMore PyValue ChunkModel StorageModel ExtractModel.
Import ListNotations.
Open Scope py_scope.
Open Scope nat_scope.

(** ** The name and the version *)

(** The rest of [s] after [p], if [s] starts with it (a literal in the patterns of
    release.py:33-34, 42, 45-46). *)
Fixpoint after_prefix (p s : pystr) : option pystr :=
  match p, s with
  | [], _ => Some s
  | c :: p', d :: s' => if (c =? d)%N then after_prefix p' s' else None
  | _ :: _, [] => None
  end.

(** [s.startswith(p)]; release.py:81. *)
Definition starts_with (p s : pystr) : bool := match after_prefix p s with Some _ => true | None => false end.

(** The longest start of [s] whose characters satisfy [p], and the rest (the repeated classes of
    release.py:33-34, 45-46). *)
Fixpoint span (p : N -> bool) (s : pystr) : pystr * pystr :=
  match s with
  | [] => ([], [])
  | c :: s' => if p c then let '(a, b) := span p s' in (c :: a, b) else ([], s)
  end.

(** Blanks, the key, blanks, the equals sign, blanks: the rest after them; release.py:33-34, 45-46. *)
Definition after_key (key s : pystr) : option pystr :=
  match after_prefix key (drop_space s) with
  | Some s2 =>
      match after_prefix (py "=") (drop_space s2) with
      | Some s3 => Some (drop_space s3)
      | None => None
      end
  | None => None
  end.

(** The pattern of release.py:33-34 at a place, after the caret: blanks, the key, blanks, the
    equals sign, blanks, and a value in double quotes that is not empty.  The value is returned. *)
Definition quoted_value (key s : pystr) : option pystr :=
  match after_key key s with
  | Some s2 =>
      match after_prefix [34%N] s2 with
      | Some s3 =>
          match span (fun c => negb (c =? 34)%N) s3 with
          | ((_ :: _) as v, 34%N :: _) => Some v
          | _ => None
          end
      | None => None
      end
  | None => None
  end.

(** The pattern of release.py:45-46 at a place: the value. *)
Definition bare_value (key s : pystr) : option pystr :=
  match after_key key s with
  | Some s2 => match fst (span (fun c => negb (py_space c)) s2) with [] => None | v => Some v end
  | None => None
  end.

(** [re.search] with a caret and [re.M]: the first place at the start of a line where the pattern
    matches; [line_start] says whether [s] is at one; release.py:33-34, 45-46. *)
Fixpoint search_lines (m : pystr -> option pystr) (line_start : bool) (s : pystr) : option pystr :=
  match (if line_start then m s else None) with
  | Some v => Some v
  | None => match s with [] => None | c :: s' => search_lines m (c =? 10)%N s' end
  end.

(** release.py:31-37, clean_dist.py:18-24. *)
Definition parse_pyproject (text : pystr) : option (pystr * pystr) :=
  match search_lines (quoted_value (py "name")) true text,
        search_lines (quoted_value (py "version")) true text with
  | Some n, Some v => Some (n, v)
  | _, _ => None
  end.

(** The rest of [s] after the first place where [sub] is found; release.py:42. *)
Fixpoint after_first (sub s : pystr) : option pystr :=
  match after_prefix sub s with
  | Some r => Some r
  | None => match s with [] => None | _ :: s' => after_first sub s' end
  end.

(** [s] up to the first place where [sub] is found, all of it if there is none; release.py:42. *)
Fixpoint up_to (sub s : pystr) : pystr :=
  match after_prefix sub s with
  | Some _ => []
  | None => match s with [] => [] | c :: s' => c :: up_to sub s' end
  end.

(** release.py:40-49, clean_dist.py:27-37. *)
Definition parse_setup_cfg (text : pystr) : option (pystr * pystr) :=
  match after_first (py "[metadata]") text with
  | Some rest =>
      let section := up_to ([10%N] ++ py "[") rest in
      match search_lines (bare_value (py "name")) true section,
            search_lines (bare_value (py "version")) true section with
      | Some n, Some v => Some (py_strip n, py_strip v)
      | _, _ => None
      end
  | None => None
  end.

(** release.py:52-64, clean_dist.py:40-59; [None] is the exit.  A file that does not exist is
    [None]. *)
Definition get_name_version (pyproject setup_cfg : option pystr) : option (pystr * pystr) :=
  match match pyproject with Some t => parse_pyproject t | None => None end with
  | Some nv => Some nv
  | None => match setup_cfg with Some t => parse_setup_cfg t | None => None end
  end.

(** ** Old distributions *)

(** An entry of dist: its name, whether it is a file, and whether it can be deleted;
    release.py:76-100. *)
Record dist_entry : Type := MkEntry { de_name : pystr; de_file : bool; de_deletable : bool }.

(** release.py:79. *)
Definition dist_suffixes : list pystr := [py ".whl"; py ".tar.gz"; py ".zip"; py ".tar.bz2"].

(** release.py:75-82, clean_dist.py:66-75. *)
Definition is_old (name version : pystr) (e : dist_entry) : bool :=
  de_file e && existsb (fun x => ends_with x (de_name e)) dist_suffixes &&
  (starts_with (name ++ py "-") (de_name e) && negb (py_in (name ++ py "-" ++ version) (de_name e))).

(** [p.unlink()] for each of the old files, failures being printed only; release.py:96-101,
    clean_dist.py:86-90. *)
Definition unlink_old (name version : pystr) (dist : list dist_entry) : list dist_entry :=
  filter (fun e => negb (is_old name version e && de_deletable e)) dist.

(** [clean_old_dists] (release.py:67-102): the files listed and the directory afterwards.  [None]: there
    is no directory. *)
Definition clean_old_dists (name version : pystr) (dry_run : bool) (dist : option (list dist_entry)) :
    list dist_entry * option (list dist_entry) :=
  match dist with
  | None => ([], None)
  | Some d =>
      let removed := filter (is_old name version) d in
      if dry_run then (removed, dist) else (removed, Some (unlink_old name version d))
  end.

(** [main] of clean_dist.py:40-92: the exit code and the directory afterwards. *)
Definition clean_dist_main (pyproject setup_cfg : option pystr) (dist : option (list dist_entry)) :
    nat * option (list dist_entry) :=
  match get_name_version pyproject setup_cfg with
  | None => (1, dist)
  | Some (name, version) => (0, snd (clean_old_dists name version false dist))
  end.

(** ** The release *)

(** The arguments of release.py:163-183. *)
Record release_args : Type := MkArgs { ra_yes : bool; ra_dry_run : bool; ra_test : bool; ra_skip_clean : bool }.

(** What the script meets: release.py:187, 199, 109-137, 217-218, 228-232.  [rw_build n] is the [n]-th run
    of the build: whether it succeeds and what dist holds afterwards; [rw_pip] whether the
    installation does; [rw_answer] the line typed; [rw_token] whether the variable of that name is set;
    [rw_upload] the exit code of twine. *)
Record release_world : Type := MkWorld {
  rw_pyproject : option pystr;
  rw_setup_cfg : option pystr;
  rw_answer : pystr;
  rw_build : nat -> option (list dist_entry) -> bool * list dist_entry;
  rw_pip : bool;
  rw_token : pystr -> bool;
  rw_pypirc : bool;
  rw_upload : nat
}.

(** What has been sent: to the test server or the real one, with a token or not, and which
    entries (all of dist); release.py:153-159. *)
Record upload : Type := MkUpload { up_test : bool; up_token : bool; up_entries : list dist_entry }.

(** How the script ends: with an exit code, or with an exception of the build; what dist holds; what
    was handed to twine. *)
Record release_end : Type := MkEnd {
  re_code : option nat;
  re_dist : option (list dist_entry);
  re_upload : option upload
}.

(** [run_build] (release.py:105-137): whether it returns, and what dist holds. *)
Definition run_build (w : release_world) (dist : option (list dist_entry)) : bool * option (list dist_entry) :=
  let '(ok, d) := rw_build w 0 dist in
  if ok then (true, Some d)
  else if rw_pip w then let '(ok', d') := rw_build w 1 (Some d) in (ok', Some d')
  else (false, Some d).

(** [main] (release.py:162-235).  [lower] is [str.lower]. *)
Definition release_main (lower : pystr -> pystr) (a : release_args) (w : release_world) (dist : option (list dist_entry)) :
    release_end :=
  match get_name_version (rw_pyproject w) (rw_setup_cfg w) with
  | None => MkEnd (Some 2) dist None
  | Some (name, version) =>
      let '(removed, dist1) :=
        if ra_skip_clean a then ([], dist)
        else clean_old_dists name version (ra_dry_run a || negb (ra_yes a)) dist in
      let asked := match removed with [] => false | _ => negb (ra_dry_run a) && negb (ra_yes a) end in
      if asked && negb (memb (lower (py_strip (rw_answer w))) [py "y"; py "yes"]) then MkEnd (Some 1) dist1 None
      else if ra_dry_run a then MkEnd (Some 0) dist1 None
      else
        match run_build w dist1 with
        | (false, dist2) => MkEnd None dist2 None
        | (true, dist2) =>
            let token := rw_token w (if ra_test a then py "TEST_PYPI_API_TOKEN" else py "PYPI_API_TOKEN") in
            if negb token && negb (rw_pypirc w) then MkEnd (Some 1) dist2 None
            else
              let sent := MkUpload (ra_test a) token (match dist2 with Some d => d | None => [] end) in
              MkEnd (Some (rw_upload w)) dist2 (Some sent)
        end
  end.
