(** Properties C01, C02, C04-C07, C10-C12: the storage backends.

    [conforms persistent ordered sized key] (StorageSpec.v) says that the answers of a history are
    those of one ordered list of records; [one_hist] replays a history for a single id. *)

From Coq Require Import List Arith ZArith NArith Bool Permutation.
From Coq Require String.
Import (notations) Coq.Strings.String.
From Verif Require Import PyBase Payload StorageModel StorageSpec StorageRun StorageProofs
  StorageThms Demo.
Import ListNotations.

(** ** C01 *)

Theorem C01_memory_is_map :
  forall (V Mt : Type) `{Payload V Mt} (ops : list (sop V Mt)),
  Forall op_copy ops ->
  conforms false true (Some rec_size) (fun i => i) (MkS false [])
           ops (answers mem_class mem_new ops).
Proof. intros; now apply mem_conforms. Qed.

Theorem C01_memory_reads_last_write :
  forall (V Mt : Type) `{Payload V Mt} (ops : list (sop V Mt)) (id : pystr),
  Forall op_copy ops ->
  read mem_class (after mem_class mem_new ops) id =
  match one_hist false (eqb id) ops with
  | (true, r) => Ok r
  | (false, _) => Raise EStorage
  end.
Proof. intros; now apply mem_read_hist. Qed.

(** A history with a refused id, an overwrite, a failed and a successful update, a deletion. *)
Definition demo_history : list (sop (list Z) Z) :=
  [ OStats; OStore (py "a") [1%Z] None; OInit; OStore (py "") [9%Z] None;
    OStore (py "a") [1%Z] (Some 7%Z); OStore (py "b") [2; 3]%Z None;
    OStore (py "a") [4%Z] None; OUpdate (py "c") [5%Z] None;
    OUpdate (py "b") [6%Z] (Some 8%Z); OList None; OStats; ODelete (py "a"); ODelete (py "a");
    ORetrieve (py "a"); ORetrieve (py "b"); OList (Some 5%Z); OStats; OClose; OReopen; OInit;
    ORetrieve (py "b") ].

Example C01_applies :
  Forall op_copy demo_history /\
  answers mem_class mem_new demo_history =
  [ RStats None; RExn EStorage; RUnit; RBool false; RBool true; RBool true; RBool true;
    RBool false; RBool true; RIds [py "a"; py "b"]; RStats (Some (2%Z, Some 13%N));
    RBool true; RBool false; RRec None; RRec (Some ([6%Z], Some 8%Z)); RIds [py "b"];
    RStats (Some (1%Z, Some 9%N)); RUnit; RUnit; RUnit; RRec None ].
Proof. split; [repeat constructor | vm_compute; reflexivity]. Qed.

(** Metadata without a [copy] method (not a dictionary) makes the map claim false: the call raises
    but the vector has already been replaced. *)
Theorem C01_uncopyable_metadata_refuted :
  exists (ops : list (sop (list Z) Z)),
    answers mem_class mem_new ops = [RUnit; RBool true; RExn EStorage] /\
    read mem_class (after mem_class mem_new ops) (py "a") = Ok (Some ([2%Z], Some 7%Z)).
Proof.
  exists [OInit; OStore (py "a") [1%Z] (Some 7%Z); OStore (py "a") [2%Z] (Some (-1)%Z)].
  vm_compute. auto.
Qed.

(** ** C02 *)

Theorem C02_memory_statistics :
  forall (V Mt : Type) `{Payload V Mt} (ops : list (sop V Mt)) (n : Z) (b : option N),
  Forall op_copy ops ->
  let s := after mem_class mem_new ops in
  fst (sc_stats mem_class s) = Ok (Some (n, b)) ->
  exists ids : list pystr,
    NoDup ids /\
    (forall id, In id ids <-> exists x, read mem_class s id = Ok (Some x)) /\
    n = Z.of_nat (length ids) /\
    b = Some (fold_right (fun id a => read_size mem_class s id + a)%N 0%N ids).
Proof. intros V Mt HP ops n b Ho s Hs; now apply mem_stats_exact. Qed.

Example C02_applies :
  let ops := [OInit; OStore (py "a") [1%Z] (Some 7%Z); OStore (py "b") [2; 3]%Z None;
              OUpdate (py "a") [1; 2; 3]%Z None] in
  Forall op_copy ops /\
  fst (sc_stats mem_class (after mem_class mem_new ops)) = Ok (Some (2%Z, Some 20%N)).
Proof. split; [repeat constructor | vm_compute; reflexivity]. Qed.

(** ** C04 *)

Theorem C04_disk_is_map_on_safe_names :
  forall (V Mt : Type) `{Payload V Mt} `{Unicode} (dirorder : list pystr -> list pystr),
  (forall l, Permutation (dirorder l) l) ->
  forall (key : pystr -> pystr) (ops : list (sop V Mt)),
  (forall i, file_safe isalnum i (key i)) -> Forall op_pickle ops ->
  conforms true false None key (MkS false []) ops
           (answers (disk_class dirorder) (disk_new [] []) ops).
Proof. intros; now apply disk_conforms. Qed.

Theorem C04_disk_reads_last_write :
  forall (V Mt : Type) `{Payload V Mt} `{Unicode} (dirorder : list pystr -> list pystr),
  (forall l, Permutation (dirorder l) l) ->
  forall (key : pystr -> pystr) (ops : list (sop V Mt)) (id : pystr),
  (forall i, file_safe isalnum i (key i)) -> Forall op_pickle ops ->
  read (disk_class dirorder) (after (disk_class dirorder) (disk_new [] []) ops) id =
  match one_hist true (fun j => eqb (key id) (key j)) ops with
  | (true, r) => Ok r
  | (false, _) => Raise EStorage
  end.
Proof. intros; now apply disk_read_hist. Qed.

(** Storing under [i] is seen by exactly the ids with the same file-safe form. *)
Theorem C04_same_record_iff_same_safe_form :
  forall (V Mt : Type) `{Payload V Mt} `{Unicode} (dirorder : list pystr -> list pystr),
  (forall l, Permutation (dirorder l) l) ->
  forall (ops : list (sop V Mt)) (i j : pystr) (v : V) (m : option Mt),
  Forall op_pickle ops -> meta_pickle m -> i <> [] ->
  let s := after (disk_class dirorder) (disk_new [] []) ops in
  d_init s = true ->
  let s' := after (disk_class dirorder) s [OStore i v m] in
  (forall t, file_safe isalnum i t -> file_safe isalnum j t ->
             read (disk_class dirorder) s' j = Ok (Some (v, m))) /\
  ((forall t, file_safe isalnum i t -> ~ file_safe isalnum j t) ->
   read (disk_class dirorder) s' j = read (disk_class dirorder) s j).
Proof. intros V Mt HP HU d Hd ops i j v m; now apply disk_store_read. Qed.

Example C04_applies :
  let ops := [OInit; OStore (py "a b") [1%Z] (Some 7%Z); OStore (py "a_b") [2%Z] None;
              OStore (py "x.y-z") [3%Z] None; ORetrieve (py "a/b"); OList None] in
  Forall op_pickle ops /\ (forall i, file_safe isalnum i (sanitize_id i)) /\
  answers (disk_class demo_order) (disk_new [] []) ops =
  [RUnit; RBool true; RBool true; RBool true; RRec (Some ([2%Z], None));
   RIds [py "x.y-z"; py "a_b"]].
Proof.
  split; [repeat constructor|]. split; [apply sanitize_file_safe | vm_compute; reflexivity].
Qed.

(** ** C05 *)

(** Distinct ids can denote one record, and listing does not give the stored ids back. *)
Theorem C05_distinct_ids_refuted :
  exists (ops : list (sop (list Z) Z)),
    answers (disk_class demo_order) (disk_new [] []) ops =
    [RUnit; RBool true; RBool true; RRec (Some ([2%Z], None)); RIds [py "a_b"]] /\
    ops = [OInit; OStore (py "a b") [1%Z] None; OStore (py "a/b") [2%Z] None;
           ORetrieve (py "a b"); OList None].
Proof. eexists. split; [|reflexivity]. vm_compute. reflexivity. Qed.

(** Missing from the full statement: ids containing characters other than letters, digits, '.',
    '_' and '-'. *)
Theorem C05_distinct_ids_partial :
  forall (V Mt : Type) `{Payload V Mt} `{Unicode} (dirorder : list pystr -> list pystr),
  (forall l, Permutation (dirorder l) l) ->
  forall (ops : list (sop V Mt)),
  Forall op_pickle ops -> Forall (op_id_in (fun i => file_safe isalnum i i)) ops ->
  conforms true false None (fun i => i) (MkS false []) ops
           (answers (disk_class dirorder) (disk_new [] []) ops).
Proof. intros; now apply disk_conforms_plain. Qed.

Example C05_partial_applies :
  let ops := [OInit; OStore (py "a-1") [1%Z] None; OStore (py "b.2_") [2%Z] (Some 3%Z);
              ODelete (py "a-1"); OList None] in
  Forall op_pickle ops /\ Forall (op_id_in (fun i => file_safe isalnum i i)) ops /\
  answers (disk_class demo_order) (disk_new [] []) ops =
  [RUnit; RBool true; RBool true; RBool true; RIds [py "b.2_"]].
Proof.
  split; [repeat constructor|]. split; [|vm_compute; reflexivity].
  plain_ids.
Qed.

(** ** C06 *)

Theorem C06_disk_survives_reopen :
  forall (V Mt : Type) `{Payload V Mt} `{Unicode} (dirorder : list pystr -> list pystr),
  (forall l, Permutation (dirorder l) l) ->
  forall (ops : list (sop V Mt)) (id : pystr) (r : option (V * option Mt)),
  Forall op_pickle ops ->
  let s := after (disk_class dirorder) (disk_new [] []) ops in
  read (disk_class dirorder) s id = Ok r ->
  read (disk_class dirorder) (after (disk_class dirorder) s [OClose; OReopen; OInit]) id = Ok r /\
  read (disk_class dirorder) (after (disk_class dirorder) s [OReopen; OInit]) id = Ok r.
Proof. intros V Mt HP HU d Hd ops id r Ho s Hr; now apply disk_reopen. Qed.

(** The reported count, at any time and in particular right after reopening, is the number of
    records. *)
Theorem C06_disk_count_exact :
  forall (V Mt : Type) `{Payload V Mt} `{Unicode} (dirorder : list pystr -> list pystr),
  (forall l, Permutation (dirorder l) l) ->
  forall (ops : list (sop V Mt)) (n : Z) (b : option N),
  Forall op_pickle ops ->
  let s := after (disk_class dirorder) (disk_new [] []) ops in
  fst (sc_stats (disk_class dirorder) s) = Ok (Some (n, b)) ->
  exists names : list pystr,
    NoDup names /\ n = Z.of_nat (length names) /\
    (forall id t, file_safe isalnum id t ->
       (In t names <-> exists x, read (disk_class dirorder) s id = Ok (Some x))) /\
    (forall t, In t names -> file_safe isalnum t t).
Proof. intros V Mt HP HU d Hd ops n b Ho s Hs; now apply (disk_count_exact d Hd ops n b). Qed.

Example C06_applies :
  let ops := [OInit; OStore (py "a b") [1%Z] (Some 7%Z); OStore (py "c") [2%Z] None;
              OClose; OReopen; OInit; ODelete (py "c")] in
  let s := after (disk_class demo_order) (disk_new [] []) ops in
  Forall op_pickle ops /\
  read (disk_class demo_order) s (py "a b") = Ok (Some ([1%Z], Some 7%Z)) /\
  fst (sc_stats (disk_class demo_order) s) = Ok (Some (1%Z, None)).
Proof. split; [repeat constructor | vm_compute; auto]. Qed.

(** ** C07 *)

(** Whatever calls are made with whatever arguments, every file below the vectors and metadata
    directories has a name that denotes a direct child. *)
Theorem C07_file_names_are_children :
  forall (V Mt : Type) `{Payload V Mt} `{Unicode} (dirorder : list pystr -> list pystr)
         (ops : list (sop V Mt)),
  names_ok (after (disk_class dirorder) (disk_new [] []) ops).
Proof. intros. apply disk_names. split; constructor. Qed.

(** A call carrying an id looks only at files with such names and changes only files with such
    names: two file systems that agree on them give the same answer and still agree afterwards,
    and everything else is as before. *)
Theorem C07_calls_touch_children_only :
  forall (V Mt : Type) `{Payload V Mt} `{Unicode} (dirorder : list pystr -> list pystr)
         (s1 s2 : disk V Mt) (o : sop V Mt),
  id_op o -> agree s1 s2 ->
  fst (sc_step (disk_class dirorder) s1 o) = fst (sc_step (disk_class dirorder) s2 o) /\
  agree (snd (sc_step (disk_class dirorder) s1 o)) (snd (sc_step (disk_class dirorder) s2 o)) /\
  outside_same s1 (snd (sc_step (disk_class dirorder) s1 o)).
Proof. intros V Mt HP HU d s1 s2 o; now apply disk_step_local. Qed.

Example C07_applies :
  let ops := [OInit; OStore (py "../../etc/passwd") [1%Z] (Some 7%Z); OStore (py "..") [2%Z] None] in
  dkeys (d_vectors (after (disk_class demo_order) (disk_new [] []) ops)) =
    [py ".._.._etc_passwd.npy"; py "...npy"] /\
  dkeys (d_metadata (after (disk_class demo_order) (disk_new [] []) ops)) =
    [py ".._.._etc_passwd.pkl"].
Proof. vm_compute. auto. Qed.

(** ** C10 *)

(** With ids of equal file-safe form the answer depends on the memory limit. *)
Theorem C10_limit_invisible_refuted :
  exists ops : list (sop (list Z) Z),
    Forall op_ok ops /\
    answers (hybrid_class demo_order) (hybrid_new 10 [] []) ops =
      [RUnit; RBool true; RBool true; RRec (Some ([1%Z], None))] /\
    answers (hybrid_class demo_order) (hybrid_new 1 [] []) ops =
      [RUnit; RBool true; RBool true; RRec (Some ([2%Z], None))].
Proof.
  exists [OInit; OStore (py "a/b") [1%Z] None; OStore (py "a_b") [2%Z] None;
          ORetrieve (py "a/b")].
  split; [repeat constructor | vm_compute; auto].
Qed.

(** Missing from the full statement: two ids of equal file-safe form used in one history. *)
Theorem C10_hybrid_is_map_partial :
  forall (V Mt : Type) `{Payload V Mt} `{Unicode} (dirorder : list pystr -> list pystr),
  (forall l, Permutation (dirorder l) l) ->
  forall (I : pystr -> Prop) (key : pystr -> pystr) (limit : Z) (ops : list (sop V Mt)),
  separated I -> (forall i, file_safe isalnum i (key i)) ->
  Forall op_ok ops -> Forall (op_id_in I) ops ->
  conforms true false None key (MkS false []) ops
           (answers (hybrid_class dirorder) (hybrid_new limit [] []) ops).
Proof. intros; eapply hybrid_conforms_key; eauto. Qed.

(** Under the same restriction hybrid storage with any limit answers exactly like disk storage. *)
Theorem C10_hybrid_answers_like_disk_partial :
  forall (V Mt : Type) `{Payload V Mt} `{Unicode} (dirorder : list pystr -> list pystr),
  (forall l, Permutation (dirorder l) l) ->
  forall (I : pystr -> Prop) (limit : Z) (ops : list (sop V Mt)),
  separated I -> Forall op_ok ops -> Forall (op_id_in I) ops ->
  answers (hybrid_class dirorder) (hybrid_new limit [] []) ops =
  answers (disk_class dirorder) (disk_new [] []) ops.
Proof. intros V Mt HP HU d Hd I limit ops HS Ho Hi; eapply hybrid_conforms; eauto. Qed.

(** Ids made of safe characters are separated. *)
Lemma plain_separated `{Unicode} : separated (fun i => file_safe isalnum i i).
Proof.
  intros i j t Hi Hj Hit Hjt.
  rewrite (file_safe_sanitize _ _ Hi), (file_safe_sanitize _ _ Hj).
  rewrite <- (file_safe_sanitize _ _ Hit). now apply file_safe_sanitize.
Qed.

Example C10_partial_applies :
  let ops := [OInit; OStore (py "a") [1%Z] None; OStore (py "b") [2%Z] (Some 3%Z);
              ORetrieve (py "a"); OUpdate (py "b") [4%Z] None; ORetrieve (py "b");
              ODelete (py "a"); ORetrieve (py "a"); OList None] in
  separated (fun i => file_safe isalnum i i) /\
  Forall op_ok ops /\ Forall (op_id_in (fun i => file_safe isalnum i i)) ops /\
  answers (hybrid_class demo_order) (hybrid_new 1 [] []) ops =
  [RUnit; RBool true; RBool true; RRec (Some ([1%Z], None)); RBool true;
   RRec (Some ([4%Z], None)); RBool true; RRec None; RIds [py "b"]].
Proof.
  split; [apply plain_separated|]. split; [repeat constructor|].
  split; [|vm_compute; reflexivity].
  plain_ids.
Qed.

(** ** C11 *)

Theorem C11_memory_tier_bounded :
  forall (V Mt : Type) `{Payload V Mt} `{Unicode} (dirorder : list pystr -> list pystr)
         (limit : Z) (ops : list (sop V Mt)),
  Forall op_copy ops ->
  (Z.of_nat (length (m_vectors (h_memory
      (after (hybrid_class dirorder) (hybrid_new limit [] []) ops)))) <= Z.max 1 limit)%Z.
Proof. intros. apply hybrid_bound; auto using Bhyb_new. Qed.

Example C11_applies :
  let ops := [OInit; OStore (py "a") [1%Z] None; OStore (py "b") [2%Z] (Some 3%Z);
              OStore (py "c") [1%Z] None; ORetrieve (py "a")] in
  Forall op_copy ops /\
  dkeys (m_vectors (h_memory (after (hybrid_class demo_order) (hybrid_new 2 [] []) ops))) =
  [py "c"; py "a"].
Proof. split; [repeat constructor | vm_compute; reflexivity]. Qed.

(** ** C12 *)

(** Missing from the full statement: two ids of equal file-safe form used in one history. *)
Theorem C12_hybrid_survives_restart_partial :
  forall (V Mt : Type) `{Payload V Mt} `{Unicode} (dirorder : list pystr -> list pystr),
  (forall l, Permutation (dirorder l) l) ->
  forall (I : pystr -> Prop) (limit : Z) (ops : list (sop V Mt)) (id : pystr)
         (r : option (V * option Mt)),
  separated I -> Forall op_ok ops -> Forall (op_id_in I) ops -> I id ->
  let s := after (hybrid_class dirorder) (hybrid_new limit [] []) ops in
  read (hybrid_class dirorder) s id = Ok r ->
  read (hybrid_class dirorder) (after (hybrid_class dirorder) s [OClose; OReopen; OInit]) id = Ok r /\
  read (hybrid_class dirorder) (after (hybrid_class dirorder) s [OReopen; OInit]) id = Ok r.
Proof. intros V Mt HP HU d Hd I limit ops id r HS Ho Hi HI s Hr; eapply hybrid_reopen; eauto. Qed.

Theorem C12_restart_changes_answer_refuted :
  exists (ops : list (sop (list Z) Z)) (id : pystr),
    Forall op_ok ops /\
    let s := after (hybrid_class demo_order) (hybrid_new 10 [] []) ops in
    read (hybrid_class demo_order) s id = Ok (Some ([1%Z], None)) /\
    read (hybrid_class demo_order)
         (after (hybrid_class demo_order) s [OClose; OReopen; OInit]) id = Ok (Some ([2%Z], None)).
Proof.
  exists [OInit; OStore (py "a/b") [1%Z] None; OStore (py "a_b") [2%Z] None], (py "a/b").
  split; [repeat constructor | vm_compute; auto].
Qed.

Example C12_partial_applies :
  let ops := [OInit; OStore (py "a") [1%Z] None; OStore (py "b") [2%Z] (Some 3%Z);
              OUpdate (py "a") [5%Z] (Some 4%Z)] in
  separated (fun i => file_safe isalnum i i) /\ Forall op_ok ops /\
  Forall (op_id_in (fun i => file_safe isalnum i i)) ops /\ file_safe isalnum (py "a") (py "a") /\
  read (hybrid_class demo_order)
       (after (hybrid_class demo_order) (hybrid_new 1 [] []) ops) (py "a") =
  Ok (Some ([5%Z], Some 4%Z)).
Proof.
  split; [apply plain_separated|]. split; [repeat constructor|].
  split; [|split; [|vm_compute; reflexivity]].
  all: plain_ids.
Qed.

Print Assumptions C01_memory_is_map.
Print Assumptions C01_memory_reads_last_write.
Print Assumptions C02_memory_statistics.
Print Assumptions C04_disk_is_map_on_safe_names.
Print Assumptions C04_disk_reads_last_write.
Print Assumptions C04_same_record_iff_same_safe_form.
Print Assumptions C05_distinct_ids_partial.
Print Assumptions C06_disk_survives_reopen.
Print Assumptions C06_disk_count_exact.
Print Assumptions C07_file_names_are_children.
Print Assumptions C07_calls_touch_children_only.
Print Assumptions C10_hybrid_is_map_partial.
Print Assumptions C10_hybrid_answers_like_disk_partial.
Print Assumptions C11_memory_tier_bounded.
Print Assumptions C12_hybrid_survives_restart_partial.
