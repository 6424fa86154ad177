(** C78, C79, C91, C92, C93: the chunkers of the document parsers. *)

From Coq Require Import String List Arith ZArith NArith Lia Bool Sorted.
From Coq Require Import ZifyBool ZifyNat.
From Verif Require Import PyBase PyMore PyValue BaseLemmas ChunkModel ChunkProofs.
Import ListNotations.
Open Scope Z_scope.

(** ** C92: where the pieces end *)

(** The window of a piece that is not the last: [size] characters from [start]; [p] is the last
    place in it where one of the [breaks] is found, if that lies in its second half. *)
Inductive break_point (text : pystr) (size : Z) (breaks : list pystr) (start : Z) : Z -> Prop :=
| bp_last : zlen text <= start + size -> break_point text size breaks start (zlen text)
| bp_break b p : start + size < zlen text -> In b breaks ->
    last_found text b start (start + size) p -> start + size / 2 < p ->
    (forall b' q, In b' breaks -> found text b' q -> start <= q -> q + zlen b' <= start + size -> q <= p) ->
    break_point text size breaks start (p + zlen b)
| bp_window : start + size < zlen text ->
    (forall b' q, In b' breaks -> found text b' q -> start <= q -> q + zlen b' <= start + size -> q <= start + size / 2) ->
    break_point text size breaks start (start + size).

(** The choice of the end for one kind of break. *)
Lemma one_break_spec text size b start : 0 < size -> 0 <= start < zlen text ->
  let end_ := Z.min (start + size) (zlen text) in
  let e := if end_ <? zlen text
           then let p := py_rfind text b start end_ in if start + size / 2 <? p then p + zlen b else end_
           else end_ in
  break_point text size [b] start e /\ start < e <= zlen text /\ e - start <= size.
Proof.
  intros Hk Hs. cbv zeta. assert (Hz : 0 <= zlen b) by (unfold zlen; lia).
  assert (Hd : 0 <= size / 2) by (apply Z.div_pos; lia).
  destruct (Z.ltb_spec (Z.min (start + size) (zlen text)) (zlen text)) as [Hlt|Hge].
  - rewrite Z.min_l in * by lia.
    destruct (py_rfind_spec text b start (start + size)) as [[-> HN]|HL]; [lia|lia| |].
    + destruct (Z.ltb_spec (start + size / 2) (-1)); [lia|]. split; [|lia]. apply bp_window; [lia|].
      intros b' q [<-|[]] H1 H2 H3. destruct (HN q H1 H2 H3).
    + pose proof HL as (H1 & H2 & H3 & H4). set (p := py_rfind text b start (start + size)) in *. clearbody p.
      destruct (Z.ltb_spec (start + size / 2) p).
      * split; [|lia]. apply bp_break; auto; [now left|]. intros b' q [<-|[]]. now apply H4.
      * split; [|lia]. apply bp_window; [lia|]. intros b' q [<-|[]] Hq1 Hq2 Hq3. specialize (H4 q Hq1 Hq2 Hq3). lia.
  - assert (Hl : zlen text <= start + size) by lia. rewrite Z.min_r by lia. split; [now apply bp_last|lia].
Qed.

Lemma pdf_end_spec u text start : 0 < u_size u -> 0 <= start < zlen text ->
  break_point text (u_size u) [[10; 10]%N] start (pdf_end u text start) /\
  start < pdf_end u text start <= zlen text /\ pdf_end u text start - start <= u_size u.
Proof. exact (one_break_spec text (u_size u) [10; 10]%N start). Qed.

Lemma office_end_spec u text start : 0 < u_size u -> 0 <= start < zlen text ->
  break_point text (u_size u) [[10]%N] start (office_end u text start) /\
  start < office_end u text start <= zlen text /\ office_end u text start - start <= u_size u.
Proof. exact (one_break_spec text (u_size u) [10]%N start). Qed.

Lemma text_end_spec u text start : 0 < u_size u -> 0 <= start < zlen text ->
  break_point text (u_size u) [py "."; [10]%N] start (text_end u text start) /\
  start < text_end u text start <= zlen text /\ text_end u text start - start <= u_size u.
Proof.
  intros Hk Hs. unfold text_end. set (size := u_size u) in *. clearbody size.
  assert (Hd : 0 <= size / 2) by (apply Z.div_pos; lia).
  destruct (Z.ltb_spec (Z.min (start + size) (zlen text)) (zlen text)) as [Hlt|Hge].
  2:{ assert (Hl : zlen text <= start + size) by lia. rewrite Z.min_r by lia. split; [now apply bp_last|lia]. }
  rewrite Z.min_l in * by lia. cbv zeta.
  assert (HR : forall b, py_rfind text b start (start + size) = -1 /\ not_found text b start (start + size) \/
    last_found text b start (start + size) (py_rfind text b start (start + size))).
  { intros b. apply py_rfind_spec; lia. }
  assert (HM : forall b q, found text b q -> start <= q -> q + zlen b <= start + size ->
     q <= py_rfind text b start (start + size)).
  { intros b q H1 H2 H3. destruct (HR b) as [[_ HN]|(_ & _ & _ & H)]; [destruct (HN q H1 H2 H3)|auto]. }
  pose proof (HR (py ".")) as HA. pose proof (HR [10%N]) as HB. pose proof (HM (py ".")) as HMA. pose proof (HM [10%N]) as HMB.
  set (p := py_rfind text (py ".") start (start + size)) in *. set (q := py_rfind text [10%N] start (start + size)) in *.
  clearbody p q. change (zlen (py ".")) with 1 in *. change (zlen [10%N]) with 1 in *.
  destruct (Z.ltb_spec (start + size / 2) (Z.max p q)) as [Hb|Hb].
  - destruct (Z.le_ge_cases q p) as [Hqp|Hqp].
    + rewrite Z.max_l in * by lia. destruct HA as [[-> _]|HA]; [lia|]. split; [|pose proof HA as (_ & H1 & H2 & _); change (zlen (py ".")) with 1 in H2; lia].
      change (p + 1) with (p + zlen (py ".")). apply bp_break; auto; [now left|].
      intros b' r [<-|[<-|[]]] H1 H2 H3; [auto|]. specialize (HMB r H1 H2 H3). lia.
    + rewrite Z.max_r in * by lia. destruct HB as [[-> _]|HB]; [lia|]. split; [|pose proof HB as (_ & H1 & H2 & _); change (zlen [10%N]) with 1 in H2; lia].
      change (q + 1) with (q + zlen [10%N]). apply bp_break; auto; [right; now left|].
      intros b' r [<-|[<-|[]]] H1 H2 H3; [|auto]. specialize (HMA r H1 H2 H3). lia.
  - split; [|lia]. apply bp_window; [lia|]. intros b' r [<-|[<-|[]]] H1 H2 H3;
      [specialize (HMA r H1 H2 H3)|specialize (HMB r H1 H2 H3)]; lia.
Qed.

Theorem C92_text u text cs : 0 < u_size u -> text_chunks u text = Ok cs ->
  Forall (fun c => break_point text (u_size u) [py "."; [10]%N] (c_start c) (c_end c)) cs.
Proof.
  intros Hk E. apply cut_loop_end in E; [|lia]. eapply Forall_impl; [|exact E].
  intros c [Hc ->]. now apply text_end_spec.
Qed.

Theorem C92_pdf u text pages cs : 0 < u_size u -> pdf_chunks u text pages = Ok cs ->
  Forall (fun c => break_point text (u_size u) [[10; 10]%N] (c_start (fst c)) (c_end (fst c))) cs.
Proof.
  intros Hk E. unfold pdf_chunks in E.
  destruct (cut text (pdf_end u text) (u_overlap u)) as [cs0|] eqn:E0; [|discriminate]. injection E as <-.
  apply cut_loop_end in E0; [|lia]. apply Forall_map. eapply Forall_impl; [|exact E0].
  intros c [Hc Hc']. cbn [fst]. rewrite Hc'. now apply pdf_end_spec.
Qed.

Theorem C92_office u text cs : 0 < u_size u -> office_chunks u text = Ok cs ->
  Forall (fun c => break_point text (u_size u) [[10]%N] (c_start c) (c_end c)) cs.
Proof.
  intros Hk E. apply cut_loop_end in E; [|lia]. eapply Forall_impl; [|exact E].
  intros c [Hc ->]. now apply office_end_spec.
Qed.

Definition demo_doc : pystr := (py "First line." ++ [10%N] ++ py "Second, longer line." ++ [10; 10]%N ++ py "Third line")%list.

Example C92_example : match text_chunks (MkCutConfig 16 3) demo_doc with
  | Ok cs => map (fun c => (c_start c, c_end c)) cs = [(0, 12); (9, 25); (22, 34); (31, 44); (41, 44); (42, 44); (43, 44)]
  | Raise _ => False end.
Proof. vm_compute. reflexivity. Qed.

Example C92_pdf_example : match pdf_chunks (MkCutConfig 36 3) demo_doc [(1, 32); (2, 10)] with
  | Ok cs => map (fun c => c_end (fst c)) cs = [34; 44; 44; 44; 44] | Raise _ => False end.
Proof. vm_compute. reflexivity. Qed.

Example C92_office_example : match office_chunks (MkCutConfig 16 3) demo_doc with
  | Ok cs => map c_end cs = [12; 25; 34; 44; 44; 44; 44] | Raise _ => False end.
Proof. vm_compute. reflexivity. Qed.

(** ** C78 *)

(** The chunkers come to an end for every configuration, also with sizes that make no sense. *)
Theorem C78_terminates u text pages :
  (exists cs, text_chunks u text = Ok cs) /\ (exists cs, pdf_chunks u text pages = Ok cs) /\
  (exists cs, office_chunks u text = Ok cs).
Proof.
  split; [apply cut_ends|]. split; [|apply cut_ends].
  unfold pdf_chunks. destruct (cut_ends text (pdf_end u text) (u_overlap u)) as [cs ->]. simpl. eauto.
Qed.

Theorem C78_text_covers u text : 0 < u_size u -> 0 <= u_overlap u ->
  exists cs, text_chunks u text = Ok cs /\ good_cut text (u_size u) cs.
Proof.
  intros Hk Ho. apply cut_good; [|exact Ho]. intros start Hs. destruct (text_end_spec u text start Hk Hs) as (_ & H1 & H2). auto.
Qed.

Theorem C78_pdf_covers u text pages : 0 < u_size u -> 0 <= u_overlap u ->
  exists cs, pdf_chunks u text pages = Ok cs /\ good_cut text (u_size u) (map fst cs).
Proof.
  intros Hk Ho. destruct (cut_good text (pdf_end u text) (u_overlap u) (u_size u)) as (cs & E & HG); [|exact Ho|].
  - intros start Hs. destruct (pdf_end_spec u text start Hk Hs) as (_ & H1 & H2). auto.
  - unfold pdf_chunks. rewrite E. simpl. eexists. split; [reflexivity|]. rewrite map_map. simpl. rewrite map_id. exact HG.
Qed.

Theorem C78_office_covers u text : 0 < u_size u -> 0 <= u_overlap u ->
  exists cs, office_chunks u text = Ok cs /\ good_cut text (u_size u) cs.
Proof.
  intros Hk Ho. apply cut_good; [|exact Ho]. intros start Hs. destruct (office_end_spec u text start Hk Hs) as (_ & H1 & H2). auto.
Qed.

Example C78_example : match office_chunks (MkCutConfig 16 3) demo_doc with
  | Ok cs => nth_error (map c_text cs) 1 = Some (py "e." ++ [10%N] ++ py "Second, longe")%list | Raise _ => False end.
Proof. vm_compute. reflexivity. Qed.

(** ** C79 *)

(** The text before page [pre ++ p :: post]: the non-blank pages, each followed by a blank line. *)
Fixpoint text_before (pre : list pystr) : Z :=
  match pre with
  | [] => 0
  | p :: pre' => if forallb py_space p then text_before pre' else zlen p + 2 + text_before pre'
  end.

Fixpoint pages_before (pre : list pystr) : Z :=
  match pre with
  | [] => 0
  | p :: pre' => if forallb py_space p then pages_before pre' else 1 + pages_before pre'
  end.

(** Position [q] of the text is character [o] of page number [length pre + 1]. *)
Definition on_page (pre : list pystr) (p : pystr) (q o : Z) : Prop :=
  forallb py_space p = false /\ q = text_before pre + o /\ 0 <= o < zlen p.

Lemma blank_strip p : eqb (py_strip p) [] = forallb py_space p.
Proof.
  destruct (forallb py_space p) eqn:E.
  - rewrite forallb_forall in E. apply eqb_eq. apply py_strip_nil. exact E.
  - apply not_true_is_false. intros H. apply (proj1 (eqb_eq _ _)) in H.
    pose proof (proj1 (py_strip_nil p) H) as HF.
    assert (forallb py_space p = true) by (apply forallb_forall; exact HF). congruence.
Qed.

(** The pages with text, numbered from [n]. *)
Fixpoint numbered (n : nat) (texts : list pystr) : list (Z * pystr) :=
  match texts with
  | [] => []
  | p :: texts' => if forallb py_space p then numbered (S n) texts' else (Z.of_nat n + 1, p) :: numbered (S n) texts'
  end.

Lemma pdf_pages_numbered texts : pdf_pages texts = numbered 0 texts.
Proof.
  unfold pdf_pages, enumerate. generalize 0%nat. induction texts as [|p texts IH]; intros n; [reflexivity|].
  cbn [length seq combine map filter fst snd numbered]. rewrite blank_strip, IH. destruct (forallb py_space p); reflexivity.
Qed.

Lemma numbered_app a : forall n b, numbered n (a ++ b) = numbered n a ++ numbered (n + length a) b.
Proof.
  induction a as [|p a IH]; intros n b; cbn [app numbered length]; [now rewrite Nat.add_0_r|].
  rewrite IH, <- Nat.add_succ_comm. destruct (forallb py_space p); reflexivity.
Qed.

Fixpoint sum_len (pages : list (Z * pystr)) : Z :=
  match pages with [] => 0 | (_, p) :: pages' => zlen p + sum_len pages' end.

Lemma sum_numbered pre : forall n, sum_len (numbered n pre) + 2 * pages_before pre = text_before pre.
Proof.
  induction pre as [|p pre IH]; intros n; [reflexivity|]. cbn [numbered pages_before text_before].
  destruct (forallb py_space p); [apply IH|]. cbn [sum_len]. specialize (IH (S n)). lia.
Qed.

Lemma pages_before_nonneg pre : 0 <= pages_before pre.
Proof. induction pre as [|p pre IH]; cbn [pages_before]; [lia|]. destruct (forallb py_space p); lia. Qed.

Lemma page_from_app a : forall current q b, current + sum_len a <= q ->
  page_from current q (map (fun p => (fst p, zlen (snd p))) (a ++ b)) =
  page_from (current + sum_len a) q (map (fun p => (fst p, zlen (snd p))) b).
Proof.
  induction a as [|[n p] a IH]; intros current q b H; cbn [app map page_from sum_len fst snd] in *; [now rewrite Z.add_0_r|].
  assert (0 <= zlen p) by (unfold zlen; lia).
  assert (Hs : 0 <= sum_len a).
  { clear. induction a as [|[m x] a IH]; cbn [sum_len]; [lia|].
    unfold zlen. lia. }
  destruct (Z.ltb_spec q (current + zlen p)); [lia|]. rewrite IH by lia. f_equal. lia.
Qed.

(** The position of a character in the text of all pages. *)
Lemma text_position pre : forall n p post q o, on_page pre p q o ->
  nth_error (py_join [10; 10]%N (map snd (numbered n (pre ++ p :: post)))) (Z.to_nat q) = nth_error p (Z.to_nat o).
Proof.
  induction pre as [|x pre IH]; intros n p post q o (Hb & Hq & Ho).
  - cbn [text_before] in Hq. cbn [app numbered]. rewrite Hb. cbn [map snd].
    replace (Z.to_nat q) with (Z.to_nat o) by lia. unfold zlen in Ho.
    destruct (map snd (numbered (S n) post)) as [|y l]; cbn [py_join]; [reflexivity|]. rewrite nth_error_app1 by lia. reflexivity.
  - cbn [text_before] in Hq. cbn [app numbered]. destruct (forallb py_space x) eqn:Ex.
    + apply IH. split; [exact Hb|]. auto.
    + cbn [map snd]. assert (Hn : exists y l, map snd (numbered (S n) (pre ++ p :: post)) = y :: l).
      { rewrite numbered_app. cbn [numbered]. rewrite Hb. rewrite map_app. cbn [map].
        destruct (map snd (numbered (S n) pre)); simpl; eauto. }
      specialize (IH (S n) p post (text_before pre + o) o (conj Hb (conj eq_refl Ho))).
      destruct Hn as (y & l & El). rewrite El in *. cbn [py_join].
      assert (Ht : 0 <= text_before pre).
      { clear. induction pre as [|a pre IH]; cbn [text_before]; [lia|]. destruct (forallb py_space a); unfold zlen; lia. }
      unfold zlen in Hq. rewrite nth_error_app2 by lia. rewrite nth_error_app2 by (simpl length; lia). simpl length.
      rewrite <- IH. f_equal. lia.
Qed.

(** The page found for a chunk whose first character is character [o] of a page: never an
    earlier page, and the right one when the blank lines before it, which the count of the
    parser forgets, do not reach the end of the page.
    Missing: the other positions, see [C79_refuted]. *)
Theorem C79_page_partial u pre p post cs : 
  pdf_chunks u (pdf_text (pre ++ p :: post)) (pdf_info (pre ++ p :: post)) = Ok cs ->
  Forall (fun '(c, number) => forall o, on_page pre p (c_start c) o ->
    nth_error (pdf_text (pre ++ p :: post)) (Z.to_nat (c_start c)) = nth_error p (Z.to_nat o) /\
    zlen pre + 1 <= number /\
    (o + 2 * pages_before pre < zlen p -> number = zlen pre + 1)) cs.
Proof.
  intros E. unfold pdf_chunks in E.
  destruct (cut _ _ _) as [cs0|]; [|discriminate]. injection E as <-.
  apply Forall_map. apply Forall_forall. intros c _ o HP.
  split; [unfold pdf_text; rewrite pdf_pages_numbered; now apply text_position|].
  destruct HP as (Hb & Hq & Ho). unfold page_for_position, pdf_info. rewrite pdf_pages_numbered, numbered_app.
  cbn [numbered]. rewrite Hb. cbn [plus]. pose proof (sum_numbered pre 0) as HS. pose proof (pages_before_nonneg pre) as HP.
  rewrite page_from_app by lia. cbn [map page_from fst snd plus].
  change (Z.of_nat (length pre)) with (zlen pre).
  destruct (Z.ltb_spec (c_start c) (0 + sum_len (numbered 0 pre) + zlen p)) as [Hl|Hl].
  { split; [lia|reflexivity]. }
  split; [|lia].
  assert (HN : Forall (fun x : Z * pystr => zlen pre + 1 <= fst x) (numbered (S (length pre)) post)).
  { assert (G : forall m, zlen pre < Z.of_nat m -> Forall (fun x : Z * pystr => zlen pre + 1 <= fst x) (numbered m post)).
    { clear. induction post as [|y post IH]; intros m Hm; cbn [numbered]; [constructor|].
      destruct (forallb py_space y); [apply IH; lia|]. constructor; [cbn [fst]; lia|apply IH; lia]. }
    apply G. unfold zlen. lia. }
  set (rest := numbered (S (length pre)) post) in *. clearbody rest.
  generalize (0 + sum_len (numbered 0 pre) + zlen p). intros cur. revert cur.
  assert (HF : forall cur, match page_from cur (c_start c) (map (fun p0 => (fst p0, zlen (snd p0))) rest) with
                            Some n => zlen pre + 1 <= n | None => True end).
  { clear - HN. induction rest as [|[m y] rest IH]; intros cur; cbn [map page_from fst snd]; [exact I|].
    inversion HN as [|? ? H1 H2]; subst. destruct (c_start c <? cur + zlen y); [exact H1|]. now apply IH. }
  intros cur. specialize (HF cur). destruct (page_from cur _ _) as [n|]; [exact HF|].
  rewrite map_app. cbn [map fst snd]. rewrite rev_app_distr. cbn [rev]. rewrite <- map_rev.
  destruct (rev rest) as [|[m y] l] eqn:Er; cbn [map app]; [lia|].
  rewrite Forall_forall in HN. apply (HN (m, y)). apply in_rev. rewrite Er. now left.
Qed.

(** Three pages of two letters: the chunk that starts with the second page is given page 3. *)
Theorem C79_refuted : exists u pre p post cs c number o,
  pdf_chunks u (pdf_text (pre ++ p :: post)) (pdf_info (pre ++ p :: post)) = Ok cs /\
  In (c, number) cs /\ on_page pre p (c_start c) o /\ number <> zlen pre + 1.
Proof.
  exists (MkCutConfig 4 0), [py "ab"], (py "cd"), [py "ef"].
  exists [(MkChunk 0 (py "ab") 0 4, 1); (MkChunk 1 (py "cd") 4 8, 3); (MkChunk 2 (py "ef") 8 10, 3)].
  exists (MkChunk 1 (py "cd") 4 8), 3, 0.
  split; [vm_compute; reflexivity|]. split; [right; now left|]. split; [|cbn; lia].
  split; [reflexivity|]. split; [reflexivity|]. cbn. lia.
Qed.

Example C79_example : exists cs c,
  pdf_chunks (MkCutConfig 12 0) (pdf_text [py "Short page"; py "  "; py "A page that is long enough"])
    (pdf_info [py "Short page"; py "  "; py "A page that is long enough"]) = Ok cs /\
  In (c, 3) cs /\ on_page [py "Short page"; py "  "] (py "A page that is long enough") (c_start c) 12.
Proof.
  eexists _, _. split; [vm_compute; reflexivity|]. split; [right; right; left; reflexivity|].
  split; [reflexivity|]. split; [reflexivity|]. cbn. lia.
Qed.

(** ** C91, C93: docling_parser.py *)

(** The text of a group of elements: one per line. *)
Definition lines (group : list pystr) : pystr := concat (map (fun e => e ++ [10%N]) group).

(** A group that was closed: its last element brought it to the size. *)
Definition full (size : Z) (group : list pystr) : Prop :=
  exists g e, group = g ++ [e] /\ (g = [] \/ zlen (lines g) < size) /\ size <= zlen (lines group).

(** [c] is chunk number [id] with the elements [group], the last of which is number [last]. *)
Definition of_group (group : list pystr) (id : nat) (last : Z) (c : chunk) : Prop :=
  c_id c = id /\ trimmed (c_text c) (lines group) /\ c_end c = last.

(** The chunks made from [elements], the first of which is number [i]. *)
Inductive grouped (size : Z) : list pystr -> Z -> nat -> list chunk -> Prop :=
| gr_none elements i id : blank (lines elements) -> (elements = [] \/ zlen (lines elements) < size) ->
    grouped size elements i id []
| gr_rest elements i id c : ~ blank (lines elements) -> zlen (lines elements) < size ->
    of_group elements id (i + zlen elements - 1) c -> grouped size elements i id [c]
| gr_full group elements i id c cs : full size group -> of_group group id (i + zlen group - 1) c ->
    grouped size elements (i + zlen group) (S id) cs -> grouped size (group ++ elements) i id (c :: cs).

Lemma lines_app a b : lines (a ++ b) = lines a ++ lines b.
Proof. unfold lines. now rewrite map_app, concat_app. Qed.

Lemma docling_loop_spec size elements : forall done i id total, total = i + zlen done + zlen elements ->
  (done = [] \/ zlen (lines done) < size) ->
  grouped size (done ++ elements) i id (docling_loop size total elements (i + zlen done) id (lines done)).
Proof.
  induction elements as [|e elements IH]; intros done i id total Ht Hd; cbn [docling_loop].
  - rewrite app_nil_r. pose proof (py_strip_trimmed (lines done)) as HT. pose proof (py_strip_nil (lines done)) as HN.
    destruct (py_strip (lines done)) as [|a t] eqn:Et.
    + apply gr_none; [|exact Hd]. apply Forall_forall. now apply HN.
    + assert (Hb : ~ blank (lines done)).
      { intros H. unfold blank in H. rewrite Forall_forall in H. apply HN in H. discriminate. }
      destruct Hd as [->|Hd]; [destruct Hb; constructor|].
      apply gr_rest; auto. split; [reflexivity|]. unfold docling_chunk. cbn [c_text c_end].
      rewrite Et. split; [exact HT|]. change (zlen (@nil pystr)) with 0 in Ht. lia.
  - assert (El : lines done ++ e ++ [10%N] = lines (done ++ [e])).
    { rewrite lines_app. unfold lines at 3. cbn [map concat]. now rewrite app_nil_r. }
    rewrite El. replace (done ++ e :: elements) with ((done ++ [e]) ++ elements) by (rewrite <- app_assoc; reflexivity).
    assert (Hz : zlen (done ++ [e]) = zlen done + 1) by (rewrite zlen_app; reflexivity).
    assert (Hc : zlen (e :: elements) = 1 + zlen elements) by (unfold zlen; simpl length; lia).
    destruct (Z.leb_spec size (zlen (lines (done ++ [e])))) as [Hle|Hgt].
    + apply gr_full.
      * exists done, e. auto.
      * split; [reflexivity|]. cbn [docling_chunk c_text c_end]. split; [apply py_strip_trimmed|]. lia.
      * specialize (IH [] (i + zlen (done ++ [e])) (S id) total).
        cbn [app] in IH. change (lines []) with (@nil N) in IH. change (zlen (@nil pystr)) with 0 in IH.
        rewrite Z.add_0_r in IH. rewrite Hz, Z.add_assoc in IH. rewrite Hz, Z.add_assoc. apply IH; [lia|now left].
    + replace (i + zlen done + 1) with (i + zlen (done ++ [e])) by lia. apply IH; [lia|now right].
Qed.

Theorem C91_docling_groups size elements : grouped size elements 0 0 (docling_chunks size elements).
Proof.
  unfold docling_chunks. apply (docling_loop_spec size elements [] 0 0 (zlen elements)); [reflexivity|now left].
Qed.

Lemma lines_join g : g <> [] -> lines g = py_join [10%N] g ++ [10%N].
Proof.
  induction g as [|a [|b g] IH]; intros H; [congruence|apply app_nil_r|].
  change (lines (a :: b :: g)) with ((a ++ [10%N]) ++ lines (b :: g)). rewrite IH by discriminate.
  cbn [py_join]. now rewrite <- !app_assoc.
Qed.

(** The elements the parser passes: trimmed and not empty. *)
Definition clean_element (e : pystr) : Prop := e <> [] /\ trimmed e e.

Lemma clean_ends e : clean_element e ->
  (exists c r, e = c :: r /\ py_space c = false) /\ (exists r c, e = r ++ [c] /\ py_space c = false).
Proof.
  intros [Hn (u & v & _ & _ & _ & H1 & H2)]. split.
  - destruct e as [|c r]; [congruence|]. eauto.
  - destruct (exists_last Hn) as (r & c & ->). eauto.
Qed.

Lemma join_ends g : g <> [] -> Forall clean_element g ->
  (exists c r, py_join [10%N] g = c :: r /\ py_space c = false) /\
  (exists r c, py_join [10%N] g = r ++ [c] /\ py_space c = false).
Proof.
  induction g as [|a [|b g] IH]; intros Hn HF; [congruence| |].
  - inversion HF; subst. now apply clean_ends.
  - inversion HF as [|? ? Ha HF']; subst. destruct (IH ltac:(discriminate) HF') as [_ (r & c & E & Hc)].
    destruct (clean_ends a Ha) as [(c1 & r1 & -> & H1) _].
    change (py_join [10%N] ((c1 :: r1) :: b :: g)) with ((c1 :: r1) ++ [10%N] ++ py_join [10%N] (b :: g)). split.
    + cbn [app]. eauto.
    + rewrite E. eexists _, c. split; [|exact Hc]. rewrite !app_assoc. reflexivity.
Qed.

Lemma group_text group id last c : group <> [] -> Forall clean_element group ->
  of_group group id last c -> c_text c = py_join [10%N] group.
Proof.
  intros Hn HF (_ & HT & _). rewrite <- (strip_trimmed _ _ HT). apply strip_trimmed.
  rewrite lines_join by exact Hn. exists [], [10%N]. split; [reflexivity|]. split; [constructor|].
  split; [repeat constructor|]. destruct (join_ends group Hn HF) as [(c1 & r1 & E1 & H1) (r2 & c2 & E2 & H2)]. split.
  - intros a r E. rewrite E1 in E. congruence.
  - intros a r E. rewrite E2 in E. apply app_inj_tail in E as [_ <-]. exact H2.
Qed.

Lemma clean_lines_blank elements : Forall clean_element elements -> blank (lines elements) -> elements = [].
Proof.
  intros HF HB. destruct elements as [|e elements]; [reflexivity|]. exfalso. inversion HF as [|? ? He _]; subst.
  destruct (clean_ends e He) as [(c & r & -> & Hc) _]. inversion HB. congruence.
Qed.

(** For such elements the texts of the chunks are the elements of the groups, one per line:
    nothing is lost. *)
Theorem C91_docling_text size elements : Forall clean_element elements ->
  exists groups, concat groups = elements /\ Forall (fun g => g <> []) groups /\
    map c_text (docling_chunks size elements) = map (py_join [10%N]) groups.
Proof.
  intros HF. pose proof (C91_docling_groups size elements) as HG. revert HF.
  induction HG as [elements i id HB _|elements i id c HB _ HC|group elements i id c cs HL HC _ IH]; intros HF.
  - rewrite (clean_lines_blank elements HF HB). exists []. split; [reflexivity|]. split; [constructor|reflexivity].
  - assert (Hn : elements <> []) by (intros ->; destruct HB; constructor).
    exists [elements]. split; [apply app_nil_r|]. split; [now repeat constructor|]. cbn [map].
    now rewrite (group_text _ _ _ _ Hn HF HC).
  - apply Forall_app in HF as [HF1 HF2]. destruct (IH HF2) as (groups & E & Hg & Et).
    assert (Hn : group <> []) by (destruct HL as (g & e & -> & _); destruct g; discriminate).
    exists (group :: groups). split; [cbn [concat]; now rewrite E|]. split; [now constructor|]. cbn [map].
    now rewrite (group_text _ _ _ _ Hn HF1 HC), Et.
Qed.

Example C91_example :
  docling_chunks 12 [py "Title"; py "A first line"; py "and"; py "more"] =
  [MkChunk 0 (py "Title" ++ [10%N] ++ py "A first line") 0 1; MkChunk 1 (py "and" ++ [10%N] ++ py "more") 12 3].
Proof. vm_compute. reflexivity. Qed.

Example C91_text_example : Forall clean_element [py "Title"; py "A first line"].
Proof.
  repeat constructor; try discriminate;
    (exists [], []; split; [reflexivity|]; split; [constructor|]; split; [constructor|]; split;
     [intros c r E; vm_compute in E; injection E as <- _; reflexivity|]).
  - intros c r E. change (py "Title") with (py "Titl" ++ py "e")%list in E. apply app_inj_tail in E as [_ <-]. reflexivity.
  - intros c r E. change (py "A first line") with (py "A first lin" ++ py "e")%list in E. apply app_inj_tail in E as [_ <-]. reflexivity.
Qed.

(** "start_element" counts characters: the second chunk starts, it says, at element 1000 of 3. *)
Theorem C93_start_element_refuted : exists size elements c,
  Forall clean_element elements /\ In c (docling_chunks size elements) /\ c_end c < c_start c /\ zlen elements < c_start c.
Proof.
  exists 4, [py "one"; py "two"; py "six"], (MkChunk 1 (py "two") 4 1).
  split; [|split; [vm_compute; auto|split; cbn; lia]].
  repeat constructor; try discriminate;
    (exists [], []; split; [reflexivity|]; split; [constructor|]; split; [constructor|]; split;
     [intros c r E; vm_compute in E; injection E as <- _; reflexivity|]).
  - intros c r E. change (py "one") with (py "on" ++ py "e")%list in E. apply app_inj_tail in E as [_ <-]. reflexivity.
  - intros c r E. change (py "two") with (py "tw" ++ py "o")%list in E. apply app_inj_tail in E as [_ <-]. reflexivity.
  - intros c r E. change (py "six") with (py "si" ++ py "x")%list in E. apply app_inj_tail in E as [_ <-]. reflexivity.
Qed.

Print Assumptions C78_terminates.
Print Assumptions C78_text_covers.
Print Assumptions C78_pdf_covers.
Print Assumptions C78_office_covers.
Print Assumptions C79_page_partial.
Print Assumptions C79_refuted.
Print Assumptions C91_docling_groups.
Print Assumptions C91_docling_text.
Print Assumptions C92_text.
Print Assumptions C92_pdf.
Print Assumptions C92_office.
Print Assumptions C93_start_element_refuted.
