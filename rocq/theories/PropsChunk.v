(** C59, C60, C61, C62, C90: the chunking processor. *)

From Coq Require Import String List Arith ZArith NArith Lia Bool Sorted.
From Coq Require Import ZifyBool ZifyNat.
From Verif Require Import PyBase PyMore PyValue BaseLemmas ChunkModel ChunkProofs.
Import ListNotations.
Open Scope Z_scope.

(** What [initialize] lets through. *)
Definition accepted (k : chunk_config) : Prop := chunk_initialize k = Ok tt.

Lemma accepted_spec k : accepted k <-> 0 < k_size k /\ k_overlap k < k_size k.
Proof.
  unfold accepted, chunk_initialize. destruct (Z.leb_spec (k_size k) 0); [split; [discriminate|lia]|].
  destruct (Z.leb_spec (k_size k) (k_overlap k)); split; try discriminate; auto; lia.
Qed.

(** ** C90: where the pieces end *)

(** No occurrence of [sep] inside the window reaches past [start + min]. *)
Definition too_early (text sep : pystr) (start window lo : Z) : Prop :=
  forall p, found text sep p -> start <= p -> p + zlen sep <= window -> p <= lo.

(** A piece ends with the text, or after the last occurrence in its window of the first
    separator with an occurrence late enough, or at the end of the window. *)
Inductive cut_point (k : chunk_config) (text : pystr) (start : Z) : Z -> Prop :=
| cp_last : zlen text <= start + k_size k -> cut_point k text start (zlen text)
| cp_separator seps1 sep seps2 p :
    start + k_size k < zlen text -> k_separators k = seps1 ++ sep :: seps2 ->
    Forall (fun s => too_early text s start (start + k_size k) (start + k_min k)) seps1 ->
    last_found text sep start (start + k_size k) p -> start + k_min k < p ->
    cut_point k text start (p + zlen sep)
| cp_window :
    start + k_size k < zlen text ->
    Forall (fun s => too_early text s start (start + k_size k) (start + k_min k)) (k_separators k) ->
    cut_point k text start (start + k_size k).

Lemma best_break_spec text lo start end_ seps : 0 <= start <= lo -> 0 <= end_ <= zlen text ->
  (best_break text lo start end_ seps = end_ /\ Forall (fun s => too_early text s start end_ lo) seps) \/
  (exists s1 sep s2 p, seps = s1 ++ sep :: s2 /\ Forall (fun s => too_early text s start end_ lo) s1 /\
     last_found text sep start end_ p /\ lo < p /\ best_break text lo start end_ seps = p + zlen sep).
Proof.
  intros Hs He. induction seps as [|sep seps IH]; simpl; [left; auto|].
  pose proof (py_rfind_spec text sep start end_) as HR.
  destruct HR as [[-> HN]|HL]; [lia|lia| |].
  - destruct (Z.ltb_spec lo (-1)); [lia|].
    assert (HT : too_early text sep start end_ lo) by (intros p H1 H2 H3; destruct (HN p H1 H2 H3)).
    destruct IH as [[E HF]|(s1 & sp & s2 & p & -> & HF & HL & Hp & E)].
    + left. split; [exact E|]. now constructor.
    + right. exists (sep :: s1), sp, s2, p. split; [reflexivity|]. split; [now constructor|]. auto.
  - destruct (Z.ltb_spec lo (py_rfind text sep start end_)) as [Hlt|Hge].
    + right. exists [], sep, seps, (py_rfind text sep start end_). split; [reflexivity|]. split; [constructor|]. auto.
    + assert (HT : too_early text sep start end_ lo).
      { intros p H1 H2 H3. destruct HL as (_ & _ & _ & Hm). specialize (Hm p H1 H2 H3). lia. }
      destruct IH as [[E HF]|(s1 & sp & s2 & p & -> & HF & HL' & Hp & E)].
      * left. split; [exact E|]. now constructor.
      * right. exists (sep :: s1), sp, s2, p. split; [reflexivity|]. split; [now constructor|]. auto.
Qed.

Lemma fixed_end_spec k text start : accepted k -> 0 <= k_min k -> 0 <= start < zlen text ->
  cut_point k text start (fixed_end k text start) /\
  start < fixed_end k text start <= zlen text /\ fixed_end k text start - start <= k_size k.
Proof.
  intros HA Hm Hs. apply accepted_spec in HA as [Hk _]. unfold fixed_end, find_best_break.
  destruct (Z.ltb_spec (Z.min (start + k_size k) (zlen text)) (zlen text)) as [Hlt|Hge].
  - rewrite Z.min_l in * by lia.
    destruct (best_break_spec text (start + k_min k) start (start + k_size k) (k_separators k))
      as [[-> HF]|(s1 & sep & s2 & p & E & HF & HL & Hp & ->)]; [lia|lia| |].
    + destruct (start + k_min k <? start + k_size k); (split; [now apply cp_window|lia]).
    + assert (Hz : 0 <= zlen sep) by (unfold zlen; lia).
      destruct (Z.ltb_spec (start + k_min k) (p + zlen sep)); [|lia].
      pose proof HL as (_ & H1 & H2 & _). split; [eapply cp_separator; eauto|lia].
  - assert (Hl : zlen text <= start + k_size k) by lia. rewrite Z.min_r by lia. split; [now apply cp_last|lia].
Qed.

(** ** C59 *)

(** Cutting always comes to an end, whatever the configuration. *)
Theorem C59_terminates k text : exists cs, fixed_size_chunking k text = Ok cs.
Proof. apply cut_ends. Qed.

(** Missing: a negative minimum size, see [C59_negative_min_refuted]. *)
Theorem C59_fixed_size_partial k text : accepted k -> 0 <= k_overlap k -> 0 <= k_min k ->
  exists cs, fixed_size_chunking k text = Ok cs /\ good_cut text (k_size k) cs.
Proof.
  intros HA Ho Hm. apply cut_good; [|exact Ho]. intros start Hs.
  destruct (fixed_end_spec k text start HA Hm Hs) as (_ & H1 & H2). auto.
Qed.

Theorem C90_separators k text cs : accepted k -> 0 <= k_min k ->
  fixed_size_chunking k text = Ok cs -> Forall (fun c => cut_point k text (c_start c) (c_end c)) cs.
Proof.
  intros HA Hm E. apply cut_loop_end in E; [|lia]. eapply Forall_impl; [|exact E].
  intros c [Hc ->]. now apply fixed_end_spec.
Qed.

(** [initialize] accepts a negative minimum size; then a missing separator is taken for one at
    position -1 and the text is lost. *)
Theorem C59_negative_min_refuted : exists k text cs, accepted k /\ 0 <= k_overlap k /\
  fixed_size_chunking k text = Ok cs /\ ~ covers text cs.
Proof.
  exists (MkChunkConfig FixedSize 4 0 (-100) 2000 [[10; 10]]%N), (repeat 120%N 20).
  exists [MkChunk 0 [120%N] 0 1; MkChunk 1 (repeat 120%N 4) 16 20].
  split; [reflexivity|]. split; [cbn; lia|]. split; [vm_compute; reflexivity|].
  intros H. specialize (H 10%nat 120%N eq_refl eq_refl).
  inversion H as [? ? H1|? ? H1]; subst; [cbn [c_start c_end] in H1; lia|].
  inversion H1 as [? ? H2|? ? H2]; subst; [cbn [c_start c_end] in H2; lia|]. inversion H2.
Qed.

(** A text of three sentences, cut with overlap. *)
Definition demo_text : pystr := py "One fish.  Two red fish. Blue".
Definition demo_chunking : chunk_config := MkChunkConfig FixedSize 12 2 3 2000 [py ". "; py " "].

Example C59_example : accepted demo_chunking /\ 0 <= k_overlap demo_chunking /\ 0 <= k_min demo_chunking /\
  exists cs, fixed_size_chunking demo_chunking demo_text = Ok cs /\ (3 < length cs)%nat.
Proof.
  split; [reflexivity|]. split; [cbn; lia|]. split; [cbn; lia|]. eexists.
  split; [vm_compute; reflexivity|]. cbn. lia.
Qed.

Example C90_example : exists c, In c (match fixed_size_chunking demo_chunking demo_text with Ok cs => cs | _ => [] end) /\
  c_start c = 0 /\ c_end c = 10 /\ c_text c = py "One fish.".
Proof. vm_compute. eexists. split; [left; reflexivity|]. auto. Qed.

(** ** C60 *)

(** The text is blank from position [i] on. *)
Definition blank_from (text : pystr) (i : Z) : Prop :=
  forall j ch, nth_error text j = Some ch -> i <= Z.of_nat j -> py_space ch = true.

Lemma slice_blank text i : 0 <= i <= zlen text -> py_strip (slice i (zlen text) text) = [] <-> blank_from text i.
Proof.
  intros Hi. destruct (slice_split text i (zlen text)) as (El & E1 & E2); [lia|lia|]. rewrite py_strip_nil.
  split.
  - intros H j ch Hj Hb. apply H.
    assert (j < length text)%nat by (apply nth_error_Some; congruence).
    apply (slice_nth text i (zlen text) j ch); auto; unfold zlen in *; lia.
  - intros H c Hc. apply In_nth_error in Hc as [n Hn]. unfold zlen in *.
    apply (H (length (firstn (Z.to_nat i) text) + n)%nat c); [|lia].
    transitivity (nth_error (firstn (Z.to_nat i) text ++ slice i (Z.of_nat (length text)) text ++ skipn (Z.to_nat (Z.of_nat (length text))) text)
      (length (firstn (Z.to_nat i) text) + n)); [now f_equal|].
    rewrite nth_error_app2, Nat.add_comm, Nat.add_sub by lia. rewrite nth_error_app1; [exact Hn|].
    apply nth_error_Some. congruence.
Qed.

(** Once the last piece has reached the end of the text, each later position of the overlap
    starts a piece of its own. *)
Lemma tail_loop text end_of overlap : (forall s, 0 <= s < zlen text -> end_of s = zlen text) ->
  forall fuel start id cs, 0 <= start -> zlen text - overlap <= start ->
  cut_loop text end_of overlap fuel start id = Ok cs ->
  forall i, In i (map c_start cs) <-> start <= i < zlen text /\ ~ blank_from text i.
Proof.
  intros He. induction fuel as [|fuel IH]; intros start id cs H0 Ho; simpl;
    destruct (Z.ltb_spec start (zlen text)) as [Hl|Hl]; try discriminate;
    try (intros [= <-] i; simpl; split; [contradiction|lia]).
  rewrite He by lia. rewrite Z.max_r by lia.
  assert (HB : py_strip (slice start (zlen text) text) = [] <-> blank_from text start) by (apply slice_blank; lia).
  destruct (py_strip (slice start (zlen text) text)) as [|a t] eqn:Et.
  - intros E i. apply IH with (i := i) in E; [|lia|lia]. rewrite E. split; [intuition lia|].
    intros [Hi Hn]. split; [|exact Hn]. destruct (Z.eq_dec i start) as [->|]; [|lia]. destruct Hn. now apply HB.
  - intros E i. match type of E with rbind ?m _ = _ => destruct m as [rest|] eqn:Er end; [|discriminate].
    injection E as <-. apply IH with (i := i) in Er; [|lia|lia]. cbn [map In c_start]. rewrite Er. split.
    + intros [<-|[Hi Hn]]; [|split; [lia|exact Hn]]. split; [lia|]. intros H. apply HB in H. discriminate.
    + intros [Hi Hn]. destruct (Z.eq_dec i start) as [->|]; [now left|]. right. split; [lia|exact Hn].
Qed.

Lemma fixed_end_small k text : accepted k -> zlen text <= k_size k ->
  forall s, 0 <= s < zlen text -> fixed_end k text s = zlen text.
Proof.
  intros HA Hl s Hs. unfold fixed_end. rewrite Z.min_r by lia. destruct (Z.ltb_spec (zlen text) (zlen text)); [lia|reflexivity].
Qed.

(** The pieces of a text that fits in one chunk: one from the start, and one from every
    position in the overlap at the end of the text. *)
Theorem C60_pieces_of_small_text k text cs : accepted k -> zlen text <= k_size k ->
  fixed_size_chunking k text = Ok cs ->
  forall i, In i (map c_start cs) <->
    0 <= i < zlen text /\ (i = 0 \/ zlen text - k_overlap k <= i) /\ ~ blank_from text i.
Proof.
  intros HA Hl E. pose proof (fixed_end_small k text HA Hl) as He.
  unfold fixed_size_chunking, cut in E. destruct text as [|c0 text0].
  { simpl in E. injection E as <-. intros i. cbn. split; [contradiction|lia]. }
  set (text := c0 :: text0) in *. change (length text) with (S (length text0)) in E. simpl in E.
  assert (Hz : 0 < zlen text) by (unfold zlen, text; simpl; lia). clearbody text.
  destruct (Z.ltb_spec 0 (zlen text)) as [_|]; [|lia]. rewrite He in E by lia.
  assert (HB : py_strip (slice 0 (zlen text) text) = [] <-> blank_from text 0) by (apply slice_blank; lia).
  remember (Z.max (zlen text - k_overlap k) 1) as next eqn:Hnext.
  destruct (py_strip (slice 0 (zlen text) text)) as [|a t] eqn:Et.
  - intros i. apply (tail_loop text _ _ He) with (i := i) in E; [|lia|lia]. rewrite E. split; [intuition lia|].
    intros (Hi & Hd & Hn). split; [|exact Hn]. destruct Hd as [->|Hd]; [|destruct (Z.eq_dec i 0) as [->|]; [|lia]].
    + destruct Hn. now apply HB.
    + destruct Hn. now apply HB.
  - match type of E with rbind ?m _ = _ => destruct m as [rest|] eqn:Er end; [|discriminate].
    injection E as <-. intros i. apply (tail_loop text _ _ He) with (i := i) in Er; [|lia|lia]. cbn [map In c_start]. rewrite Er. split.
    + intros [<-|[Hi Hn]]; [|split; [lia|split; [lia|exact Hn]]]. split; [lia|]. split; [now left|].
      intros H. apply HB in H. discriminate.
    + intros (Hi & Hd & Hn). destruct (Z.eq_dec i 0) as [->|]; [now left|]. right. split; [|exact Hn]. lia.
Qed.

(** Missing: any overlap, see [C60_refuted]; blank texts give no chunk. *)
Theorem C60_one_chunk_partial k text : accepted k -> k_overlap k <= 0 -> k_strategy k = FixedSize ->
  zlen text <= k_size k -> ~ blank text ->
  exists t, trimmed t text /\ fixed_size_chunking k text = Ok [MkChunk 0 t 0 (zlen text)] /\
    (k_min k <= zlen t <= k_max k -> chunk_process k text = Ok [MkChunk 0 t 0 (zlen text)]).
Proof.
  intros HA Ho HS Hl HN. exists (py_strip text). split; [apply py_strip_trimmed|].
  assert (E : fixed_size_chunking k text = Ok [MkChunk 0 (py_strip text) 0 (zlen text)]).
  { pose proof (fixed_end_small k text HA Hl) as He. unfold fixed_size_chunking, cut.
    destruct text as [|c0 text0]; [destruct HN; constructor|]. set (text := c0 :: text0) in *.
    change (length text) with (S (length text0)). simpl cut_loop.
    assert (Hz : 0 < zlen text) by (unfold zlen, text; simpl; lia). clearbody text.
    destruct (Z.ltb_spec 0 (zlen text)) as [_|]; [|lia]. rewrite He by lia.
    replace (slice 0 (zlen text) text) with text.
    2:{ destruct (slice_split text 0 (zlen text)) as (El & _ & E2); [lia|lia|]. simpl firstn in El, E2.
        rewrite skipn_all2 in El by (unfold zlen; lia). rewrite app_nil_r in El. exact El. }
    destruct (py_strip text) as [|a t] eqn:Et.
    - destruct HN. apply Forall_forall. apply (proj1 (py_strip_nil text) Et).
    - assert (Hn : forall fuel id, cut_loop text (fixed_end k text) (k_overlap k) fuel (Z.max (zlen text - k_overlap k) (0 + 1)) id = Ok []).
      { intros fuel id. destruct fuel; simpl; destruct (Z.ltb_spec (Z.max (zlen text - k_overlap k) 1) (zlen text)); auto; lia. }
      rewrite Hn. reflexivity. }
  split; [exact E|]. intros Hb. unfold chunk_process, raw_chunks. rewrite HS, E. simpl. unfold filter_by_size. simpl.
  destruct (Z.leb_spec (k_min k) (zlen (py_strip text))); [|lia].
  destruct (Z.leb_spec (zlen (py_strip text)) (k_max k)); [|lia]. reflexivity.
Qed.

(** With the default configuration a text of 200 letters gives 52 chunks; a short one none. *)
Theorem C60_refuted :
  (exists text cs, zlen text <= k_size default_chunking /\ chunk_process default_chunking text = Ok cs /\
     length cs = 52%nat) /\
  (exists text, ~ blank text /\ zlen text <= k_size default_chunking /\ chunk_process default_chunking text = Ok []).
Proof.
  split.
  - exists (repeat 120%N 200). eexists. split; [cbn; lia|]. split; vm_compute; reflexivity.
  - exists (py "short"). split; [|split; [cbn; lia|vm_compute; reflexivity]].
    intros H. inversion H; subst. discriminate.
Qed.

Example C60_example : exists k text, accepted k /\ k_overlap k <= 0 /\ k_strategy k = FixedSize /\
  zlen text <= k_size k /\ ~ blank text.
Proof.
  exists (MkChunkConfig FixedSize 40 0 3 2000 default_separators), demo_text.
  split; [reflexivity|]. split; [cbn; lia|]. split; [reflexivity|]. split; [cbn; lia|].
  intros H. inversion H; subst. discriminate.
Qed.

Example C60_pieces_example : exists cs,
  fixed_size_chunking (MkChunkConfig FixedSize 40 3 3 2000 default_separators) demo_text = Ok cs /\
  map c_start cs = [0; 26; 27; 28].
Proof. eexists. split; vm_compute; reflexivity. Qed.

(** ** C61 *)

Lemma In_window_starts n step i : 0 < step ->
  In i (window_starts n step) <-> 0 <= i < Z.of_nat n /\ (step | i).
Proof.
  intros Hs. unfold window_starts. rewrite filter_In, in_map_iff, Z.eqb_eq. split.
  - intros [(j & <- & Hj) Hm]. apply in_seq in Hj. split; [lia|]. apply Z.mod_divide; lia.
  - intros [Hi Hd]. split; [|apply Z.mod_divide; [lia|exact Hd]].
    exists (Z.to_nat i). split; [lia|]. apply in_seq. lia.
Qed.

Lemma window_starts_sorted n step : StronglySorted Z.lt (window_starts n step).
Proof.
  unfold window_starts. assert (H : forall m a, StronglySorted Z.lt (filter (fun i => i mod step =? 0) (map Z.of_nat (seq a m)))).
  { induction m as [|m IH]; intros a; simpl; [constructor|]. destruct (_ =? 0); auto. constructor; auto.
    apply Forall_forall. intros x Hx. apply filter_In in Hx as [Hx _]. apply in_map_iff in Hx as (j & <- & Hj).
    apply in_seq in Hj. lia. }
  apply H.
Qed.

(** The window from [i]: its bounds and its text. *)
Definition window (k : chunk_config) (text : pystr) (i : Z) (c : chunk) : Prop :=
  c_start c = i /\ c_end c = Z.min (i + k_size k) (zlen text) /\ piece text c.

Lemma windows_spec k text : 0 < k_size k -> forall starts id, Forall (fun i => 0 <= i < zlen text) starts ->
  StronglySorted Z.lt starts ->
  let cs := windows k text starts id in
  Forall (fun c => In (c_start c) starts /\ window k text (c_start c) c /\ k_min k <= zlen (c_text c)) cs /\
  map c_id cs = seq id (length cs) /\ StronglySorted Z.lt (map c_start cs) /\
  forall i, In i starts -> (exists c, In c cs /\ window k text i c) \/
    exists c, window k text i c /\ zlen (c_text c) < k_min k.
Proof.
  intros Hk. induction starts as [|i starts IH]; intros id HF HS; cbv zeta.
  - simpl. split; [constructor|]. split; [reflexivity|]. split; [constructor|]. contradiction.
  - inversion HF as [|? ? Hi HF']; subst. inversion HS as [|? ? HS' Hi']; subst. cbn [windows].
    set (e := Z.min (i + k_size k) (zlen text)). set (t := py_strip (slice i e text)).
    assert (HW : forall n, window k text i (MkChunk n t i e)).
    { intros n. split; [reflexivity|]. split; [reflexivity|].
      destruct (slice_split text i e) as (El & E1 & E2); [lia|lia|].
      exists (firstn (Z.to_nat i) text), (slice i e text), (skipn (Z.to_nat e) text).
      split; [exact El|]. split; [exact E1|]. split; [exact E2|]. apply py_strip_trimmed. }
    destruct (Z.leb_spec (k_min k) (zlen t)) as [Hle|Hgt].
    + destruct (IH (S id) HF' HS') as (F1 & F2 & F3 & F4). split; [|split; [|split]].
      * constructor; [cbn [c_start c_text]; split; [now left|auto]|].
        eapply Forall_impl; [|exact F1]. intros c (H1 & H2 & H3). split; [now right|auto].
      * simpl. now rewrite F2.
      * simpl. constructor; [exact F3|]. apply Forall_map. eapply Forall_impl; [|exact F1].
        intros c (H1 & _). cbn [c_start]. rewrite Forall_forall in Hi'. now apply Hi'.
      * intros j [<-|Hj]; [left; eexists; split; [left; reflexivity|apply HW]|].
        destruct (F4 j Hj) as [(c & Hc & Hw)|H]; [left; exists c; split; [now right|exact Hw]|now right].
    + destruct (IH id HF' HS') as (F1 & F2 & F3 & F4). split; [|split; [exact F2|split; [exact F3|]]].
      * eapply Forall_impl; [|exact F1]. intros c (H1 & H2 & H3). split; [now right|auto].
      * intros j [<-|Hj]; [|now apply F4]. right. exists (MkChunk 0 t i e). split; [apply HW|exact Hgt].
Qed.

Lemma sliding_spec k text : accepted k ->
  let cs := sliding_window_chunking k text in
  Forall (fun c => (k_size k - k_overlap k | c_start c) /\ 0 <= c_start c < zlen text /\
                   window k text (c_start c) c /\ k_min k <= zlen (c_text c)) cs /\
  in_order cs /\
  forall i, 0 <= i < zlen text -> (k_size k - k_overlap k | i) ->
    (exists c, In c cs /\ window k text i c) \/ exists c, window k text i c /\ zlen (c_text c) < k_min k.
Proof.
  intros HA. apply accepted_spec in HA as [Hk Ho]. cbv zeta. unfold sliding_window_chunking.
  assert (HI : forall i, In i (window_starts (length text) (k_size k - k_overlap k)) <->
     0 <= i < zlen text /\ (k_size k - k_overlap k | i)) by (intros i; apply In_window_starts; lia).
  destruct (windows_spec k text Hk (window_starts (length text) (k_size k - k_overlap k)) 0) as (F1 & F2 & F3 & F4).
  - apply Forall_forall. intros i Hi. now apply HI.
  - apply window_starts_sorted.
  - split; [|split; [split; assumption|]].
    + eapply Forall_impl; [|exact F1]. intros c (H1 & H2 & H3). apply HI in H1 as [H1 H1']. auto.
    + intros i Hi Hd. apply F4. now apply HI.
Qed.

(** The pieces are the windows at the multiples of the step whose text has the minimum size.
    Missing: the windows that are too short are dropped, see [C61_refuted]. *)
Theorem C61_sliding_partial k text : accepted k ->
  let cs := sliding_window_chunking k text in
  Forall (fun c => (k_size k - k_overlap k | c_start c) /\ 0 <= c_start c < zlen text /\ piece text c /\
                   c_end c - c_start c <= k_size k) cs /\ in_order cs /\
  (forall i, 0 <= i < zlen text -> (k_size k - k_overlap k | i) ->
    (exists c, In c cs /\ window k text i c) \/ exists c, window k text i c /\ zlen (c_text c) < k_min k) /\
  (0 <= k_overlap k -> k_min k <= 1 -> covers text cs).
Proof.
  intros HA cs. destruct (sliding_spec k text HA) as (F1 & F2 & F3). fold cs in F1, F2, F3.
  apply accepted_spec in HA as [Hk Hs].
  split; [|split; [exact F2|split; [exact F3|]]].
  - eapply Forall_impl; [|exact F1]. intros c (H1 & H2 & (_ & H3 & H4) & _). split; [exact H1|]. split; [exact H2|].
    split; [exact H4|]. lia.
  - intros Ho Hm i ch Hi Hc. set (step := k_size k - k_overlap k) in *.
    assert (Hlen : (i < length text)%nat) by (apply nth_error_Some; congruence).
    set (j := Z.of_nat i / step * step). assert (Hj : j <= Z.of_nat i < j + step).
    { pose proof (Z.div_mod (Z.of_nat i) step). pose proof (Z.mod_pos_bound (Z.of_nat i) step). unfold j. nia. }
    assert (H0 : 0 <= j) by (unfold j; apply Z.mul_nonneg_nonneg; [apply Z.div_pos; lia|lia]).
    assert (Hz : zlen text = Z.of_nat (length text)) by reflexivity.
    destruct (F3 j) as [(c & Hin & Hw)|(c & Hw & Hs')]; [lia|exists (Z.of_nat i / step); reflexivity| |].
    + apply Exists_exists. exists c. split; [exact Hin|]. destruct Hw as (-> & -> & _). lia.
    + exfalso. destruct Hw as (E1 & E2 & pre & mid & post & El & Ep & Em & (u & v & Emid & Hu & Hv & _)).
      assert (Et : c_text c = []) by (destruct (c_text c); [reflexivity|unfold zlen in Hs'; simpl in Hs'; lia]).
      rewrite Et in Emid. simpl in Emid.
      assert (Hb : blank mid) by (rewrite Emid; now apply Forall_app).
      assert (Hin : In ch mid).
      { rewrite El in Hi. rewrite zlen_app in Em. unfold zlen in *. rewrite nth_error_app2 in Hi by lia.
        rewrite nth_error_app1 in Hi by lia. eapply nth_error_In; eauto. }
      unfold blank in Hb. rewrite Forall_forall in Hb. rewrite (Hb ch Hin) in Hc. discriminate.
Qed.

Theorem C61_refuted : exists text, ~ covers text (sliding_window_chunking default_chunking text).
Proof.
  exists (py "short"). intros H. specialize (H 0%nat 115%N eq_refl eq_refl).
  assert (E : sliding_window_chunking default_chunking (py "short") = []) by (vm_compute; reflexivity).
  rewrite E in H. inversion H.
Qed.

Example C61_example : accepted (MkChunkConfig SlidingWindow 12 2 1 2000 []) /\
  map c_start (sliding_window_chunking (MkChunkConfig SlidingWindow 12 2 1 2000 []) demo_text) = [0; 10; 20].
Proof. split; [reflexivity|vm_compute; reflexivity]. Qed.

(** ** C62 *)

(** Some chunk contains a part of the text around position [i]. *)
Definition carried (text : pystr) (i : nat) (cs : list chunk) : Prop :=
  exists c a mid b x y, In c cs /\ text = a ++ mid ++ b /\ (length a <= i < length a + length mid)%nat /\
    c_text c = x ++ mid ++ y.

Definition nothing_lost (text : pystr) (cs : list chunk) : Prop :=
  forall i ch, nth_error text i = Some ch -> py_space ch = false -> carried text i cs.

(** A non-blank character between the ends of a piece is in its text. *)
Lemma piece_carries text c i ch : piece text c -> nth_error text i = Some ch -> py_space ch = false ->
  c_start c <= Z.of_nat i < c_end c ->
  exists a b, text = a ++ c_text c ++ b /\ (length a <= i < length a + length (c_text c))%nat.
Proof.
  intros (pre & mid & post & El & Ep & Em & (u & v & Emid & Hu & Hv & _)) Hi Hc Hb.
  exists (pre ++ u), (v ++ post). split; [rewrite El, Emid, <- !app_assoc; reflexivity|].
  rewrite zlen_app in Em. unfold zlen in *. rewrite El in Hi. rewrite nth_error_app2 in Hi by lia.
  rewrite nth_error_app1 in Hi by lia. rewrite Emid in Hi, Em. rewrite !app_length in *.
  assert (Hbl : forall w, blank w -> ~ In ch w).
  { intros w Hw Hin. unfold blank in Hw. rewrite Forall_forall in Hw. rewrite (Hw ch Hin) in Hc. discriminate. }
  destruct (Nat.lt_ge_cases (i - length pre) (length u)) as [Hlt|Hge].
  { rewrite nth_error_app1 in Hi by lia. apply nth_error_In in Hi. destruct (Hbl u Hu Hi). }
  rewrite nth_error_app2 in Hi by lia.
  destruct (Nat.lt_ge_cases (i - length pre - length u) (length (c_text c))) as [Hlt|Hge2]; [lia|].
  rewrite nth_error_app2 in Hi by lia. apply nth_error_In in Hi. destruct (Hbl v Hv Hi).
Qed.

Lemma covers_lossless text cs : Forall (piece text) cs -> covers text cs -> nothing_lost text cs.
Proof.
  intros HF HC i ch Hi Hc. specialize (HC i ch Hi Hc). apply Exists_exists in HC as (c & Hin & Hb).
  rewrite Forall_forall in HF. destruct (piece_carries text c i ch (HF c Hin) Hi Hc Hb) as (a & b & E & Hl).
  exists c, a, (c_text c), b, [], []. rewrite app_nil_r. auto.
Qed.

(** *** Paragraphs *)

(** [text] is the paragraphs with two newlines between them. *)
Fixpoint paragraphs_of (text : pystr) (ps : list pystr) : Prop :=
  match ps with
  | [] => False
  | [p] => text = p
  | p :: ps' => exists rest, text = p ++ [10; 10]%N ++ rest /\ paragraphs_of rest ps'
  end.

Lemma split_paragraphs_spec : forall n text, (length text <= n)%nat -> paragraphs_of text (split_paragraphs text).
Proof.
  induction n as [|n IH]; intros text Hn.
  - destruct text; [reflexivity|simpl in Hn; lia].
  - destruct text as [|c [|c2 rest2]]; [reflexivity|reflexivity|].
    change (paragraphs_of (c :: c2 :: rest2) (if (c =? 10)%N && (c2 =? 10)%N then [] :: split_paragraphs rest2
      else match split_paragraphs (c2 :: rest2) with p :: ps => (c :: p) :: ps | [] => [[c]] end)).
    destruct ((c =? 10)%N && (c2 =? 10)%N) eqn:E.
    + apply andb_true_iff in E as [E1 E2]. apply N.eqb_eq in E1, E2. subst c c2.
      assert (HP := IH rest2 ltac:(simpl in Hn; lia)).
      destruct (split_paragraphs rest2) as [|p ps] eqn:Es; [destruct HP|]. exists rest2. split; [reflexivity|exact HP].
    + assert (HP := IH (c2 :: rest2) ltac:(simpl in *; lia)).
      destruct (split_paragraphs (c2 :: rest2)) as [|p ps]; [destruct HP|].
      destruct ps as [|q ps]; simpl in HP |- *; [now rewrite HP|].
      destruct HP as (rest & -> & HP). exists rest. split; [reflexivity|exact HP].
Qed.

Lemma paragraphs_length ps : forall text, paragraphs_of text ps ->
  fold_right (fun p n => length p + 2 + n)%nat O ps = (length text + 2)%nat.
Proof.
  induction ps as [|p [|q ps] IH]; intros text H; [destruct H|simpl in H; subst; simpl; lia|].
  destruct H as (rest & -> & H). apply IH in H. cbn [fold_right] in *. rewrite !app_length. simpl length. lia.
Qed.

(** A non-blank character is in the trimmed form of one of the paragraphs. *)
Lemma paragraph_at ps : forall text i ch, paragraphs_of text ps -> nth_error text i = Some ch -> py_space ch = false ->
  exists p a b, In p ps /\ text = a ++ py_strip p ++ b /\ (length a <= i < length a + length (py_strip p))%nat.
Proof.
  assert (G : forall p post i ch, nth_error (p ++ post) i = Some ch -> py_space ch = false -> (i < length p)%nat ->
    exists a b, p ++ post = a ++ py_strip p ++ b /\ (length a <= i < length a + length (py_strip p))%nat).
  { intros p post i ch Hi Hc Hl.
    destruct (piece_carries (p ++ post) (MkChunk 0 (py_strip p) 0 (zlen p)) i ch) as (a & b & E & Hb); auto.
    - exists [], p, post. split; [reflexivity|]. split; [reflexivity|]. split; [reflexivity|]. apply py_strip_trimmed.
    - cbn [c_start c_end]. unfold zlen. lia.
    - exists a, b. auto. }
  induction ps as [|p [|q ps] IH]; intros text i ch H Hi Hc; [destruct H| |].
  - simpl in H. subst text. destruct (G p [] i ch) as (a & b & E & Hb); auto.
    + now rewrite app_nil_r.
    + apply nth_error_Some. congruence.
    + rewrite app_nil_r in E. exists p, a, b. split; [now left|auto].
  - destruct H as (rest & -> & H). destruct (Nat.lt_ge_cases i (length p)) as [Hlt|Hge].
    + destruct (G p ([10; 10]%N ++ rest) i ch) as (a & b & E & Hb); auto. exists p, a, b. split; [now left|auto].
    + rewrite nth_error_app2 in Hi by lia.
      destruct (Nat.lt_ge_cases (i - length p) 2) as [Hlt|Hge2].
      * exfalso. rewrite nth_error_app1 in Hi by (simpl; lia).
        destruct (i - length p)%nat as [|[|m]]; simpl in Hi; injection Hi as <- || lia; discriminate.
      * rewrite nth_error_app2 in Hi by (simpl; lia). simpl length in Hi.
        destruct (IH rest _ ch H Hi Hc) as (p' & a & b & Hin & E & Hb).
        exists p', (p ++ [10; 10]%N ++ a), b. split; [now right|]. split; [rewrite E, <- !app_assoc; reflexivity|].
        rewrite !app_length. simpl length. lia.
Qed.

(** *** Infixes *)

Definition infix (q s : pystr) : Prop := exists x y, s = x ++ q ++ y.

Lemma drop_space_app x c r : py_space c = false -> drop_space (x ++ c :: r) = drop_space x ++ c :: r.
Proof.
  intros Hc. induction x as [|a x IH]; simpl; [now rewrite Hc|]. destruct (py_space a); auto.
Qed.

Lemma trimmed_infix_strip q s : q <> [] -> (forall c r, q = c :: r -> py_space c = false) ->
  (forall c r, q = r ++ [c] -> py_space c = false) -> infix q s -> infix q (py_strip s).
Proof.
  intros Hq H1 H2 (x & y & ->). destruct q as [|c r]; [congruence|].
  destruct (exists_last Hq) as (r' & c' & Eq). pose proof (H2 c' r' Eq) as Hc'.
  unfold py_strip. change (x ++ (c :: r) ++ y) with (x ++ c :: (r ++ y)). rewrite drop_space_app by eauto.
  change (c :: r ++ y) with ((c :: r) ++ y). rewrite Eq, <- app_assoc, app_assoc. cbn [app].
  rewrite rev_app_distr. cbn [rev]. rewrite <- app_assoc. cbn [app]. rewrite drop_space_app by exact Hc'.
  exists (drop_space x), (rev (drop_space (rev y))).
  rewrite rev_app_distr. cbn [rev]. rewrite rev_involutive, <- !app_assoc. reflexivity.
Qed.

Lemma strip_infix p s : py_strip p <> [] -> infix (py_strip p) s -> infix (py_strip p) (py_strip s).
Proof. destruct (py_strip_trimmed p) as (u & v & _ & _ & _ & H1 & H2). intros Hn. now apply trimmed_infix_strip. Qed.

Lemma infix_length q s : infix q s -> (length q <= length s)%nat.
Proof. intros (x & y & ->). rewrite !app_length. lia. Qed.

Lemma py_strip_length s : (length (py_strip s) <= length s)%nat.
Proof.
  destruct (py_strip_trimmed s) as (u & v & E & _). apply infix_length. exists u, v. exact E.
Qed.

Lemma slice_from_length {A} k (l : list A) : (length (slice_from k l) <= length l)%nat.
Proof. unfold slice_from. rewrite skipn_length. lia. Qed.

(** *** The semantic loop *)

Definition weight (ps : list pystr) : nat := fold_right (fun p n => length p + 2 + n)%nat O ps.

Lemma weight_app a b : weight (a ++ b) = (weight a + weight b)%nat.
Proof. induction a as [|p a IH]; simpl; [reflexivity|]. unfold weight in *. simpl. rewrite IH. lia. Qed.

(** After the paragraphs [ps]: each is in a finished chunk or in the current one, and no chunk
    is longer than all of them together. *)
Definition sem_inv (ps : list pystr) (s : sem_state) : Prop :=
  (forall p, In p ps -> py_strip p <> [] ->
     infix (py_strip p) (m_current s) \/ exists c, In c (m_chunks s) /\ infix (py_strip p) (c_text c)) /\
  (m_current s = [] \/ length (m_current s) + 2 <= weight ps)%nat /\
  Forall (fun c => length (c_text c) + 2 <= weight ps)%nat (m_chunks s).

Lemma sem_step_inv k ps s p : sem_inv ps s -> sem_inv (ps ++ [p]) (sem_step k s p).
Proof.
  intros (H1 & H2 & H3). unfold sem_inv. rewrite weight_app. change (weight [p]) with (length p + 2 + 0)%nat.
  pose proof (py_strip_length p) as Hp. unfold sem_step.
  assert (HF : Forall (fun c => length (c_text c) + 2 <= weight ps + (length p + 2 + 0))%nat (m_chunks s)).
  { eapply Forall_impl; [|exact H3]. intros c Hc. cbv beta in *. lia. }
  destruct (py_strip p) as [|a t] eqn:Et.
  - split; [|split; [destruct H2; [now left|right; lia]|exact HF]]. intros q Hq Hn. apply in_app_iff in Hq as [Hq|[<-|[]]]; auto.
    congruence.
  - rewrite <- Et in *. assert (Hself : infix (py_strip p) (py_strip p)) by (exists [], []; now rewrite app_nil_r).
    destruct (m_current s) as [|c0 cur0] eqn:Ec.
    + cbn [m_current m_chunks]. split; [|split; [right; lia|exact HF]].
      intros q Hq Hn. apply in_app_iff in Hq as [Hq|[<-|[]]]; [|now left].
      destruct (H1 q Hq Hn) as [Hi|Hi]; [|now right]. destruct Hi as (x & y & E). symmetry in E.
      apply app_eq_nil in E as [_ E]. apply app_eq_nil in E as [E _]. congruence.
    + rewrite <- Ec in *. assert (Hcur : (length (m_current s) + 2 <= weight ps)%nat) by (destruct H2; [congruence|auto]).
      destruct (k_size k <? zlen (m_current s) + zlen (py_strip p)).
      * cbn [m_current m_chunks]. split; [|split].
        -- intros q Hq Hn. apply in_app_iff in Hq as [Hq|[<-|[]]].
           ++ right. destruct (H1 q Hq Hn) as [Hi|(c & Hc & Hi)].
              ** exists (sem_chunk s). split; [now left|]. cbn [sem_chunk c_text]. now apply strip_infix.
              ** exists c. split; [now right|exact Hi].
           ++ left. eexists _, []. rewrite app_nil_r. reflexivity.
        -- right. rewrite app_length. destruct (k_overlap k <? zlen (m_current s)); [|simpl; lia].
           pose proof (slice_from_length (- k_overlap k) (m_current s)). lia.
        -- constructor; [|exact HF]. cbn [sem_chunk c_text]. pose proof (py_strip_length (m_current s)). lia.
      * cbn [m_current m_chunks]. split; [|split; [|exact HF]].
        -- intros q Hq Hn. apply in_app_iff in Hq as [Hq|[<-|[]]].
           ++ destruct (H1 q Hq Hn) as [(x & y & E)|Hi]; [|now right]. left. rewrite E.
              exists x, (y ++ [10; 10]%N ++ py_strip p). now rewrite <- !app_assoc.
           ++ left. exists (m_current s ++ [10; 10]%N), []. rewrite app_nil_r, <- app_assoc. reflexivity.
        -- right. rewrite !app_length. simpl length. lia.
Qed.

Lemma sem_fold_inv k ps : forall done s, sem_inv done s -> sem_inv (done ++ ps) (fold_left (sem_step k) ps s).
Proof.
  induction ps as [|p ps IH]; intros done s H; simpl; [now rewrite app_nil_r|].
  replace (done ++ p :: ps) with ((done ++ [p]) ++ ps) by (rewrite <- app_assoc; reflexivity).
  apply IH. now apply sem_step_inv.
Qed.

Lemma semantic_spec k text :
  (forall p, In p (split_paragraphs text) -> py_strip p <> [] ->
     exists c, In c (semantic_chunking k text) /\ infix (py_strip p) (c_text c)) /\
  Forall (fun c => length (c_text c) <= length text)%nat (semantic_chunking k text).
Proof.
  pose proof (split_paragraphs_spec (length text) text ltac:(lia)) as HP.
  pose proof (paragraphs_length _ _ HP) as HL. fold (weight (split_paragraphs text)) in HL.
  destruct (sem_fold_inv k (split_paragraphs text) [] (MkSem [] [] 0 0)) as (H1 & H2 & H3).
  { split; [contradiction|]. split; [now left|constructor]. }
  simpl app in *. unfold semantic_chunking. set (s := fold_left _ _ _) in *.
  set (out := match m_current s with [] => m_chunks s | _ => sem_chunk s :: m_chunks s end).
  assert (HI : forall c, In c (m_chunks s) -> In c out).
  { intros c Hc. unfold out. destruct (m_current s); [auto|now right]. }
  split.
  - intros p Hp Hn. destruct (H1 p Hp Hn) as [Hi|(c & Hc & Hi)].
    + exists (sem_chunk s). split; [|now apply strip_infix]. apply -> in_rev. unfold out.
      destruct (m_current s) eqn:Ec; [|now left]. destruct Hi as (x & y & E). symmetry in E.
      apply app_eq_nil in E as [_ E]. apply app_eq_nil in E as [E _]. congruence.
    + exists c. split; [apply -> in_rev; auto|exact Hi].
  - apply Forall_rev. unfold out.
    assert (HF : Forall (fun c => length (c_text c) <= length text)%nat (m_chunks s)).
    { eapply Forall_impl; [|exact H3]. intros c Hc. cbv beta in Hc. lia. }
    destruct (m_current s) as [|c0 cur0] eqn:Ec; [exact HF|]. rewrite <- Ec in *. constructor; [|exact HF].
    cbn [sem_chunk c_text]. pose proof (py_strip_length (m_current s)).
    destruct H2 as [H2|H2]; [congruence|]. lia.
Qed.

(** *** The theorem *)

(** A size filter that lets every piece of the text through. *)
Definition wide_filter (k : chunk_config) (text : pystr) : Prop := 0 <= k_min k <= 1 /\ zlen text <= k_max k.

Lemma filter_keeps k text cs : wide_filter k text -> Forall (fun c => length (c_text c) <= length text)%nat cs ->
  forall c, In c cs -> c_text c <> [] -> In c (filter_by_size k cs).
Proof.
  intros [Hm HM] HF c Hc Hn. apply filter_In. split; [exact Hc|]. rewrite Forall_forall in HF. specialize (HF c Hc).
  assert (1 <= zlen (c_text c)) by (unfold zlen; destruct (c_text c); [congruence|simpl; lia]).
  unfold zlen in *. lia.
Qed.

Lemma carried_incl text i cs cs' : (forall c, In c cs -> c_text c <> [] -> In c cs') -> carried text i cs -> carried text i cs'.
Proof.
  intros H (c & a & mid & b & x & y & Hc & E & Hb & Et). exists c, a, mid, b, x, y. split; [|auto]. apply H; [exact Hc|].
  rewrite Et. destruct mid; [simpl in Hb; lia|]. intros E'. apply app_eq_nil in E' as [_ E']. discriminate.
Qed.

Lemma piece_length text c : piece text c -> (length (c_text c) <= length text)%nat.
Proof.
  intros (pre & mid & post & El & _ & _ & (u & v & Em & _)). apply infix_length. rewrite El, Em.
  exists (pre ++ u), (v ++ post). now rewrite <- !app_assoc.
Qed.

(** Missing: pieces shorter than the minimum or longer than the maximum are dropped, see
    [C62_refuted]. *)
Theorem C62_nothing_lost_partial k text : accepted k -> 0 <= k_overlap k -> k_strategy k <> OtherStrategy ->
  wide_filter k text ->
  exists cs, chunk_process k text = Ok cs /\ nothing_lost text cs.
Proof.
  intros HA Ho HS HW. unfold chunk_process, raw_chunks. destruct (k_strategy k) eqn:Es; [| | |congruence].
  - destruct (C59_fixed_size_partial k text HA Ho ltac:(apply HW)) as (cs & -> & HF & _ & HC). simpl.
    eexists. split; [reflexivity|].
    assert (HP : Forall (piece text) cs) by (eapply Forall_impl; [|exact HF]; intros c [H _]; exact H).
    intros i ch Hi Hc. eapply carried_incl; [|exact (covers_lossless text cs HP HC i ch Hi Hc)].
    apply (filter_keeps k text); [exact HW|]. eapply Forall_impl; [|exact HP]. intros c. apply piece_length.
  - simpl. eexists. split; [reflexivity|]. destruct (semantic_spec k text) as [H1 H2]. intros i ch Hi Hc.
    destruct (paragraph_at _ _ i ch (split_paragraphs_spec (length text) text ltac:(lia)) Hi Hc) as (p & a & b & Hp & E & Hb).
    assert (Hn : py_strip p <> []) by (intros Ep; rewrite Ep in Hb; simpl in Hb; lia).
    destruct (H1 p Hp Hn) as (c & Hcin & (x & y & Ex)).
    exists c, a, (py_strip p), b, x, y. split; [|auto]. apply (filter_keeps k text); auto.
    rewrite Ex. intros E'. apply app_eq_nil in E' as [_ E']. apply app_eq_nil in E' as [E' _]. congruence.
  - simpl. eexists. split; [reflexivity|]. destruct (C61_sliding_partial k text HA) as (HF & _ & _ & HC).
    assert (HP : Forall (piece text) (sliding_window_chunking k text)) by (eapply Forall_impl; [|exact HF]; intros c (_ & _ & H & _); exact H).
    specialize (HC Ho ltac:(apply HW)). intros i ch Hi Hc.
    eapply carried_incl; [|exact (covers_lossless text _ HP HC i ch Hi Hc)].
    apply (filter_keeps k text); [exact HW|]. eapply Forall_impl; [|exact HP]. intros c. apply piece_length.
Qed.

(** With the default sizes short texts are lost, and so are long paragraphs. *)
Theorem C62_refuted :
  (exists text, ~ blank text /\ chunk_process default_chunking text = Ok []) /\
  (exists k text, accepted k /\ 0 <= k_overlap k /\ k_min k <= 1 /\ k_strategy k = Semantic /\ ~ blank text /\
     chunk_process k text = Ok []).
Proof.
  split.
  - exists (py "short"). split; [|vm_compute; reflexivity]. intros H. inversion H; subst. discriminate.
  - exists (MkChunkConfig Semantic 1000 100 0 2000 default_separators), (repeat 120%N 2001).
    split; [reflexivity|]. split; [cbn; lia|]. split; [cbn; lia|]. split; [reflexivity|]. split.
    + intros H. inversion H; subst. discriminate.
    + vm_compute. reflexivity.
Qed.

Example C62_example : exists k text, accepted k /\ 0 <= k_overlap k /\ k_strategy k = Semantic /\ wide_filter k text /\
  exists cs, chunk_process k text = Ok cs /\ length cs = 2%nat.
Proof.
  exists (MkChunkConfig Semantic 12 2 1 2000 []), (py "First one." ++ [10; 10]%N ++ py " second one")%list.
  split; [reflexivity|]. split; [cbn; lia|]. split; [reflexivity|]. split; [split; cbn; lia|].
  eexists. split; vm_compute; reflexivity.
Qed.

Print Assumptions C59_terminates.
Print Assumptions C59_fixed_size_partial.
Print Assumptions C59_negative_min_refuted.
Print Assumptions C60_pieces_of_small_text.
Print Assumptions C60_one_chunk_partial.
Print Assumptions C60_refuted.
Print Assumptions C61_sliding_partial.
Print Assumptions C61_refuted.
Print Assumptions C62_nothing_lost_partial.
Print Assumptions C62_refuted.
Print Assumptions C90_separators.
