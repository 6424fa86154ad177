(** C112, C113, C114: the semantic strategy of the chunking processor, and reported positions. *)

From Coq Require Import String List Arith ZArith NArith Lia Bool Sorted.
From Coq Require Import ZifyBool ZifyNat.
From Verif Require Import PyBase PyMore PyValue BaseLemmas ChunkModel ChunkProofs PropsChunk.
Import ListNotations.
Open Scope Z_scope.

(** ** What the strategy promises *)

Definition two_newlines : pystr := [10; 10]%N.

(** The paragraphs with something in them, trimmed. *)
Definition nonblank (ps : list pystr) : list pystr :=
  filter (fun p => match p with [] => false | _ => true end) (map py_strip ps).

(** [carry] is the last [n] characters of [prev], or nothing if [prev] is no longer than that. *)
Definition tail_of (n : Z) (prev carry : pystr) : Prop :=
  (zlen prev <= n /\ carry = []) \/ (n < zlen prev /\ zlen carry = n /\ exists pre, prev = pre ++ carry).

(** [carry] is all of [prev]. *)
Definition all_of (prev carry : pystr) : Prop := carry = prev.

(** [carry] is all of [prev] but its first [n] characters. *)
Definition rest_of (n : Z) (prev carry : pystr) : Prop :=
  (zlen prev <= n /\ carry = []) \/ (exists pre, zlen pre = n /\ prev = pre ++ carry).

(** Each paragraph of the group after the first fitted when it was added. *)
Definition fits (size : Z) (carry : pystr) (g : list pystr) : Prop :=
  forall g1 p g2, g = g1 ++ p :: g2 -> g1 <> [] ->
    zlen (carry ++ py_join two_newlines g1) + zlen p <= size.

(** Groups of paragraphs and the texts made of them.  A text is what is carried over from the
    one before, and its paragraphs with two newlines between them; a new group starts only with a
    paragraph that did not fit. *)
Inductive grouping (size : Z) (over : pystr -> pystr -> Prop) : pystr -> list (list pystr) -> list pystr -> Prop :=
| gr_nil prev : grouping size over prev [] []
| gr_cons prev carry p r gs fulls :
    over prev carry -> (prev <> [] -> size < zlen prev + zlen p) -> fits size carry (p :: r) ->
    grouping size over (carry ++ py_join two_newlines (p :: r)) gs fulls ->
    grouping size over prev ((p :: r) :: gs) ((carry ++ py_join two_newlines (p :: r)) :: fulls).

(** ** Paragraphs hold no separator *)

Lemma split_paragraphs_head : forall n text, (length text <= n)%nat ->
  exists p ps, split_paragraphs text = p :: ps /\ (p = [] \/ exists c r p', text = c :: r /\ p = c :: p').
Proof.
  intros n text _. destruct text as [|c [|c2 rest2]].
  - exists [], []. auto.
  - exists [c], []. split; [reflexivity|]. right. eauto.
  - change (split_paragraphs (c :: c2 :: rest2)) with (if (c =? 10)%N && (c2 =? 10)%N then [] :: split_paragraphs rest2
      else match split_paragraphs (c2 :: rest2) with p :: ps => (c :: p) :: ps | [] => [[c]] end).
    destruct ((c =? 10)%N && (c2 =? 10)%N); [eauto|].
    destruct (split_paragraphs (c2 :: rest2)) as [|p ps]; do 2 eexists; (split; [reflexivity|]); right; eauto.
Qed.

Lemma split_paragraphs_apart : forall n text, (length text <= n)%nat ->
  Forall (fun p => ~ infix two_newlines p) (split_paragraphs text).
Proof.
  assert (Z0 : ~ infix two_newlines []) by (intros (x & y & E); destruct x; discriminate).
  assert (Z1 : forall c, ~ infix two_newlines [c]).
  { intros c (x & y & E). apply (f_equal (@length N)) in E. rewrite !app_length in E. simpl in E. lia. }
  induction n as [|n IH]; intros text Hn.
  - destruct text; [|simpl in Hn; lia]. repeat constructor; auto.
  - destruct text as [|c [|c2 rest2]]; [repeat constructor; auto|repeat constructor; auto|].
    change (split_paragraphs (c :: c2 :: rest2)) with (if (c =? 10)%N && (c2 =? 10)%N then [] :: split_paragraphs rest2
      else match split_paragraphs (c2 :: rest2) with p :: ps => (c :: p) :: ps | [] => [[c]] end).
    destruct ((c =? 10)%N && (c2 =? 10)%N) eqn:Ec.
    + constructor; [exact Z0|]. apply IH. simpl in Hn. lia.
    + pose proof (IH (c2 :: rest2) ltac:(simpl in *; lia)) as HF.
      destruct (split_paragraphs_head _ (c2 :: rest2) (le_n _)) as (p & ps & E & HP). rewrite E in *.
      inversion HF as [|? ? H1 H2]; subst. constructor; [|exact H2].
      intros (x & y & Ex). destruct x as [|a x].
      * simpl in Ex. injection Ex as -> ->. destruct HP as [HP|(c' & r & p' & E1 & E2)]; [discriminate|].
        injection E1 as -> _. injection E2 as <- _. discriminate.
      * injection Ex as -> ->. apply H1. exists x, y. reflexivity.
Qed.

(** ** The loop *)

Lemma join_snoc sep g p : g <> [] -> py_join sep (g ++ [p]) = py_join sep g ++ sep ++ p.
Proof.
  induction g as [|q g IH]; [congruence|]. intros _. destruct g as [|q' g]; [reflexivity|].
  change ((q :: q' :: g) ++ [p]) with (q :: (q' :: g) ++ [p]).
  change (py_join sep (q :: (q' :: g) ++ [p])) with (q ++ sep ++ py_join sep ((q' :: g) ++ [p])).
  rewrite IH by discriminate. change (py_join sep (q :: q' :: g)) with (q ++ sep ++ py_join sep (q' :: g)).
  now rewrite <- !app_assoc.
Qed.

Lemma fits_one size carry p : fits size carry [p].
Proof.
  intros g1 q g2 E Hn. destruct g1 as [|a g1]; [congruence|]. injection E as _ E. destruct g1; discriminate.
Qed.

Lemma fits_snoc size carry g p : fits size carry g ->
  zlen (carry ++ py_join two_newlines g) + zlen p <= size -> fits size carry (g ++ [p]).
Proof.
  intros HF Hp g1 q g2 E Hn. destruct g2 as [|b g2].
  - apply app_inj_tail in E as [-> ->]. exact Hp.
  - destruct (exists_last (l := b :: g2) ltac:(discriminate)) as (g2' & z & Ez).
    rewrite Ez in E. change (g1 ++ q :: g2' ++ [z]) with (g1 ++ (q :: g2') ++ [z]) in E.
    rewrite app_assoc in E. apply app_inj_tail in E as [-> _]. eapply HF; eauto.
Qed.

(** What the loop carries over. *)
Definition kept_over (k : chunk_config) (cur : pystr) : pystr :=
  if k_overlap k <? zlen cur then slice_from (- k_overlap k) cur else [].

Section Loop.
  Variable k : chunk_config.
  Variable over : pystr -> pystr -> Prop.
  Hypothesis over_kept : forall cur, over cur (kept_over k cur).

  (** A chunk made of a full text: trimmed, and as long as reported. *)
  Definition made (c : chunk) (full : pystr) : Prop := c_text c = py_strip full /\ c_end c - c_start c = zlen full.

  Lemma sem_loop ps : forall s prev carry p0 r, m_current s = carry ++ py_join two_newlines (p0 :: r) -> p0 <> [] ->
    over prev carry -> (prev <> [] -> k_size k < zlen prev + zlen p0) -> fits (k_size k) carry (p0 :: r) ->
    exists gs fulls, concat gs = (p0 :: r) ++ nonblank ps /\ grouping (k_size k) over prev gs fulls /\
      let s' := fold_left (sem_step k) ps s in
      m_current s' <> [] /\ exists new, m_chunks s' = rev new ++ m_chunks s /\
        Forall2 made (new ++ [sem_chunk s']) fulls.
  Proof.
    induction ps as [|p ps IH]; intros s prev carry p0 r Hc Hp0 Ho Hs Hf.
    - exists [p0 :: r], [carry ++ py_join two_newlines (p0 :: r)]. split; [reflexivity|].
      split; [constructor; auto; constructor|]. cbn [fold_left]. split.
      + rewrite Hc. intros E. apply app_eq_nil in E as [_ E]. destruct p0; [congruence|]. destruct r; discriminate.
      + exists []. split; [reflexivity|]. constructor; [|constructor]. unfold made, sem_chunk. cbn [c_text c_start c_end].
        rewrite Hc. split; [reflexivity|]. lia.
    - cbn [fold_left]. unfold nonblank in *. cbn [map filter]. remember (sem_step k s p) as s0 eqn:E0. unfold sem_step in E0.
      destruct (py_strip p) as [|x y] eqn:Ep; [subst s0; apply (IH s prev carry p0 r); auto|].
      assert (Hn : m_current s <> []).
      { rewrite Hc. intros E. apply app_eq_nil in E as [_ E]. destruct p0; [congruence|]. destruct r; discriminate. }
      destruct (m_current s) as [|a b] eqn:Em; [congruence|]. rewrite <- Em in *. clear a b Em.
      destruct (Z.ltb_spec (k_size k) (zlen (m_current s) + zlen (x :: y))) as [Hgt|Hle].
      + fold (kept_over k (m_current s)) in E0. subst s0.
        match goal with |- context [fold_left (sem_step k) ps ?S] => set (s1 := S) end.
        destruct (IH s1 (m_current s) (kept_over k (m_current s)) (x :: y) []) as (gs & fulls & E1 & E2 & E3 & new & E4 & E5);
          [reflexivity|discriminate|apply over_kept|auto|apply fits_one|].
        exists ((p0 :: r) :: gs), (m_current s :: fulls). split; [cbn [concat]; rewrite E1; reflexivity|].
        split; [rewrite Hc in E2 |- *; now constructor|]. split; [exact E3|].
        exists (sem_chunk s :: new). split; [rewrite E4; cbn [rev s1 m_chunks]; now rewrite <- app_assoc|].
        cbn [app]. constructor; [|exact E5]. unfold made, sem_chunk. cbn [c_text c_start c_end]. split; [reflexivity|lia].
      + subst s0. match goal with |- context [fold_left (sem_step k) ps ?S] => set (s1 := S) end.
        destruct (IH s1 prev carry p0 (r ++ [x :: y])) as (gs & fulls & E1 & E2 & E3 & new & E4 & E5); auto.
        * cbn [s1 m_current]. rewrite Hc. change (p0 :: r ++ [x :: y]) with ((p0 :: r) ++ [x :: y]).
          rewrite join_snoc by discriminate. now rewrite <- !app_assoc.
        * change (p0 :: r ++ [x :: y]) with ((p0 :: r) ++ [x :: y]). apply fits_snoc; [exact Hf|]. now rewrite <- Hc.
        * exists gs, fulls. split; [rewrite E1; cbn [app]; now rewrite <- app_assoc|]. split; [exact E2|].
          split; [exact E3|]. exists new. auto.
  Qed.

  Hypothesis over_nil : over [] [].

  Lemma sem_grouping text : exists gs fulls,
    concat gs = nonblank (split_paragraphs text) /\ grouping (k_size k) over [] gs fulls /\
    Forall2 made (semantic_chunking k text) fulls.
  Proof.
    unfold semantic_chunking. generalize (split_paragraphs text) as ps. intros ps.
    assert (G : forall ps, exists gs fulls, concat gs = nonblank ps /\ grouping (k_size k) over [] gs fulls /\
      let s := fold_left (sem_step k) ps (MkSem [] [] 0 0) in
      Forall2 made (rev (match m_current s with [] => m_chunks s | _ => sem_chunk s :: m_chunks s end)) fulls).
    { clear ps. induction ps as [|p ps IH].
      - exists [], []. split; [reflexivity|]. split; constructor.
      - cbn [fold_left]. remember (sem_step k _ p) as s0 eqn:E0. unfold sem_step in E0. cbn [m_current] in E0.
        unfold nonblank in *. cbn [map filter].
        destruct (py_strip p) as [|x y] eqn:Ep; [subst s0; exact IH|]. cbn [m_chunks m_start m_id] in E0. subst s0.
        destruct (sem_loop ps (MkSem [] (x :: y) 0 0) [] [] (x :: y) []) as (gs & fulls & E1 & E2 & E3 & new & E4 & E5);
          [reflexivity|discriminate|exact over_nil|congruence|apply fits_one|].
        exists gs, fulls. split; [exact E1|]. split; [exact E2|]. cbv zeta. clear IH. set (s := fold_left _ _ _) in *.
        destruct (m_current s) eqn:Em; [now destruct E3|]. rewrite E4. cbn [m_chunks]. rewrite app_nil_r. cbn [rev]. now rewrite rev_involutive. }
    apply G.
  Qed.
End Loop.

Lemma kept_tail k cur : 0 < k_overlap k -> tail_of (k_overlap k) cur (kept_over k cur).
Proof.
  intros Ho. unfold kept_over, tail_of. destruct (Z.ltb_spec (k_overlap k) (zlen cur)) as [H|H]; [right|left; auto].
  split; [exact H|]. unfold slice_from. set (b := slice_bound _ _).
  assert (Hb : b = (length cur - Z.to_nat (k_overlap k))%nat).
  { unfold b, slice_bound. unfold zlen in H. destruct (Z.ltb_spec (- k_overlap k) 0); lia. }
  split; [|exists (firstn b cur); now rewrite firstn_skipn].
  unfold zlen in *. rewrite skipn_length. lia.
Qed.

Lemma kept_all k cur : k_overlap k = 0 -> all_of cur (kept_over k cur).
Proof.
  intros Ho. unfold kept_over, all_of. rewrite Ho. destruct cur as [|c r]; [reflexivity|].
  destruct (Z.ltb_spec 0 (zlen (c :: r))) as [H|H]; [|unfold zlen in H; simpl in H; lia].
  unfold slice_from, slice_bound. cbn [Z.opp Z.ltb Z.compare Z.to_nat]. reflexivity.
Qed.

Lemma kept_rest k cur : k_overlap k < 0 -> rest_of (- k_overlap k) cur (kept_over k cur).
Proof.
  intros Ho. unfold kept_over, rest_of.
  destruct (Z.ltb_spec (k_overlap k) (zlen cur)) as [H|H]; [|unfold zlen in H; lia].
  unfold slice_from. set (b := slice_bound _ _).
  assert (Hb : b = Nat.min (Z.to_nat (- k_overlap k)) (length cur)).
  { unfold b, slice_bound. destruct (Z.ltb_spec (- k_overlap k) 0); [lia|reflexivity]. }
  destruct (Nat.le_gt_cases (length cur) (Z.to_nat (- k_overlap k))) as [Hl|Hl].
  - left. split; [unfold zlen; lia|]. apply skipn_all2. lia.
  - right. exists (firstn b cur). split; [|now rewrite firstn_skipn].
    unfold zlen. rewrite firstn_length. lia.
Qed.

(** ** C112: chunks are groups of paragraphs *)

(** For overlaps that are not positive see below. *)
Theorem C112_groups_partial k text : 0 < k_overlap k -> exists ps gs fulls,
  paragraphs_of text ps /\ Forall (fun p => ~ infix two_newlines p) ps /\
  concat gs = nonblank ps /\ grouping (k_size k) (tail_of (k_overlap k)) [] gs fulls /\
  map c_text (semantic_chunking k text) = map py_strip fulls.
Proof.
  intros Ho. destruct (sem_grouping k (tail_of (k_overlap k))) with (text := text) as (gs & fulls & E1 & E2 & E3).
  - intros cur. now apply kept_tail.
  - left. unfold zlen. simpl. split; [lia|reflexivity].
  - exists (split_paragraphs text), gs, fulls. split; [now apply (split_paragraphs_spec (length text))|].
    split; [now apply (split_paragraphs_apart (length text))|]. split; [exact E1|]. split; [exact E2|].
    clear - E3. induction E3 as [|c f cs fs [H _] _ IH]; [reflexivity|]. cbn [map]. now rewrite H, IH.
Qed.

(** With an overlap of 0, [current_chunk[-0:]] is the whole chunk: every chunk starts with all of
    the chunk before it. *)
Theorem C112_zero_overlap_repeats k text : k_overlap k = 0 -> exists ps gs fulls,
  paragraphs_of text ps /\ Forall (fun p => ~ infix two_newlines p) ps /\
  concat gs = nonblank ps /\ grouping (k_size k) all_of [] gs fulls /\
  map c_text (semantic_chunking k text) = map py_strip fulls.
Proof.
  intros Ho. destruct (sem_grouping k all_of) with (text := text) as (gs & fulls & E1 & E2 & E3).
  - intros cur. now apply kept_all.
  - reflexivity.
  - exists (split_paragraphs text), gs, fulls. split; [now apply (split_paragraphs_spec (length text))|].
    split; [now apply (split_paragraphs_apart (length text))|]. split; [exact E1|]. split; [exact E2|].
    clear - E3. induction E3 as [|c f cs fs [H _] _ IH]; [reflexivity|]. cbn [map]. now rewrite H, IH.
Qed.

(** With a negative overlap, [current_chunk[n:]] is the chunk without its first [n] characters:
    every chunk starts with the rest of the chunk before it. *)
Theorem C112_negative_overlap_repeats k text : k_overlap k < 0 -> exists ps gs fulls,
  paragraphs_of text ps /\ Forall (fun p => ~ infix two_newlines p) ps /\
  concat gs = nonblank ps /\ grouping (k_size k) (rest_of (- k_overlap k)) [] gs fulls /\
  map c_text (semantic_chunking k text) = map py_strip fulls.
Proof.
  intros Ho. destruct (sem_grouping k (rest_of (- k_overlap k))) with (text := text) as (gs & fulls & E1 & E2 & E3).
  - intros cur. now apply kept_rest.
  - left. unfold zlen. simpl. split; [lia|reflexivity].
  - exists (split_paragraphs text), gs, fulls. split; [now apply (split_paragraphs_spec (length text))|].
    split; [now apply (split_paragraphs_apart (length text))|]. split; [exact E1|]. split; [exact E2|].
    clear - E3. induction E3 as [|c f cs fs [H _] _ IH]; [reflexivity|]. cbn [map]. now rewrite H, IH.
Qed.

(** A text of four paragraphs. *)
Definition four_paragraphs : pystr :=
  py "Red fish" ++ two_newlines ++ py " blue fish " ++ two_newlines ++ two_newlines ++ py "old" ++ two_newlines ++ py "new".

Definition semantic_config (size overlap : Z) : chunk_config := MkChunkConfig Semantic size overlap 0 2000 [].

Theorem C112_zero_overlap_refuted : exists k text, accepted k /\ k_overlap k = 0 /\ k_strategy k = Semantic /\
  exists cs, chunk_process k text = Ok cs /\ map c_text cs =
    [py "Red fish"; py "Red fishblue fish"; py "Red fishblue fishold"; py "Red fishblue fisholdnew"].
Proof.
  exists (semantic_config 12 0), four_paragraphs. split; [reflexivity|]. split; [reflexivity|]. split; [reflexivity|].
  eexists. split; vm_compute; reflexivity.
Qed.

Theorem C112_negative_overlap_refuted : exists k text, accepted k /\ k_overlap k < 0 /\ k_strategy k = Semantic /\
  exists cs, chunk_process k text = Ok cs /\ map c_text cs =
    [py "Red fish"; py "fishblue fish"; py "blue fishold"; py "fisholdnew"].
Proof.
  exists (semantic_config 12 (-4)), four_paragraphs. split; [reflexivity|]. split; [reflexivity|]. split; [reflexivity|].
  eexists. split; vm_compute; reflexivity.
Qed.

Example C112_example : accepted (semantic_config 14 2) /\ 0 < k_overlap (semantic_config 14 2) /\
  map c_text (semantic_chunking (semantic_config 14 2) four_paragraphs) =
    [py "Red fish"; py "shblue fish" ++ two_newlines ++ py "old"; py "ldnew"].
Proof. repeat split; vm_compute; reflexivity. Qed.

(** ** C113: sizes *)

Lemma zlen_app {A} (a b : list A) : zlen (a ++ b) = zlen a + zlen b.
Proof. unfold zlen. rewrite app_length. lia. Qed.

Lemma tail_length n prev carry : 0 <= n -> tail_of n prev carry -> zlen carry <= n.
Proof. intros Hn [[_ ->]|(_ & H & _)]; [unfold zlen; simpl; lia|lia]. Qed.

(** A group of several paragraphs exceeds the size by the two newlines at most; a paragraph alone
    is as long as it is, and the overlap. *)
Theorem C113_sizes_partial k text : 0 < k_overlap k -> exists ps gs,
  paragraphs_of text ps /\ concat gs = nonblank ps /\
  Forall2 (fun c g => zlen (c_text c) <= c_end c - c_start c /\
      match g with
      | [p] => zlen p <= c_end c - c_start c <= k_overlap k + zlen p
      | _ => c_end c - c_start c <= k_size k + 2
      end) (semantic_chunking k text) gs.
Proof.
  intros Ho. destruct (sem_grouping k (tail_of (k_overlap k))) with (text := text) as (gs & fulls & E1 & E2 & E3).
  - intros cur. now apply kept_tail.
  - left. unfold zlen. simpl. split; [lia|reflexivity].
  - exists (split_paragraphs text), gs. split; [now apply (split_paragraphs_spec (length text))|]. split; [exact E1|].
    clear E1. revert E2 E3. generalize (semantic_chunking k text) as cs. intros cs E2. revert cs.
    induction E2 as [prev|prev carry p r gs fulls H1 H2 H3 H4 IH]; intros cs E3; inversion E3 as [|c ? cs' ? HM]; subst; constructor; auto.
    change (made c (carry ++ py_join two_newlines (p :: r))) in HM. destruct HM as [Ht Hl]. rewrite Ht, Hl. split.
    + unfold zlen. pose proof (py_strip_length (carry ++ py_join two_newlines (p :: r))). lia.
    + apply tail_length in H1; [|lia]. destruct r as [|q r].
      * cbn [py_join]. rewrite zlen_app. unfold zlen in *. lia.
      * destruct (exists_last (l := q :: r) ltac:(discriminate)) as (g' & z & E). rewrite E in *.
        specialize (H3 (p :: g') z []). change (p :: g' ++ [z]) with ((p :: g') ++ [z]) in *.
        specialize (H3 eq_refl ltac:(discriminate)). rewrite join_snoc by discriminate. rewrite !zlen_app in *.
        change (zlen two_newlines) with 2. lia.
Qed.

(** The newlines are not counted. *)
Theorem C113_sizes_refuted : exists k text, accepted k /\ 0 < k_overlap k /\ k_strategy k = Semantic /\
  exists cs, chunk_process k text = Ok cs /\ Exists (fun c => k_size k < zlen (c_text c)) cs /\
  exists ps, paragraphs_of text ps /\ Forall (fun p => zlen p <= k_size k) ps.
Proof.
  exists (semantic_config 10 1), (py "abcde" ++ two_newlines ++ py "fghij").
  split; [reflexivity|]. split; [reflexivity|]. split; [reflexivity|].
  eexists. split; [vm_compute; reflexivity|]. split; [left; vm_compute; reflexivity|].
  exists [py "abcde"; py "fghij"]. split; [|repeat constructor; vm_compute; discriminate].
  exists (py "fghij"). split; reflexivity.
Qed.

Example C113_example : 0 < k_overlap (semantic_config 14 2) /\
  map (fun c => c_end c - c_start c) (semantic_chunking (semantic_config 14 2) four_paragraphs) = [8; 16; 5].
Proof. split; vm_compute; reflexivity. Qed.

(** ** C114: reported positions *)

(** Missing: semantic chunks, see below, and negative overlaps and minima. *)
Theorem C114_positions_partial k text : accepted k -> 0 <= k_overlap k -> 0 <= k_min k ->
  k_strategy k = FixedSize \/ k_strategy k = SlidingWindow ->
  exists cs, chunk_process k text = Ok cs /\ Forall (piece text) cs /\ StronglySorted Z.lt (map c_start cs).
Proof.
  intros HA Ho Hm Hs.
  assert (G : forall cs, Forall (piece text) cs -> StronglySorted Z.lt (map c_start cs) ->
    Forall (piece text) (filter_by_size k cs) /\ StronglySorted Z.lt (map c_start (filter_by_size k cs))).
  { intros cs HF HS. unfold filter_by_size. induction cs as [|c cs IH]; [auto|]. cbn [filter].
    inversion HF as [|? ? F1 F2]; subst. cbn [map] in HS. inversion HS as [|? ? S1 S2]; subst. destruct (IH F2 S1) as [I1 I2].
    destruct (_ && _); [|auto]. split; [constructor; auto|]. cbn [map]. constructor; [exact I2|].
    rewrite Forall_forall in *. intros x Hx. apply S2. apply in_map_iff in Hx as (c' & <- & Hc').
    apply in_map. now apply filter_In in Hc'. }
  unfold chunk_process, raw_chunks. destruct Hs as [-> | ->].
  - destruct (C59_fixed_size_partial k text HA Ho Hm) as (cs & -> & HF & [_ HO] & _). cbn [rbind].
    eexists. split; [reflexivity|]. apply G; [|exact HO]. eapply Forall_impl; [|exact HF]. intros c [H _]. exact H.
  - destruct (C61_sliding_partial k text HA) as (HF & [_ HO] & _). cbn [rbind].
    eexists. split; [reflexivity|]. apply G; [|exact HO]. eapply Forall_impl; [|exact HF]. intros c (_ & _ & H & _). exact H.
Qed.

(** The positions of the semantic chunks count characters of the chunks, not of the text. *)
Theorem C114_semantic_refuted : exists k text, accepted k /\ 0 < k_overlap k /\ k_strategy k = Semantic /\
  exists cs, chunk_process k text = Ok cs /\
    map (fun c => (c_text c, c_start c, c_end c)) cs =
      [(py "aaaa", 0, 4); (py "abbb", 3, 7); (py "bccc", 6, 10)] /\ Forall (fun c => ~ piece text c) (tl cs).
Proof.
  exists (semantic_config 5 1), (py "aaaa" ++ two_newlines ++ py "bbb" ++ two_newlines ++ py "ccc").
  split; [reflexivity|]. split; [reflexivity|]. split; [reflexivity|].
  eexists. split; [vm_compute; reflexivity|]. split; [reflexivity|]. cbn [tl].
  assert (K : forall text c, piece text c -> slice (c_start c) (c_end c) text <> [] ->
     infix (c_text c) (slice (c_start c) (c_end c) text)).
  { intros text c (pre & mid & post & E & H1 & H2 & (u & v & Em & _)) _. exists u, v. rewrite <- Em.
    unfold slice. rewrite E. unfold zlen in *. rewrite app_length in H2.
    assert (S1 : slice_bound (length (pre ++ mid ++ post)) (c_start c) = length pre).
    { unfold slice_bound. rewrite !app_length. destruct (Z.ltb_spec (c_start c) 0); lia. }
    assert (S2 : slice_bound (length (pre ++ mid ++ post)) (c_end c) = length (pre ++ mid)).
    { unfold slice_bound. rewrite !app_length. destruct (Z.ltb_spec (c_end c) 0); lia. }
    rewrite S1, S2. rewrite (app_assoc pre mid post), firstn_app, firstn_all, Nat.sub_diag, firstn_O, app_nil_r.
    rewrite skipn_app, skipn_all, Nat.sub_diag. reflexivity. }
  repeat constructor; intros HP; apply K in HP; try (vm_compute; discriminate);
    destruct HP as (x & y & E); vm_compute in E;
    repeat (destruct x as [|? x]; [try discriminate|]; cbn [app] in E; try (injection E as <- E || discriminate));
    try discriminate.
Qed.

Example C114_example : accepted demo_chunking /\ 0 <= k_overlap demo_chunking /\ 0 <= k_min demo_chunking /\
  exists cs, chunk_process demo_chunking demo_text = Ok cs /\ (2 < length cs)%nat.
Proof. split; [reflexivity|]. split; [cbn; lia|]. split; [cbn; lia|]. eexists. split; [vm_compute; reflexivity|cbn; lia]. Qed.

Print Assumptions C112_groups_partial.
Print Assumptions C112_zero_overlap_repeats.
Print Assumptions C112_zero_overlap_refuted.
Print Assumptions C112_negative_overlap_repeats.
Print Assumptions C112_negative_overlap_refuted.
Print Assumptions C113_sizes_partial.
Print Assumptions C113_sizes_refuted.
Print Assumptions C114_positions_partial.
Print Assumptions C114_semantic_refuted.
