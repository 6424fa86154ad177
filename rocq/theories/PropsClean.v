(** C63, C64, C94, C95, C115: the cleaning processor, and cleaning followed by chunking. *)

From Coq Require Import String List Arith ZArith NArith Lia Bool.
From Coq Require Import ZifyBool ZifyNat.
From Verif Require Import PyBase PyMore PyValue BaseLemmas ChunkModel ChunkProofs PropsChunk CleanModel.
Import ListNotations.
Open Scope Z_scope.

(** ** Specification *)

Definition word (w : pystr) : Prop := w <> [] /\ Forall (fun c => py_space c = false) w.

Definition starts_blank (s : pystr) : Prop := exists c r, s = c :: r /\ py_space c = true.

(** The words of a text: the longest parts without blanks. *)
Inductive words_of : pystr -> list pystr -> Prop :=
| wo_nil s : blank s -> words_of s []
| wo_cons u w v ws : blank u -> word w -> v = [] \/ starts_blank v -> words_of v ws ->
    words_of (u ++ w ++ v) (w :: ws).

(** Every blank is a single space between two other characters. *)
Definition normal (s : pystr) : Prop :=
  forall a x b, s = a ++ x :: b -> py_space x = true ->
    x = 32%N /\ a <> [] /\ exists y b', b = y :: b' /\ py_space y = false.

(** ** Words *)

Lemma words_blank u s ws : blank u -> words_of s ws -> words_of (u ++ s) ws.
Proof.
  intros Hu H. destruct H as [s Hs|u' w v ws Hu' Hw Hv H].
  - apply wo_nil. now apply Forall_app.
  - rewrite app_assoc. apply wo_cons; auto. now apply Forall_app.
Qed.

Lemma split_words_spec s : forall w, Forall (fun c => py_space c = false) w ->
  words_of (rev w ++ s) (split_words w s).
Proof.
  induction s as [|c s IH]; intros w Hw; cbn [split_words].
  - destruct w as [|a w]; [apply wo_nil; constructor|]. apply (wo_cons [] (rev (a :: w)) [] []); [constructor| |now left|apply wo_nil; constructor].
    split; [simpl; destruct (rev w); discriminate|now apply Forall_rev].
  - destruct (py_space c) eqn:Ec.
    + assert (HR : words_of (c :: s) (split_words [] s)).
      { apply (words_blank [c]); [now repeat constructor|]. apply (IH []). constructor. }
      destruct w as [|a w]; [exact HR|]. apply (wo_cons [] (rev (a :: w)) (c :: s)); [constructor| |right; red; eauto|exact HR].
      split; [simpl; destruct (rev w); discriminate|now apply Forall_rev].
    + specialize (IH (c :: w) (Forall_cons _ Ec Hw)). cbn [rev] in IH. rewrite <- app_assoc in IH. exact IH.
Qed.

Lemma py_split_words s : words_of s (py_split s).
Proof. apply (split_words_spec s []). constructor. Qed.

Lemma words_are_words s ws : words_of s ws -> Forall word ws.
Proof. induction 1; constructor; auto. Qed.

Lemma split_blank u : forall s, blank u -> split_words [] (u ++ s) = split_words [] s.
Proof. intros s H. induction H as [|c u Hc _ IH]; simpl; [reflexivity|]. now rewrite Hc. Qed.

Lemma split_word w : forall acc s, Forall (fun c => py_space c = false) w ->
  split_words acc (w ++ s) = split_words (rev w ++ acc) s.
Proof.
  induction w as [|c w IH]; intros acc s H; [reflexivity|]. inversion H as [|? ? Hc H']; subst. cbn [app split_words rev].
  rewrite Hc, IH by exact H'. now rewrite <- app_assoc.
Qed.

Lemma words_unique s ws : words_of s ws -> py_split s = ws.
Proof.
  unfold py_split. induction 1 as [s Hs|u w v ws Hu [Hn Hw] Hv H IH].
  - rewrite <- (app_nil_r s). now rewrite split_blank.
  - rewrite split_blank, split_word by assumption. rewrite app_nil_r.
    assert (Hr : exists a r, rev w = a :: r).
    { destruct (rev w) as [|a r] eqn:E; eauto. apply (f_equal (@rev N)) in E. rewrite rev_involutive in E. now destruct Hn. }
    destruct Hr as (a & r & Er).
    destruct Hv as [->|(c & v' & -> & Hc)].
    + simpl split_words in IH |- *. rewrite Er. simpl in IH. rewrite <- Er, rev_involutive. now rewrite IH.
    + cbn [split_words] in IH |- *. rewrite Hc in *. rewrite Er. rewrite <- Er, rev_involutive. now rewrite IH.
Qed.

Lemma join_cons w ws : ws <> [] -> py_join (py " ") (w :: ws) = w ++ 32%N :: py_join (py " ") ws.
Proof. destruct ws; [congruence|reflexivity]. Qed.

Lemma join_words ws : Forall word ws -> words_of (py_join (py " ") ws) ws.
Proof.
  induction 1 as [|w ws Hw HF IH]; [apply wo_nil; constructor|]. destruct ws as [|w2 ws].
  - change (py_join (py " ") [w]) with w. rewrite <- (app_nil_r w) at 1. apply (wo_cons [] w [] []); auto; repeat constructor.
  - rewrite join_cons by discriminate. apply (wo_cons [] w (32%N :: py_join (py " ") (w2 :: ws))); auto.
    + constructor.
    + right. red. eauto.
    + apply (words_blank [32%N]); [now repeat constructor|exact IH].
Qed.

Lemma join_ends ws : ws <> [] -> Forall word ws ->
  (forall c r, py_join (py " ") ws = c :: r -> py_space c = false) /\
  (forall c r, py_join (py " ") ws = r ++ [c] -> py_space c = false) /\ py_join (py " ") ws <> [].
Proof.
  intros Hn HF. induction HF as [|w ws [Hw1 Hw2] HF IH]; [congruence|]. destruct ws as [|w2 ws].
  - change (py_join (py " ") [w]) with w. rewrite Forall_forall in Hw2. split; [|split; [|exact Hw1]].
    + intros c r ->. apply Hw2. now left.
    + intros c r ->. apply Hw2. apply in_or_app. right. now left.
  - destruct IH as (H1 & H2 & H3); [discriminate|]. rewrite join_cons by discriminate.
    rewrite Forall_forall in Hw2. split; [|split].
    + destruct w as [|a w]; [congruence|]. intros c r [= <- _]. apply Hw2. now left.
    + intros c r E. destruct (exists_last H3) as (l & x & El). rewrite El in E.
      rewrite app_comm_cons, app_assoc in E. apply app_inj_tail in E as [_ <-]. now apply (H2 x l).
    + destruct w; discriminate.
Qed.

(** ** Normal form *)

Lemma word_no_blank w a x b : word w -> w = a ++ x :: b -> py_space x = false.
Proof. intros [_ H] ->. rewrite Forall_forall in H. apply H. apply in_elt. Qed.

Lemma normal_join ws : Forall word ws -> normal (py_join (py " ") ws).
Proof.
  induction 1 as [|w ws Hw HF IH]; [intros [|] x b E; discriminate|]. destruct ws as [|w2 ws].
  - change (py_join (py " ") [w]) with w. intros a x b E Hx. rewrite (word_no_blank w a x b Hw E) in Hx. discriminate.
  - rewrite join_cons by discriminate. destruct (join_ends (w2 :: ws)) as (H1 & _ & H3); [discriminate|exact HF|].
    set (J := py_join (py " ") (w2 :: ws)) in *. clearbody J. intros a x b E Hx.
    revert a E. destruct Hw as [Hn Hw]. induction w as [|c w IHw]; [congruence|]. intros a E.
    inversion Hw as [|? ? Hc Hw']; subst. destruct a as [|a0 a]; [injection E as <- _; congruence|].
    injection E as <- E. destruct w as [|c2 w].
    + cbn [app] in E. destruct a as [|a1 a].
      * injection E as <- <-. split; [reflexivity|]. split; [discriminate|]. destruct J as [|y b']; [congruence|]. eauto.
      * injection E as <- E. destruct (IH a x b E Hx) as (E1 & _ & E2). split; [exact E1|]. split; [discriminate|exact E2].
    + destruct (IHw ltac:(discriminate) Hw' a E) as (E1 & _ & E2). split; [exact E1|]. split; [discriminate|exact E2].
Qed.

(** ** Runs *)

Lemma sub_runs_blank_true u s : blank u -> sub_runs py_space true (u ++ s) = sub_runs py_space true s.
Proof. induction 1 as [|c u Hc _ IH]; [reflexivity|]. cbn [app sub_runs]. now rewrite Hc. Qed.

Lemma sub_runs_word b w s : word w -> sub_runs py_space b (w ++ s) = w ++ sub_runs py_space false s.
Proof.
  intros [Hn Hw]. revert b Hn. induction Hw as [|c w Hc _ IH]; intros b Hn; [congruence|]. cbn [app sub_runs]. rewrite Hc.
  destruct w as [|c2 w]; [reflexivity|]. now rewrite IH by discriminate.
Qed.

Lemma sub_runs_all_blank b s : blank s -> blank (sub_runs py_space b s).
Proof.
  intros H. revert b. induction H as [|c s Hc _ IH]; intros b; [constructor|]. cbn [sub_runs]. rewrite Hc.
  destruct b; [apply IH|]. constructor; [reflexivity|apply IH].
Qed.

Lemma sub_runs_words s ws : words_of s ws -> ws <> [] -> exists lead trail,
  sub_runs py_space false s = lead ++ py_join (py " ") ws ++ trail /\ blank lead /\ blank trail /\
  (starts_blank s -> lead = [32%N]).
Proof.
  induction 1 as [s Hs|u w v ws Hu Hw Hv H IH]; intros Hn; [congruence|]. clear Hn.
  set (lead := match u with [] => [] | _ => [32%N] end).
  assert (E : sub_runs py_space false (u ++ w ++ v) = lead ++ w ++ sub_runs py_space false v).
  { unfold lead. destruct Hu as [|c u Hc Hu]; [exact (sub_runs_word false w v Hw)|]. cbn [app sub_runs]. rewrite Hc.
    rewrite sub_runs_blank_true by exact Hu. now rewrite sub_runs_word. }
  assert (HL : blank lead) by (unfold lead; destruct u; repeat constructor).
  assert (HS : starts_blank (u ++ w ++ v) -> lead = [32%N]).
  { intros (c & r & Ec & Hc). unfold lead. destruct u; [|reflexivity]. exfalso. destruct Hw as [Hn Hw].
    destruct w as [|a w]; [congruence|]. injection Ec as <- _. inversion Hw. congruence. }
  destruct ws as [|w2 ws].
  - exists lead, (sub_runs py_space false v). split; [exact E|]. split; [exact HL|]. split; [|exact HS].
    apply sub_runs_all_blank. now inversion H.
  - destruct IH as (lead' & trail & E' & _ & Ht & Hl'); [discriminate|].
    destruct Hv as [->|Hv]; [apply words_unique in H; discriminate|].
    rewrite (Hl' Hv) in E'. exists lead, trail. split; [|auto].
    rewrite E, E', (join_cons w (w2 :: ws)) by discriminate. rewrite <- !app_assoc. reflexivity.
Qed.

(** Normalised white space: the words, one space apart. *)
Lemma normalise_words s ws : words_of s ws -> py_strip (sub_runs py_space false s) = py_join (py " ") ws.
Proof.
  intros H. destruct ws as [|w ws].
  - apply py_strip_nil. apply Forall_forall. apply sub_runs_all_blank. now inversion H.
  - destruct (sub_runs_words s (w :: ws) H) as (lead & trail & -> & Hl & Ht & _); [discriminate|].
    destruct (join_ends (w :: ws)) as (H1 & H2 & _); [discriminate|exact (words_are_words _ _ H)|].
    apply strip_trimmed. exists lead, trail. auto.
Qed.

(** Single spaces are left alone. *)
Lemma extra_spaces_normal s : normal s -> sub_runs (N.eqb 32) false s = s.
Proof.
  intros HN. assert (G : forall pre s' b, s = pre ++ s' -> (b = true -> forall c r, s' = c :: r -> py_space c = false) ->
    sub_runs (N.eqb 32) b s' = s').
  { intros pre s'. revert pre. induction s' as [|c r IH]; intros pre b E Hb; [reflexivity|]. cbn [sub_runs].
    assert (E' : s = (pre ++ [c]) ++ r) by (rewrite <- app_assoc; exact E).
    destruct (N.eqb_spec 32 c) as [<-|Hc].
    - destruct b; [specialize (Hb eq_refl 32%N r eq_refl); discriminate|]. f_equal. apply (IH _ true E').
      intros _ y b' ->. destruct (HN pre 32%N (y :: b') E eq_refl) as (_ & _ & y' & b'' & [= <- <-] & Hy). exact Hy.
    - f_equal. apply (IH _ false E'). discriminate. }
  apply (G [] s false eq_refl). discriminate.
Qed.

(** ** C94, C63 *)

(** White-space cleaning keeps the words that remain after the other steps, one space apart; the
    stop-word filter then drops stop words and words of unwanted length. *)
Theorem C94_words lib w text ws : w_space w = true -> w_lower w = false -> text <> [] ->
  words_of (prepare lib w text) ws ->
  clean_text lib w text =
    py_join (py " ") (if w_stop w && negb (eqb (w_stopwords w) [])
                      then filter (fun x => negb (memb (l_lower lib x) (w_stopwords w)) &&
                                            (w_min w <=? zlen x) && (zlen x <=? w_max w)) ws
                      else ws).
Proof.
  intros Hs Hl Hn H. unfold clean_text. destruct text as [|c0 text0]; [congruence|]. rewrite Hs, Hl.
  rewrite (normalise_words _ _ H). pose proof (words_are_words _ _ H) as HF.
  replace (if w_extra w then sub_runs (N.eqb 32) false (py_join (py " ") ws) else py_join (py " ") ws)
    with (py_join (py " ") ws).
  2:{ destruct (w_extra w); [|reflexivity]. symmetry. apply extra_spaces_normal. now apply normal_join. }
  destruct (w_stop w && negb (eqb (w_stopwords w) [])); [|reflexivity].
  rewrite (words_unique _ _ (join_words ws HF)). reflexivity.
Qed.

Theorem C63_normal_form lib w text : w_space w = true ->
  (w_lower w = true -> forall s, normal s -> normal (l_lower lib s)) -> normal (clean_text lib w text).
Proof.
  intros Hs Hl. unfold clean_text. destruct text as [|c0 text0]; [intros [|] x b E; discriminate|].
  rewrite Hs. set (t := prepare lib w (c0 :: text0)). clearbody t.
  pose proof (py_split_words t) as H. rewrite (normalise_words _ _ H). pose proof (words_are_words _ _ H) as HF.
  set (J := py_join (py " ") (py_split t)) in *. assert (HJ : normal J) by (now apply normal_join). clearbody J.
  replace (if w_extra w then sub_runs (N.eqb 32) false J else J) with J.
  2:{ destruct (w_extra w); [|reflexivity]. symmetry. now apply extra_spaces_normal. }
  set (J' := if w_lower w then l_lower lib J else J).
  assert (HJ' : normal J') by (unfold J'; destruct (w_lower w); auto). clearbody J'.
  destruct (w_stop w && _); [|exact HJ']. apply normal_join.
  pose proof (words_are_words _ _ (py_split_words J')) as HF'. rewrite Forall_forall in *.
  intros x Hx. apply filter_In in Hx as [Hx _]. auto.
Qed.

(** Cleaning only white space, twice. *)
Theorem C63_idempotent lib w text : w_space w = true -> w_html w = false -> w_unicode w = false -> w_special w = false ->
  w_lower w = false -> w_stop w = false -> clean_text lib w (clean_text lib w text) = clean_text lib w text.
Proof.
  intros Hs Hh Hu Hp Hl Ht. destruct text as [|c0 text0]; [reflexivity|]. set (text := c0 :: text0).
  assert (HP : forall s, prepare lib w s = s) by (intros s; unfold prepare; now rewrite Hh, Hu, Hp).
  assert (HC : forall s ws, s <> [] -> words_of s ws -> clean_text lib w s = py_join (py " ") ws).
  { intros s ws Hn H. rewrite <- (HP s) in H. rewrite (C94_words lib w s ws Hs Hl Hn H). now rewrite Ht. }
  rewrite (HC text (py_split text)) by (discriminate || apply py_split_words).
  pose proof (words_are_words _ _ (py_split_words text)) as HF.
  destruct (py_join (py " ") (py_split text)) as [|a r] eqn:E; [reflexivity|]. rewrite <- E.
  apply HC; [congruence|]. now apply join_words.
Qed.

(** The library functions of the examples: they do nothing. *)
Definition demo_lib : text_lib := MkLib (fun s => s) (fun s => s) (fun s => s) (fun s => s).

Example C63_example :
  clean_text demo_lib default_cleaning ([9; 32]%N ++ py "Two  <b>bold</b>" ++ [13; 10]%N ++ py "words <> ") = py "Two bold words <>".
Proof. vm_compute. reflexivity. Qed.

Example C63_lower_example : w_space default_cleaning = true /\
  (w_lower default_cleaning = true -> forall s, normal s -> normal (l_lower demo_lib s)).
Proof. split; [reflexivity|discriminate]. Qed.

Example C94_example : exists ws,
  words_of (prepare demo_lib default_cleaning ([9; 32]%N ++ py "Two  words ")) ws /\ ws = [py "Two"; py "words"].
Proof. eexists. split; [apply py_split_words|vm_compute; reflexivity]. Qed.

(** ** C95: tags *)

(** The text contains a "<" and a ">" with something other than ">" between them. *)
Definition has_tag (s : pystr) : Prop := exists a m b, s = a ++ 60%N :: m ++ 62%N :: b /\ m <> [] /\ ~ In 62%N m.

(** Tag removal, from left to right. *)
Inductive tags_removed : pystr -> pystr -> Prop :=
| tr_nil : tags_removed [] []
| tr_tag m s t : m <> [] -> ~ In 62%N m -> tags_removed s t -> tags_removed (60%N :: m ++ 62%N :: s) t
| tr_char c s t : (c = 60%N -> forall m r, s = m ++ 62%N :: r -> ~ In 62%N m -> m = []) ->
    tags_removed s t -> tags_removed (c :: s) (c :: t).

Lemma remove_tags_skip m : forall s, ~ In 62%N m -> remove_tags true (m ++ 62%N :: s) = remove_tags false s.
Proof.
  induction m as [|c m IH]; intros s H; [reflexivity|]. cbn [app remove_tags].
  destruct (N.eqb_spec c 62) as [->|Hc]; [destruct H; now left|]. apply IH. intros Hm. apply H. now right.
Qed.

Lemma first_close s : In 62%N s -> exists m r, s = m ++ 62%N :: r /\ ~ In 62%N m.
Proof.
  induction s as [|c s IH]; intros H; [destruct H|]. destruct (N.eq_dec c 62) as [->|Hc].
  - exists [], s. split; [reflexivity|auto].
  - destruct H as [->|H]; [congruence|]. destruct (IH H) as (m & r & -> & Hm). exists (c :: m), r. split; [reflexivity|].
    intros [->|Hi]; auto.
Qed.

Lemma remove_tags_spec : forall n s, (length s <= n)%nat -> tags_removed s (remove_tags false s).
Proof.
  induction n as [|n IH]; intros s Hl; [destruct s; [constructor|simpl in Hl; lia]|].
  destruct s as [|c s]; [constructor|]. cbn [remove_tags].
  destruct (N.eqb_spec c 60) as [->|Hc]; cbn [andb].
  - destruct s as [|d s].
    + cbn [andb]. apply tr_char; [|constructor]. intros _ [|a m] r E; [reflexivity|discriminate].
    + destruct (N.eqb_spec d 62) as [->|Hd]; cbn [negb andb].
      * apply tr_char; [|apply IH; simpl in *; lia]. intros _ [|a m] r E Hi; [reflexivity|]. injection E as <- E.
        destruct Hi. now left.
      * destruct (memb 62%N (d :: s)) eqn:Em.
        -- apply memb_In in Em. destruct (first_close _ Em) as (m & r & E & Hm). rewrite E, remove_tags_skip by exact Hm.
           apply tr_tag; [|exact Hm|].
           ++ intros ->. injection E as -> _. congruence.
           ++ apply IH. apply (f_equal (@length N)) in E. rewrite app_length in E. simpl in *. lia.
        -- apply tr_char; [|apply IH; simpl in *; lia]. intros _ m r E Hi. exfalso.
           assert (In 62%N (d :: s)) by (rewrite E; apply in_elt). apply memb_In in H. congruence.
  - apply tr_char; [congruence|]. apply IH. simpl in Hl. lia.
Qed.

(** Without tags: every "<" is followed by ">" at once, or by no ">" at all. *)
Fixpoint tag_free (s : pystr) : Prop :=
  match s with
  | [] => True
  | c :: r => (c = 60%N -> hd_error r = Some 62%N \/ ~ In 62%N r) /\ tag_free r
  end.

Lemma tag_free_spec s : tag_free s -> ~ has_tag s.
Proof.
  intros H (a & m & b & -> & Hn & Hm). induction a as [|x a IH]; cbn [app tag_free] in H; [|now apply IH].
  destruct H as [H _]. destruct (H eq_refl) as [H1|H1].
  - destruct m as [|y m]; [congruence|]. injection H1 as ->. apply Hm. now left.
  - apply H1. apply in_elt.
Qed.

Lemma tags_removed_incl s t : tags_removed s t -> forall x, In x t -> In x s.
Proof.
  induction 1 as [|m s t Hn Hm H IH|c s t Hc H IH]; intros x Hx; [exact Hx| |].
  - right. apply in_or_app. right. right. auto.
  - destruct Hx as [->|Hx]; [now left|right; auto].
Qed.

Lemma tags_removed_free s t : tags_removed s t -> tag_free t.
Proof.
  induction 1 as [|m s t Hn Hm H IH|c s t Hc H IH]; [exact I|exact IH|]. cbn [tag_free]. split; [|exact IH].
  intros ->. destruct s as [|d s]; [inversion H; subst; right; auto|].
  destruct (N.eq_dec d 62) as [->|Hd].
  - left. inversion H; subst. reflexivity.
  - right. intros Hi. apply (tags_removed_incl _ _ H) in Hi. destruct (first_close _ Hi) as (m & r & E & Hm).
    rewrite (Hc eq_refl m r E Hm) in E. injection E as ->. congruence.
Qed.

(** White-space steps keep a text free of tags. *)
Lemma hd_in {A} (s : list A) x : hd_error s = Some x -> In x s.
Proof. destruct s; [discriminate|]. intros [= ->]. now left. Qed.

Lemma sub_runs_close p b s : p 62%N = false -> In 62%N (sub_runs p b s) -> In 62%N s.
Proof.
  intros Hp. revert b. induction s as [|c s IH]; intros b H; [exact H|]. cbn [sub_runs] in H. destruct (p c) eqn:Ec.
  - right. destruct b; [now apply (IH true)|]. destruct H as [H|H]; [discriminate|now apply (IH true)].
  - destruct H as [H|H]; [now left|right; now apply (IH false)].
Qed.

Lemma tag_free_runs p b s : p 62%N = false -> p 60%N = false -> tag_free s -> tag_free (sub_runs p b s).
Proof.
  intros Hp Hq. revert b. induction s as [|c s IH]; intros b H; [exact I|]. destruct H as [H1 H2]. cbn [sub_runs].
  destruct (p c) eqn:Ec.
  - destruct b; [now apply IH|]. split; [discriminate|now apply IH].
  - split; [|now apply IH]. intros ->. destruct (H1 eq_refl) as [Hh|Hh].
    + left. destruct s as [|d s]; [discriminate|]. injection Hh as ->. cbn [sub_runs]. now rewrite Hp.
    + right. intros Hi. apply Hh. eapply sub_runs_close; eauto.
Qed.

Lemma tag_free_app a b : tag_free (a ++ b) -> tag_free b.
Proof. induction a as [|x a IH]; [auto|]. intros [_ H]. now apply IH. Qed.

Lemma tag_free_prefix a b : blank b -> tag_free (a ++ b) -> tag_free a.
Proof.
  intros Hb. induction a as [|x a IH]; [intros _; exact I|]. intros [H1 H2]. split; [|now apply IH].
  intros E. destruct (H1 E) as [Hh|Hh].
  - destruct a as [|y a]; [|now left]. right. auto.
  - right. intros Hi. apply Hh. apply in_or_app. now left.
Qed.

Lemma tag_free_strip s : tag_free s -> tag_free (py_strip s).
Proof.
  destruct (py_strip_trimmed s) as (u & v & E & Hu & Hv & _). intros H. rewrite E in H.
  apply (tag_free_prefix _ v Hv). now apply (tag_free_app u).
Qed.

(** Dropping words keeps a text free of tags. *)
Lemma tag_free_word w J J' : tag_free (w ++ 32%N :: J) -> (In 62%N J' -> In 62%N J) -> tag_free J' ->
  tag_free (w ++ 32%N :: J') /\ tag_free w.
Proof.
  intros H HI HJ. induction w as [|c w IH]; cbn [app tag_free] in *; [split; [split; [discriminate|exact HJ]|exact I]|].
  destruct H as [H1 H2]. destruct (IH H2) as [I1 I2].
  assert (HC : c = 60%N -> hd_error w = Some 62%N \/ ~ In 62%N (w ++ 32%N :: J)).
  { intros E. destruct (H1 E) as [Hh|Hh]; [|now right]. left. destruct w; [discriminate|exact Hh]. }
  split; (split; [|assumption]); intros E; destruct (HC E) as [Hh|Hh].
  - left. destruct w; [discriminate|exact Hh].
  - right. intros Hi. apply Hh. apply in_app_or in Hi as [Hi|[Hi|Hi]]; [|discriminate|]; apply in_or_app;
      [now left|right; right; auto].
  - now left.
  - right. intros Hi. apply Hh. apply in_or_app. now left.
Qed.

Lemma join_filter_in f ws : In 62%N (py_join (py " ") (filter f ws)) -> In 62%N (py_join (py " ") ws).
Proof.
  assert (G : forall l, In 62%N (py_join (py " ") l) <-> exists w, In w l /\ In 62%N w).
  { induction l as [|w l IH]; [split; [intros []|intros (w & [] & _)]|]. destruct l as [|w2 l].
    - change (py_join (py " ") [w]) with w. split; [intros H; exists w; split; [now left|exact H]|].
      intros (w' & [<-|[]] & H). exact H.
    - rewrite join_cons by discriminate. rewrite in_app_iff. cbn [In]. rewrite IH. split.
      + intros [H|[H|(w' & H & H')]]; [exists w; split; [now left|exact H]|discriminate|exists w'; split; [now right|exact H']].
      + intros (w' & [<-|H] & H'); [now left|right; right; exists w'; auto]. }
  rewrite !G. intros (w & Hw & Hi). apply filter_In in Hw as [Hw _]. eauto.
Qed.

Lemma tag_free_filter f ws : tag_free (py_join (py " ") ws) -> tag_free (py_join (py " ") (filter f ws)).
Proof.
  induction ws as [|w ws IH]; intros H; [exact I|]. cbn [filter].
  destruct ws as [|w2 ws]; [destruct (f w); [exact H|exact I]|].
  rewrite join_cons in H by discriminate. set (l := w2 :: ws) in *. clearbody l.
  assert (HJ : tag_free (py_join (py " ") l)) by (apply (tag_free_app w (32%N :: py_join (py " ") l)) in H; exact (proj2 H)). specialize (IH HJ).
  destruct (tag_free_word w _ _ H (join_filter_in f l) IH) as [H1 H2].
  destruct (f w); [|exact IH]. destruct (filter f l) as [|x l'] eqn:E; [exact H2|]. rewrite join_cons by discriminate. exact H1.
Qed.

(** With HTML removal on and without the steps whose library function could write new tags, no
    tag is left.  Missing: NFKD normalisation, see [C95_refuted]. *)
Theorem C95_no_tags_partial lib w text : w_html w = true -> w_unicode w = false -> w_special w = false ->
  w_lower w = false -> ~ has_tag (clean_text lib w text).
Proof.
  intros Hh Hu Hp Hl. apply tag_free_spec. unfold clean_text, prepare.
  destruct text as [|c0 text0]; [exact I|]. rewrite Hh, Hu, Hp, Hl.
  pose proof (tags_removed_free _ _ (remove_tags_spec _ (l_unescape lib (c0 :: text0)) (Nat.le_refl _))) as H.
  set (t := remove_tags false _) in *. clearbody t.
  assert (H' : tag_free (if w_space w then py_strip (sub_runs py_space false t) else t)).
  { destruct (w_space w); [|exact H]. apply tag_free_strip. apply tag_free_runs; auto. }
  set (t' := if w_space w then _ else t) in *. clearbody t'.
  assert (H2 : tag_free (if w_extra w then sub_runs (N.eqb 32) false t' else t')).
  { destruct (w_extra w); [|exact H']. apply tag_free_runs; auto. }
  set (t2 := if w_extra w then _ else t') in *. clearbody t2.
  destruct (w_stop w && _); [|exact H2]. apply tag_free_filter.
  rewrite <- (normalise_words _ _ (py_split_words t2)). apply tag_free_strip. apply tag_free_runs; auto.
Qed.

(** What is removed is exactly the tags. *)
Theorem C95_only_tags lib w text : w_html w = true -> w_unicode w = false -> w_special w = false -> w_space w = false ->
  w_extra w = false -> w_lower w = false -> w_stop w = false -> text <> [] ->
  tags_removed (l_unescape lib text) (clean_text lib w text).
Proof.
  intros Hh Hu Hp Hs He Hl Ht Hn. unfold clean_text, prepare. destruct text as [|c0 text0]; [congruence|].
  rewrite Hh, Hu, Hp, Hs, He, Hl, Ht. cbn [andb]. exact (remove_tags_spec _ _ (Nat.le_refl _)).
Qed.

(** NFKD turns the full-width "<" (U+FF1C) into "<" after the tags were removed. *)
Definition nfkd_wide (s : pystr) : pystr := map (fun c => if (c =? 65308)%N then 60%N else c) s.

Theorem C95_refuted : exists nfkd text,
  (forall s, Forall (fun c => c <> 65308%N) s -> nfkd s = s) /\ nfkd [65308%N] = [60%N] /\
  has_tag (clean_text (MkLib (fun s => s) nfkd (fun s => s) (fun s => s)) default_cleaning text).
Proof.
  exists nfkd_wide, (65308%N :: py "b>"). split; [|split; [reflexivity|]].
  - intros s H. unfold nfkd_wide. induction H as [|c s Hc _ IH]; [reflexivity|]. simpl. rewrite IH.
    destruct (N.eqb_spec c 65308); [congruence|reflexivity].
  - exists [], (py "b"), []. split; [vm_compute; reflexivity|]. split; [discriminate|].
    intros [H|[]]. discriminate.
Qed.

Example C95_example : clean_text demo_lib (MkClean true true false false true false false [] 1 50)
  (py "a < b, <i>c</i> <> d") = py "a c <> d".
Proof. vm_compute. reflexivity. Qed.

Example C95_tags_example : clean_text demo_lib (MkClean true false false false false false false [] 1 50)
  (py "x<i>c</i> <> d < e") = py "xc <> d < e".
Proof. vm_compute. reflexivity. Qed.

(** ** C64 *)

(** The cleaning and chunking of factory.py:94-110 with their default sizes. *)
Definition document_cleaning : clean_config := default_cleaning.
Definition document_chunking : chunk_config := MkChunkConfig Semantic 1000 100 50 2000 default_separators.

Definition clean_and_chunk (lib : text_lib) (w : clean_config) (k : chunk_config) (text : pystr) : result document :=
  chunk_document k (clean_process lib w (MkDoc (Some text) None)).

Lemma no_newline_one_paragraph s : ~ In 10%N s -> split_paragraphs s = [s].
Proof.
  induction s as [|c s IH]; intros H; [reflexivity|]. destruct s as [|c2 s]; [reflexivity|].
  change (split_paragraphs (c :: c2 :: s)) with (if (c =? 10)%N && (c2 =? 10)%N then [] :: split_paragraphs s
      else match split_paragraphs (c2 :: s) with p :: ps => (c :: p) :: ps | [] => [[c]] end).
  destruct (N.eqb_spec c 10) as [->|Hc]; [destruct H; now left|]. cbn [andb]. rewrite IH; [reflexivity|].
  intros Hi. apply H. now right.
Qed.

Lemma normal_no_newline s : normal s -> ~ In 10%N s.
Proof. intros H Hi. apply in_split in Hi as (a & b & ->). destruct (H a 10%N b eq_refl eq_refl) as [E _]. discriminate. Qed.

Lemma normal_strip s : normal s -> py_strip s = s.
Proof.
  intros H. apply strip_trimmed. exists [], []. split; [now rewrite app_nil_r|]. split; [constructor|]. split; [constructor|].
  split; intros c r E; destruct (py_space c) eqn:Ec; auto.
  - destruct (H [] c r E Ec) as (_ & Hn & _). now destruct Hn.
  - destruct (H r c [] E Ec) as (_ & _ & y & b & Eb & _). discriminate.
Qed.

(** White-space cleaning leaves no blank line, so semantic chunking never splits anything: the
    whole text is one chunk, or lost when it is too long. *)
Theorem C64_never_split lib w k text d : w_space w = true -> w_lower w = false -> k_strategy k = Semantic ->
  clean_and_chunk lib w k text = Ok d ->
  d_chunks d = Some (let t := clean_text lib w text in
    if negb (eqb t []) && (k_min k <=? zlen t) && (zlen t <=? k_max k) then [MkChunk 0 t 0 (zlen t)] else []).
Proof.
  intros Hs Hl HS E. unfold clean_and_chunk, chunk_document, clean_process in E. cbn [d_text option_map] in E.
  pose proof (C63_normal_form lib w text Hs ltac:(congruence)) as HN.
  set (t := clean_text lib w text) in *. clearbody t. unfold chunk_process, raw_chunks in E. rewrite HS in E.
  cbn [rbind] in E. injection E as <-. cbn [d_chunks]. f_equal. unfold semantic_chunking.
  rewrite (no_newline_one_paragraph t) by now apply normal_no_newline. cbn [fold_left]. unfold sem_step. rewrite (normal_strip t HN).
  destruct t as [|c0 t0]; [reflexivity|]. cbn [m_current]. unfold sem_chunk. cbn [m_current m_start m_id m_chunks rev app].
  rewrite (normal_strip _ HN). unfold filter_by_size. cbn [filter c_text]. rewrite Z.add_0_l. cbv zeta.
  replace (eqb (c0 :: t0) []) with false by reflexivity. cbn [negb andb].
  destruct ((k_min k <=? zlen (c0 :: t0)) && (zlen (c0 :: t0) <=? k_max k)); reflexivity.
Qed.

(** Three paragraphs of 700 letters: 2100 characters, no chunk.  Two paragraphs: one chunk. *)
Definition paragraphs (n : nat) : pystr := py_join [10; 10]%N (repeat (repeat 120%N 700) n).

Theorem C64_refuted : exists two three,
  two = paragraphs 2 /\ three = paragraphs 3 /\ 1000 < zlen two /\ 1000 < zlen three /\
  (exists d, clean_and_chunk demo_lib document_cleaning document_chunking two = Ok d /\ option_map (@length _) (d_chunks d) = Some 1%nat) /\
  (exists d, clean_and_chunk demo_lib document_cleaning document_chunking three = Ok d /\ d_chunks d = Some []).
Proof.
  exists (paragraphs 2), (paragraphs 3). split; [reflexivity|]. split; [reflexivity|].
  split; [vm_compute; reflexivity|]. split; [vm_compute; reflexivity|].
  split; (eexists; split; [vm_compute; reflexivity|vm_compute; reflexivity]).
Qed.

Example C64_example : exists d,
  clean_and_chunk demo_lib document_cleaning (MkChunkConfig Semantic 12 2 1 2000 [])
    (py "One paragraph." ++ [10; 10]%N ++ py "And another one.") = Ok d /\
  option_map (map c_text) (d_chunks d) = Some [py "One paragraph. And another one."].
Proof. eexists. split; vm_compute; reflexivity. Qed.

(** ** C115: documents that already have chunks *)

Lemma clean_keeps_words lib w text ws : w_space w = true -> w_lower w = false -> w_stop w = false ->
  words_of (prepare lib w text) ws -> words_of (clean_text lib w text) ws \/ text = [].
Proof.
  intros Hs Hl Ht H. destruct text as [|c r]; [now right|left].
  rewrite (C94_words lib w (c :: r) ws Hs Hl ltac:(discriminate) H). rewrite Ht. simpl.
  apply join_words. exact (words_are_words _ _ H).
Qed.

(** The text and every chunk come out with single spaces and with their own words, one chunk for
    each, with the same id and positions.  Missing: whether the positions still fit, see below;
    stop words and lower case, for which C94 says what happens to the words. *)
Theorem C115_document_partial lib w d : w_space w = true -> w_lower w = false -> w_stop w = false ->
  let d' := clean_process lib w d in
  let cleaned (t t' : pystr) := normal t' /\ (forall ws, words_of (prepare lib w t) ws -> words_of t' ws \/ t = []) in
  match d_text d, d_text d' with
  | None, None => True
  | Some t, Some t' => cleaned t t'
  | _, _ => False
  end /\
  match d_chunks d, d_chunks d' with
  | None, None => True
  | Some cs, Some cs' =>
      Forall2 (fun c c' => c_id c' = c_id c /\ c_start c' = c_start c /\ c_end c' = c_end c /\
                           cleaned (c_text c) (c_text c')) cs cs'
  | _, _ => False
  end.
Proof.
  intros Hs Hl Ht. cbv zeta.
  assert (G : forall t, normal (clean_text lib w t) /\
    forall ws, words_of (prepare lib w t) ws -> words_of (clean_text lib w t) ws \/ t = []).
  { intros t. split; [apply C63_normal_form; [exact Hs|congruence]|]. intros ws. now apply clean_keeps_words. }
  unfold clean_process. cbn [d_text d_chunks]. split.
  - destruct (d_text d); cbn [option_map]; auto.
  - destruct (d_chunks d) as [cs|]; cbn [option_map]; [|exact I]. induction cs as [|c cs IH]; cbn [map]; constructor; auto.
    unfold with_text. cbn [c_id c_text c_start c_end]. do 3 (split; [reflexivity|]). apply G.
Qed.

(** The positions are kept and the text is shortened: a chunk that was where it said before
    cleaning need not be there afterwards. *)
Theorem C115_positions_refuted : exists w text c, w_space w = true /\ piece text c /\
  exists t' c', clean_process demo_lib w (MkDoc (Some text) (Some [c])) = MkDoc (Some t') (Some [c']) /\
    zlen t' < c_end c' /\ ~ piece t' c'.
Proof.
  exists default_cleaning, (py "One" ++ [10; 10; 10]%N ++ py "two"), (MkChunk 0 (py "two") 6 9).
  split; [reflexivity|]. split.
  - exists (py "One" ++ [10; 10; 10]%N), (py "two"), []. repeat split; try reflexivity.
    exists [], []. repeat split; try constructor; try reflexivity; intros c r E.
    + injection E as <- _. reflexivity.
    + change (py "two") with ([116; 119] ++ [111])%N in E. apply app_inj_tail in E as [_ <-]. reflexivity.
  - do 2 eexists. split; [vm_compute; reflexivity|]. split; [vm_compute; reflexivity|].
    intros (pre & mid & post & E & _ & H & _). cbn [c_end] in H.
    apply (f_equal (@length N)) in E. rewrite app_assoc, app_length in E. unfold zlen in H. simpl in E. lia.
Qed.

Example C115_example :
  clean_process demo_lib default_cleaning
    (MkDoc (Some (py "One  two")) (Some [MkChunk 0 (py " One ") 0 5; MkChunk 1 (py "<b>two</b>") 5 8])) =
  MkDoc (Some (py "One two")) (Some [MkChunk 0 (py "One") 0 5; MkChunk 1 (py "two") 5 8]) /\
  w_lower default_cleaning = false /\ w_stop default_cleaning = false.
Proof. repeat split; vm_compute; reflexivity. Qed.

Print Assumptions C115_document_partial.
Print Assumptions C115_positions_refuted.
Print Assumptions C63_normal_form.
Print Assumptions C63_idempotent.
Print Assumptions C64_never_split.
Print Assumptions C64_refuted.
Print Assumptions C94_words.
Print Assumptions C95_no_tags_partial.
Print Assumptions C95_only_tags.
Print Assumptions C95_refuted.
