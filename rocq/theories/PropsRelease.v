(** C146, C147, C148: the release scripts. *)

From Coq Require Import String List Arith ZArith NArith Lia Bool.
From Coq Require Import ZifyBool ZifyNat.
From Verif Require Import PyBase PyMore PyValue BaseLemmas ChunkModel ChunkProofs StorageModel ExtractModel ReleaseModel PropsChunk
  PropsExtract.
Import ListNotations.
Open Scope nat_scope.

(** ** C146: the name and the version *)

(** [s] starts, after blanks, with [key], blanks, an equals sign, blanks and the value [v] in double
    quotes. *)
Definition quoted_field (key s v : pystr) : Prop :=
  exists w1 w2 w3 post, blank w1 /\ blank w2 /\ blank w3 /\ v <> [] /\ ~ In 34%N v /\
    s = w1 ++ key ++ w2 ++ py "=" ++ w3 ++ [34%N] ++ v ++ [34%N] ++ post.

(** The same without the quotes: [v] goes as far as the next blank. *)
Definition plain_field (key s v : pystr) : Prop :=
  exists w1 w2 w3 post, blank w1 /\ blank w2 /\ blank w3 /\ v <> [] /\ Forall (fun c => py_space c = false) v /\
    (forall c r, post = c :: r -> py_space c = true) /\
    s = w1 ++ key ++ w2 ++ py "=" ++ w3 ++ v ++ post.

(** [a] ends where a line starts. *)
Definition line_start (a : pystr) : Prop := a = [] \/ exists a', a = a' ++ [10%N].

(** [v] is the value at the first line of [text] that has the field. *)
Definition first_field (field : pystr -> pystr -> Prop) (text v : pystr) : Prop :=
  exists a b, text = a ++ b /\ line_start a /\ field b v /\
    forall a' b' v', text = a' ++ b' -> line_start a' -> length a' < length a -> ~ field b' v'.

Lemma after_prefix_spec p : forall s r, after_prefix p s = Some r <-> s = p ++ r.
Proof.
  induction p as [|c p IH]; intros s r; cbn [after_prefix].
  - destruct s; split; cbn; congruence.
  - destruct s as [|d s]; [split; [discriminate|cbn; discriminate]|]. destruct (N.eqb_spec c d) as [->|Hc].
    + rewrite IH. cbn [app]. split; [intros ->; reflexivity|]. intros E. now injection E.
    + split; [discriminate|]. cbn [app]. intros E. injection E as E _. congruence.
Qed.

Lemma drop_blank w s : blank w -> (forall c r, s = c :: r -> py_space c = false) -> drop_space (w ++ s) = s.
Proof.
  intros Hw Hs. induction w as [|c w IH]; cbn [app drop_space].
  - destruct s as [|c s]; [reflexivity|]. cbn [drop_space]. now rewrite (Hs c s eq_refl).
  - inversion Hw as [|? ? H1 H2]; subst. rewrite H1. auto.
Qed.

Lemma drop_space_blank s : exists w, blank w /\ s = w ++ drop_space s /\ forall c r, drop_space s = c :: r -> py_space c = false.
Proof.
  destruct (drop_space_split s) as (w & E & Hw). exists w. split; [exact Hw|]. split; [exact E|].
  clear. induction s as [|c s IH]; cbn [drop_space]; [discriminate|]. intros c' r. destruct (py_space c) eqn:Ec; [apply IH|].
  intros E. injection E as -> ->. exact Ec.
Qed.

Lemma after_key_spec key c k s r : key = c :: k -> py_space c = false ->
  after_key key s = Some r <->
  (forall x y, r = x :: y -> py_space x = false) /\
  exists w1 w2 w3, blank w1 /\ blank w2 /\ blank w3 /\ s = w1 ++ key ++ w2 ++ py "=" ++ w3 ++ r.
Proof.
  intros Hk Hc. unfold after_key. split.
  - destruct (drop_space_blank s) as (w1 & H1 & E1 & _).
    destruct (after_prefix key (drop_space s)) as [s2|] eqn:P1; [|discriminate]. apply after_prefix_spec in P1.
    destruct (drop_space_blank s2) as (w2 & H2 & E2 & _).
    destruct (after_prefix (py "=") (drop_space s2)) as [s3|] eqn:P2; [|discriminate]. apply after_prefix_spec in P2.
    destruct (drop_space_blank s3) as (w3 & H3 & E3 & N3). intros E. injection E as <-. split; [exact N3|].
    exists w1, w2, w3. repeat (split; [assumption|]). rewrite E1, P1, E2, P2, E3 at 1. now rewrite !app_assoc.
  - intros (Hr & w1 & w2 & w3 & H1 & H2 & H3 & ->). rewrite drop_blank; [|exact H1|subst key; cbn; congruence].
    rewrite (proj2 (after_prefix_spec key _ _) eq_refl). rewrite drop_blank; [|exact H2|intros x y E; injection E as <- _; reflexivity].
    rewrite (proj2 (after_prefix_spec (py "=") _ _) eq_refl). now rewrite drop_blank.
Qed.

Lemma span_spec p s a b : span p s = (a, b) <->
  s = a ++ b /\ Forall (fun c => p c = true) a /\ forall c r, b = c :: r -> p c = false.
Proof.
  revert a b. induction s as [|c s IH]; intros a b; cbn [span].
  - split.
    + intros E. injection E as <- <-. split; [reflexivity|]. split; [constructor|]. discriminate.
    + intros (E & _). symmetry in E. apply app_eq_nil in E as [-> ->]. reflexivity.
  - destruct (p c) eqn:Ec.
    + destruct (span p s) as [x y] eqn:Es. specialize (IH x y). destruct (proj1 IH eq_refl) as (E1 & E2 & E3). split.
      * intros E. injection E as <- <-. split; [cbn; congruence|]. split; [constructor; auto|exact E3].
      * intros (E & HA & HB). destruct a as [|d a].
        { cbn in E. subst b. specialize (HB c s eq_refl). congruence. }
        injection E as <- E. pose proof (Forall_inv_tail HA) as HA'.
        assert (HH : span p (a ++ b) = (a, b)).
        { clear - HA' HB. induction a as [|d a IHa]; cbn [app span].
          - destruct b as [|d b]; [reflexivity|]. cbn [span]. now rewrite (HB d b eq_refl).
          - inversion HA' as [|? ? H1 H2]; subst. now rewrite H1, (IHa H2). }
        rewrite <- E, Es in HH. congruence.
    + split.
      * intros E. injection E as <- <-. split; [reflexivity|]. split; [constructor|]. intros d r E. congruence.
      * intros (E & HA & HB). destruct a as [|d a]; [cbn in E; now subst b|]. injection E as <- _. inversion HA; congruence.
Qed.

Lemma quoted_value_spec key c k s v : key = c :: k -> py_space c = false ->
  quoted_value key s = Some v <-> quoted_field key s v.
Proof.
  intros Hk Hc. unfold quoted_value, quoted_field. split.
  - destruct (after_key key s) as [s2|] eqn:E1; [|discriminate]. apply (after_key_spec key c k) in E1 as (_ & w1 & w2 & w3 & H1 & H2 & H3 & ->); auto.
    destruct (after_prefix [34%N] s2) as [s3|] eqn:E2; [|discriminate]. apply after_prefix_spec in E2.
    destruct (span _ s3) as [a b] eqn:E3. apply span_spec in E3 as (E3 & HA & _).
    destruct a as [|a0 a]; [discriminate|]. destruct b as [|b0 b]; [discriminate|].
    assert (Hb : b0 = 34%N -> Some (a0 :: a) = Some v -> exists w1' w2' w3' post, blank w1' /\ blank w2' /\ blank w3' /\ v <> [] /\ ~ In 34%N v /\
      w1 ++ key ++ w2 ++ py "=" ++ w3 ++ s2 = w1' ++ key ++ w2' ++ py "=" ++ w3' ++ [34%N] ++ v ++ [34%N] ++ post).
    { intros -> E. injection E as <-. exists w1, w2, w3, b. repeat (split; [assumption|]). split; [discriminate|].
      split; [|rewrite E2, E3; reflexivity]. intros Hin. rewrite Forall_forall in HA. apply HA in Hin. rewrite N.eqb_refl in Hin. discriminate. }
    intros E. apply Hb; [|].
    + destruct (N.eqb_spec b0 34) as [H|H]; [exact H|].
      exfalso. revert E. destruct b0 as [|q]; [discriminate|]. do 6 (destruct q; try discriminate). congruence.
    + destruct (N.eqb_spec b0 34) as [->|H]; [exact E|].
      exfalso. revert E. destruct b0 as [|q]; [discriminate|]. do 6 (destruct q; try discriminate). congruence.
  - intros (w1 & w2 & w3 & post & H1 & H2 & H3 & Hv & Hq & ->).
    assert (E1 : after_key key (w1 ++ key ++ w2 ++ py "=" ++ w3 ++ [34%N] ++ v ++ [34%N] ++ post) = Some ([34%N] ++ v ++ [34%N] ++ post)).
    { apply (after_key_spec key c k); auto. split; [|exists w1, w2, w3; auto]. intros x y E. injection E as <- _. reflexivity. }
    rewrite E1. rewrite (proj2 (after_prefix_spec [34%N] _ _) eq_refl).
    assert (E2 : span (fun c => negb (c =? 34)%N) (v ++ [34%N] ++ post) = (v, [34%N] ++ post)).
    { apply span_spec. split; [reflexivity|]. split.
      - apply Forall_forall. intros x Hx. destruct (N.eqb_spec x 34) as [->|]; [contradiction|reflexivity].
      - intros x r E. injection E as <- _. reflexivity. }
    rewrite E2. destruct v; [congruence|]. reflexivity.
Qed.

Lemma bare_value_spec key c k s v : key = c :: k -> py_space c = false ->
  bare_value key s = Some v <-> plain_field key s v.
Proof.
  intros Hk Hc. unfold bare_value, plain_field. split.
  - destruct (after_key key s) as [s2|] eqn:E1; [|discriminate]. apply (after_key_spec key c k) in E1 as (_ & w1 & w2 & w3 & H1 & H2 & H3 & ->); auto.
    destruct (span _ s2) as [a b] eqn:E3. apply span_spec in E3 as (E3 & HA & HB). cbn [fst].
    destruct a as [|a0 a]; [discriminate|]. intros E. injection E as <-.
    exists w1, w2, w3, b. repeat (split; [assumption|]). split; [discriminate|]. split.
    + eapply Forall_impl; [|exact HA]. cbn. intros x Hx. now apply negb_true_iff in Hx.
    + split; [|now rewrite E3]. intros x r Ex. specialize (HB x r Ex). now apply negb_false_iff in HB.
  - intros (w1 & w2 & w3 & post & H1 & H2 & H3 & Hv & Hq & Hp & ->).
    assert (E1 : after_key key (w1 ++ key ++ w2 ++ py "=" ++ w3 ++ v ++ post) = Some (v ++ post)).
    { apply (after_key_spec key c k); auto. split; [|exists w1, w2, w3; auto]. intros x y E. destruct v as [|v0 v]; [congruence|].
      injection E as <- _. now inversion Hq. }
    rewrite E1.
    assert (E2 : span (fun c => negb (py_space c)) (v ++ post) = (v, post)).
    { apply span_spec. split; [reflexivity|]. split.
      - eapply Forall_impl; [|exact Hq]. cbn. intros x ->. reflexivity.
      - intros x r E. now rewrite (Hp x r E). }
    rewrite E2. cbn [fst]. destruct v; [congruence|]. reflexivity.
Qed.

(** Where [search_lines] looks when it starts in the middle of a line or at its start. *)
Definition starts (ls : bool) (a : pystr) : Prop := (a = [] /\ ls = true) \/ exists a', a = a' ++ [10%N].

Lemma starts_cons ls c a : starts ls (c :: a) <-> starts (c =? 10)%N a.
Proof.
  unfold starts. split.
  - intros [[E _]|(a' & E)]; [discriminate|]. destruct a' as [|x a'].
    + injection E as -> ->. left. auto.
    + injection E as <- ->. right. eauto.
  - intros [[-> E]|(a' & ->)]; right.
    + apply N.eqb_eq in E. subst. exists []. reflexivity.
    + exists (c :: a'). reflexivity.
Qed.

Lemma search_lines_spec m s : forall ls,
  match search_lines m ls s with
  | Some v => exists a b, s = a ++ b /\ starts ls a /\ m b = Some v /\
      forall a' b', s = a' ++ b' -> starts ls a' -> length a' < length a -> m b' = None
  | None => forall a b, s = a ++ b -> starts ls a -> m b = None
  end.
Proof.
  assert (Here : forall s ls v, ls = true -> m s = Some v -> exists a b, s = a ++ b /\ starts ls a /\ m b = Some v /\
      forall a' b', s = a' ++ b' -> starts ls a' -> length a' < length a -> m b' = None).
  { intros s0 ls v -> E. exists [], s0. split; [reflexivity|]. split; [left; auto|]. split; [exact E|]. cbn. lia. }
  induction s as [|c s IH]; intros ls; cbn [search_lines].
  - destruct (if ls then m [] else None) as [v|] eqn:E.
    + destruct ls; [|discriminate]. now apply Here.
    + intros a b Eab Hs. symmetry in Eab. apply app_eq_nil in Eab as [-> ->].
      destruct Hs as [[_ ->]|(a' & Ea)]; [exact E|]. destruct a'; discriminate.
  - destruct (if ls then m (c :: s) else None) as [v|] eqn:E.
    + destruct ls; [|discriminate]. now apply Here.
    + assert (H0 : forall b', c :: s = [] ++ b' -> starts ls [] -> m b' = None).
      { cbn [app]. intros b' E0 [[_ ->]|(a' & Ea)]; [now rewrite <- E0|]. destruct a'; discriminate. }
      specialize (IH (c =? 10)%N). destruct (search_lines m (c =? 10)%N s) as [v|].
      * destruct IH as (a & b & Eab & Hs & Hm & Hf). exists (c :: a), b. split; [cbn; congruence|].
        split; [now apply starts_cons|]. split; [exact Hm|]. intros a' b' E' Hs' Hl. destruct a' as [|x a']; [now apply H0|].
        injection E' as <- E'. apply (Hf a'); [exact E'|now apply starts_cons in Hs'|]. cbn in Hl. lia.
      * intros a b Eab Hs. destruct a as [|x a]; [now apply H0|]. injection Eab as <- Eab. apply (IH a); [exact Eab|].
        now apply starts_cons in Hs.
Qed.

Lemma starts_line a : starts true a <-> line_start a.
Proof. unfold starts, line_start. intuition. Qed.

Lemma search_first m field text v : (forall s v, m s = Some v <-> field s v) ->
  search_lines m true text = Some v <-> first_field field text v.
Proof.
  intros Hm. pose proof (search_lines_spec m text true) as H. split.
  - intros E. rewrite E in H. destruct H as (a & b & E1 & E2 & E3 & E4). exists a, b. split; [exact E1|].
    split; [now apply starts_line|]. split; [now apply Hm|]. intros a' b' v' E' Hs Hl Hf.
    apply Hm in Hf. apply starts_line in Hs. rewrite (E4 a' b' E' Hs Hl) in Hf. discriminate.
  - intros (a & b & E1 & E2 & E3 & E4). apply Hm in E3. apply starts_line in E2.
    destruct (search_lines m true text) as [v'|].
    + destruct H as (x & y & F1 & F2 & F3 & F4). f_equal.
      assert (length x = length a).
      { destruct (lt_eq_lt_dec (length x) (length a)) as [[Hl|Hl]|Hl]; [|exact Hl|].
        - exfalso. apply (E4 x y v'); [exact F1|now apply starts_line|exact Hl|now apply Hm].
        - rewrite (F4 a b E1 E2 Hl) in E3. discriminate. }
      assert (y = b).
      { rewrite F1 in E1. apply (f_equal (skipn (length a))) in E1. rewrite <- H in E1 at 1.
        rewrite !skipn_app, !skipn_all, !Nat.sub_diag in E1. exact E1. }
      congruence.
    + rewrite (H a b E1 E2) in E3. discriminate.
Qed.

Lemma name_first s v : quoted_value (py "name") s = Some v <-> quoted_field (py "name") s v.
Proof. eapply quoted_value_spec; reflexivity. Qed.
Lemma version_first s v : quoted_value (py "version") s = Some v <-> quoted_field (py "version") s v.
Proof. eapply quoted_value_spec; reflexivity. Qed.

(** From pyproject.toml come the values of the first line with a quoted name and of the first line
    with a quoted version, wherever they stand. *)
Theorem C146_pyproject text n v :
  parse_pyproject text = Some (n, v) <->
  first_field (quoted_field (py "name")) text n /\ first_field (quoted_field (py "version")) text v.
Proof.
  unfold parse_pyproject. rewrite <- !(search_first _ _ _ _ name_first), <- !(search_first _ _ _ _ version_first).
  destruct (search_lines (quoted_value (py "name")) true text) as [n'|]; [|intuition discriminate].
  destruct (search_lines (quoted_value (py "version")) true text) as [v'|]; [|intuition discriminate].
  split; [intros E; injection E as -> ->; auto|]. intros [E1 E2]. congruence.
Qed.

(** The part of a text after the first "[metadata]", up to a line that starts with a bracket. *)
Definition metadata_section (text section : pystr) : Prop :=
  exists a rest, text = a ++ py "[metadata]" ++ rest /\
    (forall a' r', text = a' ++ py "[metadata]" ++ r' -> length a <= length a') /\
    ((rest = section /\ ~ infix ([10%N] ++ py "[") rest) \/
     exists tail, rest = section ++ [10%N] ++ py "[" ++ tail /\
       forall a' r', rest = a' ++ ([10%N] ++ py "[") ++ r' -> length section <= length a').

Lemma after_first_spec sub s : match after_first sub s with
  | Some r => exists a, s = a ++ sub ++ r /\ forall a' r', s = a' ++ sub ++ r' -> length a <= length a'
  | None => ~ infix sub s
  end.
Proof.
  induction s as [|c s IH]; cbn [after_first].
  - destruct (after_prefix sub []) as [r|] eqn:E.
    + apply after_prefix_spec in E. exists []. split; [exact E|]. cbn. lia.
    + intros (x & y & E'). symmetry in E'. apply app_eq_nil in E' as [-> E']. apply app_eq_nil in E' as [-> ->]. discriminate.
  - destruct (after_prefix sub (c :: s)) as [r|] eqn:E.
    + apply after_prefix_spec in E. exists []. split; [exact E|]. cbn. lia.
    + assert (Hn : forall r, c :: s <> [] ++ sub ++ r).
      { intros r E'. cbn [app] in E'. rewrite (proj2 (after_prefix_spec sub _ _) E') in E. discriminate. }
      destruct (after_first sub s) as [r|].
      * destruct IH as (a & E1 & E2). exists (c :: a). split; [cbn; congruence|]. intros a' r' E'. destruct a' as [|x a']; [now apply Hn in E'|].
        injection E' as <- E'. cbn. specialize (E2 a' r' E'). lia.
      * intros (x & y & E'). destruct x as [|x0 x]; [now apply Hn in E'|]. injection E' as <- E'. apply IH. exists x, y. exact E'.
Qed.

Lemma up_to_spec sub s : (~ infix sub s /\ up_to sub s = s) \/
  exists r, s = up_to sub s ++ sub ++ r /\ forall a' r', s = a' ++ sub ++ r' -> length (up_to sub s) <= length a'.
Proof.
  induction s as [|c s IH]; cbn [up_to].
  - destruct (after_prefix sub []) as [r|] eqn:E.
    + right. apply after_prefix_spec in E. exists r. split; [exact E|]. cbn. lia.
    + left. split; [|reflexivity]. intros (x & y & E'). symmetry in E'. apply app_eq_nil in E' as [-> E']. apply app_eq_nil in E' as [-> ->]. discriminate.
  - destruct (after_prefix sub (c :: s)) as [r|] eqn:E.
    + right. apply after_prefix_spec in E. exists r. split; [exact E|]. cbn. lia.
    + assert (Hn : forall r, c :: s <> [] ++ sub ++ r).
      { intros r E'. cbn [app] in E'. rewrite (proj2 (after_prefix_spec sub _ _) E') in E. discriminate. }
      destruct IH as [[H1 H2]|(r & H1 & H2)].
      * left. split; [|cbn; now rewrite H2]. intros (x & y & E'). destruct x as [|x0 x]; [now apply Hn in E'|]. injection E' as <- E'. apply H1. exists x, y. exact E'.
      * right. exists r. split; [cbn; congruence|]. intros a' r' E'. destruct a' as [|x a']; [now apply Hn in E'|].
        injection E' as <- E'. cbn. specialize (H2 a' r' E'). lia.
Qed.

Lemma word_strip v : Forall (fun c => py_space c = false) v -> py_strip v = v.
Proof.
  intros H. apply strip_trimmed. exists [], []. rewrite app_nil_r. split; [reflexivity|]. split; [constructor|]. split; [constructor|].
  rewrite Forall_forall in H. split; intros c r ->; apply H; [now left|]. apply in_or_app. right. now left.
Qed.

Lemma plain_strip key s v : plain_field key s v -> py_strip v = v.
Proof. intros (w1 & w2 & w3 & post & _ & _ & _ & _ & H & _). now apply word_strip. Qed.

(** From setup.cfg come the values of the first lines of that section that have the fields. *)
Theorem C146_setup_cfg text n v :
  parse_setup_cfg text = Some (n, v) <->
  exists section, metadata_section text section /\
    first_field (plain_field (py "name")) section n /\ first_field (plain_field (py "version")) section v.
Proof.
  assert (HN : forall s v, bare_value (py "name") s = Some v <-> plain_field (py "name") s v) by (intros; eapply bare_value_spec; reflexivity).
  assert (HV : forall s v, bare_value (py "version") s = Some v <-> plain_field (py "version") s v) by (intros; eapply bare_value_spec; reflexivity).
  assert (HF : forall key section v, first_field (plain_field key) section v -> py_strip v = v).
  { intros key section v' (a & b & _ & _ & H & _). eapply plain_strip; eauto. }
  unfold parse_setup_cfg. pose proof (after_first_spec (py "[metadata]") text) as HA.
  destruct (after_first (py "[metadata]") text) as [rest|].
  2:{ split; [discriminate|]. intros (section & (a & r & E & _) & _). exfalso. apply HA. exists a, r. exact E. }
  destruct HA as (a & Ea & Hmin).
  assert (HS : metadata_section text (up_to ([10%N] ++ py "[") rest)).
  { exists a, rest. split; [exact Ea|]. split; [exact Hmin|].
    destruct (up_to_spec ([10%N] ++ py "[") rest) as [[H1 H2]|(tail & H1 & H2)]; [left; auto|].
    right. exists tail. split; [|exact H2]. rewrite H1 at 1. now rewrite <- !app_assoc. }
  assert (HU : forall section, metadata_section text section -> section = up_to ([10%N] ++ py "[") rest).
  { intros section (a' & rest' & E' & Hmin' & H').
    assert (La : length a = length a') by (pose proof (Hmin _ _ E'); pose proof (Hmin' _ _ Ea); lia).
    assert (rest' = rest) as ->.
    { rewrite Ea in E'. apply (f_equal (skipn (length a))) in E'. rewrite La in E' at 2.
      rewrite !skipn_app, !skipn_all, !Nat.sub_diag in E'. cbn [skipn app] in E'. now apply app_inv_head in E'. }
    destruct (up_to_spec ([10%N] ++ py "[") rest) as [[H1 H2]|(tail & H1 & H2)]; destruct H' as [[H3 H4]|(tail' & H3 & H4)].
    - congruence.
    - exfalso. apply H1. exists section, tail'. exact H3.
    - exfalso. apply H4. eexists _, tail. exact H1.
    - assert (Ls : length section = length (up_to ([10%N] ++ py "[") rest)).
      { pose proof (H2 section tail' H3). pose proof (H4 _ _ H1). lia. }
      rewrite H3 in H1 at 1. apply (f_equal (firstn (length section))) in H1. rewrite Ls in H1 at 2.
      rewrite !firstn_app, !firstn_all, !Nat.sub_diag in H1. cbn [firstn] in H1. now rewrite !app_nil_r in H1. }
  cbv zeta. split.
  - destruct (search_lines (bare_value (py "name")) true _) as [n'|] eqn:E1; [|discriminate].
    destruct (search_lines (bare_value (py "version")) true _) as [v'|] eqn:E2; [|discriminate].
    apply (search_first _ _ _ _ HN) in E1. apply (search_first _ _ _ _ HV) in E2. intros E. injection E as <- <-.
    exists (up_to ([10%N] ++ py "[") rest). split; [exact HS|]. now rewrite (HF _ _ _ E1), (HF _ _ _ E2).
  - intros (section & H & E1 & E2). rewrite (HU _ H) in E1, E2.
    pose proof (HF _ _ _ E1) as F1. pose proof (HF _ _ _ E2) as F2.
    apply (search_first _ _ _ _ HN) in E1. apply (search_first _ _ _ _ HV) in E2. rewrite E1, E2. now rewrite F1, F2.
Qed.

(** pyproject.toml goes before setup.cfg; there is no answer only if neither has both. *)
Theorem C146_source pyproject setup_cfg n v :
  get_name_version pyproject setup_cfg = Some (n, v) <->
  (exists t, pyproject = Some t /\ parse_pyproject t = Some (n, v)) \/
  ((forall t, pyproject = Some t -> parse_pyproject t = None) /\ exists t, setup_cfg = Some t /\ parse_setup_cfg t = Some (n, v)).
Proof.
  unfold get_name_version. destruct pyproject as [t|].
  - destruct (parse_pyproject t) as [nv|] eqn:E.
    + split; [intros H; left; exists t; split; congruence|].
      intros [(t' & H1 & H2)|(H & _)]; [congruence|]. rewrite (H t eq_refl) in E. discriminate.
    + destruct setup_cfg as [c|].
      * split.
        -- intros H. right. split; [congruence|eauto].
        -- intros [(t' & H1 & H2)|(_ & c' & H1 & H2)]; congruence.
      * split; [discriminate|]. intros [(t' & H1 & H2)|(_ & c' & H1 & H2)]; congruence.
  - destruct setup_cfg as [c|].
    + split; [intros H; right; split; [discriminate|eauto]|]. intros [(t' & H1 & H2)|(_ & c' & H1 & H2)]; congruence.
    + split; [discriminate|]. intros [(t' & H1 & H2)|(_ & c' & H1 & H2)]; congruence.
Qed.

Definition lines (l : list pystr) : pystr := flat_map (fun s => s ++ [10%N]) l.
Definition q (s : pystr) : pystr := [34%N] ++ s ++ [34%N].

Definition demo_toml : pystr := lines [py "[project]"; py "name = " ++ q (py "valori"); py "  version=" ++ q (py "0.1.5")].
Definition demo_cfg : pystr :=
  lines [py "[metadata]"; py "name = valori"; py "version = 0.1.4"; py "author = V"; py "[options]"; py "name = x"].

Example C146_example :
  get_name_version (Some demo_toml) (Some demo_cfg) = Some (py "valori", py "0.1.5") /\
  get_name_version (Some (py "x = 1")) (Some demo_cfg) = Some (py "valori", py "0.1.4") /\
  get_name_version None (Some (lines [py "[options]"; py "name = x"])) = None.
Proof. vm_compute. auto. Qed.

(** The name is not always that of the [project] table: one of an earlier table is taken. *)
Theorem C146_table_refuted : exists text rest,
  text = lines [py "[tool.other]"; py "name = " ++ q (py "helper"); py "[project]"; py "name = " ++ q (py "valori"); py "version = " ++ q (py "0.1.5")] ++ rest /\
  parse_pyproject text = Some (py "helper", py "0.1.5").
Proof. eexists. exists []. split; [reflexivity|]. vm_compute. reflexivity. Qed.

(** ** C147: which files are deleted *)

(** A file of dist that counts as an old distribution: an archive whose name starts with the
    package's name and a dash and does not contain name and version. *)
Definition old_file (name version : pystr) (e : dist_entry) : Prop :=
  de_file e = true /\
  (exists x r, In x [py ".whl"; py ".tar.gz"; py ".zip"; py ".tar.bz2"] /\ de_name e = r ++ x) /\
  (exists r, de_name e = name ++ py "-" ++ r) /\
  ~ infix (name ++ py "-" ++ version) (de_name e).

Lemma ends_with_spec x s : ends_with x s = true <-> exists r, s = r ++ x.
Proof.
  unfold ends_with. split.
  - intros E. apply (proj1 (eqb_eq _ _)) in E. exists (firstn (length s - length x) s). rewrite <- E at 2. now rewrite firstn_skipn.
  - intros (r & ->). apply eqb_eq. rewrite app_length. replace (length r + length x - length x) with (length r) by lia.
    rewrite skipn_app, skipn_all, Nat.sub_diag. reflexivity.
Qed.

Lemma starts_with_spec p s : starts_with p s = true <-> exists r, s = p ++ r.
Proof.
  unfold starts_with. split.
  - destruct (after_prefix p s) as [r|] eqn:E; [|discriminate]. apply after_prefix_spec in E. eauto.
  - intros (r & E). rewrite (proj2 (after_prefix_spec p s r) E). reflexivity.
Qed.

Lemma is_old_spec name version e : is_old name version e = true <-> old_file name version e.
Proof.
  unfold is_old, old_file. rewrite !andb_true_iff, negb_true_iff, existsb_exists, starts_with_spec. split.
  - intros ((H1 & x & H2 & H3) & (r & H4) & H5). apply ends_with_spec in H3 as (r' & H3). split; [exact H1|].
    split; [exists x, r'; auto|]. split; [exists r; now rewrite H4, app_assoc|]. intros H. apply py_in_spec in H. congruence.
  - intros (H1 & (x & r' & H2 & H3) & (r & H4) & H5). split; [split; [exact H1|exists x; split; [exact H2|]; apply ends_with_spec; eauto]|].
    split; [exists r; now rewrite H4, app_assoc|]. destruct (py_in _ _) eqn:E; [|reflexivity]. apply py_in_spec in E. contradiction.
Qed.

Lemma In_unlink name version d e : In e (unlink_old name version d) <-> In e d /\ ~ (old_file name version e /\ de_deletable e = true).
Proof.
  unfold unlink_old. rewrite filter_In, negb_true_iff, <- is_old_spec. apply and_iff_compat_l.
  destruct (is_old name version e), (de_deletable e); cbn; intuition congruence.
Qed.

(** What is listed, and what is left of dist: the old files are listed in either mode; they are
    deleted, those that can be, unless it is a dry run; everything else stays, in its order. *)
Theorem C147_cleaned name version d :
  let '(listed, after) := clean_old_dists name version false (Some d) in
  let '(listed', after') := clean_old_dists name version true (Some d) in
  listed = listed' /\ after' = Some d /\
  (forall e, In e listed <-> In e d /\ old_file name version e) /\
  exists d', after = Some d' /\ (exists p, d' = filter p d) /\
    forall e, In e d' <-> In e d /\ ~ (old_file name version e /\ de_deletable e = true).
Proof.
  cbn [clean_old_dists]. split; [reflexivity|]. split; [reflexivity|].
  split; [intros e; rewrite filter_In, is_old_spec; reflexivity|].
  exists (unlink_old name version d). split; [reflexivity|]. split; [eexists; reflexivity|]. intros e. apply In_unlink.
Qed.

(** A file that has the current name and version in its name is never deleted, nor one that is not an
    archive, nor a directory. *)
Theorem C147_kept name version d d' e : snd (clean_old_dists name version false (Some d)) = Some d' -> In e d ->
  (exists r, de_name e = name ++ py "-" ++ version ++ r) \/ de_file e = false \/
  (forall r x, In x [py ".whl"; py ".tar.gz"; py ".zip"; py ".tar.bz2"] -> de_name e <> r ++ x) -> In e d'.
Proof.
  cbn [clean_old_dists snd]. intros E He H. injection E as <-. apply In_unlink. split; [exact He|].
  intros ((H1 & (x & r' & H2 & H3) & _ & H4) & _). destruct H as [(r & H)|[H|H]]; [|congruence|].
  - apply H4. exists [], r. rewrite H. cbn [app]. now rewrite <- !app_assoc.
  - eapply H; eauto.
Qed.

(** The other script deletes the same files, without asking. *)
Theorem C147_script pyproject setup_cfg dist :
  (forall n v, get_name_version pyproject setup_cfg = Some (n, v) ->
     clean_dist_main pyproject setup_cfg dist = (0, snd (clean_old_dists n v false dist))) /\
  (get_name_version pyproject setup_cfg = None -> clean_dist_main pyproject setup_cfg dist = (1, dist)) /\
  (dist = None -> snd (clean_dist_main pyproject setup_cfg dist) = None).
Proof.
  unfold clean_dist_main. split; [intros n v ->; reflexivity|]. split; [intros ->; reflexivity|]. intros ->.
  destruct (get_name_version pyproject setup_cfg) as [[n v]|]; reflexivity.
Qed.

Definition file (s : pystr) : dist_entry := MkEntry s true true.
Definition demo_dist : list dist_entry :=
  [file (py "valori-0.1.4.tar.gz"); file (py "valori-0.1.5.tar.gz"); file (py "valori-0.1.4-py3-none-any.whl");
   MkEntry (py "valori-0.1.3.zip") true false; MkEntry (py "valori-old.zip") false true; file (py "notes.txt")].

Example C147_example :
  map de_name (fst (clean_old_dists (py "valori") (py "0.1.5") false (Some demo_dist))) =
    [py "valori-0.1.4.tar.gz"; py "valori-0.1.4-py3-none-any.whl"; py "valori-0.1.3.zip"] /\
  match snd (clean_old_dists (py "valori") (py "0.1.5") false (Some demo_dist)) with
  | Some d => map de_name d = [py "valori-0.1.5.tar.gz"; py "valori-0.1.3.zip"; py "valori-old.zip"; py "notes.txt"]
  | None => False end.
Proof. vm_compute. auto. Qed.

(** Not every other version is deleted: the name of a version that begins with the current one
    contains it. *)
Theorem C147_versions_refuted : exists name version other d d',
  version <> other /\ In (file (name ++ py "-" ++ other ++ py ".tar.gz")) d /\
  snd (clean_old_dists name version false (Some d)) = Some d' /\ In (file (name ++ py "-" ++ other ++ py ".tar.gz")) d'.
Proof.
  exists (py "valori"), (py "0.1.1"), (py "0.1.10"), [file (py "valori-0.1.10.tar.gz")], [file (py "valori-0.1.10.tar.gz")].
  split; [discriminate|]. split; [now left|]. split; [vm_compute; reflexivity|]. now left.
Qed.

(** And not only this package's files are: those of a package whose name goes on after a dash are
    deleted too. *)
Theorem C147_package_refuted : exists name version d d',
  In (file (py "valori-cli-2.0.tar.gz")) d /\ name = py "valori" /\
  snd (clean_old_dists name version false (Some d)) = Some d' /\ ~ In (file (py "valori-cli-2.0.tar.gz")) d'.
Proof.
  exists (py "valori"), (py "0.1.5"), [file (py "valori-cli-2.0.tar.gz")], [].
  split; [now left|]. split; [reflexivity|]. split; [vm_compute; reflexivity|]. intros [].
Qed.

(** ** C148: the release *)

Section Release.
  Context (lower : pystr -> pystr).
  Notation main := (release_main lower).

  Definition old_in (name version : pystr) (dist : option (list dist_entry)) : Prop :=
    exists d e, dist = Some d /\ In e d /\ old_file name version e.

  (** What [input] is given counts as consent. *)
  Definition consent (w : release_world) : Prop :=
    lower (py_strip (rw_answer w)) = py "y" \/ lower (py_strip (rw_answer w)) = py "yes".

  Lemma consent_spec w : memb (lower (py_strip (rw_answer w))) [py "y"; py "yes"] = true <-> consent w.
  Proof. rewrite memb_In. unfold consent. cbn. intuition. Qed.

  Lemma listed_nil name version dry dist : fst (clean_old_dists name version dry dist) = [] <-> ~ old_in name version dist.
  Proof.
    unfold old_in. destruct dist as [d|]; cbn [clean_old_dists].
    2:{ split; [intros _ (d & e & E & _); discriminate|reflexivity]. }
    assert (HL : filter (is_old name version) d = [] <-> ~ exists d0 e, Some d = Some d0 /\ In e d0 /\ old_file name version e).
    { split.
      - intros E (d' & e & E' & He & Ho). injection E' as <-.
        assert (In e (filter (is_old name version) d)) by (apply filter_In; split; [exact He|now apply is_old_spec]).
        rewrite E in H. destruct H.
      - intros H. destruct (filter (is_old name version) d) as [|e l] eqn:E; [reflexivity|]. exfalso. apply H.
        assert (He : In e (filter (is_old name version) d)) by (rewrite E; now left). apply filter_In in He as [H1 H2].
        exists d, e. split; [reflexivity|]. split; [exact H1|]. now apply is_old_spec. }
    destruct dry; exact HL.
  Qed.

  (** A dry run deletes nothing, builds nothing and sends nothing. *)
  Theorem C148_dry_run a w dist : ra_dry_run a = true ->
    re_dist (main a w dist) = dist /\ re_upload (main a w dist) = None /\
    (re_code (main a w dist) = Some 0 \/ re_code (main a w dist) = Some 2).
  Proof.
    intros Hd. unfold release_main. rewrite Hd. destruct (get_name_version _ _) as [[n v]|]; [|cbn; auto].
    cbn [orb negb andb].
    destruct (ra_skip_clean a); [cbn; auto|]. destruct dist as [d|]; cbn; [|auto].
    destruct (filter (is_old n v) d); cbn; auto.
  Qed.

  (** Who is asked about old files and does not consent changes nothing. *)
  Theorem C148_declined a w dist n v : get_name_version (rw_pyproject w) (rw_setup_cfg w) = Some (n, v) ->
    ra_yes a = false -> ra_dry_run a = false -> ra_skip_clean a = false -> old_in n v dist -> ~ consent w ->
    main a w dist = MkEnd (Some 1) dist None.
  Proof.
    intros E Hy Hd Hs Ho Hc. unfold release_main. rewrite E, Hy, Hd, Hs. cbn [negb orb].
    destruct (clean_old_dists n v true dist) as [l d1] eqn:El.
    assert (Hl : l <> []). { intros ->. pose proof (proj1 (listed_nil n v true dist)) as H. rewrite El in H. now apply H. }
    assert (d1 = dist) as -> by (destruct dist; cbn in El; congruence).
    destruct l; [congruence|]. cbn [andb]. destruct (memb _ _) eqn:Em; [apply consent_spec in Em; contradiction|]. reflexivity.
  Qed.

  (** Something is sent only if it is no dry run, after a build that succeeded, with a token of the
      right kind or a configuration file; with the test option to the test server only; and if there
      were old files to be cleaned, only with consent, given beforehand or when asked.  The exit code is
      then that of the upload, and all of dist is sent. *)
  Theorem C148_upload a w dist u : re_upload (main a w dist) = Some u ->
    ra_dry_run a = false /\ up_test u = ra_test a /\
    up_token u = rw_token w (if ra_test a then py "TEST_PYPI_API_TOKEN" else py "PYPI_API_TOKEN") /\
    (up_token u = true \/ rw_pypirc w = true) /\
    re_dist (main a w dist) = Some (up_entries u) /\ re_code (main a w dist) = Some (rw_upload w) /\
    (exists k d, rw_build w k d = (true, up_entries u)) /\
    exists n v, get_name_version (rw_pyproject w) (rw_setup_cfg w) = Some (n, v) /\
      (old_in n v dist -> ra_yes a = true \/ ra_skip_clean a = true \/ consent w).
  Proof.
    unfold release_main. destruct (get_name_version _ _) as [[n v]|]; [|discriminate].
    set (listing := if ra_skip_clean a then _ else _). destruct listing as [l d1] eqn:El. subst listing.
    destruct (match l with [] => false | _ => _ end && _) eqn:Ea; [discriminate|].
    destruct (ra_dry_run a) eqn:Ed; [discriminate|].
    destruct (run_build w d1) as [ok d2] eqn:Eb. destruct ok; [|discriminate].
    set (token := rw_token w _). destruct (negb token && negb (rw_pypirc w)) eqn:Et; [discriminate|].
    cbn [re_upload re_dist re_code]. intros E. injection E as <-. cbn [up_test up_token up_entries].
    split; [reflexivity|]. split; [reflexivity|]. split; [reflexivity|].
    split; [destruct token; [auto|destruct (rw_pypirc w); [auto|discriminate]]|].
    assert (HB : exists d, d2 = Some d /\ exists k x, rw_build w k x = (true, d)).
    { unfold run_build in Eb. destruct (rw_build w 0 d1) as [ok0 x0] eqn:E0. destruct ok0.
      - injection Eb as <-. eauto.
      - destruct (rw_pip w); [|discriminate]. destruct (rw_build w 1 (Some x0)) as [ok1 x1] eqn:E1. injection Eb as -> <-. eauto. }
    destruct HB as (d & -> & k & x & HB). split; [reflexivity|]. split; [reflexivity|]. split; [exists k, x; exact HB|].
    exists n, v. split; [reflexivity|]. intros Ho.
    destruct (ra_skip_clean a); [auto|]. destruct (ra_yes a) eqn:Ey; [auto|]. right. right.
    assert (Hl : l <> []). { intros ->. pose proof (proj1 (listed_nil n v (false || negb false) dist)) as H. rewrite El in H. now apply H. }
    destruct l; [congruence|]. cbn [negb andb] in Ea. apply negb_false_iff in Ea. now apply consent_spec.
  Qed.

  (** With --yes, and builds that only add files, an old file that could be deleted is sent only if
      the build has made it anew. *)
  Theorem C148_yes a w d u made n v : get_name_version (rw_pyproject w) (rw_setup_cfg w) = Some (n, v) ->
    ra_yes a = true -> ra_skip_clean a = false ->
    (forall k x, rw_build w k (Some x) = (fst (rw_build w k (Some x)), x ++ made k)) ->
    re_upload (main a w (Some d)) = Some u ->
    forall e, In e (up_entries u) -> old_file n v e -> de_deletable e = true -> In e (made 0 ++ made 1).
  Proof.
    intros E Hy Hs Hb. unfold release_main. rewrite E, Hy, Hs. cbn [negb]. rewrite orb_false_r.
    destruct (clean_old_dists n v (ra_dry_run a) (Some d)) as [l d1] eqn:El.
    destruct (match l with [] => false | _ => _ end && _) eqn:Ea; [discriminate|].
    destruct (ra_dry_run a) eqn:Ed; [discriminate|]. cbn [clean_old_dists] in El. injection El as _ <-.
    destruct (run_build w _) as [ok d2] eqn:Eb. destruct ok; [|discriminate].
    destruct (negb _ && negb _); [discriminate|]. cbn [re_upload]. intros Eu. injection Eu as <-. cbn [up_entries].
    unfold run_build in Eb. rewrite Hb in Eb. destruct (fst (rw_build w 0 _)).
    - injection Eb as <-. intros e He Ho Hd. apply in_app_or in He as [He|He]; [|apply in_or_app; auto].
      apply In_unlink in He as [_ He]. tauto.
    - destruct (rw_pip w); [|discriminate]. rewrite Hb in Eb. injection Eb as _ <-. intros e He Ho Hd.
      apply in_app_or in He as [He|He]; [|apply in_or_app; auto]. apply in_app_or in He as [He|He]; [|apply in_or_app; auto].
      apply In_unlink in He as [_ He]. tauto.
  Qed.

  (** Without --yes nothing is ever deleted, whatever is answered. *)
  Theorem C148_interactive a w d e : ra_yes a = false ->
    (forall k x e', In e' x -> In e' (snd (rw_build w k (Some x)))) -> In e d ->
    exists d', re_dist (main a w (Some d)) = Some d' /\ In e d'.
  Proof.
    intros Hy Hb He. unfold release_main. rewrite Hy. cbn [negb]. rewrite orb_true_r.
    destruct (get_name_version _ _) as [[n v]|]; [|exists d; auto].
    assert (HR : exists l, (if ra_skip_clean a then ([], Some d) else clean_old_dists n v true (Some d)) = (l, Some d)).
    { destruct (ra_skip_clean a); [eauto|]. cbn. eauto. }
    destruct HR as (l & ->). destruct (match l with [] => false | _ => _ end && _); [exists d; auto|].
    destruct (ra_dry_run a); [exists d; auto|].
    assert (HB : exists ok d', run_build w (Some d) = (ok, Some d') /\ In e d').
    { unfold run_build. pose proof (Hb 0 d e He) as H0. destruct (rw_build w 0 (Some d)) as [ok0 x0]. cbn [snd] in H0.
      destruct ok0; [eauto|]. destruct (rw_pip w); [|eauto]. pose proof (Hb 1 x0 e H0) as H1.
      destruct (rw_build w 1 (Some x0)) as [ok1 x1]. cbn [snd] in H1. eauto. }
    destruct HB as (ok & d' & -> & Hd'). destruct ok; [|cbn; eauto]. destruct (negb _ && negb _); cbn; eauto.
  Qed.
  (** Outside a dry run the exit code is 0 only if something was sent; the script raises only if the
      build failed, at the second attempt too if the installation made one possible; and if all builds
      fail it raises or has ended before building: without a name (2) or without consent (1). *)
  Theorem C148_not_sent a w dist : ra_dry_run a = false -> re_upload (main a w dist) = None ->
    re_code (main a w dist) <> Some 0 /\
    (re_code (main a w dist) = None -> exists d x, rw_build w 0 d = (false, x) /\
       (rw_pip w = false \/ exists x', rw_build w 1 (Some x) = (false, x'))) /\
    ((forall k d, fst (rw_build w k d) = false) ->
       re_code (main a w dist) = None \/
       re_code (main a w dist) = Some 2 /\ get_name_version (rw_pyproject w) (rw_setup_cfg w) = None \/
       re_code (main a w dist) = Some 1 /\ ra_yes a = false /\ ~ consent w).
  Proof.
    intros Hd. unfold release_main. rewrite Hd. destruct (get_name_version _ _) as [[n v]|].
    2:{ intros _. cbn. split; [discriminate|]. split; [discriminate|]. auto. }
    set (listing := if ra_skip_clean a then _ else _). destruct listing as [l d1] eqn:El. subst listing.
    destruct (match l with [] => false | _ => _ end && _) eqn:Ea.
    { intros _. cbn. split; [discriminate|]. split; [discriminate|]. intros _. right. right. split; [reflexivity|].
      apply andb_true_iff in Ea as [Ea Ec]. split.
      - destruct l; [discriminate|]. cbn in Ea. now apply negb_true_iff in Ea.
      - rewrite <- consent_spec. apply negb_true_iff in Ec. congruence. }
    unfold run_build. destruct (rw_build w 0 d1) as [ok0 x0] eqn:E0. destruct ok0.
    { cbv zeta. destruct (negb (rw_token w _) && negb (rw_pypirc w)); intros Hu; [|discriminate Hu]. cbn.
      split; [discriminate|]. split; [discriminate|]. intros H. specialize (H 0 d1). rewrite E0 in H. discriminate. }
    destruct (rw_pip w) eqn:Ep.
    2:{ intros _. cbn. split; [discriminate|]. split; [|auto]. intros _. exists d1, x0. auto. }
    destruct (rw_build w 1 (Some x0)) as [ok1 x1] eqn:E1. destruct ok1.
    - cbv zeta. destruct (negb (rw_token w _) && negb (rw_pypirc w)); intros Hu; [|discriminate Hu]. cbn.
      split; [discriminate|]. split; [discriminate|]. intros H. specialize (H 1 (Some x0)). rewrite E1 in H. discriminate.
    - intros _. cbn. split; [discriminate|]. split; [|auto]. intros _. exists d1, x0. split; [exact E0|]. right. eauto.
  Qed.
End Release.

Definition demo_world (answer : pystr) : release_world :=
  MkWorld (Some demo_toml) None answer
    (fun k d => (true, match d with Some x => x | None => [] end ++ [file (py "valori-0.1.5-py3-none-any.whl")]))
    true (fun t => eqb t (py "PYPI_API_TOKEN")) false 0.

Example C148_example :
  release_main (fun s => s) (MkArgs true false false false) (demo_world []) (Some demo_dist) =
    MkEnd (Some 0) (Some (unlink_old (py "valori") (py "0.1.5") demo_dist ++ [file (py "valori-0.1.5-py3-none-any.whl")]))
      (Some (MkUpload false true (unlink_old (py "valori") (py "0.1.5") demo_dist ++ [file (py "valori-0.1.5-py3-none-any.whl")]))) /\
  release_main (fun s => s) (MkArgs false false false false) (demo_world (py " n ")) (Some demo_dist) = MkEnd (Some 1) (Some demo_dist) None /\
  release_main (fun s => s) (MkArgs true false true false) (demo_world []) None =
    MkEnd (Some 1) (Some [file (py "valori-0.1.5-py3-none-any.whl")]) None /\
  old_in (py "valori") (py "0.1.5") (Some demo_dist).
Proof.
  split; [vm_compute; reflexivity|]. split; [vm_compute; reflexivity|]. split; [vm_compute; reflexivity|].
  exists demo_dist, (file (py "valori-0.1.4.tar.gz")). split; [reflexivity|]. split; [now left|]. apply is_old_spec. vm_compute. reflexivity.
Qed.

(** "Delete the above files?" answered with yes deletes nothing: the old distributions stay and are
    uploaded with the new one. *)
Theorem C148_answer_refuted : exists lower a w d u e,
  ra_yes a = false /\ ra_skip_clean a = false /\ consent lower w /\
  In e d /\ old_file (py "valori") (py "0.1.5") e /\ de_deletable e = true /\
  get_name_version (rw_pyproject w) (rw_setup_cfg w) = Some (py "valori", py "0.1.5") /\
  re_upload (release_main lower a w (Some d)) = Some u /\ In e (up_entries u).
Proof.
  exists (fun s => s), (MkArgs false false false false), (demo_world (py "yes")), demo_dist.
  eexists. exists (file (py "valori-0.1.4.tar.gz")).
  split; [reflexivity|]. split; [reflexivity|]. split; [right; reflexivity|]. split; [now left|].
  split; [apply is_old_spec; vm_compute; reflexivity|]. split; [reflexivity|]. split; [vm_compute; reflexivity|].
  split; [vm_compute; reflexivity|]. now left.
Qed.

Print Assumptions C146_pyproject.
Print Assumptions C146_setup_cfg.
Print Assumptions C146_source.
Print Assumptions C146_table_refuted.
Print Assumptions C147_cleaned.
Print Assumptions C147_kept.
Print Assumptions C147_script.
Print Assumptions C147_versions_refuted.
Print Assumptions C147_package_refuted.
(** The hypotheses of [C148_not_sent] are met by builds that fail. *)
Example C148_not_sent_example :
  let w := MkWorld (Some demo_toml) None [] (fun _ _ => (false, [])) true (fun _ => true) false 0 in
  release_main (fun s => s) (MkArgs true false false false) w None = MkEnd None (Some []) None.
Proof. vm_compute. reflexivity. Qed.

Print Assumptions C148_dry_run.
Print Assumptions C148_declined.
Print Assumptions C148_upload.
Print Assumptions C148_yes.
Print Assumptions C148_interactive.
Print Assumptions C148_not_sent.
Print Assumptions C148_answer_refuted.
