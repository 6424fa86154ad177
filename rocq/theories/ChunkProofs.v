(** Specification of text cutting and lemmas about ChunkModel.v. *)

From Coq Require Import String List Arith ZArith NArith Lia Bool Sorted.
From Coq Require Import ZifyBool ZifyNat.
From Verif Require Import PyBase PyMore PyValue BaseLemmas ChunkModel.
Import ListNotations.
Open Scope Z_scope.

(** ** Specification *)

Definition blank (s : pystr) : Prop := Forall (fun c => py_space c = true) s.

(** [t] is [s] without the blanks at its ends. *)
Definition trimmed (t s : pystr) : Prop :=
  exists u v, s = u ++ t ++ v /\ blank u /\ blank v /\
    (forall c r, t = c :: r -> py_space c = false) /\
    (forall c r, t = r ++ [c] -> py_space c = false).

(** The chunk carries the text between its positions, without the blanks at the ends. *)
Definition piece (text : pystr) (c : chunk) : Prop :=
  exists pre mid post, text = pre ++ mid ++ post /\
    zlen pre = c_start c /\ zlen (pre ++ mid) = c_end c /\ trimmed (c_text c) mid.

(** Every non-blank character lies between the positions of some chunk. *)
Definition covers (text : pystr) (cs : list chunk) : Prop :=
  forall i ch, nth_error text i = Some ch -> py_space ch = false ->
    Exists (fun c => c_start c <= Z.of_nat i < c_end c) cs.

(** Pieces in order, numbered from 0. *)
Definition in_order (cs : list chunk) : Prop :=
  map c_id cs = seq 0 (length cs) /\ StronglySorted Z.lt (map c_start cs).

Definition good_cut (text : pystr) (size : Z) (cs : list chunk) : Prop :=
  Forall (fun c => piece text c /\ c_text c <> [] /\ c_end c - c_start c <= size) cs /\
  in_order cs /\ covers text cs.

(** [sub] is found in [text] after [p] characters. *)
Definition found (text sub : pystr) (p : Z) : Prop :=
  exists a b, text = a ++ sub ++ b /\ zlen a = p.

(** The last place in [text[start:end]] where [sub] is found. *)
Definition last_found (text sub : pystr) (start end_ p : Z) : Prop :=
  found text sub p /\ start <= p /\ p + zlen sub <= end_ /\
  forall q, found text sub q -> start <= q -> q + zlen sub <= end_ -> q <= p.

Definition not_found (text sub : pystr) (start end_ : Z) : Prop :=
  forall q, found text sub q -> start <= q -> q + zlen sub <= end_ -> False.

(** ** Strip *)

Lemma drop_space_head s : forall c r, drop_space s = c :: r -> py_space c = false.
Proof.
  induction s as [|a s IH]; simpl; intros c r E; [discriminate|].
  destruct (py_space a) eqn:Ea; [eauto|]. injection E as <- _. exact Ea.
Qed.

Lemma py_strip_trimmed s : trimmed (py_strip s) s.
Proof.
  unfold py_strip. destruct (drop_space_split s) as (u & Eu & Hu).
  destruct (drop_space_split (rev (drop_space s))) as (v & Ev & Hv).
  set (t := drop_space s) in *. set (w := drop_space (rev t)) in *.
  assert (Et : t = rev w ++ rev v) by (rewrite <- (rev_involutive t), Ev, rev_app_distr; reflexivity).
  exists u, (rev v). split; [rewrite <- Et; exact Eu|]. split; [exact Hu|]. split; [now apply Forall_rev|].
  split.
  - intros c r E. rewrite E in Et. exact (drop_space_head s c _ Et).
  - intros c r E. apply (f_equal (@rev N)) in E. rewrite rev_involutive, rev_app_distr in E.
    exact (drop_space_head (rev t) c _ E).
Qed.

Lemma strip_trimmed t s : trimmed t s -> py_strip s = t.
Proof.
  intros (u & v & -> & Hu & Hv & H1 & H2). destruct t as [|c r].
  - simpl. apply py_strip_nil. apply Forall_forall. now apply Forall_app.
  - assert (Hn : c :: r <> []) by discriminate.
    destruct (exists_last Hn) as (r' & c' & Eq). pose proof (H2 c' r' Eq) as Hc'. pose proof (H1 c r eq_refl) as Hc.
    assert (HB : forall w x k, blank w -> py_space x = false -> drop_space (w ++ x :: k) = x :: k).
    { clear. intros w x k Hw Hx. induction Hw as [|y w Hy _ IH]; simpl; [now rewrite Hx|]. now rewrite Hy. }
    unfold py_strip. cbn [app]. rewrite HB by assumption. change (c :: r ++ v) with ((c :: r) ++ v).
    rewrite Eq, rev_app_distr, rev_app_distr. cbn [rev app]. rewrite HB; [|now apply Forall_rev|exact Hc'].
    cbn [rev]. now rewrite rev_involutive.
Qed.

Lemma py_strip_nonblank s c : In c s -> py_space c = false -> py_strip s <> [].
Proof. intros Hin Hc E. rewrite (proj1 (py_strip_nil s) E c Hin) in Hc. discriminate. Qed.

(** ** Slices *)

Lemma zlen_app {A} (a b : list A) : zlen (a ++ b) = zlen a + zlen b.
Proof. unfold zlen. rewrite app_length. lia. Qed.

Lemma slice_split {A} (l : list A) a b : 0 <= a <= b -> b <= zlen l ->
  l = firstn (Z.to_nat a) l ++ slice a b l ++ skipn (Z.to_nat b) l /\
  zlen (firstn (Z.to_nat a) l) = a /\ zlen (firstn (Z.to_nat a) l ++ slice a b l) = b.
Proof.
  intros Ha Hb. unfold zlen in *. unfold slice, slice_bound.
  destruct (Z.ltb_spec a 0); [lia|]. destruct (Z.ltb_spec b 0); [lia|].
  rewrite !Nat.min_l by lia.
  assert (E : firstn (Z.to_nat a) l ++ skipn (Z.to_nat a) (firstn (Z.to_nat b) l) = firstn (Z.to_nat b) l).
  { replace (firstn (Z.to_nat a) l) with (firstn (Z.to_nat a) (firstn (Z.to_nat b) l)).
    - apply firstn_skipn.
    - rewrite firstn_firstn. now rewrite Nat.min_l by lia. }
  split; [|split].
  - rewrite app_assoc, E. symmetry. apply firstn_skipn.
  - rewrite firstn_length. lia.
  - rewrite E, firstn_length. lia.
Qed.

Lemma slice_nth {A} (l : list A) a b i x : 0 <= a <= b -> b <= zlen l ->
  a <= Z.of_nat i < b -> nth_error l i = Some x -> In x (slice a b l).
Proof.
  intros Ha Hb Hi E. destruct (slice_split l a b Ha Hb) as (El & E1 & E2). unfold zlen in *.
  rewrite El in E. rewrite nth_error_app2 in E by lia. rewrite app_length in E2.
  rewrite nth_error_app1 in E by lia. eapply nth_error_In; eauto.
Qed.

(** ** rfind *)

Lemma occurs_at_found s sub p : (p + length sub <= length s)%nat ->
  occurs_at s sub p = true <-> found s sub (Z.of_nat p).
Proof.
  intros Hp. unfold occurs_at, found. split.
  - intros E. apply (proj1 (eqb_eq _ _)) in E.
    exists (firstn p s), (skipn (length sub) (skipn p s)). split.
    + rewrite <- E at 1. rewrite !firstn_skipn. reflexivity.
    + unfold zlen. rewrite firstn_length. lia.
  - intros (a & b & -> & Ea). unfold zlen in Ea. assert (p = length a) as -> by lia.
    rewrite skipn_app, Nat.sub_diag, skipn_all. cbn [skipn app]. rewrite firstn_app, Nat.sub_diag, firstn_all.
    cbn [firstn]. rewrite app_nil_r. apply eqb_refl.
Qed.

Lemma rfind_down_spec s sub lo n : (lo + n + length sub <= length s)%nat ->
  (rfind_down s sub lo n = -1 /\ forall p, (lo <= p <= lo + n)%nat -> ~ found s sub (Z.of_nat p)) \/
  (exists p, rfind_down s sub lo n = Z.of_nat p /\ (lo <= p <= lo + n)%nat /\ found s sub (Z.of_nat p) /\
     forall q, (lo <= q <= lo + n)%nat -> found s sub (Z.of_nat q) -> (q <= p)%nat).
Proof.
  induction n as [|n IH]; intros Hl; simpl rfind_down.
  - destruct (occurs_at s sub (lo + 0)) eqn:E.
    + right. exists (lo + 0)%nat. rewrite occurs_at_found in E by lia. split; [auto|]. split; [lia|]. split; [auto|].
      intros q Hq _. lia.
    + left. split; [auto|]. intros p Hp Hf. replace p with (lo + 0)%nat in Hf by lia.
      rewrite <- occurs_at_found in Hf by lia. congruence.
  - destruct (occurs_at s sub (lo + S n)) eqn:E.
    + right. exists (lo + S n)%nat. rewrite occurs_at_found in E by lia. split; [auto|]. split; [lia|]. split; [auto|].
      intros q Hq _. lia.
    + assert (HN : ~ found s sub (Z.of_nat (lo + S n))).
      { rewrite <- occurs_at_found by lia. congruence. }
      destruct IH as [[E1 H]|(p & E1 & Hp & Hf & Hm)]; [lia| |].
      * left. split; [auto|]. intros p Hp Hf. destruct (Nat.eq_dec p (lo + S n)) as [->|]; [auto|].
        apply (H p); [lia|auto].
      * right. exists p. split; [auto|]. split; [lia|]. split; [auto|]. intros q Hq Hfq.
        destruct (Nat.eq_dec q (lo + S n)) as [->|]; [contradiction|]. apply Hm; [lia|auto].
Qed.

Lemma py_rfind_spec s sub start end_ : 0 <= start -> 0 <= end_ <= zlen s ->
  (py_rfind s sub start end_ = -1 /\ not_found s sub start end_) \/
  last_found s sub start end_ (py_rfind s sub start end_).
Proof.
  intros Hs He. unfold py_rfind, adjust.
  destruct (Z.ltb_spec end_ 0); [lia|]. destruct (Z.ltb_spec start 0); [lia|].
  rewrite Z.min_r by lia. destruct (Z.ltb_spec (end_ - start) (zlen sub)).
  - left. split; [auto|]. intros q _ H2 H3. lia.
  - assert (Hb : (Z.to_nat start + Z.to_nat (end_ - start - zlen sub) + length sub <= length s)%nat)
      by (unfold zlen in *; lia).
    destruct (rfind_down_spec s sub _ _ Hb) as [[-> HN]|(p & -> & Hp & Hf & Hm)].
    + left. split; [auto|]. intros q Hq H2 H3. assert (Hz : 0 <= zlen sub) by (unfold zlen; lia).
      replace q with (Z.of_nat (Z.to_nat q)) in Hq by lia. apply HN in Hq; [auto|]. lia.
    + right. split; [auto|]. assert (Hz : 0 <= zlen sub) by (unfold zlen; lia). split; [lia|]. split; [lia|].
      intros q Hq H2 H3. replace q with (Z.of_nat (Z.to_nat q)) in Hq by lia. apply Hm in Hq; lia.
Qed.

Lemma py_rfind_range s sub start end_ : 0 <= start -> 0 <= end_ <= zlen s ->
  py_rfind s sub start end_ = -1 \/
  start <= py_rfind s sub start end_ /\ py_rfind s sub start end_ + zlen sub <= end_.
Proof.
  intros Hs He. destruct (py_rfind_spec s sub start end_ Hs He) as [[E _]|(_ & H1 & H2 & _)]; auto.
Qed.

(** ** The loop *)

Lemma cut_loop_ends text end_of overlap : forall fuel start id, 0 <= start -> (zlen text - start <= Z.of_nat fuel) ->
  exists cs, cut_loop text end_of overlap fuel start id = Ok cs.
Proof.
  induction fuel as [|fuel IH]; intros start id H0 Hf; simpl; destruct (Z.ltb_spec start (zlen text)); try lia; eauto.
  destruct (py_strip _) as [|a t] eqn:Et; [apply IH; lia|].
  destruct (IH (Z.max (end_of start - overlap) (start + 1)) (S id)) as [cs ->]; [lia|lia|]. simpl. eauto.
Qed.

Lemma cut_ends text end_of overlap : exists cs, cut text end_of overlap = Ok cs.
Proof. apply cut_loop_ends; unfold zlen; lia. Qed.

Lemma cut_loop_sound text end_of overlap size :
  (forall start, 0 <= start < zlen text -> start < end_of start <= zlen text /\ end_of start - start <= size) ->
  0 <= overlap ->
  forall fuel start id cs, 0 <= start -> cut_loop text end_of overlap fuel start id = Ok cs ->
  Forall (fun c => piece text c /\ c_text c <> [] /\ c_end c - c_start c <= size) cs /\
  map c_id cs = seq id (length cs) /\ StronglySorted Z.lt (map c_start cs) /\
  Forall (fun c => start <= c_start c) cs /\
  (forall i ch, nth_error text i = Some ch -> py_space ch = false -> start <= Z.of_nat i ->
    Exists (fun c => c_start c <= Z.of_nat i < c_end c) cs).
Proof.
  intros He Ho. induction fuel as [|fuel IH]; intros start id cs H0; simpl;
    destruct (Z.ltb_spec start (zlen text)) as [Hl|Hl]; try discriminate;
    try (intros [= <-]; split; [constructor|]; split; [reflexivity|]; split; [constructor|]; split; [constructor|];
         intros i ch Hi _ Hs; exfalso; assert (i < length text)%nat by (apply nth_error_Some; congruence);
         unfold zlen in Hl; lia).
  destruct (He start) as [[H1 H2] H3]; [lia|]. set (e := end_of start) in *. clearbody e.
  set (next := Z.max (e - overlap) (start + 1)).
  assert (Hnext : start < next <= e) by lia. clearbody next.
  destruct (slice_split text start e) as (El & E1 & E2); [lia|lia|].
  assert (Hin : forall i ch, nth_error text i = Some ch -> start <= Z.of_nat i < e -> In ch (slice start e text)).
  { intros i ch Hi Hb. eapply slice_nth; eauto; lia. }
  set (sl := slice start e text) in *. clearbody sl.
  destruct (py_strip sl) as [|a t] eqn:Et.
  - intros E. destruct (IH next id cs) as (F1 & F2 & F3 & F4 & F5); [lia|exact E|].
    split; [exact F1|]. split; [exact F2|]. split; [exact F3|].
    split; [eapply Forall_impl; [|exact F4]; intros c Hc; cbv beta in *; lia|].
    intros i ch Hi Hs Hb. destruct (Z.lt_ge_cases (Z.of_nat i) e) as [Hlt|Hge].
    + exfalso. eapply py_strip_nonblank; eauto.
    + apply (F5 i ch Hi Hs). lia.
  - intros E. destruct (cut_loop text end_of overlap fuel next (S id)) as [rest|] eqn:Er; [|discriminate].
    cbn [rbind] in E. injection E as <-.
    destruct (IH next (S id) rest) as (F1 & F2 & F3 & F4 & F5); [lia|exact Er|].
    split; [|split; [|split; [|split]]].
    + constructor; [|exact F1]. cbn [c_text c_start c_end]. split; [|split; [discriminate|lia]].
      exists (firstn (Z.to_nat start) text), sl, (skipn (Z.to_nat e) text). cbn [c_start c_end c_text].
      split; [exact El|]. split; [exact E1|]. split; [exact E2|]. rewrite <- Et. apply py_strip_trimmed.
    + simpl. now rewrite F2.
    + simpl. constructor; [exact F3|]. apply Forall_map. eapply Forall_impl; [|exact F4].
      intros c Hc. cbv beta in *. cbn [c_start]. lia.
    + constructor; [cbn [c_start]; lia|]. eapply Forall_impl; [|exact F4]. intros c Hc. cbv beta in *. lia.
    + intros i ch Hi Hs Hb. destruct (Z.lt_ge_cases (Z.of_nat i) e) as [Hlt|Hge].
      * apply Exists_cons_hd. cbn [c_start c_end]. lia.
      * apply Exists_cons_tl. apply (F5 i ch Hi Hs). lia.
Qed.

Lemma cut_good text end_of overlap size :
  (forall start, 0 <= start < zlen text -> start < end_of start <= zlen text /\ end_of start - start <= size) ->
  0 <= overlap -> exists cs, cut text end_of overlap = Ok cs /\ good_cut text size cs.
Proof.
  intros He Ho. destruct (cut_ends text end_of overlap) as [cs E]. exists cs. split; [exact E|].
  destruct (cut_loop_sound text end_of overlap size He Ho _ _ _ _ (Z.le_refl 0) E) as (F1 & F2 & F3 & _ & F5).
  split; [exact F1|]. split; [split; assumption|]. intros i ch Hi Hs. apply (F5 i ch Hi Hs). lia.
Qed.

(** Every chunk of the loop ends where the chunker chose. *)
Lemma cut_loop_end text end_of overlap : forall fuel start id cs, 0 <= start ->
  cut_loop text end_of overlap fuel start id = Ok cs ->
  Forall (fun c => 0 <= c_start c < zlen text /\ c_end c = end_of (c_start c)) cs.
Proof.
  induction fuel as [|fuel IH]; intros start id cs H0; simpl;
    destruct (Z.ltb_spec start (zlen text)) as [Hl|Hl]; try discriminate; try (intros [= <-]; constructor).
  destruct (py_strip _) as [|a t] eqn:Et.
  - intros E. eapply IH; [|exact E]. lia.
  - intros E. match type of E with rbind ?m _ = _ => destruct m as [rest|] eqn:Er end; [|discriminate].
    injection E as <-. constructor; [cbn [c_start c_end]; split; [lia|reflexivity]|]. eapply IH; [|exact Er]. lia.
Qed.
