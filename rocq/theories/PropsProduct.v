(** Properties C47-C49 of the product quantizer, over the real numbers. *)

From Coq Require Import List Arith ZArith Lia Bool Reals Lra.
From Coq Require Import ZifyBool ZifyNat.
From Verif Require Import PyBase PyMore BaseLemmas Num RealNum Keeps ScalarModel ProductModel.
Import ListNotations.
Open Scope R_scope.

(** ** Vocabulary *)

(** A trained quantizer: a codebook of [m] books, each of [ek >= 1] centroids of width [sd]. *)
Definition book_of (sd ek : nat) (book : list (list R)) : Prop :=
  length book = ek /\ Forall (fun c => length c = sd) book.

Definition has_codebook (m sd ek : nat) (cs : list (list (list R))) (q : productq R) : Prop :=
  pq_init q = true /\ pq_trained q = true /\ pq_dim q = Some (m * sd)%nat /\ pq_sub q = Some sd /\
  pq_cents q = Some cs /\ pq_k q = ek /\ (1 <= ek)%nat /\ length cs = m /\ Forall (book_of sd ek) cs.

(** Part [i] of a vector cut into parts of width [sd]. *)
Definition part (sd i : nat) (v : list R) : list R := firstn sd (skipn (i * sd) v).

(** Centroid [c] of book [i]. *)
Definition centroid (cs : list (list (list R))) (i c : nat) : list R := nth c (nth i cs []) [].

(** [v] cut or padded with zeros to length [n]. *)
Definition resize (n : nat) (v : list R) : list R := firstn n (v ++ repeat 0 n).

(** ** Lemmas on the model *)

Lemma skipn_add {A} (a b : nat) (l : list A) : skipn a (skipn b l) = skipn (b + a) l.
Proof. revert l. induction b as [|b IH]; intros l; simpl; auto. destruct l; auto. now rewrite skipn_nil. Qed.

Lemma sum_sq_R (x y : list R) : length x = length y -> sum_sq x y = Ok (sq_dist x y).
Proof.
  intros E. unfold sum_sq, np_sub. rewrite E, Nat.eqb_refl. simpl. f_equal. rewrite nsum_R. clear E. revert y.
  induction x as [|a x IH]; intros [|b y]; simpl; auto. rewrite IH. lra.
Qed.

Lemma cut_part sd i (v : list R) : cut (i * sd) ((i + 1) * sd) v = part sd i v.
Proof. unfold cut, part. f_equal. lia. Qed.

Lemma part_length sd i v m : (i < m)%nat -> length v = (m * sd)%nat -> length (part sd i v) = sd.
Proof. intros Hi Hv. unfold part. rewrite firstn_length, skipn_length, Hv. nia. Qed.

Lemma argmin_from_spec (l : list R) : forall best pos i,
  (argmin_from best pos i l = pos /\ Forall (fun x => best <= x) l) \/
  exists j, (j < length l)%nat /\ argmin_from best pos i l = (i + j)%nat /\ nth j l 0 < best /\
            Forall (fun x => nth j l 0 <= x) l.
Proof.
  induction l as [|x l IH]; intros best pos i; simpl; [left; auto|].
  unfold nltb. destruct (nleb best x) eqn:E; simpl.
  - apply nleb_R in E. destruct (IH best pos (S i)) as [[H1 H2]|(j & H1 & H2 & H3 & H4)].
    + left. auto.
    + right. exists (S j). repeat split; try lia; auto. constructor; auto. lra.
  - apply nleb_R_false in E. destruct (IH x i (S i)) as [[H1 H2]|(j & H1 & H2 & H3 & H4)].
    + right. exists 0%nat. repeat split; try lia; auto. constructor; auto. lra.
    + right. exists (S j). repeat split; try lia; auto; [lra|]. constructor; auto. lra.
Qed.

Lemma argmin_spec (l : list R) : l <> [] ->
  exists c, argmin l = Ok c /\ (c < length l)%nat /\ forall j, (j < length l)%nat -> nth c l 0 <= nth j l 0.
Proof.
  destruct l as [|x l]; [congruence|]. intros _. simpl.
  destruct (argmin_from_spec l x 0 1) as [[H1 H2]|(c & H1 & H2 & H3 & H4)].
  - exists 0%nat. rewrite H1. split; auto. split; [lia|]. intros [|j] Hj; [lra|]. rewrite Forall_forall in H2. apply H2, nth_In. lia.
  - exists (S c). rewrite H2. split; auto. split; [lia|]. intros [|j] Hj; [lra|]. rewrite Forall_forall in H4. apply H4, nth_In. lia.
Qed.

Lemma stored_small ek c : (c < ek)%nat -> (Z.of_nat ek <= 65536)%Z -> stored ek c = Z.of_nat c.
Proof. intros H1 H2. unfold stored. destruct (Nat.leb_spec (ek - 1) 255); apply Z.mod_small; lia. Qed.

Lemma sq_dist_app (a b c d : list R) : length a = length b -> sq_dist (a ++ c) (b ++ d) = sq_dist a b + sq_dist c d.
Proof. revert b. induction a as [|x a IH]; intros [|y b] E; simpl in *; try discriminate; [lra|]. rewrite IH by lia. lra. Qed.

Section WithCodebook.
  Context (m sd ek : nat) (cs : list (list (list R))).
  Hypothesis Hek : (1 <= ek)%nat.
  Hypothesis Hlen : length cs = m.
  Hypothesis Hcs : Forall (book_of sd ek) cs.

  Lemma book_at i : (i < m)%nat -> py_index cs (Z.of_nat i) = Ok (nth i cs []) /\ book_of sd ek (nth i cs []).
  Proof.
    intros Hi. rewrite py_index_nat. rewrite (nth_error_nth' cs [] (n := i)) by lia. split; auto.
    rewrite Forall_forall in Hcs. apply Hcs, nth_In. lia.
  Qed.

  Lemma centroid_length i c : (i < m)%nat -> (c < ek)%nat -> length (centroid cs i c) = sd.
  Proof.
    intros Hi Hc. destruct (book_at i Hi) as [_ [HL HF]]. rewrite Forall_forall in HF. apply HF, nth_In. lia.
  Qed.

  (** Encoding one part: the nearest centroid before storage. *)
  Lemma encode_part row i : (i < m)%nat -> length row = (m * sd)%nat -> exists c,
    rbind (py_index cs (Z.of_nat i)) (fun book =>
      rbind (rmap (sum_sq (cut (i * sd) ((i + 1) * sd) row)) book) (fun ds =>
      rbind (argmin ds) (fun c => Ok (stored ek c)))) = Ok (stored ek c) /\
    (c < ek)%nat /\
    forall c', (c' < ek)%nat -> sq_dist (part sd i row) (centroid cs i c) <= sq_dist (part sd i row) (centroid cs i c').
  Proof.
    intros Hi Hr. destruct (book_at i Hi) as [-> [HL HF]]. simpl. rewrite cut_part.
    pose proof (part_length sd i row m Hi Hr) as Lp.
    rewrite (rmap_Ok _ (sq_dist (part sd i row))).
    2:{ intros c Hc. rewrite Forall_forall in HF. apply sum_sq_R. rewrite Lp. symmetry. auto. }
    simpl. set (ds := map (sq_dist (part sd i row)) (nth i cs [])).
    assert (Ld : length ds = ek) by (unfold ds; rewrite map_length; auto).
    destruct (argmin_spec ds) as (c & -> & Hc & Hmin); [destruct ds; simpl in *; [lia|congruence]|].
    simpl. exists c. split; auto. split; [lia|].
    intros c' Hc'. assert (En : forall j, (j < ek)%nat -> nth j ds 0 = sq_dist (part sd i row) (centroid cs i j)).
    { intros j Hj. unfold ds, centroid. rewrite (nth_indep _ 0 (sq_dist (part sd i row) [])) by (rewrite map_length; lia). apply map_nth. }
    rewrite <- !En by lia. apply Hmin. lia.
  Qed.

  Lemma encode_row_ok row : length row = (m * sd)%nat -> exists codes,
    encode_row m sd ek cs row = Ok codes /\ length codes = m /\
    forall i, (i < m)%nat -> exists c, nth i codes 0%Z = stored ek c /\ (c < ek)%nat /\
      forall c', (c' < ek)%nat -> sq_dist (part sd i row) (centroid cs i c) <= sq_dist (part sd i row) (centroid cs i c').
  Proof.
    intros Hr. unfold encode_row.
    assert (G : forall n s, (s + n <= m)%nat -> exists codes,
       rmap (fun i => rbind (py_index cs (Z.of_nat i)) (fun book =>
          rbind (rmap (sum_sq (cut (i * sd) ((i + 1) * sd) row)) book) (fun ds =>
          rbind (argmin ds) (fun c => Ok (stored ek c))))) (seq s n) = Ok codes /\ length codes = n /\
       forall i, (i < n)%nat -> exists c, nth i codes 0%Z = stored ek c /\ (c < ek)%nat /\
         forall c', (c' < ek)%nat -> sq_dist (part sd (s + i) row) (centroid cs (s + i) c) <= sq_dist (part sd (s + i) row) (centroid cs (s + i) c')).
    { induction n as [|n IH]; intros s Hs.
      - exists []. repeat split; auto. lia.
      - destruct (encode_part row s ltac:(lia) Hr) as (c & Ec & Hc & Hm). destruct (IH (S s) ltac:(lia)) as (codes & Eo & Lo & Ho).
        exists (stored ek c :: codes). cbn [seq rmap]. rewrite Ec, Eo. simpl. repeat split; auto.
        intros [|i] Hi; simpl.
        + rewrite Nat.add_0_r. exists c. auto.
        + rewrite Nat.add_succ_r. apply (Ho i). lia. }
    apply (G m 0%nat). lia.
  Qed.

  (** The centroids a code row names. *)
  Definition chosen (codes : list Z) (i : nat) : result (list R) :=
    rbind (py_index codes (Z.of_nat i)) (fun c =>
    rbind (py_index cs (Z.of_nat i)) (fun book => py_index book c)).

  Lemma py_index_In {A} (l : list A) c x : py_index l c = Ok x -> exists j, nth_error l j = Some x.
  Proof.
    unfold py_index. destruct (py_pos (length l) c) as [j|]; [|discriminate].
    destruct (nth_error l j) as [y|] eqn:E; [|discriminate]. intros [= <-]. eauto.
  Qed.

  Lemma chosen_centroid codes i v : (i < m)%nat -> chosen codes i = Ok v -> exists c, (c < ek)%nat /\ v = centroid cs i c.
  Proof.
    intros Hi E. unfold chosen in E. destruct (py_index codes (Z.of_nat i)) as [c|]; [|discriminate]. simpl in E.
    destruct (book_at i Hi) as [Eb [HL HF]]. rewrite Eb in E. simpl in E. apply py_index_In in E as (j & Ej).
    exists j. split; [rewrite <- HL; apply nth_error_Some; congruence|]. unfold centroid. symmetry. now apply nth_error_nth.
  Qed.

  Lemma chosen_length codes i v : (i < m)%nat -> chosen codes i = Ok v -> length v = sd.
  Proof. intros Hi E. destruct (chosen_centroid codes i v Hi E) as (c & Hc & ->). now apply centroid_length. Qed.

  Lemma assign_cut_mid (pre v post rest : list R) : length v = length post ->
    assign_cut (length pre) (length pre + length v) v (pre ++ post ++ rest) = Ok (pre ++ v ++ rest).
  Proof.
    intros E. unfold assign_cut. rewrite !app_length.
    rewrite Nat.min_l by lia. rewrite Nat.min_l by lia. rewrite Nat.max_r by lia.
    replace (length pre + length v - length pre)%nat with (length v) by lia. rewrite Nat.eqb_refl. f_equal.
    rewrite firstn_app, firstn_all, Nat.sub_diag, firstn_O, app_nil_r. f_equal. f_equal.
    rewrite E. rewrite app_assoc. rewrite <- app_length. rewrite skipn_app, skipn_all, Nat.sub_diag. reflexivity.
  Qed.

  Lemma decode_ok codes : forall n i pre, (i + n <= m)%nat -> length pre = (i * sd)%nat ->
    decode_from sd cs codes i n (pre ++ repeat 0 (n * sd)) =
    rbind (rmap (chosen codes) (seq i n)) (fun vs => Ok (pre ++ concat vs)).
  Proof.
    induction n as [|n IH]; intros i pre Hi Hp; [reflexivity|].
    cbn [decode_from seq rmap]. unfold chosen at 1.
    destruct (py_index codes (Z.of_nat i)) as [c|e] eqn:Ec; [|reflexivity].
    destruct (py_index cs (Z.of_nat i)) as [book|e] eqn:Eb; [|reflexivity].
    destruct (py_index book c) as [v|e] eqn:Ev; [|simpl; now rewrite Ev].
    assert (Lv : length v = sd).
    { apply (chosen_length codes i); [lia|]. unfold chosen. rewrite Ec. simpl. rewrite Eb. exact Ev. }
    cbn [rbind]. rewrite Ev. cbn [rbind].
    replace (S n * sd)%nat with (sd + n * sd)%nat by lia. rewrite repeat_app.
    replace (i * sd)%nat with (length pre) by auto. replace ((i + 1) * sd)%nat with (length pre + length v)%nat by lia.
    rewrite assign_cut_mid by (rewrite repeat_length; auto). cbn [rbind]. rewrite app_assoc. rewrite IH by (rewrite ?app_length; lia).
    destruct (rmap (chosen codes) (seq (S i) n)) as [vs|e]; [|reflexivity]. simpl. now rewrite <- app_assoc.
  Qed.

  Lemma decode_all codes : decode_from sd cs codes 0 m (repeat 0 (m * sd)) =
    rbind (rmap (chosen codes) (seq 0 m)) (fun vs => Ok (concat vs)).
  Proof. apply (decode_ok codes m 0 []); [lia|reflexivity]. Qed.

  (** Sum of the squared distances of the parts. *)
  Fixpoint parts_dist (q : list R) (i : nat) (vs : list (list R)) : R :=
    match vs with [] => 0 | v :: vs' => sq_dist (part sd i q) v + parts_dist q (S i) vs' end.

  Lemma distance_ok codes q : length q = (m * sd)%nat -> forall n i acc, (i + n <= m)%nat ->
    distance_from sd cs codes q i n acc =
    rbind (rmap (chosen codes) (seq i n)) (fun vs => Ok (acc + parts_dist q i vs)).
  Proof.
    intros Hq. induction n as [|n IH]; intros i acc Hi.
    - simpl. f_equal. lra.
    - cbn [distance_from seq rmap]. unfold chosen at 1.
      destruct (py_index codes (Z.of_nat i)) as [c|e] eqn:Ec; [|reflexivity].
      destruct (py_index cs (Z.of_nat i)) as [book|e] eqn:Eb; [|reflexivity].
      destruct (py_index book c) as [v|e] eqn:Ev; [|simpl; now rewrite Ev].
      assert (Lv : length v = sd).
      { apply (chosen_length codes i); [lia|]. unfold chosen. rewrite Ec. simpl. rewrite Eb. exact Ev. }
      cbn [rbind]. rewrite Ev. cbn [rbind]. rewrite cut_part, sum_sq_R by (rewrite (part_length sd i q m); auto; lia).
      cbn [rbind]. rewrite IH by lia.
      destruct (rmap (chosen codes) (seq (S i) n)) as [vs|e]; [|reflexivity]. simpl. f_equal. lra.
  Qed.

  Lemma parts_dist_concat q : forall vs i, Forall (fun v => length v = sd) vs ->
    length q = ((i + length vs) * sd)%nat ->
    parts_dist q i vs = sq_dist (skipn (i * sd) q) (concat vs).
  Proof.
    clear m ek cs Hek Hlen Hcs.
    induction vs as [|v vs IH]; intros i HF Hq.
    - simpl. destruct (skipn (i * sd) q); reflexivity.
    - inversion HF as [|v' vs' Hv HF']; subst v' vs'. cbn [parts_dist concat]. cbn [length] in Hq.
      rewrite (IH (S i)) by (auto; lia).
      rewrite <- (firstn_skipn sd (skipn (i * sd) q)) at 1. rewrite sq_dist_app.
      + unfold part. rewrite skipn_add. replace (i * sd + sd)%nat with (S i * sd)%nat by lia. reflexivity.
      + fold (part sd i q). rewrite (part_length sd i q (i + S (length vs))); auto. lia.
  Qed.
End WithCodebook.

(** ** Training builds a codebook *)

Lemma Forall_set_nth {A} (P : A -> Prop) a l : P a -> Forall P l -> forall i, Forall P (set_nth i a l).
Proof. intros Ha HF. induction HF as [|x l Hx HF IH]; intros [|i]; simpl; auto. Qed.

Lemma bind_modify {S A} (g : S -> S) (f : unit -> M S A) s : bind (modify g) f s = f tt (g s).
Proof. reflexivity. Qed.

(** Whenever training succeeds the quantizer has a codebook. [kmeans] may return anything or
    raise; column means of rows of width [sd] have width [sd]. *)
Theorem C47_training_gives_codebook :
  forall m k kmeans cmean w rows q q',
    (1 <= k)%nat ->
    (forall sd sub, length (cmean sd sub) = sd) ->
    product_train m k kmeans cmean (A2 w rows) q = (Ok tt, q') ->
    exists sd ek cs, has_codebook m sd ek cs q' /\ w = (m * sd)%nat /\ ek = Nat.min k (Nat.max 1 (length rows)).
Proof.
  intros m k kmeans cmean w rows q q' Hk Hmean E. unfold product_train in E.
  rewrite (bind_Ok get _ _ q q) in E by reflexivity.
  destruct (pq_init q) eqn:Ei; [|discriminate]. cbn [negb] in E. cbv iota in E.
  match type of E with wrap _ ?mm _ = _ => set (body := mm) in E end.
  unfold wrap in E. destruct (body q) as [[[]|e] q1] eqn:Eb; [|discriminate]. injection E as <-.
  unfold body in Eb. clear body.
  rewrite bind_modify in Eb.
  destruct (Nat.eqb_spec m 0) as [|Hm]; [discriminate|].
  destruct (Nat.eqb_spec (w mod m) 0) as [Hw|]; [|discriminate]. cbn [negb] in Eb. cbv iota zeta in Eb.
  set (sd := (w / m)%nat) in *. set (ek := Nat.min k (Nat.max 1 (length rows))) in *.
  rewrite bind_modify in Eb.
  match type of Eb with bind _ _ ?s0 = _ => set (q2 := s0) in Eb end.
  set (P := fun s : productq R => exists cs, pq_init s = true /\ pq_dim s = Some w /\ pq_sub s = Some sd /\
                 pq_cents s = Some cs /\ pq_k s = ek /\ length cs = m /\ Forall (book_of sd ek) cs).
  assert (P2 : P q2).
  { exists (repeat (repeat (repeat nzero sd) ek) m). unfold q2. simpl. rewrite Ei, repeat_length. repeat split; auto.
    apply Forall_forall. intros b Hb. apply repeat_spec in Hb. subst b. split; [apply repeat_length|].
    apply Forall_forall. intros c Hc. apply repeat_spec in Hc. subst c. apply repeat_length. }
  assert (PK : keep P (forM (seq 0 m) (train_sub kmeans cmean rows ek sd))).
  { apply keep_forM. intros i _. unfold train_sub.
    assert (Put : forall book, book_of sd ek book -> keep P (modify (fun q => mkProductq (pq_dim q) (pq_sub q)
          (match pq_cents q with Some cs => Some (set_nth i book cs) | None => None end)
          (pq_k q) (pq_trained q) (pq_init q)))).
    { intros book Hb. apply keep_modify. intros s (cs & S1 & S2 & S3 & S4 & S5 & S6 & S7).
      exists (set_nth i book cs). simpl. rewrite S4. repeat split; auto; [rewrite set_nth_length; auto|].
      apply Forall_set_nth; auto. }
    destruct (Nat.leb_spec ek 1) as [L|L].
    - destruct (Nat.eqb_spec ek 0); [apply keep_raise|]. apply Put. split; [simpl; lia|]. constructor; auto.
    - apply keep_bind; [apply keep_lift|]. intros centers.
      destruct (Nat.leb_spec (length centers) ek) as [L'|L']; [|apply keep_raise]. cbn [andb].
      destruct (forallb (fun c => Nat.eqb (length c) sd) centers) eqn:Ef; [|apply keep_raise]. apply Put. split.
      + rewrite app_length, repeat_length. lia.
      + apply Forall_app. split.
        * apply Forall_forall. intros c Hc. rewrite forallb_forall in Ef. specialize (Ef c Hc). apply Nat.eqb_eq in Ef. auto.
        * apply Forall_forall. intros c Hc. apply repeat_spec in Hc. subst c. apply repeat_length. }
  specialize (PK q2 P2). unfold bind in Eb.
  destruct (forM (seq 0 m) (train_sub kmeans cmean rows ek sd) q2) as [[[]|e] q3]; [|discriminate].
  simpl in PK. destruct PK as (cs & S1 & S2 & S3 & S4 & S5 & S6 & S7).
  unfold modify in Eb. injection Eb as <-. exists sd, ek, cs.
  assert (Ew : w = (m * sd)%nat). { pose proof (Nat.div_mod w m Hm). unfold sd. lia. }
  split; [|auto]. unfold has_codebook. simpl. rewrite <- Ew. repeat split; auto. unfold ek. lia.
Qed.

(** ** C47 *)

(** With up to 65536 centroids every code names a centroid and no centroid of that book is nearer
    to that part of the vector. *)
Theorem C47_optimal_partial :
  forall m sd ek cs q w rows,
    has_codebook m sd ek cs q -> (Z.of_nat ek <= 65536)%Z ->
    Forall (fun row => length row = (m * sd)%nat) rows ->
    exists codes, product_quantize m (A2 w rows) q = (Ok codes, q) /\
      Forall2 (fun row code => length code = m /\
        forall i, (i < m)%nat -> exists c, nth i code 0%Z = Z.of_nat c /\ (c < ek)%nat /\
          forall c', (c' < ek)%nat ->
            euclid (part sd i row) (centroid cs i c) <= euclid (part sd i row) (centroid cs i c')) rows codes.
Proof.
  intros m sd ek cs q w rows (Hi & Ht & Hd & Hs & Hc & Hk & He & Hl & HF) Hek HR.
  assert (G : exists codes, rmap (encode_row m sd ek cs) rows = Ok codes /\
     Forall2 (fun row code => length code = m /\
        forall i, (i < m)%nat -> exists c, nth i code 0%Z = Z.of_nat c /\ (c < ek)%nat /\
          forall c', (c' < ek)%nat ->
            euclid (part sd i row) (centroid cs i c) <= euclid (part sd i row) (centroid cs i c')) rows codes).
  { induction HR as [|row rows Hrow HR IH]; [exists []; split; [reflexivity|constructor]|].
    destruct IH as (codes & Ec & HC). destruct (encode_row_ok m sd ek cs He Hl HF row Hrow) as (code & Er & Lr & Hopt).
    exists (code :: codes). simpl. rewrite Er, Ec. split; auto. constructor; auto. split; auto.
    intros i Hii. destruct (Hopt i Hii) as (c & En & Hcc & Hmin). exists c. rewrite En, stored_small by auto.
    split; auto. split; auto. intros c' Hc'. unfold euclid. apply sqrt_le_1_alt. auto. }
  destruct G as (codes & Ec & HC). exists codes. split; auto.
  unfold product_quantize. rewrite (bind_Ok get _ _ q q) by reflexivity. rewrite Hi, Ht. cbn [negb]. cbv iota.
  rewrite Hs, Hc, Hk. unfold wrap, lift. now rewrite Ec.
Qed.

(** ** C48 *)

(** Whatever code row can be decoded, and whatever query. *)
Theorem C48_distance_to_decoded :
  forall m sd ek cs q query w code dec,
    has_codebook m sd ek cs q ->
    product_dequantize m (A2 w [code]) q = (Ok [dec], q) ->
    product_distance m query code q = (Ok (euclid (resize (m * sd) query) dec), q).
Proof.
  intros m sd ek cs q query w code dec (Hi & Ht & Hd & Hs & Hc & Hk & He & Hl & HF) E.
  unfold product_dequantize in E. rewrite (bind_Ok get _ _ q q) in E by reflexivity. rewrite Hi, Ht in E. cbn [negb] in E. cbv iota in E.
  rewrite Hd, Hs, Hc in E. unfold wrap, lift in E. cbn [rmap] in E.
  change nzero with 0 in E. rewrite (decode_all m sd ek cs He Hl HF) in E.
  destruct (rmap (chosen cs code) (seq 0 m)) as [vs|] eqn:Ev; [|discriminate]. simpl in E. injection E as <-.
  assert (LQ : length (resize (m * sd) query) = (m * sd)%nat).
  { unfold resize. rewrite firstn_length, app_length, repeat_length. lia. }
  assert (EA : align (m * sd) query = resize (m * sd) query).
  { unfold align, resize. destruct (Nat.ltb_spec (length query) (m * sd)) as [L|L].
    - rewrite firstn_app. rewrite (firstn_all2 query) by lia. f_equal.
      replace (m * sd)%nat with ((m * sd - length query) + length query)%nat at 3 by lia.
      rewrite repeat_app, firstn_app, repeat_length, Nat.sub_diag, firstn_O, app_nil_r.
      symmetry. apply firstn_all2. rewrite repeat_length. lia.
    - rewrite firstn_app. replace (m * sd - length query)%nat with 0%nat by lia. rewrite firstn_O, app_nil_r.
      destruct (Nat.ltb_spec (m * sd) (length query)); auto. symmetry. apply firstn_all2. lia. }
  unfold product_distance. rewrite (bind_Ok get _ _ q q) by reflexivity. rewrite Hi, Ht. cbn [negb]. cbv iota.
  rewrite Hd, Hs, Hc, EA.
  match goal with |- wrap _ ?b q = _ => assert (EB : b q = (Ok (euclid (resize (m * sd) query) (concat vs)), q)); [|unfold wrap; now rewrite EB] end.
  unfold bind, lift, ret.
  rewrite (distance_ok m sd ek cs He Hl HF code _ LQ m 0 nzero) by lia. rewrite Ev. simpl rbind. cbv iota beta.
  unfold euclid. f_equal. f_equal. change (sqrt (0 + parts_dist sd (resize (m * sd) query) 0 vs) = sqrt (sq_dist (resize (m * sd) query) (concat vs))).
  f_equal. rewrite Rplus_0_l.
  destruct (rmap_nth _ _ _ Ev) as [Lv Nv].
  rewrite (parts_dist_concat sd).
  - reflexivity.
  - apply Forall_forall. intros v Hv. apply In_nth_error in Hv as [j Hj].
    assert (Hjm : (j < m)%nat). { rewrite <- (seq_length m 0), <- Lv. apply nth_error_Some. congruence. }
    destruct (Nv j j) as (v' & Ev' & Ech).
    { rewrite (nth_error_nth' (seq 0 m) 0%nat) by (rewrite seq_length; auto). now rewrite seq_nth. }
    rewrite Hj in Ev'. injection Ev' as <-. apply (chosen_length m sd ek cs He Hl HF code j); auto.
  - rewrite Lv, seq_length, LQ. lia.
Qed.

(** ** C49 *)

Lemma sq_dist_zero (a : list R) : forall b, length a = length b -> sq_dist a b = 0 -> a = b.
Proof.
  induction a as [|x a IH]; intros [|y b] E H; simpl in *; try discriminate; auto.
  pose proof (sq_dist_pos a b). pose proof (pow2_ge_0 (x - y)) as P. simpl in P.
  assert (S0 : sq_dist a b = 0) by lra. assert (X0 : (x - y) * (x - y) = 0) by lra.
  apply Rmult_integral in X0. f_equal; [destruct X0; lra|]. apply IH; auto.
Qed.

Lemma sq_dist_refl (a : list R) : sq_dist a a = 0.
Proof. induction a as [|x a IH]; simpl; auto. rewrite IH. lra. Qed.

Lemma part_concat sd (vs : list (list R)) : forall i, Forall (fun v => length v = sd) vs -> (i < length vs)%nat ->
  part sd i (concat vs) = nth i vs [].
Proof.
  induction vs as [|v vs IH]; intros i HF Hi; simpl in *; [lia|]. inversion HF as [|v' vs' Hv HF']; subst v' vs'.
  destruct i as [|i].
  - unfold part. simpl. rewrite <- Hv. rewrite firstn_app, firstn_all, Nat.sub_diag, firstn_O, app_nil_r. auto.
  - unfold part in *. simpl. rewrite skipn_app. rewrite (skipn_all2 v) by lia. simpl.
    replace (sd + i * sd - length v)%nat with (i * sd)%nat by lia. apply IH; auto. lia.
Qed.

(** Decoding, encoding and decoding again gives the same vectors, for every decodable code and
    every codebook of up to 65536 centroids, repeated centroids included. *)
Theorem C49_idempotent_partial :
  forall m sd ek cs q w code dec,
    has_codebook m sd ek cs q -> (Z.of_nat ek <= 65536)%Z ->
    product_dequantize m (A2 w [code]) q = (Ok [dec], q) ->
    exists code', product_quantize m (A2 (m * sd) [dec]) q = (Ok [code'], q) /\
                  product_dequantize m (A2 m [code']) q = (Ok [dec], q).
Proof.
  intros m sd ek cs q w code dec HQ Hek E. pose proof HQ as (Hi & Ht & Hd & Hs & Hc & Hk & He & Hl & HF).
  unfold product_dequantize in E. rewrite (bind_Ok get _ _ q q) in E by reflexivity. rewrite Hi, Ht in E. cbn [negb] in E. cbv iota in E.
  rewrite Hd, Hs, Hc in E. unfold wrap, lift in E. cbn [rmap] in E.
  change nzero with 0 in E. rewrite (decode_all m sd ek cs He Hl HF) in E.
  destruct (rmap (chosen cs code) (seq 0 m)) as [vs|] eqn:Ev; [|discriminate]. simpl in E. injection E as <-.
  destruct (rmap_nth _ _ _ Ev) as [Lv Nv]. rewrite seq_length in Lv.
  assert (Hvs : forall j, (j < m)%nat -> exists c, (c < ek)%nat /\ nth j vs [] = centroid cs j c).
  { intros j Hj. destruct (Nv j j) as (v' & Ev' & Ech).
    { rewrite (nth_error_nth' (seq 0 m) 0%nat) by (rewrite seq_length; auto). now rewrite seq_nth. }
    destruct (chosen_centroid m sd ek cs He Hl HF code j v' Hj Ech) as (c & Hcc & ->). exists c. split; auto.
    now apply nth_error_nth. }
  assert (HFv : Forall (fun v => length v = sd) vs).
  { apply Forall_forall. intros v Hv. apply (In_nth _ _ []) in Hv as (j & Hj & <-). destruct (Hvs j ltac:(lia)) as (c & Hcc & ->).
    apply (centroid_length m sd ek cs He Hl HF); auto. lia. }
  assert (Ld : length (concat vs) = (m * sd)%nat).
  { rewrite <- Lv. clear - HFv. induction HFv as [|v vs Hv HFv IH]; simpl; auto. rewrite app_length. lia. }
  destruct (encode_row_ok m sd ek cs He Hl HF (concat vs) Ld) as (code' & Er & Lr & Hopt).
  exists code'. split.
  { unfold product_quantize. rewrite (bind_Ok get _ _ q q) by reflexivity. rewrite Hi, Ht. cbn [negb]. cbv iota.
    rewrite Hs, Hc, Hk. unfold wrap, lift. cbn [rmap]. now rewrite Er. }
  unfold product_dequantize. rewrite (bind_Ok get _ _ q q) by reflexivity. rewrite Hi, Ht. cbn [negb]. cbv iota.
  rewrite Hd, Hs, Hc. unfold wrap, lift. cbn [rmap]. change nzero with 0. rewrite (decode_all m sd ek cs He Hl HF).
  rewrite (rmap_Ok _ (fun j => nth j vs [])).
  { simpl. f_equal. f_equal. f_equal. f_equal. apply nth_ext with (d := []) (d' := []); [rewrite map_length, seq_length; auto|].
    intros j Hj. rewrite map_length, seq_length in Hj. rewrite (nth_indep _ [] (nth 0 vs [])) by (rewrite map_length, seq_length; auto).
    rewrite (map_nth (fun j => nth j vs [])). now rewrite seq_nth. }
  intros j Hj. apply in_seq in Hj. destruct (Hopt j ltac:(lia)) as (c & En & Hcc & Hmin).
  destruct (Hvs j ltac:(lia)) as (c0 & Hc0 & E0).
  unfold chosen. rewrite py_index_nat. rewrite (nth_error_nth' code' 0%Z) by lia. simpl rbind. rewrite En, stored_small by auto.
  destruct (book_at m sd ek cs He Hl HF j ltac:(lia)) as [-> [HL HB]]. simpl rbind.
  rewrite py_index_nat. rewrite (nth_error_nth' (nth j cs []) []) by lia. f_equal.
  change (nth c (nth j cs []) []) with (centroid cs j c).
  specialize (Hmin c0 Hc0). rewrite (part_concat sd vs j HFv) in Hmin by lia. rewrite E0 in *. rewrite sq_dist_refl in Hmin.
  pose proof (sq_dist_pos (centroid cs j c0) (centroid cs j c)). symmetry. apply sq_dist_zero; [|lra].
  rewrite !(centroid_length m sd ek cs He Hl HF) by (auto; lia). reflexivity.
Qed.

(** ** Too many centroids *)

(** One-dimensional training points 0, 1, ..., N-1; k-means with N clusters puts one center on
    each. *)
Definition points (N : nat) : list (list R) := map (fun i => [INR i]) (seq 0 N).
Definition each_its_own (_ : nat) (sub : list (list R)) : result (list (list R)) := Ok sub.
Definition no_mean (sd : nat) (_ : list (list R)) : list R := repeat 0 sd.

Lemma points_length N : length (points N) = N.
Proof. unfold points. now rewrite map_length, seq_length. Qed.

Lemma points_width N c : In c (points N) -> length c = 1%nat.
Proof. unfold points. intros Hc. apply in_map_iff in Hc as (i & <- & _). reflexivity. Qed.

Lemma points_nth N i : (i < N)%nat -> nth i (points N) [] = [INR i].
Proof.
  intros Hi. unfold points. rewrite (nth_indep _ [] [INR 0]) by (rewrite map_length, seq_length; auto).
  rewrite (map_nth (fun i => [INR i])). now rewrite seq_nth.
Qed.

Lemma train_points N : (2 <= N)%nat ->
  product_train 1 N each_its_own no_mean (A2 1 (points N)) (snd (product_initialize product_new)) =
  (Ok tt, mkProductq (Some 1%nat) (Some 1%nat) (Some [points N]) N true true).
Proof.
  intros HN. unfold product_train. rewrite (bind_Ok get _ _ (snd (product_initialize product_new)) (snd (product_initialize product_new))) by reflexivity.
  match goal with |- (if negb (pq_init ?x) then _ else _) _ = _ => change (negb (pq_init x)) with false end. cbv iota.
  match goal with |- wrap _ ?b ?s = _ => assert (EB : b s = (Ok tt, mkProductq (Some 1%nat) (Some 1%nat) (Some [points N]) N true true)); [|unfold wrap; now rewrite EB] end.
  rewrite bind_modify. change (1 =? 0)%nat with false. change (1 mod 1)%nat with 0%nat. change (negb (0 =? 0)%nat) with false.
  change (1 / 1)%nat with 1%nat. cbv iota zeta. rewrite points_length. rewrite Nat.max_r by lia. rewrite Nat.min_id.
  rewrite bind_modify. cbn [seq forM].
  match goal with |- bind (bind _ _) _ ?s = _ => rewrite (bind_Ok _ _ s tt (mkProductq (Some 1%nat) (Some 1%nat) (Some [points N]) N false true)); [reflexivity|rewrite (bind_Ok _ _ s tt (mkProductq (Some 1%nat) (Some 1%nat) (Some [points N]) N false true)); [reflexivity|]] end.
  unfold train_sub.
  replace (map (cut (0 * 1) ((0 + 1) * 1)) (points N)) with (points N).
  2:{ unfold points. rewrite map_map. apply map_ext. reflexivity. }
  destruct (Nat.leb_spec N 1); [lia|]. unfold each_its_own.
  match goal with |- bind _ _ ?s = _ => rewrite (bind_Ok _ _ s (points N) s) by reflexivity end.
  rewrite points_length. rewrite Nat.leb_refl. rewrite (proj2 (forallb_forall _ _)).
  2:{ intros c Hc. now rewrite (points_width N c Hc). }
  rewrite Nat.sub_diag. cbn [repeat andb]. rewrite app_nil_r. reflexivity.
Qed.

Lemma points_codebook N : (2 <= N)%nat ->
  has_codebook 1 1 N [points N] (mkProductq (Some 1%nat) (Some 1%nat) (Some [points N]) N true true).
Proof.
  intros HN. unfold has_codebook. cbn [pq_init pq_trained pq_dim pq_sub pq_cents pq_k]. repeat split; auto; [lia|].
  constructor; auto. split; [apply points_length|]. apply Forall_forall. apply points_width.
Qed.

(** The code of a training point is its number, cut to 16 bits. *)
Lemma encode_point N i : (2 <= N)%nat -> (i < N)%nat ->
  product_quantize 1 (A2 1 [[INR i]]) (mkProductq (Some 1%nat) (Some 1%nat) (Some [points N]) N true true) =
  (Ok [[stored N i]], mkProductq (Some 1%nat) (Some 1%nat) (Some [points N]) N true true).
Proof.
  intros HN Hi. destruct (points_codebook N HN) as (_ & _ & _ & _ & _ & _ & He & Hl & HF).
  destruct (encode_row_ok 1 1 N [points N] He Hl HF [INR i] eq_refl) as (code & Er & Lr & Hopt).
  destruct (Hopt 0%nat ltac:(lia)) as (c & En & Hc & Hmin). specialize (Hmin i Hi).
  unfold centroid in Hmin. cbn [nth] in Hmin. rewrite !points_nth in Hmin by auto. unfold part in Hmin. cbn [firstn skipn Nat.mul] in Hmin.
  rewrite sq_dist_refl in Hmin. pose proof (sq_dist_pos [INR i] [INR c]) as P0.
  assert (E0 : [INR i] = [INR c]) by (apply sq_dist_zero; [reflexivity|lra]). injection E0 as E0. apply INR_eq in E0. subst c.
  destruct code as [|c0 [|? ?]]; try (simpl in Lr; lia). cbn [nth] in En. subst c0.
  unfold product_quantize. rewrite (bind_Ok get _ _ (mkProductq (Some 1%nat) (Some 1%nat) (Some [points N]) N true true) (mkProductq (Some 1%nat) (Some 1%nat) (Some [points N]) N true true)) by reflexivity.
  cbn [pq_init pq_trained pq_sub pq_cents pq_k negb]. cbv iota. unfold wrap, lift. cbn [rmap]. now rewrite Er.
Qed.

Lemma decode_point N i : (2 <= N)%nat -> (i < N)%nat ->
  product_dequantize 1 (A2 1 [[Z.of_nat i]]) (mkProductq (Some 1%nat) (Some 1%nat) (Some [points N]) N true true) =
  (Ok [[INR i]], mkProductq (Some 1%nat) (Some 1%nat) (Some [points N]) N true true).
Proof.
  intros HN Hi. destruct (points_codebook N HN) as (_ & _ & _ & _ & _ & _ & He & Hl & HF).
  unfold product_dequantize. rewrite (bind_Ok get _ _ (mkProductq (Some 1%nat) (Some 1%nat) (Some [points N]) N true true) (mkProductq (Some 1%nat) (Some 1%nat) (Some [points N]) N true true)) by reflexivity.
  cbn [pq_init pq_trained pq_sub pq_cents pq_dim negb]. cbv iota. unfold wrap, lift. cbn [rmap].
  pose proof (decode_all 1 1 N [points N] He Hl HF [Z.of_nat i]) as D. cbn [Nat.mul Nat.add] in D. change (@nzero R _) with 0. rewrite D.
  cbn [seq rmap]. unfold chosen. change (py_index [Z.of_nat i] (Z.of_nat 0)) with (Ok (Z.of_nat i)).
  change (py_index [points N] (Z.of_nat 0)) with (Ok (points N)). cbn [rbind].
  rewrite py_index_nat. rewrite (nth_error_nth' (points N) []) by (rewrite points_length; auto). rewrite points_nth by auto. reflexivity.
Qed.

Definition too_many : nat := Z.to_nat 65537.
Definition last_point : nat := Z.to_nat 65536.

Lemma last_point_lt : (last_point < too_many)%nat.
Proof. unfold last_point, too_many. lia. Qed.

Lemma stored_last : stored too_many last_point = 0%Z.
Proof.
  unfold stored. assert (E : Nat.leb (too_many - 1) 255 = false) by (apply Nat.leb_gt; unfold too_many; lia).
  rewrite E. unfold last_point. rewrite Z2Nat.id by lia. reflexivity.
Qed.

(** After training with 65537 clusters on 65537 points, the last point is given code 0, although
    centroid 65536 is the point itself. *)
Theorem C47_optimal_refuted :
  exists m k kmeans cmean w rows q0 q v c c',
    product_train m k kmeans cmean (A2 w rows) q0 = (Ok tt, q) /\
    product_quantize m (A2 w [v]) q = (Ok [[Z.of_nat c]], q) /\
    exists cs, has_codebook m w k cs q /\ (c' < k)%nat /\
      euclid v (centroid cs 0 c') < euclid v (centroid cs 0 c).
Proof.
  pose proof last_point_lt as HL. assert (HN : (2 <= too_many)%nat) by (unfold too_many; lia).
  exists 1%nat, too_many, each_its_own, no_mean, 1%nat, (points too_many), (snd (product_initialize product_new)).
  exists (mkProductq (Some 1%nat) (Some 1%nat) (Some [points too_many]) too_many true true), [INR last_point], 0%nat, last_point.
  split; [apply train_points; auto|]. split; [rewrite encode_point, stored_last by auto; reflexivity|].
  exists [points too_many]. split; [apply points_codebook; auto|]. split; auto.
  unfold centroid. cbn [nth]. rewrite !points_nth by (auto; lia). unfold euclid. rewrite sq_dist_refl.
  assert (P : 0 < INR last_point) by (apply lt_0_INR; unfold last_point; lia). change (INR 0) with 0.
  revert P. generalize (INR last_point). intros r P. apply sqrt_lt_1_alt. split; [lra|]. cbn [sq_dist pow]. nra.
Qed.

(** And decoding code 65536, encoding and decoding again gives another vector. *)
Theorem C49_idempotent_refuted :
  exists m k kmeans cmean w rows q0 q code dec code' dec',
    product_train m k kmeans cmean (A2 w rows) q0 = (Ok tt, q) /\
    product_dequantize m (A2 m [code]) q = (Ok [dec], q) /\
    product_quantize m (A2 w [dec]) q = (Ok [code'], q) /\
    product_dequantize m (A2 m [code']) q = (Ok [dec'], q) /\ dec' <> dec.
Proof.
  pose proof last_point_lt as HL. assert (HN : (2 <= too_many)%nat) by (unfold too_many; lia).
  exists 1%nat, too_many, each_its_own, no_mean, 1%nat, (points too_many), (snd (product_initialize product_new)).
  exists (mkProductq (Some 1%nat) (Some 1%nat) (Some [points too_many]) too_many true true), [Z.of_nat last_point], [INR last_point], [Z.of_nat 0], [INR 0].
  split; [apply train_points; auto|]. split; [apply decode_point; auto|].
  split; [rewrite encode_point, stored_last by auto; reflexivity|]. split; [apply decode_point; auto; lia|].
  assert (P : 0 < INR last_point) by (apply lt_0_INR; unfold last_point; lia). change (INR 0) with 0.
  revert P. generalize (INR last_point). intros r P E. injection E as E. lra.
Qed.

(** ** The hypotheses are met *)

Definition demo_cs : list (list (list R)) := [[[0; 0]; [2; 2]]; [[1; 1]; [3; 3]]].
Definition demo_kmeans (i : nat) (_ : list (list R)) : result (list (list R)) := Ok (nth i demo_cs []).

Example C47_nontrivial : exists q,
  product_train 2 2 demo_kmeans no_mean (A2 4 [[0; 0; 1; 1]; [2; 2; 3; 3]; [0; 0; 3; 3]]) (snd (product_initialize product_new)) = (Ok tt, q) /\
  has_codebook 2 2 2 demo_cs q.
Proof.
  exists (mkProductq (Some 4%nat) (Some 2%nat) (Some demo_cs) 2 true true). split; [reflexivity|].
  repeat split; auto. repeat constructor.
Qed.

Example C48_nontrivial :
  product_dequantize 2 (A2 2 [[1; -2]%Z]) (mkProductq (Some 4%nat) (Some 2%nat) (Some demo_cs) 2 true true) =
  (Ok [[2; 2; 1; 1]], mkProductq (Some 4%nat) (Some 2%nat) (Some demo_cs) 2 true true).
Proof. reflexivity. Qed.

(** ** C82: failed training *)

(** Training on vectors of a width that [m] does not divide raises, but has already replaced the
    dimension: codes that could be decoded before no longer can. *)
Theorem C82_failed_training_refuted :
  exists m k kmeans cmean rows w q q' code dec,
    (exists sd ek cs, has_codebook m sd ek cs q) /\
    product_dequantize m (A2 m [code]) q = (Ok [dec], q) /\
    product_train m k kmeans cmean (A2 w rows) q = (Raise EQuant, q') /\
    product_dequantize m (A2 m [code]) q' = (Raise EQuant, q').
Proof.
  exists 2%nat, 2%nat, demo_kmeans, no_mean, [[0; 0; 0]], 3%nat, (mkProductq (Some 4%nat) (Some 2%nat) (Some demo_cs) 2 true true).
  exists (mkProductq (Some 3%nat) (Some 2%nat) (Some demo_cs) 2 true true), [1; 0]%Z, [2; 2; 1; 1].
  split; [exists 2%nat, 2%nat, demo_cs; repeat split; auto; repeat constructor|].
  split; [reflexivity|]. split; reflexivity.
Qed.

Print Assumptions C47_training_gives_codebook.
Print Assumptions C47_optimal_partial.
Print Assumptions C47_optimal_refuted.
Print Assumptions C48_distance_to_decoded.
Print Assumptions C49_idempotent_partial.
Print Assumptions C49_idempotent_refuted.
Print Assumptions C82_failed_training_refuted.
