(** Properties C96, C97 and C98 over exact reals: exact duplicates, the similarity matrix and
    [normalize_vectors] (model: HelpersModel.v). *)

From Coq Require Import String List Arith ZArith NArith Bool Lia Sorted Reals Lra Psatz.
From Verif Require Import PyBase PyMore Num SimilarityModel RealNum HelpersModel PropsSimilarity PropsDup.
Import ListNotations.
Open Scope R_scope.

(** ** Rows over reals *)

Lemma l2_row_scale eps x : l2_row eps x = map (fun a => / (len x + eps) * a) x.
Proof.
  unfold l2_row. rewrite norm_len. apply map_ext. intros a. simpl. unfold Rdiv. apply Rmult_comm.
Qed.

Lemma len_eps eps x : 0 < eps -> 0 < len x + eps.
Proof. pose proof (len_pos x). lra. Qed.

Lemma l2_entry eps x y : 0 < eps ->
  dot (l2_row eps x) (l2_row eps y) = inner x y / ((len x + eps) * (len y + eps)).
Proof.
  intros He. rewrite dot_inner, !l2_row_scale, inner_scale_l, inner_scale_r.
  pose proof (len_eps eps x He). pose proof (len_eps eps y He). field. lra.
Qed.

Lemma nth_table (f : list R -> list R -> R) rows i j :
  (i < length rows)%nat -> (j < length rows)%nat ->
  nth j (nth i (table f rows) []) 0 = f (nth i rows []) (nth j rows []).
Proof.
  intros Hi Hj. unfold table.
  rewrite (nth_indep _ [] (map (f []) rows)) by (now rewrite map_length).
  rewrite (map_nth (fun x => map (f x) rows)).
  rewrite (nth_indep _ 0 (f (nth i rows []) [])) by (now rewrite map_length).
  now rewrite map_nth.
Qed.

Lemma nth_table_map (f : list R -> list R -> R) (g : list R -> list R) rows i j :
  (i < length rows)%nat -> (j < length rows)%nat ->
  nth j (nth i (table f (map g rows)) []) 0 = f (g (nth i rows [])) (g (nth j rows [])).
Proof.
  intros Hi Hj. rewrite nth_table by (now rewrite map_length).
  now rewrite !(nth_indep (map g rows) [] (g [])), !map_nth by (now rewrite map_length).
Qed.

(** ** C97 *)

(** The textbook similarity of two rows under each metric name; the cosine is damped by the
    constant added to both norms. *)
Definition similarity_is (eps : R) (metric : pystr) (x y : list R) (s : R) : Prop :=
  (metric = py "cosine" /\ s = inner x y / ((len x + eps) * (len y + eps))) \/
  (metric = py "euclidean" /\ s = 1 / (1 + euclid x y)) \/
  (metric = py "dot" /\ s = inner x y).

(** Every entry of the matrix is the similarity of the two rows. *)
Theorem C97_entries :
  forall (eps : R) (rows : list (list R)) (metric : pystr) matrix i j,
    0 < eps -> compute_similarity_matrix eps rows metric = Ok matrix ->
    (i < length rows)%nat -> (j < length rows)%nat ->
    similarity_is eps metric (nth i rows []) (nth j rows []) (nth j (nth i matrix []) 0).
Proof.
  intros eps rows metric matrix i j He E Hi Hj. unfold compute_similarity_matrix in E.
  destruct (eqb_spec metric (py "cosine")) as [->|]; [|
    destruct (eqb_spec metric (py "euclidean")) as [->|]; [|
      destruct (eqb_spec metric (py "dot")) as [->|]; [|discriminate]]].
  - left. split; [reflexivity|]. simpl in E. injection E as <-.
    rewrite nth_table_map by auto. now apply l2_entry.
  - right. left. split; [reflexivity|]. injection E as <-. rewrite nth_table by auto.
    rewrite <- norm_diff. reflexivity.
  - right. right. split; [reflexivity|]. injection E as <-. rewrite nth_table by auto.
    apply dot_inner.
Qed.

(** The similarities themselves: symmetric; a cosine similarity lies strictly between -1 and 1;
    a euclidean one in (0, 1], and is 1 exactly for equal rows. *)
Theorem C97_similarity :
  forall (eps : R) (metric : pystr) (x y : list R) s t,
    0 < eps -> length x = length y ->
    similarity_is eps metric x y s -> similarity_is eps metric y x t ->
    s = t /\
    (metric = py "cosine" -> -1 < s < 1) /\
    (metric = py "euclidean" -> 0 < s <= 1 /\ (s = 1 <-> x = y)).
Proof.
  intros eps metric x y s t He Hl Hs Ht.
  assert (Esym : euclid x y = euclid y x) by (unfold euclid; now rewrite sq_dist_sym).
  assert (En : forall P : Prop, py "cosine" = py "euclidean" -> P) by discriminate.
  assert (En2 : forall P : Prop, py "euclidean" = py "cosine" -> P) by discriminate.
  destruct Hs as [[-> ->]|[[-> ->]|[-> ->]]];
    destruct Ht as [[Em ->]|[[Em ->]|[Em ->]]]; try discriminate Em.
  - split; [rewrite inner_sym; f_equal; lra|]. split; [|intros E; discriminate E]. intros _.
    pose proof (len_pos x). pose proof (len_pos y).
    assert (Hp : 0 < (len x + eps) * (len y + eps)) by (apply Rmult_lt_0_compat; lra).
    pose proof (cauchy_schwarz x y) as Hcs.
    assert (Hlt : len x * len y < (len x + eps) * (len y + eps)) by nra.
    pose proof (Rle_abs (inner x y)). pose proof (Rle_abs (- inner x y)) as Ha. rewrite Rabs_Ropp in Ha.
    split; apply Rmult_lt_reg_r with ((len x + eps) * (len y + eps)); auto;
      unfold Rdiv; rewrite Rmult_assoc, Rinv_l by lra; lra.
  - split; [now rewrite Esym|]. split; [intros E; discriminate E|]. intros _.
    assert (P : 0 <= euclid x y) by apply sqrt_pos.
    split.
    + split; [apply Rdiv_lt_0_compat; lra|].
      apply Rmult_le_reg_r with (1 + euclid x y); [lra|].
      unfold Rdiv. rewrite Rmult_assoc, Rinv_l by lra. lra.
    + rewrite <- (euclid_zero x y Hl). split.
      * intros E. apply (f_equal (fun z => z * (1 + euclid x y))) in E.
        unfold Rdiv in E. rewrite Rmult_assoc, Rinv_l in E by lra. lra.
      * intros ->. field.
  - split; [apply inner_sym|]. split; intros E; discriminate E.
Qed.

(** ** C96 *)

Lemma together close n groups i j :
  grouping close n groups -> (i < j < n)%nat -> close i j = true ->
  (forall h, (h < i)%nat -> close h i = close h j) ->
  exists g, In g groups /\ In i g /\ In j g.
Proof.
  intros Hg Hij Hc Heq.
  assert (Same : forall g g' x, In g groups -> In g' groups -> In x g -> In x g' -> g = g').
  { intros g g' x. pose proof (gr_disjoint _ _ _ Hg) as Hd. clear -Hd.
    induction groups as [|a l IH]; simpl; [tauto|]. simpl in Hd.
    assert (Hl : NoDup (concat l)) by (clear -Hd; induction a; simpl in *; auto; inversion Hd; auto).
    assert (Hx : forall z, In z a -> ~ In z (concat l)).
    { clear -Hd. induction a as [|b a IHa]; simpl in *; [tauto|]. inversion Hd; subst.
      intros z [->|Hz]; [intros Hin; apply H1, in_or_app; auto|auto]. }
    intros [->|Hg] [->|Hg'] Ha Ha'; auto.
    - exfalso. apply (Hx x Ha). apply in_concat. eauto.
    - exfalso. apply (Hx x Ha'). apply in_concat. eauto. }
  assert (Shape : forall g, In g groups -> exists h t, g = h :: t /\ ~ In h t /\
            (forall x, In x t -> (h < x < n)%nat /\ close h x = true)).
  { intros g H. destruct (gr_group _ _ _ Hg g H) as (h & t & -> & _ & Hs & Hn & Hcl).
    exists h, t. split; [reflexivity|]. inversion Hs as [|? ? _ Hlt]; subst.
    inversion Hn as [|? ? _ Hn']; subst. rewrite Forall_forall in *. split.
    - intros Hin. apply Hlt in Hin. lia.
    - intros x Hx. split; [split; [now apply Hlt|now apply Hn']|now apply Hcl]. }
  (** the first position of a group follows no other group's first *)
  assert (Lead : forall g h t, In g groups -> g = h :: t -> forall x, (h < x < n)%nat -> close h x = true ->
            exists g', In g' groups /\ In x g' /\ (hd 0%nat g' <= h)%nat).
  { intros g h t Hin -> x Hx Hcl. destruct (gr_maximal _ _ _ Hg h x Hx Hcl) as [H|(g' & H1 & H2)]; [exact H|].
    exfalso. destruct (Shape g' H1) as (h' & t' & -> & Hn & _). simpl in H2.
    assert (E : h :: t = h' :: t') by (apply (Same _ _ h); simpl; auto).
    injection E as <- <-. contradiction. }
  (** whoever is grouped with an earlier one brings the other along *)
  assert (Move : forall a b, (a = i /\ b = j) \/ (a = j /\ b = i) ->
            forall g, In g groups -> In a g -> (hd 0%nat g < i)%nat ->
            exists g', In g' groups /\ In b g' /\ (hd 0%nat g' <= hd 0%nat g)%nat).
  { intros a b Hab g Hin Ha Hlt. destruct (Shape g Hin) as (h & t & -> & _ & Ht). simpl in Hlt |- *.
    assert (Hat : In a t) by (destruct Ha as [->|]; [lia|auto]).
    apply Ht in Hat. destruct Hat as [Hb Hca].
    apply (Lead (h :: t) h t Hin eq_refl); [lia|].
    destruct Hab as [[-> ->]|[-> ->]]; [now rewrite <- Heq|now rewrite Heq]. }
  assert (Fin : forall a b, (a = i /\ b = j) \/ (a = j /\ b = i) ->
            forall g, In g groups -> In a g -> (hd 0%nat g < i)%nat -> In b g).
  { intros a b Hab g Hin Ha Hlt.
    destruct (Move a b Hab g Hin Ha Hlt) as (g' & H1 & H2 & H3).
    assert (Hba : (b = i /\ a = j) \/ (b = j /\ a = i)) by tauto.
    destruct (Move b a Hba g' H1 H2 ltac:(lia)) as (g'' & K1 & K2 & K3).
    assert (g'' = g) by (apply (Same _ _ a); auto). subst g''.
    assert (E : hd 0%nat g' = hd 0%nat g) by lia.
    destruct (Shape g Hin) as (h & t & -> & _). destruct (Shape g' H1) as (h' & t' & -> & _).
    simpl in E. subst h'. replace (h :: t) with (h :: t'); auto.
    apply (Same _ _ h); simpl; auto. }
  destruct (gr_maximal _ _ _ Hg i j Hij Hc) as [(g & H1 & H2 & H3)|(g & H1 & H2)].
  - exists g. split; [auto|]. split; [|auto].
    destruct (Nat.eq_dec (hd 0%nat g) i) as [E|].
    + destruct (Shape g H1) as (h & t & -> & _). simpl in E. subst. simpl; auto.
    + apply (Fin j i); auto. lia.
  - destruct (Shape g H1) as (h & t & -> & _ & Ht). simpl in H2.
    exists (h :: t). split; [auto|]. split; [simpl; auto|].
    apply (Fin i j); simpl; auto. apply Ht in H2. lia.
Qed.

(** Two equal rows whose similarity reaches the threshold are reported in the same group. *)
Theorem C96_equal_rows_partial :
  forall (eps threshold : R) (rows : list (list R)) (metric : pystr) groups i j s,
    0 < eps -> find_duplicates eps rows threshold metric = Ok groups ->
    (i < j < length rows)%nat -> nth i rows [] = nth j rows [] ->
    similarity_is eps metric (nth i rows []) (nth i rows []) s -> threshold <= s ->
    exists g, In g groups /\ In i g /\ In j g.
Proof.
  intros eps threshold rows metric groups i j s He Hf Hij Hr Hs Hle.
  destruct (C70_groups R num_R eps rows threshold metric groups Hf) as (matrix & Hm & Hg).
  assert (Huniq : forall a b u v, similarity_is eps metric a b u -> similarity_is eps metric a b v -> u = v).
  { intros a b u v [[-> ->]|[[-> ->]|[-> ->]]] [[E ->]|[[E ->]|[E ->]]]; try discriminate E; reflexivity. }
  apply (together _ _ _ i j Hg Hij).
  - apply nleb_R. pose proof (C97_entries eps rows metric matrix i j He Hm ltac:(lia) ltac:(lia)) as H.
    rewrite <- Hr in H. change (@nzero R num_R) with 0. rewrite (Huniq _ _ _ _ H Hs). exact Hle.
  - intros h Hh. f_equal.
    pose proof (C97_entries eps rows metric matrix h i He Hm ltac:(lia) ltac:(lia)) as H1.
    pose proof (C97_entries eps rows metric matrix h j He Hm ltac:(lia) ltac:(lia)) as H2.
    rewrite <- Hr in H2. exact (Huniq _ _ _ _ H1 H2).
Qed.

(** With the euclidean similarity a threshold up to one finds all equal rows; with the cosine
    similarity the default threshold 0.99 finds those of norm at least two hundred times the
    damping constant. *)
Theorem C96_thresholds :
  forall (eps : R) (x : list R), 0 < eps ->
    (forall threshold, threshold <= 1 ->
       exists s, similarity_is eps (py "euclidean") x x s /\ threshold <= s) /\
    (200 * eps <= len x ->
       exists s, similarity_is eps (py "cosine") x x s /\ 99 / 100 <= s).
Proof.
  intros eps x He. split.
  - intros threshold Ht. exists (1 / (1 + euclid x x)). split; [right; left; auto|].
    rewrite (proj2 (euclid_zero x x eq_refl) eq_refl). lra.
  - intros Hl. eexists. split; [left; split; reflexivity|]. rewrite <- len_sq.
    set (l := len x) in *. assert (0 < l + eps) by lra.
    apply Rmult_le_reg_r with ((l + eps) * (l + eps)); [nra|].
    unfold Rdiv at 2. rewrite Rmult_assoc, Rinv_l by nra. nra.
Qed.

Lemma len_one a : 0 <= a -> len [a] = a.
Proof. intros Ha. unfold len. simpl. replace (a * a + 0) with (a * a) by lra. now apply sqrt_square. Qed.

(** The cosine similarity of a row with itself is below one, so a threshold of one finds no
    duplicates at all, whatever the data. *)
Theorem C96_threshold_one :
  forall (eps : R) (rows : list (list R)),
    0 < eps -> Forall (fun r => length r = length (hd [] rows)) rows ->
    find_duplicates eps rows 1 (py "cosine") = Ok [].
Proof.
  intros eps rows He Hrect.
  destruct (proj1 (C70_total R num_R eps rows 1 (py "cosine"))) as [groups Hf]; [simpl; auto|].
  rewrite Hf. f_equal.
  destruct (C70_groups R num_R eps rows 1 (py "cosine") groups Hf) as (matrix & Hm & Hg).
  destruct groups as [|g groups]; [reflexivity|]. exfalso.
  destruct (gr_group _ _ _ Hg g (or_introl eq_refl)) as (i & rest & -> & Hne & Hs & Hn & Hc).
  destruct rest as [|j rest]; [congruence|].
  inversion Hc as [|? ? Hcj _]; subst. inversion Hn as [|? ? Hi Hn']; subst.
  inversion Hn' as [|? ? Hj _]; subst.
  apply nleb_R in Hcj. change (@nzero R num_R) with 0 in Hcj.
  pose proof (C97_entries eps rows _ matrix i j He Hm Hi Hj) as H1.
  pose proof (C97_entries eps rows _ matrix j i He Hm Hj Hi) as H2.
  rewrite Forall_forall in Hrect.
  assert (length (nth i rows []) = length (nth j rows [])).
  { rewrite (Hrect (nth i rows [])), (Hrect (nth j rows [])); auto using nth_In. }
  destruct (C97_similarity eps _ _ _ _ _ He H H1 H2) as (_ & Hb & _).
  specialize (Hb eq_refl). lra.
Qed.

(** Below that norm an exact duplicate is missed: two equal rows of norm [eps] with the default
    threshold 0.99. *)
Theorem C96_refuted :
  exists (eps : R) (rows : list (list R)) groups i j,
    eps = / 100000000 /\ find_duplicates eps rows (99 / 100) (py "cosine") = Ok groups /\
    (i < j < length rows)%nat /\ nth i rows [] = nth j rows [] /\ ~ zero_vec (nth i rows []) /\
    ~ exists g, In g groups /\ In i g.
Proof.
  set (e := / 100000000). assert (He : 0 < e) by (unfold e; lra).
  destruct (proj1 (C70_total R num_R e [[e]; [e]] (99 / 100) (py "cosine"))) as [groups Hf]; [simpl; auto|].
  exists e, [[e]; [e]], groups, 0%nat, 1%nat.
  split; [reflexivity|]. split; [exact Hf|]. split; [simpl; lia|]. split; [reflexivity|]. split.
  { intros Hz. inversion Hz. lra. }
  intros (g & Hg & Hi).
  destruct (C70_groups R num_R e _ _ _ groups Hf) as (matrix & Hm & Hgr).
  destruct (gr_group _ _ _ Hgr g Hg) as (a & rest & -> & Hne & Hs & Hn & Hc).
  destruct rest as [|j rest]; [congruence|].
  inversion Hc as [|? ? Hcj _]; subst. inversion Hn as [|? ? Ha Hn']; subst.
  inversion Hn' as [|? ? Hj _]; subst.
  apply nleb_R in Hcj. change (@nzero R num_R) with 0 in Hcj.
  pose proof (C97_entries e _ _ matrix a j He Hm Ha Hj) as [[_ H1]|[[E _]|[E _]]]; try discriminate E.
  rewrite H1 in Hcj.
  assert (Hr : forall k, (k < 2)%nat -> nth k [[e]; [e]] [] = [e]).
  { intros [|[|k]] Hk; try reflexivity. lia. }
  rewrite !Hr in Hcj by (simpl in *; lia). rewrite len_one in Hcj by lra. simpl in Hcj.
  assert ((e * e + 0) / ((e + e) * (e + e)) = 1 / 4) by (field; lra). lra.
Qed.

(** Worse, equal rows can be torn apart: one is grouped with a different row, its exact copy is
    not. *)
Theorem C96_torn_refuted :
  exists (eps threshold : R) (rows : list (list R)) groups i j g,
    0 < eps /\ find_duplicates eps rows threshold (py "cosine") = Ok groups /\
    nth i rows [] = nth j rows [] /\ i <> j /\ (j < length rows)%nat /\
    In g groups /\ In i g /\ (forall g', In g' groups -> ~ In j g').
Proof.
  (** rows [1], [1], [3] with damping 1: similarities 1/4 and 3/8 *)
  assert (M : compute_similarity_matrix (F := R) 1 [[1]; [1]; [3]] (py "cosine")
              = Ok [[1 / 4; 1 / 4; 3 / 8]; [1 / 4; 1 / 4; 3 / 8]; [3 / 8; 3 / 8; 9 / 16]]).
  { unfold compute_similarity_matrix. change (eqb (py "cosine") (py "cosine")) with true. cbv iota.
    unfold normalize_vectors. change (eqb (py "l2") (py "l2")) with true. cbv iota. simpl rbind.
    unfold table. cbn [map]. rewrite !l2_entry by lra. rewrite !len_one by lra. simpl.
    repeat f_equal; field. }
  exists 1, (3 / 8), [[1]; [1]; [3]], [[0; 2]%nat], 0%nat, 1%nat, [0; 2]%nat.
  split; [lra|]. split.
  - unfold find_duplicates. rewrite M. cbn [rbind length].
    assert (L : forall i j : nat,
      at_least (3 / 8) [[1 / 4; 1 / 4; 3 / 8]; [1 / 4; 1 / 4; 3 / 8]; [3 / 8; 3 / 8; 9 / 16]] i j
      = match i, j with
        | 0%nat, 2%nat | 1%nat, 2%nat | 2%nat, 0%nat | 2%nat, 1%nat | 2%nat, 2%nat => true
        | _, _ => false
        end).
    { assert (T : nleb (3 / 8) (3 / 8) = true) by (apply nleb_R; lra).
      assert (T2 : nleb (3 / 8) (9 / 16) = true) by (apply nleb_R; lra).
      assert (T3 : nleb (3 / 8) (1 / 4) = false) by (apply nleb_R_false; lra).
      assert (T4 : nleb (3 / 8) 0 = false) by (apply nleb_R_false; lra).
      intros [|[|[|i]]] [|[|[|j]]]; unfold at_least; cbn [nth]; auto;
        try (destruct j; cbn [nth]; exact T4); try (destruct i; cbn [nth]; exact T4);
        destruct i, j; cbn [nth]; exact T4. }
    unfold dup_groups. cbn [seq fold_left]. unfold dup_step at 3. cbn [memb].
    cbn [seq Nat.add Nat.sub fold_left]. unfold dup_join. cbn [memb].
    rewrite !L. cbn. rewrite ?L. reflexivity.
  - split; [reflexivity|]. split; [discriminate|]. split; [simpl; lia|]. split; [simpl; auto|].
    split; [simpl; auto|]. intros g' [<-|[]] [H|[H|[]]]; discriminate.
Qed.

(** Two equal rows of norm 5 among three. *)
Example C96_case :
  200 * / 100000000 <= len [3; 4] /\
  exists groups,
    find_duplicates (/ 100000000) [[3; 4]; [1; 0]; [3; 4]] (99 / 100) (py "cosine") = Ok groups /\
    exists g, In g groups /\ In 0%nat g /\ In 2%nat g.
Proof.
  assert (L : len [3; 4] = 5).
  { unfold len. simpl. replace (3 * 3 + (4 * 4 + 0)) with (5 * 5) by lra. apply sqrt_square. lra. }
  split; [rewrite L; lra|].
  destruct (proj1 (C70_total R num_R (/ 100000000) [[3; 4]; [1; 0]; [3; 4]] (99 / 100) (py "cosine")))
    as [groups Hf]; [simpl; auto|].
  exists groups. split; [exact Hf|].
  destruct (proj2 (C96_thresholds (/ 100000000) [3; 4] ltac:(lra))) as (s & Hs & Hle); [rewrite L; lra|].
  eapply C96_equal_rows_partial with (i := 0%nat) (j := 2%nat); eauto; simpl; try lra; lia.
Qed.

(** ** C98 *)

(** Sum of magnitudes. *)
Fixpoint mass (x : list R) : R := match x with [] => 0 | a :: x' => Rabs a + mass x' end.

Lemma nabs_R a : nabs a = Rabs a.
Proof.
  unfold nabs. destruct (nleb nzero a) eqn:E.
  - apply nleb_R in E. simpl in E. now rewrite Rabs_pos_eq.
  - apply nleb_R_false in E. simpl in *. rewrite Rabs_left by lra. lra.
Qed.

Lemma nsum_mass x : nsum (map nabs x) = mass x.
Proof.
  rewrite nsum_R. induction x as [|a x IH]; simpl; auto. now rewrite nabs_R, IH.
Qed.

Lemma mass_pos x : 0 <= mass x.
Proof. induction x as [|a x IH]; simpl; [lra|]. pose proof (Rabs_pos a). lra. Qed.

Lemma mass_scale c x : 0 <= c -> mass (map (fun a => c * a) x) = c * mass x.
Proof.
  intros Hc. induction x as [|a x IH]; simpl; [lra|].
  rewrite IH, Rabs_mult, (Rabs_pos_eq c) by auto. lra.
Qed.

(** The measure each method divides by. *)
Definition biggest (x : list R) (m : R) : Prop := In m (map Rabs x) /\ forall a, In a x -> Rabs a <= m.
Definition extreme (x : list R) (lo hi : R) : Prop :=
  In lo x /\ In hi x /\ forall a, In a x -> lo <= a <= hi.

Lemma fold_max_R l : forall a,
  let m := fold_left (fun m x : R => if nleb m x then x else m) l a in
  In m (a :: l) /\ forall x, In x (a :: l) -> x <= m.
Proof.
  induction l as [|b l IH]; intros a; cbn [fold_left].
  - split; [simpl; auto|]. intros x [->|[]]. lra.
  - cbv zeta in IH. destruct (nleb a b) eqn:E.
    + apply nleb_R in E. destruct (IH b) as [H1 H2]. split; [simpl in *; tauto|].
      intros x [->|Hx]; auto. specialize (H2 b (or_introl eq_refl)). lra.
    + apply nleb_R_false in E. destruct (IH a) as [H1 H2]. split; [simpl in *; tauto|].
      pose proof (H2 a (or_introl eq_refl)). intros x [->|[->|Hx]]; [auto|lra|].
      apply H2. simpl. auto.
Qed.

Lemma fold_min_R l : forall a,
  let m := fold_left (fun m x : R => if nleb x m then x else m) l a in
  In m (a :: l) /\ forall x, In x (a :: l) -> m <= x.
Proof.
  induction l as [|b l IH]; intros a; cbn [fold_left].
  - split; [simpl; auto|]. intros x [->|[]]. lra.
  - cbv zeta in IH. destruct (nleb b a) eqn:E.
    + apply nleb_R in E. destruct (IH b) as [H1 H2]. split; [simpl in *; tauto|].
      intros x [->|Hx]; auto. specialize (H2 b (or_introl eq_refl)). lra.
    + apply nleb_R_false in E. destruct (IH a) as [H1 H2]. split; [simpl in *; tauto|].
      pose proof (H2 a (or_introl eq_refl)). intros x [->|[->|Hx]]; [auto|lra|].
      apply H2. simpl. auto.
Qed.

(** The result [y] is [x] divided by its measure [m] plus the constant. *)
Definition damped (eps m : R) (x y : list R) : Prop := y = map (fun a => a / (m + eps)) x.

(** What each method must do to one row. *)
Definition normalised (eps : R) (method : pystr) (x y : list R) : Prop :=
  (method = py "l2" /\ damped eps (len x) x y) \/
  (method = py "l1" /\ damped eps (mass x) x y) \/
  (method = py "max" /\ exists m, biggest x m /\ damped eps m x y) \/
  (method = py "minmax" /\ exists lo hi, extreme x lo hi /\
     y = map (fun a => (a - lo) / (hi - lo + eps)) x).

Theorem C98_rows :
  forall (eps : R) (rows : list (list R)) (method : pystr) out,
    normalize_vectors eps rows method = Ok out ->
    length out = length rows /\
    forall i x, nth_error rows i = Some x ->
      exists y, nth_error out i = Some y /\ normalised eps method x y.
Proof.
  intros eps rows method out E. unfold normalize_vectors in E.
  assert (Map : forall f : list R -> list R, (forall x, normalised eps method x (f x)) ->
            length (map f rows) = length rows /\
            forall i x, nth_error rows i = Some x ->
              exists y, nth_error (map f rows) i = Some y /\ normalised eps method x y).
  { intros f Hf. split; [apply map_length|]. intros i x Hx. exists (f x).
    split; [now apply map_nth_error|apply Hf]. }
  destruct (eqb_spec method (py "l2")) as [->|].
  { injection E as <-. apply Map. intros x. left. split; [reflexivity|].
    unfold damped, l2_row. now rewrite norm_len. }
  destruct (eqb_spec method (py "l1")) as [->|].
  { injection E as <-. apply Map. intros x. right. left. split; [reflexivity|].
    unfold damped, l1_row. now rewrite nsum_mass. }
  destruct (eqb_spec method (py "max")) as [->|].
  { apply rmap_nth in E. destruct E as [E1 E2]. split; [exact E1|]. intros i x Hx.
    destruct (E2 i x Hx) as (y & Hy & Ef). exists y. split; [exact Hy|]. right. right. left.
    split; [reflexivity|]. unfold max_row, row_max, nmax in Ef. destruct x as [|a x]; [discriminate|].
    simpl map at 1 in Ef. cbn [rbind] in Ef. injection Ef as <-.
    pose proof (fold_max_R (map nabs x) (nabs a)) as H. cbv zeta in H.
    set (m := fold_left _ _ _) in *. exists m.
    assert (Em : nabs a :: map nabs x = map Rabs (a :: x)).
    { simpl. rewrite nabs_R. f_equal. apply map_ext. apply nabs_R. }
    rewrite Em in H. destruct H as [H1 H2]. split; [|reflexivity]. split; [exact H1|].
    intros c Hc. apply H2. now apply in_map. }
  destruct (eqb_spec method (py "minmax")) as [->|]; [|discriminate].
  apply rmap_nth in E. destruct E as [E1 E2]. split; [exact E1|]. intros i x Hx.
  destruct (E2 i x Hx) as (y & Hy & Ef). exists y. split; [exact Hy|]. right. right. right.
  split; [reflexivity|]. unfold minmax_row, row_min, row_max, nmax in Ef. destruct x as [|a x]; [discriminate|].
  cbn [rbind] in Ef. injection Ef as <-.
  pose proof (fold_min_R x a) as H. pose proof (fold_max_R x a) as K. cbv zeta in H, K.
  set (lo := fold_left (fun m x0 => if nleb x0 m then x0 else m) x a) in *.
  set (hi := fold_left (fun m x0 => if nleb m x0 then x0 else m) x a) in *.
  exists lo, hi. destruct H as [H1 H2], K as [K1 K2]. split; [|reflexivity].
  split; [exact H1|]. split; [exact K1|]. intros c Hc. split; auto.
Qed.

(** What that gives: below one, within [eps] over the old measure of one; entries of a minmax row
    lie in [0, 1) and the smallest becomes 0. *)
Theorem C98_measures :
  forall (eps : R) (method : pystr) (x y : list R),
    0 < eps -> normalised eps method x y ->
    (method = py "l2" -> len y < 1 /\ (0 < len x -> 1 - eps / len x <= len y)) /\
    (method = py "l1" -> mass y < 1 /\ (0 < mass x -> 1 - eps / mass x <= mass y)) /\
    (method = py "max" -> forall m, biggest x m ->
       (forall b, In b y -> Rabs b < 1) /\
       (0 < m -> exists b, In b y /\ 1 - eps / m <= Rabs b)) /\
    (method = py "minmax" -> (forall b, In b y -> 0 <= b < 1) /\ In 0 y).
Proof.
  intros eps method x y He Hn.
  assert (Frac : forall m, 0 <= m -> 0 <= / (m + eps) /\ / (m + eps) * m < 1 /\
                   (0 < m -> 1 - eps / m <= / (m + eps) * m)).
  { intros m Hm. assert (0 < / (m + eps)) by (apply Rinv_0_lt_compat; lra).
    assert (Ei : / (m + eps) * (m + eps) = 1) by (apply Rinv_l; lra).
    split; [lra|]. split; [nra|]. intros Hp.
    apply Rmult_le_reg_r with (m * (m + eps)); [nra|].
    replace ((1 - eps / m) * (m * (m + eps))) with ((m - eps) * (m + eps)) by (field; lra).
    replace (/ (m + eps) * m * (m * (m + eps))) with (m * m) by (field; lra). nra. }
  assert (Dm : forall m, damped eps m x y -> y = map (fun a => / (m + eps) * a) x).
  { intros m ->. apply map_ext. intros a. unfold Rdiv. apply Rmult_comm. }
  destruct Hn as [[-> Hd]|[[-> Hd]|[[-> (m & Hb & Hd)]|[-> (lo & hi & He' & ->)]]]];
    (split; [intros E; try discriminate E|split; [intros E; try discriminate E|split; [intros E; try discriminate E|intros E; try discriminate E]]]).
  - destruct (Frac (len x) (len_pos x)) as (F1 & F2 & F3).
    rewrite (Dm _ Hd), len_scale by auto. auto.
  - destruct (Frac (mass x) (mass_pos x)) as (F1 & F2 & F3).
    rewrite (Dm _ Hd), mass_scale by auto. auto.
  - intros m' Hb'. assert (m' = m) as ->.
    { destruct Hb as [B1 B2], Hb' as [B1' B2']. apply in_map_iff in B1, B1'.
      destruct B1 as (a & <- & Ha), B1' as (a' & <- & Ha').
      apply B2 in Ha'. apply B2' in Ha. lra. }
    destruct Hb as [B1 B2]. apply in_map_iff in B1. destruct B1 as (c & Ec & Hc).
    assert (Hm0 : 0 <= m) by (rewrite <- Ec; apply Rabs_pos).
    destruct (Frac m Hm0) as (F1 & F2 & F3). rewrite (Dm _ Hd). split.
    + intros b Hb. apply in_map_iff in Hb. destruct Hb as (a & <- & Ha).
      rewrite Rabs_mult, (Rabs_pos_eq (/ (m + eps))) by auto. apply B2 in Ha.
      apply Rle_lt_trans with (/ (m + eps) * m); auto. now apply Rmult_le_compat_l.
    + intros Hp. exists (/ (m + eps) * c). split; [now apply in_map_iff; exists c|].
      rewrite Rabs_mult, (Rabs_pos_eq (/ (m + eps))), Ec by auto. auto.
  - destruct He' as (L1 & L2 & L3). pose proof (L3 hi L2) as Hh. split.
    + intros b Hb. apply in_map_iff in Hb. destruct Hb as (a & <- & Ha). apply L3 in Ha.
      assert (0 < / (hi - lo + eps)) by (apply Rinv_0_lt_compat; lra).
      assert (Ei : / (hi - lo + eps) * (hi - lo + eps) = 1) by (apply Rinv_l; lra).
      unfold Rdiv. split; [apply Rmult_le_pos; lra|]. nra.
    + apply in_map_iff. exists lo. split; auto. unfold Rdiv. ring.
Qed.

(** Which calls raise. *)
Theorem C98_raises :
  forall (eps : R) (rows : list (list R)) (method : pystr),
    (~ In method [py "l2"; py "l1"; py "max"; py "minmax"] ->
       normalize_vectors eps rows method = Raise EValidation) /\
    (In method [py "l2"; py "l1"] -> exists out, normalize_vectors eps rows method = Ok out) /\
    (In method [py "max"; py "minmax"] ->
       ((exists out, normalize_vectors eps rows method = Ok out) <-> ~ In [] rows)).
Proof.
  intros eps rows method. unfold normalize_vectors. split; [|split].
  - intros Hn. simpl in Hn. now rewrite !eqb_neq by (intros ->; tauto).
  - intros [<-|[<-|[]]]; simpl; eauto.
  - assert (G : forall f : list R -> result (list R), (forall x, (exists y, f x = Ok y) <-> x <> []) ->
              (exists out, rmap f rows = Ok out) <-> ~ In [] rows).
    { intros f Hf. induction rows as [|x rows IH]; simpl; [split; [tauto|eauto]|]. split.
      - intros [out E]. destruct (f x) as [y|] eqn:Ef; [|discriminate]. simpl in E.
        destruct (rmap f rows) as [ys|]; [|discriminate].
        intros [->|Hin]; [|apply IH in Hin; eauto]. apply (Hf []); eauto.
      - intros Hn. destruct (proj2 (Hf x)) as [y Ey]; [intros ->; tauto|].
        destruct (proj2 IH) as [ys Eys]; [tauto|]. exists (y :: ys). now rewrite Ey, Eys. }
    intros [<-|[<-|[]]]; apply G; intros [|a x]; split;
      [intros [y Ey]; discriminate Ey|congruence|discriminate|intros _; eexists; reflexivity
      |intros [y Ey]; discriminate Ey|congruence|discriminate|intros _; eexists; reflexivity].
Qed.

(** A row of norm 5 and a row of one entry. *)
Example C98_case :
  normalize_vectors 1 [[3; 4]] (py "l2") = Ok [[3 / 6; 4 / 6]] /\
  normalize_vectors 1 [[2; -3]; [5; 1]] (py "minmax") = Ok [[5 / 6; 0 / 6]; [4 / 5; 0 / 5]].
Proof.
  assert (L : len [3; 4] = 5).
  { unfold len. simpl. replace (3 * 3 + (4 * 4 + 0)) with (5 * 5) by lra. apply sqrt_square. lra. }
  split.
  - unfold normalize_vectors. simpl. unfold l2_row. rewrite norm_len, L. simpl.
    now replace (5 + 1) with 6 by lra.
  - change (normalize_vectors 1 [[2; -3]; [5; 1]] (py "minmax"))
      with (rmap (minmax_row 1) [[2; -3]; [5; 1]]).
    cbn [rmap]. unfold minmax_row, row_min, row_max, nmax. cbn [fold_left rbind].
    rewrite (proj2 (nleb_R (-3) 2)), (proj2 (nleb_R 1 5)), (proj2 (nleb_R_false 2 (-3))),
      (proj2 (nleb_R_false 5 1)) by lra.
    cbn [map rbind]. simpl.
    replace (2 - -3) with 5 by lra. replace (5 + 1) with 6 by lra. replace (-3 - -3) with 0 by lra.
    replace (5 - 1) with 4 by lra. replace (4 + 1) with 5 by lra. replace (1 - 1) with 0 by lra.
    reflexivity.
Qed.

Print Assumptions C97_entries.
Print Assumptions C97_similarity.
Print Assumptions C96_equal_rows_partial.
Print Assumptions C96_thresholds.
Print Assumptions C96_threshold_one.
Print Assumptions C96_refuted.
Print Assumptions C96_torn_refuted.
Print Assumptions C98_rows.
Print Assumptions C98_measures.
Print Assumptions C98_raises.
