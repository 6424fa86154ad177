(** Properties C44-C46 of the scalar quantizer. *)

From Coq Require Import List Arith ZArith Lia Bool Reals Lra.
From Verif Require Import PyBase PyMore BaseLemmas XReal ScalarModel.
Import ListNotations.
Open Scope R_scope.

(** ** Vocabulary *)

(** A real matrix as an array. *)
Definition fin_rows (data : list (list R)) : list (list xr) := map (map Fin) data.

Definition rect {A} (w : nat) (rows : list (list A)) : Prop := Forall (fun r => length r = w) rows.

(** [lo] and [hi] are the least and the greatest entry of column [j]. *)
Definition col_range (data : list (list R)) (j : nat) (lo hi : R) : Prop :=
  (exists row, In row data /\ nth j row 0 = lo) /\
  (exists row, In row data /\ nth j row 0 = hi) /\
  forall row, In row data -> lo <= nth j row 0 <= hi.

(** [v] lies, coordinate by coordinate, between entries of the training data. *)
Definition in_range (data : list (list R)) (v : list R) : Prop :=
  forall j, (j < length v)%nat ->
    (exists a, In a data /\ nth j a 0 <= nth j v 0) /\ (exists b, In b data /\ nth j v 0 <= nth j b 0).

Definition monotone (f : R -> R) : Prop := forall x y, x <= y -> f x <= f y.

(** ** Lemmas on the model *)

Ltac len := repeat first [rewrite map_length|rewrite combine_length|rewrite seq_length].

Lemma bcast_same {A B C} (f : A -> B -> C) xs ys :
  length xs = length ys -> bcast f xs ys = Ok (map (fun p => f (fst p) (snd p)) (combine xs ys)).
Proof. intros E. unfold bcast. now rewrite E, Nat.eqb_refl. Qed.

Lemma length_bcast {A B C} (f : A -> B -> C) xs ys zs :
  bcast f xs ys = Ok zs -> length xs = length ys -> length zs = length xs.
Proof. intros E L. rewrite bcast_same in E by auto. injection E as <-. rewrite map_length, combine_length. lia. Qed.

Lemma nth_combine_map {A B C} (f : A * B -> C) xs ys j dx dy d :
  length xs = length ys -> (j < length xs)%nat ->
  nth j (map f (combine xs ys)) d = f (nth j xs dx, nth j ys dy).
Proof.
  intros L Hj. rewrite (nth_indep _ d (f (dx, dy))) by (len; lia).
  rewrite map_nth. now rewrite combine_nth.
Qed.

Lemma max_val_pos bits : (0 <= max_val bits)%Z.
Proof. unfold max_val. assert (0 < 2 ^ Z.of_nat bits)%Z by (apply Z.pow_pos_nonneg; lia). lia. Qed.

Lemma upper_bound_le bits : (0 <= upper_bound bits <= max_val bits)%Z /\ (upper_bound bits <= type_max bits)%Z.
Proof.
  pose proof (max_val_pos bits). unfold upper_bound.
  assert (0 <= type_max bits)%Z by (unfold type_max; destruct (_ <=? _)%Z; cbv; discriminate).
  destruct (Z.leb_spec (max_val bits) (type_max bits)); lia.
Qed.

Lemma upper_bound_small bits : (bits <= 63)%nat -> upper_bound bits = max_val bits.
Proof.
  intros Hb. unfold upper_bound. destruct (Z.leb_spec (max_val bits) (type_max bits)) as [|G]; auto. exfalso.
  unfold type_max in G. destruct (Z.leb_spec (max_val bits) int32_max) as [|G']; [lia|].
  assert (max_val bits <= int64_max)%Z; [|lia]. unfold max_val, int64_max.
  assert (2 ^ Z.of_nat bits <= 2 ^ 63)%Z by (apply Z.pow_le_mono_r; lia). lia.
Qed.

(** The code of a rounded number. *)
Definition clampZ (hi z : Z) : Z := Z.min (Z.max z 0) hi.

Lemma xclip_IZR hi z : (0 <= hi)%Z -> xclip 0 (IZR hi) (Fin (IZR z)) = Fin (IZR (clampZ hi z)).
Proof.
  intros Hh. unfold xclip, xmax, xmin, xleb, clampZ.
  destruct (Rle_dec 0 (IZR z)) as [L|L].
  - apply le_IZR in L. rewrite Z.max_l by lia.
    destruct (Rle_dec (IZR z) (IZR hi)) as [G|G]; [apply le_IZR in G; rewrite Z.min_l by lia; auto|].
    assert (hi < z)%Z by (apply lt_IZR; lra). rewrite Z.min_r by lia. auto.
  - assert (z < 0)%Z by (apply lt_IZR; lra). rewrite Z.max_r by lia.
    destruct (Rle_dec 0 (IZR hi)) as [G|G]; [rewrite Z.min_l by lia; auto|]. exfalso. apply G, IZR_le. auto.
Qed.

Lemma cast_int_IZR bits z : (z <= type_max bits)%Z -> cast_int bits (IZR z) = z.
Proof.
  intros Hz. unfold cast_int. rewrite (Int_part_unique (IZR z) z) by lra.
  destruct (Z.leb_spec z (type_max bits)); lia.
Qed.

Section Codes.
  Context (bits : nat) (rnd : R -> R).
  Hypothesis Hexact : rnd (IZR (upper_bound bits)) = IZR (upper_bound bits).

  Lemma code_fin r : code_of bits rnd (Fin r) = clampZ (upper_bound bits) (rint r).
  Proof.
    destruct (upper_bound_le bits) as [[H1 H2] H3]. unfold code_of, xrint. rewrite Hexact, xclip_IZR by auto.
    simpl. apply cast_int_IZR. unfold clampZ. lia.
  Qed.

  Lemma code_pinf : code_of bits rnd PInf = upper_bound bits.
  Proof.
    destruct (upper_bound_le bits) as [[H1 H2] H3]. unfold code_of, xrint, xclip, xmax, xmin, xleb. simpl.
    rewrite Hexact. apply cast_int_IZR. lia.
  Qed.

  Lemma code_ninf : code_of bits rnd NInf = 0%Z.
  Proof.
    destruct (upper_bound_le bits) as [[H1 H2] H3]. unfold code_of, xrint, xclip, xmax, xmin, xleb. simpl. rewrite Hexact.
    destruct (Rle_dec 0 (IZR (upper_bound bits))) as [G|G]; [|exfalso; apply G, IZR_le; auto].
    simpl. change 0 with (IZR 0). apply cast_int_IZR. lia.
  Qed.

  Lemma code_nan : code_of bits rnd NaN = 0%Z.
  Proof.
    destruct (upper_bound_le bits) as [[H1 H2] H3]. unfold code_of. simpl.
    change 0 with (IZR 0). apply cast_int_IZR. lia.
  Qed.

  Lemma code_bounds x : (0 <= code_of bits rnd x <= max_val bits)%Z.
  Proof.
    destruct (upper_bound_le bits) as [[H1 H2] H3].
    destruct x; [rewrite code_fin|rewrite code_pinf|rewrite code_ninf|rewrite code_nan]; unfold clampZ; lia.
  Qed.

  Lemma code_mono x y : xle x y -> (code_of bits rnd x <= code_of bits rnd y)%Z.
  Proof.
    destruct (upper_bound_le bits) as [[H1 H2] H3].
    destruct x, y; simpl; try tauto; intros Hxy; rewrite ?code_fin, ?code_pinf, ?code_ninf; unfold clampZ; try lia.
    pose proof (rint_mono _ _ Hxy). lia.
  Qed.
End Codes.

(** The form of a quantized row. *)
Lemma quantize_row_codes bits rnd dim mn sc row codes :
  quantize_row bits rnd dim mn sc row = Ok codes ->
  length codes = dim /\ forall c, In c codes -> exists x, c = code_of bits rnd x.
Proof.
  unfold quantize_row. destruct (bcast (xsub rnd) row mn) as [diff|]; [|discriminate]. simpl.
  destruct (bcast (xdiv rnd) diff sc) as [norm|]; [|discriminate]. simpl.
  destruct (Nat.eqb (length norm) dim) eqn:E.
  - intros H. injection H as <-. apply Nat.eqb_eq in E. rewrite map_length. split; auto.
    intros c Hc. apply in_map_iff in Hc as (x & <- & _). eauto.
  - destruct norm as [|x [|]]; try discriminate. intros H. injection H as <-. rewrite repeat_length. split; auto.
    intros c Hc. apply repeat_spec in Hc. eauto.
Qed.

Lemma rmap_inv {A B} (f : A -> result B) l out :
  rmap f l = Ok out -> length out = length l /\ forall b, In b out -> exists a, In a l /\ f a = Ok b.
Proof.
  revert out. induction l as [|a l IH]; simpl; intros out E.
  - injection E as <-. split; auto. intros b [].
  - destruct (f a) as [b|] eqn:Ea; [|discriminate]. destruct (rmap f l) as [bs|] eqn:El; [|discriminate].
    injection E as <-. destruct (IH bs eq_refl) as [HL HI]. split; [simpl; auto|].
    intros x [<-|Hx]; [eauto|]. destruct (HI x Hx) as (y & Hy & Ey). eauto.
Qed.

(** ** C44 *)

(** Whatever the state, the input and the arithmetic: if the largest code is a number of the float
    type, the codes are in range, one row of [dim] codes for every input row. *)
Theorem C44_codes_in_range_partial :
  forall bits rnd q vectors codes q',
    (bits <= 63)%nat ->
    rnd (2 ^ bits - 1) = 2 ^ bits - 1 ->
    scalar_quantize bits rnd vectors q = (Ok codes, q') ->
    (forall row c, In row codes -> In c row -> (0 <= c <= 2 ^ Z.of_nat bits - 1)%Z) /\
    (exists w rows, vectors = A2 w rows /\ length codes = length rows) /\
    (exists dim, sq_dim q = Some dim /\ rect dim codes).
Proof.
  intros bits rnd q vectors codes q' Hb Hx E.
  assert (Hexact : rnd (IZR (upper_bound bits)) = IZR (upper_bound bits)).
  { rewrite upper_bound_small by auto. unfold max_val. rewrite minus_IZR, <- pow_IZR. exact Hx. }
  unfold scalar_quantize in E. rewrite (bind_Ok get _ _ q q) in E by reflexivity.
  destruct (sq_init q); [|discriminate]. destruct (sq_trained q); [|discriminate]. simpl negb in E. cbv iota in E.
  unfold wrap in E. destruct vectors as [v|w rows|]; try discriminate.
  destruct (sq_dim q) as [dim|]; [|discriminate]. destruct (sq_min q) as [mn|]; [|discriminate].
  destruct (sq_scale q) as [sc|]; [|discriminate]. unfold lift in E.
  destruct (rmap (quantize_row bits rnd dim mn sc) rows) as [out|] eqn:Er; [|discriminate].
  injection E as <- <-. destruct (rmap_inv _ _ _ Er) as [HL HI]. repeat split.
  - destruct (HI row H) as (r & _ & Eq). destruct (quantize_row_codes _ _ _ _ _ _ _ Eq) as [_ HC].
    destruct (HC c H0) as (x & ->). apply code_bounds; auto.
  - destruct (HI row H) as (r & _ & Eq). destruct (quantize_row_codes _ _ _ _ _ _ _ Eq) as [_ HC].
    destruct (HC c H0) as (x & ->). apply code_bounds; auto.
  - eauto.
  - exists dim. split; auto. apply Forall_forall. intros row Hrow. destruct (HI row Hrow) as (r & _ & Eq).
    apply (quantize_row_codes _ _ _ _ _ _ _ Eq).
Qed.

(** The assumption on the arithmetic: rounding to [p] bits keeps [2^bits - 1] for [bits <= p]. *)
Lemma fl_max_val p bits : (1 <= p)%Z -> (Z.of_nat bits <= p)%Z -> fl p (2 ^ bits - 1) = 2 ^ bits - 1.
Proof.
  intros Hp Hb. replace (2 ^ bits - 1) with (IZR (2 ^ Z.of_nat bits - 1)) by (rewrite minus_IZR, <- pow_IZR; auto).
  assert (0 < 2 ^ Z.of_nat bits)%Z by (apply Z.pow_pos_nonneg; lia).
  assert (2 ^ Z.of_nat bits <= 2 ^ p)%Z by (apply Z.pow_le_mono_r; lia).
  apply fl_exact; lia.
Qed.

(** ** Training *)

Lemma reduce_min l : l <> [] -> exists m, reduce xmin (map Fin l) = Ok (Fin m) /\ In m l /\ forall x, In x l -> m <= x.
Proof.
  destruct l as [|x l]; [congruence|]. intros _. simpl.
  assert (G : forall l a, exists m, fold_left xmin (map Fin l) (Fin a) = Fin m /\ (m = a \/ In m l) /\ m <= a /\ forall y, In y l -> m <= y).
  { clear. induction l as [|y l IH]; intros a.
    - exists a. simpl. repeat split; auto; try lra. intros y [].
    - cbn [map fold_left]. unfold xmin at 2. unfold xleb. destruct (Rle_dec a y) as [L|L].
      + destruct (IH a) as (m & Em & Hm & Ha & Hl). exists m. split; auto. split; [simpl; tauto|]. split; auto.
        intros z [<-|Hz]; auto. lra.
      + destruct (IH y) as (m & Em & Hm & Ha & Hl). exists m. split; auto. split; [simpl; intuition auto|]. split; [lra|].
        intros z [<-|Hz]; auto. }
  destruct (G l x) as (m & Em & Hm & Ha & Hl). exists m. rewrite Em. split; auto. split; [intuition auto|].
  intros y [<-|Hy]; auto.
Qed.

Lemma reduce_max l : l <> [] -> exists m, reduce xmax (map Fin l) = Ok (Fin m) /\ In m l /\ forall x, In x l -> x <= m.
Proof.
  destruct l as [|x l]; [congruence|]. intros _. simpl.
  assert (G : forall l a, exists m, fold_left xmax (map Fin l) (Fin a) = Fin m /\ (m = a \/ In m l) /\ a <= m /\ forall y, In y l -> y <= m).
  { clear. induction l as [|y l IH]; intros a.
    - exists a. simpl. repeat split; auto; try lra. intros y [].
    - cbn [map fold_left]. unfold xmax at 2. unfold xleb. destruct (Rle_dec y a) as [L|L].
      + destruct (IH a) as (m & Em & Hm & Ha & Hl). exists m. split; auto. split; [simpl; tauto|]. split; auto.
        intros z [<-|Hz]; auto. lra.
      + destruct (IH y) as (m & Em & Hm & Ha & Hl). exists m. split; auto. split; [simpl; intuition auto|]. split; [lra|].
        intros z [<-|Hz]; auto. }
  destruct (G l x) as (m & Em & Hm & Ha & Hl). exists m. rewrite Em. split; auto. split; [intuition auto|].
  intros y [<-|Hy]; auto.
Qed.

Lemma column_fin w data j : rect w data -> (j < w)%nat -> column j (fin_rows data) = map Fin (map (fun row => nth j row 0) data).
Proof.
  intros HR Hj. unfold column, fin_rows. rewrite !map_map. apply map_ext_in. intros row Hrow.
  unfold rect in HR. rewrite Forall_forall in HR. rewrite (nth_indep _ NaN (Fin 0)) by (rewrite map_length, HR; auto).
  apply map_nth.
Qed.

Lemma rmap_seq_ok {B} (f : nat -> result B) w (P : nat -> B -> Prop) (d : B) :
  (forall j, (j < w)%nat -> exists b, f j = Ok b /\ P j b) ->
  exists out, rmap f (seq 0 w) = Ok out /\ length out = w /\ forall j, (j < w)%nat -> P j (nth j out d).
Proof.
  intros HF. assert (G : forall n s, (s + n <= w)%nat -> exists out, rmap f (seq s n) = Ok out /\ length out = n /\ forall j, (j < n)%nat -> P (s + j)%nat (nth j out d)).
  { induction n as [|n IH]; intros s Hs.
    - exists []. repeat split; auto. lia.
    - destruct (HF s ltac:(lia)) as (b & Eb & Pb). destruct (IH (S s) ltac:(lia)) as (out & Eo & Lo & Po).
      exists (b :: out). simpl. rewrite Eb, Eo. repeat split; [simpl; auto|]. intros [|j] Hj; simpl.
      + now rewrite Nat.add_0_r.
      + rewrite Nat.add_succ_r. apply (Po j). lia. }
  apply (G w 0%nat). lia.
Qed.

(** The real ranges found by the training. *)
Lemma train_ranges w data : rect w data -> data <> [] ->
  exists lo hi,
    reduce_cols xmin w (fin_rows data) = Ok (map Fin lo) /\ reduce_cols xmax w (fin_rows data) = Ok (map Fin hi) /\
    length lo = w /\ length hi = w /\
    forall j, (j < w)%nat -> col_range data j (nth j lo 0) (nth j hi 0).
Proof.
  intros HR HN.
  assert (Hne : forall j, map (fun row => nth j row 0) data <> []) by (destruct data; simpl; congruence).
  destruct (rmap_seq_ok (fun j => match reduce xmin (column j (fin_rows data)) with Ok (Fin r) => Ok r | _ => Raise EValue end) w
    (fun j m => reduce xmin (column j (fin_rows data)) = Ok (Fin m) /\ In m (map (fun row => nth j row 0) data) /\ forall x, In x (map (fun row => nth j row 0) data) -> m <= x) 0) as (lo & _ & Llo & Plo).
  { intros j Hj. rewrite (column_fin w) by auto. destruct (reduce_min _ (Hne j)) as (m & Em & Hm). rewrite Em. eauto. }
  destruct (rmap_seq_ok (fun j => match reduce xmax (column j (fin_rows data)) with Ok (Fin r) => Ok r | _ => Raise EValue end) w
    (fun j m => reduce xmax (column j (fin_rows data)) = Ok (Fin m) /\ In m (map (fun row => nth j row 0) data) /\ forall x, In x (map (fun row => nth j row 0) data) -> x <= m) 0) as (hi & _ & Lhi & Phi).
  { intros j Hj. rewrite (column_fin w) by auto. destruct (reduce_max _ (Hne j)) as (m & Em & Hm). rewrite Em. eauto. }
  exists lo, hi.
  assert (GG : forall f (l : list R), length l = w -> (forall j, (j < w)%nat -> reduce f (column j (fin_rows data)) = Ok (Fin (nth j l 0))) -> reduce_cols f w (fin_rows data) = Ok (map Fin l)).
  { intros f l Ll Hl. unfold reduce_cols.
    destruct (rmap_seq_ok (fun j => reduce f (column j (fin_rows data))) w (fun j b => b = Fin (nth j l 0)) NaN) as (out & Eo & Lo & Po).
    { intros j Hj. rewrite (Hl j Hj). eauto. }
    rewrite Eo. f_equal. apply nth_ext with (d := NaN) (d' := Fin 0); [rewrite map_length; congruence|].
    intros j Hj. rewrite Po by lia. now rewrite map_nth. }
  split; [apply GG; auto; intros j Hj; apply (Plo j Hj)|]. split; [apply GG; auto; intros j Hj; apply (Phi j Hj)|].
  split; [auto|]. split; [auto|]. intros j Hj. destruct (Plo j Hj) as (_ & I1 & A1'). destruct (Phi j Hj) as (_ & I2 & A2').
  apply in_map_iff in I1 as (r1 & E1 & R1). apply in_map_iff in I2 as (r2 & E2 & R2).
  split; [eauto|]. split; [eauto|]. intros row Hrow. split.
  - apply A1', in_map_iff. eauto.
  - apply A2', in_map_iff. eauto.
Qed.

(** The state after training on real data. *)
Lemma train_state bits rnd w data q0 q : rect w data -> data <> [] ->
  scalar_train bits rnd (A2 w (fin_rows data)) q0 = (Ok tt, q) ->
  exists lo hi,
    length lo = w /\ length hi = w /\ (forall j, (j < w)%nat -> col_range data j (nth j lo 0) (nth j hi 0)) /\
    q = mkScalarq (Some w) (Some (map Fin lo)) (Some (map Fin hi))
          (Some (map (fun p => step_of bits rnd (Fin (fst p)) (Fin (snd p))) (combine lo hi))) true true.
Proof.
  intros HR HN E. destruct (train_ranges w data HR HN) as (lo & hi & El & Eh & Ll & Lh & HC).
  exists lo, hi. do 3 (split; auto).
  unfold scalar_train in E. rewrite (bind_Ok get _ _ q0 q0) in E by reflexivity.
  destruct (sq_init q0) eqn:Ei; [|discriminate]. simpl negb in E. cbv iota in E.
  unfold bind, modify, wrap, lift in E. rewrite El, Eh in E. simpl in E. injection E as <-. rewrite Ei. f_equal. f_equal.
  clear. revert hi. induction lo as [|a lo IH]; intros [|b hi]; simpl; auto. f_equal. apply IH.
Qed.

Lemma train_succeeds bits rnd w data q0 : rect w data -> data <> [] -> sq_init q0 = true ->
  exists q, scalar_train bits rnd (A2 w (fin_rows data)) q0 = (Ok tt, q).
Proof.
  intros HR HN Ei. destruct (train_ranges w data HR HN) as (lo & hi & El & Eh & _).
  unfold scalar_train. rewrite (bind_Ok get _ _ q0 q0) by reflexivity. rewrite Ei. simpl negb. cbv iota.
  unfold bind, modify, wrap, lift. rewrite El, Eh. simpl. eauto.
Qed.

(** A positive step. *)
Lemma step_pos bits rnd lo hi : monotone rnd -> rnd 0 = 0 -> lo <= hi -> 0 < rnd (IZR (Z.min (max_val bits) int64_max)) ->
  exists s, step_of bits rnd (Fin lo) (Fin hi) = Fin s /\ 0 < s.
Proof.
  intros Hm H0 Hle HD. unfold step_of, xsub, xneg, xadd, xdiv. set (D := rnd (IZR (Z.min (max_val bits) int64_max))) in *.
  destruct (Req_EM_T D 0); [lra|].
  assert (0 <= rnd (rnd (hi + - lo) / D)).
  { rewrite <- H0. apply Hm. apply Rle_mult_inv_pos; auto. rewrite <- H0. apply Hm. lra. }
  destruct (Req_EM_T (rnd (rnd (hi + - lo) / D)) 0); [exists 1; split; auto; lra|]. eexists. split; eauto. lra.
Qed.

Lemma nth_fin j (l : list R) : (j < length l)%nat -> nth j (map Fin l) NaN = Fin (nth j l 0).
Proof. intros Hj. rewrite (nth_indep _ NaN (Fin 0)) by (rewrite map_length; auto). apply map_nth. Qed.

Lemma nth_map_seq {A} (f : nat -> A) w j d : (j < w)%nat -> nth j (map f (seq 0 w)) d = f j.
Proof.
  intros Hj. rewrite (nth_indep _ d (f 0%nat)) by (len; auto).
  rewrite map_nth, seq_nth by auto. reflexivity.
Qed.

(** Quantizing rows after training. *)
Lemma quantize_rows bits rnd w mn mx sc rows :
  length mn = w -> length sc = w -> rect w rows ->
  scalar_quantize bits rnd (A2 w rows) (mkScalarq (Some w) (Some mn) mx (Some sc) true true) =
  (Ok (map (fun row => map (fun j => code_of bits rnd (xdiv rnd (xsub rnd (nth j row NaN) (nth j mn NaN)) (nth j sc NaN))) (seq 0 w)) rows),
   mkScalarq (Some w) (Some mn) mx (Some sc) true true).
Proof.
  intros Lm Ls HR. unfold scalar_quantize. rewrite (bind_Ok get _ _ _ _) by reflexivity.
  simpl negb. cbv iota. unfold sq_dim, sq_min, sq_scale, wrap, lift.
  assert (E : rmap (quantize_row bits rnd w mn sc) rows = Ok (map (fun row => map (fun j => code_of bits rnd (xdiv rnd (xsub rnd (nth j row NaN) (nth j mn NaN)) (nth j sc NaN))) (seq 0 w)) rows)).
  2:{ now rewrite E. }
  apply rmap_Ok. intros row Hrow. unfold rect in HR. rewrite Forall_forall in HR. specialize (HR _ Hrow). simpl in HR.
  unfold quantize_row. rewrite bcast_same by congruence. simpl.
  rewrite bcast_same by (len; lia). simpl.
  assert (Eln : length (map (fun p => xdiv rnd (fst p) (snd p)) (combine (map (fun p => xsub rnd (fst p) (snd p)) (combine row mn)) sc)) = w).
  { len. lia. }
  rewrite Eln, Nat.eqb_refl. f_equal. rewrite <- (map_map (fun j => xdiv rnd (xsub rnd (nth j row NaN) (nth j mn NaN)) (nth j sc NaN))). f_equal.
  apply nth_ext with (d := NaN) (d' := NaN); [rewrite Eln, map_length, seq_length; auto|].
  intros j Hj. rewrite Eln in Hj.
  rewrite (nth_combine_map _ _ _ j NaN NaN) by (len; lia).
  simpl. rewrite (nth_combine_map _ _ _ j NaN NaN) by lia. simpl.
  rewrite (nth_map_seq (fun j => xdiv rnd (xsub rnd (nth j row NaN) (nth j mn NaN)) (nth j sc NaN))) by auto. reflexivity.
Qed.

Lemma dequantize_rows rnd rnd32 w mn mx sc rows :
  length mn = w -> length sc = w -> rect w rows ->
  scalar_dequantize rnd rnd32 (A2 w rows) (mkScalarq (Some w) (Some mn) mx (Some sc) true true) =
  (Ok (map (fun row => map (fun j => xadd rnd (xmul rnd (Fin (rnd32 (IZR (nth j row 0%Z)))) (nth j sc NaN)) (nth j mn NaN)) (seq 0 w)) rows),
   mkScalarq (Some w) (Some mn) mx (Some sc) true true).
Proof.
  intros Lm Ls HR. unfold scalar_dequantize. rewrite (bind_Ok get _ _ _ _) by reflexivity.
  simpl negb. cbv iota. unfold sq_dim, sq_min, sq_scale, wrap, lift.
  assert (E : rmap (dequantize_row rnd rnd32 mn sc) rows = Ok (map (fun row => map (fun j => xadd rnd (xmul rnd (Fin (rnd32 (IZR (nth j row 0%Z)))) (nth j sc NaN)) (nth j mn NaN)) (seq 0 w)) rows)).
  2:{ now rewrite E. }
  apply rmap_Ok. intros row Hrow. unfold rect in HR. rewrite Forall_forall in HR. specialize (HR _ Hrow). simpl in HR.
  unfold dequantize_row. rewrite bcast_same by (rewrite map_length; congruence). simpl.
  rewrite bcast_same by (len; lia). f_equal.
  apply nth_ext with (d := NaN) (d' := NaN).
  { len. lia. }
  intros j Hj. repeat first [rewrite map_length in Hj|rewrite combine_length in Hj].
  rewrite (nth_combine_map _ _ _ j NaN NaN) by (len; lia).
  simpl. rewrite (nth_combine_map _ _ _ j NaN NaN) by (rewrite ?map_length; lia). simpl.
  rewrite (nth_indep _ NaN ((fun c => Fin (rnd32 (IZR c))) 0%Z)) by (rewrite map_length; lia).
  rewrite (map_nth (fun c => Fin (rnd32 (IZR c)))).
  rewrite (nth_map_seq (fun j => xadd rnd (xmul rnd (Fin (rnd32 (IZR (nth j row 0%Z)))) (nth j sc NaN)) (nth j mn NaN))) by lia. reflexivity.
Qed.

(** The quantities of one column in exact arithmetic. *)
Lemma step_exact bits lo hi : (1 <= bits <= 63)%nat -> lo <= hi ->
  exists s, step_of bits (fun r => r) (Fin lo) (Fin hi) = Fin s /\ 0 < s /\ (lo < hi -> s = (hi - lo) / (2 ^ bits - 1)).
Proof.
  intros Hb Hle.
  assert (ED : IZR (Z.min (max_val bits) int64_max) = 2 ^ bits - 1).
  { rewrite Z.min_l.
    - unfold max_val. rewrite minus_IZR, <- pow_IZR. reflexivity.
    - unfold max_val, int64_max. assert (2 ^ Z.of_nat bits <= 2 ^ 63)%Z by (apply Z.pow_le_mono_r; lia). lia. }
  assert (HD : 0 < 2 ^ bits - 1).
  { assert (2 ^ 1 <= 2 ^ bits) by (apply Rle_pow; [lra|lia]). lra. }
  unfold step_of, xsub, xneg, xadd, xdiv. rewrite ED. destruct (Req_EM_T (2 ^ bits - 1) 0); [lra|].
  destruct (Req_EM_T ((hi + - lo) / (2 ^ bits - 1)) 0) as [Z|Z].
  - exists 1. split; auto. split; [lra|]. intros Hlt. exfalso.
    assert (0 < (hi + - lo) / (2 ^ bits - 1)) by (apply Rdiv_lt_0_compat; lra). lra.
  - eexists. split; [reflexivity|]. split; [|auto].
    assert (0 <= (hi + - lo) / (2 ^ bits - 1)) by (apply Rle_mult_inv_pos; lra). lra.
Qed.

Lemma pow24 bits : (bits <= 24)%nat -> (2 ^ Z.of_nat bits <= 2 ^ 24)%Z.
Proof. intros Hb. apply Z.pow_le_mono_r; lia. Qed.

Lemma upper_24 bits : (bits <= 24)%nat -> upper_bound bits = (2 ^ Z.of_nat bits - 1)%Z.
Proof. intros Hb. rewrite upper_bound_small by lia. reflexivity. Qed.

(** ** C45 *)

(** In exact arithmetic, up to 24 bits, the decoded vector is within half a step of the vector:
    the step of a column is its range divided by [2^bits - 1]. *)
Theorem C45_half_step_partial :
  forall bits rnd32 w data q0 q vs,
    (1 <= bits <= 24)%nat ->
    (forall z, (0 <= z <= 2 ^ 24)%Z -> rnd32 (IZR z) = IZR z) ->
    rect w data -> data <> [] ->
    scalar_train bits (fun r => r) (A2 w (fin_rows data)) q0 = (Ok tt, q) ->
    rect w vs -> Forall (in_range data) vs ->
    exists codes dec,
      scalar_quantize bits (fun r => r) (A2 w (fin_rows vs)) q = (Ok codes, q) /\
      scalar_dequantize (fun r => r) rnd32 (A2 w codes) q = (Ok (fin_rows dec), q) /\
      Forall2 (fun v d => length d = w /\
                 forall j, (j < w)%nat -> exists lo hi, col_range data j lo hi /\
                   Rabs (nth j d 0 - nth j v 0) <= (hi - lo) / (2 ^ bits - 1) / 2) vs dec.
Proof.
  intros bits rnd32 w data q0 q vs Hb H32 HR HN E HV HI.
  destruct (train_state _ _ _ _ _ _ HR HN E) as (lo & hi & Ll & Lh & HC & ->).
  set (sc := map (fun p => step_of bits (fun r => r) (Fin (fst p)) (Fin (snd p))) (combine lo hi)).
  assert (Lsc : length sc = w) by (unfold sc; rewrite map_length, combine_length; lia).
  assert (HD : 0 < 2 ^ bits - 1).
  { assert (2 ^ 1 <= 2 ^ bits) by (apply Rle_pow; [lra|lia]). lra. }
  assert (Hsc : forall j, (j < w)%nat -> exists s, nth j sc NaN = Fin s /\ 0 < s /\ (nth j lo 0 < nth j hi 0 -> s = (nth j hi 0 - nth j lo 0) / (2 ^ bits - 1))).
  { intros j Hj. unfold sc. rewrite (nth_combine_map _ _ _ j 0 0) by lia. simpl. apply step_exact; [lia|].
    destruct (HC j Hj) as ((r1 & R1 & <-) & _ & HA). apply (HA r1 R1). }
  (* the code and the decoded value of one coordinate *)
  set (code := fun (v : list R) j => code_of bits (fun r => r) (xdiv (fun r => r) (xsub (fun r => r) (nth j (map Fin v) NaN) (nth j (map Fin lo) NaN)) (nth j sc NaN))).
  assert (Hone : forall v, In v vs -> forall j, (j < w)%nat -> exists z s,
            code v j = z /\ (0 <= z <= 2 ^ Z.of_nat bits - 1)%Z /\ nth j sc NaN = Fin s /\
            Rabs (IZR z * s + nth j lo 0 - nth j v 0) <= (nth j hi 0 - nth j lo 0) / (2 ^ bits - 1) / 2).
  { intros v Hv j Hj. destruct (Hsc j Hj) as (s & Es & Ps & Hs).
    unfold rect in HV. rewrite Forall_forall in HV, HI. pose proof (HV v Hv) as Lv. simpl in Lv.
    destruct (HI v Hv j ltac:(lia)) as ((a & Ia & Ha) & (b & Ib & Hbb)).
    destruct (HC j Hj) as (_ & _ & HA). pose proof (HA a Ia). pose proof (HA b Ib).
    set (x := nth j v 0) in *. set (l := nth j lo 0) in *. set (h := nth j hi 0) in *.
    exists (clampZ (upper_bound bits) (rint ((x + - l) / s))), s.
    assert (Ub := upper_24 bits ltac:(lia)). assert (Pb : (0 < 2 ^ Z.of_nat bits)%Z) by (apply Z.pow_pos_nonneg; lia).
    split.
    { unfold code. rewrite Es, !nth_fin by lia. fold x l. unfold xsub, xneg, xadd, xdiv.
      destruct (Req_EM_T s 0); [lra|]. apply code_fin. reflexivity. }
    split; [unfold clampZ; lia|]. split; auto.
    destruct (Req_dec l h) as [Elh|Nlh].
    - assert (x = l) by lra. replace ((x + - l) / s) with (IZR 0) by (rewrite H1; unfold Rdiv; rewrite Rplus_opp_r; lra).
      rewrite rint_IZR. unfold clampZ. rewrite Z.max_id, Z.min_l by lia. rewrite Elh, H1, Elh.
      replace (IZR 0 * s + h - h) with 0 by (simpl; lra). rewrite Rabs_R0. unfold Rdiv. rewrite Rminus_diag_eq by auto. lra.
    - specialize (Hs ltac:(lra)).
      assert (T0 : 0 <= (x + - l) / s) by (apply Rle_mult_inv_pos; lra).
      assert (T1 : (x + - l) / s <= IZR (2 ^ Z.of_nat bits - 1)).
      { rewrite minus_IZR, <- pow_IZR. apply Rmult_le_reg_r with s; auto. unfold Rdiv at 1. rewrite (Rmult_assoc (x + - l)), Rinv_l, Rmult_1_r by lra.
        rewrite Hs. replace ((2 ^ bits - 1) * ((h - l) / (2 ^ bits - 1))) with (h - l) by (field; lra). lra. }
      assert (Z0 : (0 <= rint ((x + - l) / s))%Z) by (rewrite <- (rint_IZR 0); apply rint_mono; auto).
      assert (Z1 : (rint ((x + - l) / s) <= 2 ^ Z.of_nat bits - 1)%Z) by (rewrite <- (rint_IZR (2 ^ Z.of_nat bits - 1)) at 1; apply rint_mono; auto).
      unfold clampZ. rewrite Z.max_l, Z.min_l by lia.
      pose proof (rint_err ((x + - l) / s)) as Er. set (z := rint ((x + - l) / s)) in *. rewrite <- Hs.
      replace (IZR z * s + l - x) with ((IZR z - (x + - l) / s) * s) by (field; lra).
      rewrite Rabs_mult, (Rabs_right s) by lra.
      apply Rle_trans with (1 / 2 * s); [apply Rmult_le_compat_r; lra|lra]. }
  exists (map (fun v => map (code v) (seq 0 w)) vs).
  exists (map (fun v => map (fun j => IZR (code v j) * match nth j sc NaN with Fin s => s | _ => 0 end + nth j lo 0) (seq 0 w)) vs).
  split; [|split].
  - rewrite quantize_rows.
    + unfold fin_rows. rewrite map_map. reflexivity.
    + rewrite map_length. auto.
    + auto.
    + unfold rect, fin_rows in *. rewrite Forall_forall in *. intros r Hr. apply in_map_iff in Hr as (v & <- & Hv). rewrite map_length. auto.
  - rewrite dequantize_rows.
    + unfold fin_rows. f_equal. f_equal. rewrite !map_map. apply map_ext_in. intros v Hv. rewrite map_map. apply map_ext_in.
      intros j Hj. apply in_seq in Hj. destruct (Hone v Hv j ltac:(lia)) as (z & s & Ez & Bz & Es & _).
      rewrite nth_map_seq by lia. rewrite Ez, Es. rewrite nth_fin by lia. simpl. rewrite H32; auto.
      pose proof (pow24 bits ltac:(lia)). lia.
    + rewrite map_length. auto.
    + auto.
    + unfold rect. rewrite Forall_forall. intros r Hr. apply in_map_iff in Hr as (v & <- & Hv). rewrite map_length, seq_length. auto.
  - clear - Hone HC.
    assert (G : forall l, incl l vs -> Forall2 (fun v d => length d = w /\ forall j, (j < w)%nat -> exists lo hi, col_range data j lo hi /\ Rabs (nth j d 0 - nth j v 0) <= (hi - lo) / (2 ^ bits - 1) / 2) l
       (map (fun v => map (fun j => IZR (code v j) * match nth j sc NaN with Fin s => s | _ => 0 end + nth j lo 0) (seq 0 w)) l)).
    { induction l as [|v l IH]; intros Hi; simpl; constructor.
      - split; [len; auto|]. intros j Hj. exists (nth j lo 0), (nth j hi 0). split; auto.
        destruct (Hone v (Hi v (or_introl eq_refl)) j Hj) as (z & s & Ez & _ & Es & B).
        rewrite nth_map_seq by auto. rewrite Ez, Es. exact B.
      - apply IH. intros x Hx. apply Hi. now right. }
    apply G, incl_refl.
Qed.

(** ** C46 *)

(** Whatever the rounding, as long as it is monotone, keeps zero and keeps the largest code. *)
Theorem C46_monotone_partial :
  forall bits rnd w data q0 q x y cx cy qx qy j,
    (1 <= bits <= 63)%nat ->
    rnd (2 ^ bits - 1) = 2 ^ bits - 1 -> monotone rnd -> rnd 0 = 0 ->
    rect w data -> data <> [] ->
    scalar_train bits rnd (A2 w (fin_rows data)) q0 = (Ok tt, q) ->
    length x = w -> length y = w ->
    scalar_quantize bits rnd (A2 w [x]) q = (Ok [cx], qx) ->
    scalar_quantize bits rnd (A2 w [y]) q = (Ok [cy], qy) ->
    (j < w)%nat -> xle (nth j x NaN) (nth j y NaN) ->
    (nth j cx 0 <= nth j cy 0)%Z.
Proof.
  intros bits rnd w data q0 q x y cx cy qx qy j Hb Hex Hm H0 HR HN E Lx Ly Ex Ey Hj Hxy.
  destruct (train_state _ _ _ _ _ _ HR HN E) as (lo & hi & Ll & Lh & HC & ->).
  assert (Emax : IZR (max_val bits) = 2 ^ bits - 1) by (unfold max_val; rewrite minus_IZR, <- pow_IZR; auto).
  assert (Hexact : rnd (IZR (upper_bound bits)) = IZR (upper_bound bits)).
  { rewrite upper_bound_small by lia. rewrite Emax. auto. }
  assert (HD : 0 < 2 ^ bits - 1).
  { assert (2 ^ 1 <= 2 ^ bits) by (apply Rle_pow; [lra|lia]). lra. }
  assert (HZ : Z.min (max_val bits) int64_max = max_val bits).
  { apply Z.min_l. unfold max_val, int64_max. assert (2 ^ Z.of_nat bits <= 2 ^ 63)%Z by (apply Z.pow_le_mono_r; lia). lia. }
  rewrite quantize_rows in Ex, Ey by (try (constructor; [auto|constructor]); len; lia).
  simpl in Ex, Ey. injection Ex as <- <-. injection Ey as <- <-. rewrite !nth_map_seq by auto.
  rewrite !(nth_combine_map _ lo hi j 0 0) by lia. simpl fst. simpl snd. rewrite !nth_fin by lia.
  destruct (step_pos bits rnd (nth j lo 0) (nth j hi 0)) as (s & -> & Ps); auto.
  { destruct (HC j Hj) as ((r1 & R1 & <-) & _ & HA). apply (HA r1 R1). }
  { rewrite HZ, Emax, Hex. auto. }
  apply code_mono; auto. set (l := nth j lo 0).
  assert (Hs0 : s <> 0) by lra. assert (Hsg : sgn s = 1%Z) by (unfold sgn; destruct (Rlt_dec 0 s); auto; lra).
  destruct (nth j x NaN) as [a| | |]; destruct (nth j y NaN) as [b| | |]; simpl in Hxy; try tauto;
    unfold xsub, xneg, xadd, xdiv; cbn [xsgn]; rewrite ?Hsg; destruct (Req_EM_T s 0); try contradiction; simpl; auto.
  apply Hm. unfold Rdiv. apply Rmult_le_compat_r; [left; apply Rinv_0_lt_compat; auto|]. apply Hm. lra.
Qed.

(** Every code row is a fixed point of decoding and encoding, in exact arithmetic. *)
Theorem C46_idempotent_partial :
  forall bits rnd32 w data q0 q codes,
    (1 <= bits <= 24)%nat ->
    (forall z, (0 <= z <= 2 ^ 24)%Z -> rnd32 (IZR z) = IZR z) ->
    rect w data -> data <> [] ->
    scalar_train bits (fun r => r) (A2 w (fin_rows data)) q0 = (Ok tt, q) ->
    rect w codes -> (forall row c, In row codes -> In c row -> (0 <= c <= 2 ^ Z.of_nat bits - 1)%Z) ->
    exists dec,
      scalar_dequantize (fun r => r) rnd32 (A2 w codes) q = (Ok dec, q) /\
      scalar_quantize bits (fun r => r) (A2 w dec) q = (Ok codes, q).
Proof.
  intros bits rnd32 w data q0 q codes Hb H32 HR HN E HV HI.
  destruct (train_state _ _ _ _ _ _ HR HN E) as (lo & hi & Ll & Lh & HC & ->).
  set (sc := map (fun p => step_of bits (fun r => r) (Fin (fst p)) (Fin (snd p))) (combine lo hi)).
  assert (Lsc : length sc = w) by (unfold sc; rewrite map_length, combine_length; lia).
  assert (Hsc : forall j, (j < w)%nat -> exists s, nth j sc NaN = Fin s /\ 0 < s).
  { intros j Hj. unfold sc. rewrite (nth_combine_map _ _ _ j 0 0) by lia. simpl.
    destruct (step_exact bits (nth j lo 0) (nth j hi 0)) as (s & Es & Ps & _); eauto; [lia|].
    destruct (HC j Hj) as ((r1 & R1 & <-) & _ & HA). apply (HA r1 R1). }
  rewrite dequantize_rows by (rewrite ?map_length; auto). eexists. split; [reflexivity|].
  rewrite quantize_rows; [|rewrite map_length; auto|auto|].
  2:{ unfold rect. rewrite Forall_forall. intros r Hr. apply in_map_iff in Hr as (v & <- & Hv). rewrite map_length, seq_length. auto. }
  f_equal. f_equal. rewrite map_map. transitivity (map (fun r : list Z => r) codes); [|apply map_id].
  apply map_ext_in. intros row Hrow. unfold rect in HV. rewrite Forall_forall in HV. pose proof (HV row Hrow) as Lr. simpl in Lr.
  apply nth_ext with (d := 0%Z) (d' := 0%Z); [len; auto|].
  intros j Hj. rewrite map_length, seq_length in Hj. rewrite nth_map_seq by auto. rewrite nth_map_seq by auto.
  destruct (Hsc j Hj) as (s & -> & Ps). rewrite nth_fin by lia.
  assert (Hc : (0 <= nth j row 0 <= 2 ^ Z.of_nat bits - 1)%Z) by (apply (HI row); auto; apply nth_In; lia).
  pose proof (pow24 bits ltac:(lia)). rewrite H32 by lia. unfold xsub, xneg, xmul, xadd, xdiv.
  destruct (Req_EM_T s 0); [lra|]. rewrite code_fin by reflexivity. rewrite upper_24 by lia.
  match goal with |- clampZ _ (rint ?r) = _ => replace r with (IZR (nth j row 0%Z)) by (field; lra) end.
  rewrite rint_IZR. unfold clampZ. lia.
Qed.

(** ** Where the full statements fail *)

(** Training on two one-dimensional points. *)
Lemma train_two bits rnd a b : a <= b ->
  scalar_train bits rnd (A2 1 (fin_rows [[a]; [b]])) (snd (scalar_initialize scalar_new)) =
  (Ok tt, mkScalarq (Some 1%nat) (Some [Fin a]) (Some [Fin b]) (Some [step_of bits rnd (Fin a) (Fin b)]) true true).
Proof.
  intros Hab. unfold scalar_train, reduce_cols, column, fin_rows. cbn. unfold xmin, xmax, xleb.
  destruct (Rle_dec a b); [|contradiction]. destruct (Rle_dec b a).
  - assert (a = b) by lra. subst. reflexivity.
  - reflexivity.
Qed.

Lemma quantize_one bits rnd mn mx sc x :
  scalar_quantize bits rnd (A2 1 [[x]]) (mkScalarq (Some 1%nat) (Some [mn]) mx (Some [sc]) true true) =
  (Ok [[code_of bits rnd (xdiv rnd (xsub rnd x mn) sc)]], mkScalarq (Some 1%nat) (Some [mn]) mx (Some [sc]) true true).
Proof. reflexivity. Qed.

Lemma dequantize_one rnd rnd32 mn mx sc c :
  scalar_dequantize rnd rnd32 (A2 1 [[c]]) (mkScalarq (Some 1%nat) (Some [mn]) mx (Some [sc]) true true) =
  (Ok [[xadd rnd (xmul rnd (Fin (rnd32 (IZR c))) sc) mn]], mkScalarq (Some 1%nat) (Some [mn]) mx (Some [sc]) true true).
Proof. reflexivity. Qed.

Lemma fl53_small x : 0 <= x <= 1 -> fl 53 x = x.
Proof. intros Hx. apply fl_small. rewrite Rabs_right by lra. apply Rle_lt_trans with 1; [lra|]. apply IZR_lt. reflexivity. Qed.

(** One over a power of two, as the step of the data 0, 1. *)
Lemma unit_step bits N : (0 < N)%Z -> fl 53 (IZR (Z.min (max_val bits) int64_max)) = IZR N ->
  step_of bits (fl 53) (Fin 0) (Fin 1) = Fin (1 / IZR N).
Proof.
  intros HN E. apply IZR_lt in HN. unfold step_of, xsub, xneg, xadd, xdiv. rewrite E.
  replace (1 + - 0) with 1 by lra. rewrite (fl53_small 1) by lra.
  assert (1 <= IZR N) by (apply IZR_le; apply lt_IZR in HN; lia).
  assert (0 < 1 / IZR N) by (apply Rdiv_lt_0_compat; lra).
  assert (1 / IZR N <= 1).
  { apply Rmult_le_reg_r with (IZR N); auto. unfold Rdiv. rewrite Rmult_assoc, Rinv_l, Rmult_1_r by lra. lra. }
  destruct (Req_EM_T (IZR N) 0); [lra|]. rewrite (fl53_small (1 / IZR N)) by lra.
  destruct (Req_EM_T (1 / IZR N) 0); [lra|]. reflexivity.
Qed.

Lemma unit_norm N : (0 < N)%Z -> fl 53 (IZR N) = IZR N ->
  xdiv (fl 53) (xsub (fl 53) (Fin 1) (Fin 0)) (Fin (1 / IZR N)) = Fin (IZR N).
Proof.
  intros HN E. apply IZR_lt in HN. unfold xsub, xneg, xadd, xdiv. replace (1 + - 0) with 1 by lra. rewrite (fl53_small 1) by lra.
  destruct (Req_EM_T (1 / IZR N) 0) as [Z|Z].
  { exfalso. assert (0 < 1 / IZR N) by (apply Rdiv_lt_0_compat; lra). lra. }
  replace (1 / (1 / IZR N)) with (IZR N) by (field; lra). now rewrite E.
Qed.

(** With 54 bits and float64 arithmetic the largest code is rounded up: a training vector gets a
    code that is one too large. *)
Theorem C44_codes_in_range_refuted :
  exists bits q0 q codes,
    scalar_train bits (fl 53) (A2 1 (fin_rows [[0]; [1]])) q0 = (Ok tt, q) /\
    scalar_quantize bits (fl 53) (A2 1 (fin_rows [[1]])) q = (Ok [codes], q) /\
    exists c, In c codes /\ (c > 2 ^ Z.of_nat bits - 1)%Z.
Proof.
  exists 54%nat, (snd (scalar_initialize scalar_new)). rewrite (train_two 54 (fl 53) 0 1) by lra.
  rewrite (unit_step 54 (2 ^ 54)) by (try (rewrite fl_IZR by (vm_compute; congruence)); reflexivity).
  eexists. eexists. split; [reflexivity|]. cbn [fin_rows map]. rewrite quantize_one. split; [reflexivity|].
  eexists. split; [left; reflexivity|].
  rewrite unit_norm by (try (rewrite fl_IZR by (vm_compute; congruence)); reflexivity).
  unfold code_of, xrint. rewrite rint_IZR, fl_IZR by (vm_compute; congruence).
  change (fl_int 53 (upper_bound 54)) with (2 ^ 54)%Z. rewrite xclip_IZR by (vm_compute; congruence).
  unfold nan_to_num. rewrite cast_int_IZR by (vm_compute; congruence). reflexivity.
Qed.

(** With 63 bits and float64 arithmetic the largest code no longer fits the integer type, and the
    larger coordinate gets the smaller code. *)
Theorem C46_monotone_refuted :
  exists bits q0 q x y cx cy,
    scalar_train bits (fl 53) (A2 1 (fin_rows [[0]; [1]])) q0 = (Ok tt, q) /\
    scalar_quantize bits (fl 53) (A2 1 [[Fin x]]) q = (Ok [[cx]], q) /\
    scalar_quantize bits (fl 53) (A2 1 [[Fin y]]) q = (Ok [[cy]], q) /\
    x <= y /\ (cx > cy)%Z.
Proof.
  exists 63%nat, (snd (scalar_initialize scalar_new)). rewrite (train_two 63 (fl 53) 0 1) by lra.
  rewrite (unit_step 63 (2 ^ 63)) by (try (rewrite fl_IZR by (vm_compute; congruence)); reflexivity).
  eexists. exists 0, 1. eexists. eexists. split; [reflexivity|].
  rewrite !quantize_one. split; [reflexivity|]. split; [reflexivity|]. split; [lra|].
  rewrite unit_norm by (try (rewrite fl_IZR by (vm_compute; congruence)); reflexivity).
  assert (E0 : xdiv (fl 53) (xsub (fl 53) (Fin 0) (Fin 0)) (Fin (1 / IZR (2 ^ 63))) = Fin (IZR 0)).
  { unfold xsub, xneg, xadd, xdiv. replace (0 + - 0) with 0 by lra. rewrite fl_0.
    assert (0 < 1 / IZR (2 ^ 63)) by (apply Rdiv_lt_0_compat; [lra|apply IZR_lt; reflexivity]).
    destruct (Req_EM_T (1 / IZR (2 ^ 63)) 0); [lra|]. unfold Rdiv at 1. rewrite Rmult_0_l, fl_0. reflexivity. }
  rewrite E0. unfold code_of, xrint. rewrite !rint_IZR, fl_IZR by (vm_compute; congruence).
  change (fl_int 53 (upper_bound 63)) with (2 ^ 63)%Z. rewrite !xclip_IZR by (vm_compute; congruence).
  unfold nan_to_num, cast_int. rewrite !(Int_part_unique (IZR _) _) by (split; [apply Rle_refl|lra]).
  reflexivity.
Qed.

(** With 25 bits the codes lose a bit when they are turned into float32 for decoding. *)
Theorem C45_half_step_refuted :
  exists bits q0 q hi v codes d,
    scalar_train bits (fun r => r) (A2 1 (fin_rows [[0]; [hi]])) q0 = (Ok tt, q) /\
    0 <= v <= hi /\
    scalar_quantize bits (fun r => r) (A2 1 [[Fin v]]) q = (Ok codes, q) /\
    scalar_dequantize (fun r => r) (fl 24) (A2 1 codes) q = (Ok [[Fin d]], q) /\
    Rabs (d - v) > (hi - 0) / (2 ^ bits - 1) / 2.
Proof.
  exists 25%nat, (snd (scalar_initialize scalar_new)).
  assert (H0 : 0 <= IZR (2 ^ 25 - 1)) by (apply IZR_le; vm_compute; congruence).
  assert (E2 : 2 ^ 25 - 1 = IZR (2 ^ 25 - 1)) by (change (2 ^ 25 - 1)%Z with (2 ^ Z.of_nat 25 - 1)%Z; rewrite minus_IZR, <- pow_IZR; reflexivity).
  assert (Es : step_of 25 (fun r => r) (Fin 0) (Fin (IZR (2 ^ 25 - 1))) = Fin 1).
  { unfold step_of, xsub, xneg, xadd, xdiv. change (Z.min (max_val 25) int64_max) with (2 ^ 25 - 1)%Z.
    assert (0 < IZR (2 ^ 25 - 1)) by (apply IZR_lt; reflexivity).
    destruct (Req_EM_T (IZR (2 ^ 25 - 1)) 0); [lra|].
    replace ((IZR (2 ^ 25 - 1) + - 0) / IZR (2 ^ 25 - 1)) with 1 by (field; lra).
    destruct (Req_EM_T 1 0); [lra|]. reflexivity. }
  eexists. exists (IZR (2 ^ 25 - 1)), (IZR (2 ^ 24 + 1)). eexists. exists (IZR (2 ^ 24)).
  rewrite train_two by auto. rewrite Es. split; [reflexivity|].
  split; [split; apply IZR_le; vm_compute; congruence|].
  rewrite quantize_one. split; [reflexivity|].
  assert (Ec : code_of 25 (fun r => r) (xdiv (fun r => r) (xsub (fun r => r) (Fin (IZR (2 ^ 24 + 1))) (Fin 0)) (Fin 1)) = (2 ^ 24 + 1)%Z).
  { unfold xsub, xneg, xadd, xdiv. destruct (Req_EM_T 1 0); [lra|].
    replace ((IZR (2 ^ 24 + 1) + - 0) / 1) with (IZR (2 ^ 24 + 1)) by field.
    rewrite code_fin by reflexivity. rewrite rint_IZR. reflexivity. }
  rewrite Ec, dequantize_one. rewrite fl_IZR by (vm_compute; congruence).
  change (fl_int 24 (2 ^ 24 + 1)) with (2 ^ 24)%Z. unfold xmul, xadd.
  replace (IZR (2 ^ 24) * 1 + 0) with (IZR (2 ^ 24)) by lra. split; [reflexivity|].
  rewrite E2. rewrite <- minus_IZR. change (2 ^ 24 - (2 ^ 24 + 1))%Z with (-1)%Z.
  rewrite Rabs_left by lra. assert (0 < IZR (2 ^ 25 - 1)) by (apply IZR_lt; reflexivity).
  replace ((IZR (2 ^ 25 - 1) - 0) / IZR (2 ^ 25 - 1) / 2) with (1 / 2) by (field; lra). lra.
Qed.

(** In float32 arithmetic decoding may absorb the step: 8 bits, data 2^24 and 2^24 + 2, code 10. *)
Theorem C46_idempotent_refuted :
  exists bits q0 q lo hi code dec code',
    scalar_train bits (fl 24) (A2 1 (fin_rows [[lo]; [hi]])) q0 = (Ok tt, q) /\
    (0 <= code <= 2 ^ Z.of_nat bits - 1)%Z /\
    scalar_dequantize (fl 24) (fl 24) (A2 1 [[code]]) q = (Ok dec, q) /\
    scalar_quantize bits (fl 24) (A2 1 dec) q = (Ok [[code']], q) /\
    code' <> code.
Proof.
  exists 8%nat, (snd (scalar_initialize scalar_new)).
  assert (Hsm : forall x, -1000 <= x <= 1000 -> fl 24 x = x).
  { intros x Hx. apply fl_small. apply Rle_lt_trans with 1000; [apply Rabs_le; lra|]. apply IZR_lt. reflexivity. }
  assert (Es : step_of 8 (fl 24) (Fin (IZR (2 ^ 24))) (Fin (IZR (2 ^ 24 + 2))) = Fin (2 / 255)).
  { unfold step_of, xsub, xneg, xadd, xdiv. change (Z.min (max_val 8) int64_max) with 255%Z.
    rewrite (Hsm 255) by lra. replace (IZR (2 ^ 24 + 2) + - IZR (2 ^ 24)) with 2 by (rewrite plus_IZR; lra).
    rewrite (Hsm 2) by lra. destruct (Req_EM_T 255 0); [lra|]. rewrite (Hsm (2 / 255)) by lra.
    destruct (Req_EM_T (2 / 255) 0); [lra|]. reflexivity. }
  eexists. exists (IZR (2 ^ 24)), (IZR (2 ^ 24 + 2)), 10%Z. eexists. exists 0%Z.
  rewrite train_two by (apply IZR_le; vm_compute; congruence). rewrite Es. split; [reflexivity|].
  split; [vm_compute; split; congruence|]. rewrite dequantize_one. split; [reflexivity|].
  rewrite quantize_one. split; [|discriminate]. f_equal. f_equal. f_equal. f_equal.
  unfold xmul. rewrite (Hsm 10) by lra. rewrite (Hsm (10 * (2 / 255))) by lra. unfold xadd at 1.
  assert (Ef : fl 24 (10 * (2 / 255) + IZR (2 ^ 24)) = IZR (2 ^ 24)).
  { assert (P : 0 < IZR (2 ^ 24)) by (apply IZR_lt; reflexivity).
    unfold fl. rewrite Rabs_right by lra. destruct (Rle_dec (IZR (2 ^ 24)) (10 * (2 / 255) + IZR (2 ^ 24))); [|lra].
    rewrite (Int_part_unique _ (2 ^ 24)) by lra. change (2 ^ (Z.log2 (2 ^ 24) - (24 - 1)))%Z with 2%Z.
    rewrite (rint_near _ (2 ^ 23)).
    - rewrite <- mult_IZR. reflexivity.
    - replace (IZR (2 ^ 24)) with (2 * IZR (2 ^ 23)) by (rewrite <- mult_IZR; reflexivity). apply Rabs_def1; lra. }
  rewrite Ef. unfold xsub, xneg, xadd, xdiv. replace (IZR (2 ^ 24) + - IZR (2 ^ 24)) with 0 by lra. rewrite fl_0.
  destruct (Req_EM_T (2 / 255) 0); [lra|]. unfold Rdiv at 1. rewrite Rmult_0_l, fl_0.
  rewrite code_fin; [|apply Hsm; change (upper_bound 8) with 255%Z; lra]. change 0 with (IZR 0). rewrite rint_IZR. reflexivity.
Qed.

(** ** The hypotheses are met *)

Definition demo_data : list (list R) := [[0; 5]; [255; 5]; [3; 5]].

Lemma demo_trained bits rnd : exists q, scalar_train bits rnd (A2 2 (fin_rows demo_data)) (snd (scalar_initialize scalar_new)) = (Ok tt, q).
Proof. apply train_succeeds; [repeat constructor|discriminate|reflexivity]. Qed.

Example C44_nontrivial : exists q codes q',
  fl 53 (2 ^ 8 - 1) = 2 ^ 8 - 1 /\
  scalar_quantize 8 (fl 53) (A2 2 [[PInf; NaN]; [Fin (-7); Fin 1000000]]) q = (Ok codes, q').
Proof.
  destruct (demo_trained 8 (fl 53)) as [q E].
  destruct (train_state _ _ _ _ _ _ (ltac:(repeat constructor) : rect 2 demo_data) ltac:(discriminate) E) as (lo & hi & Ll & Lh & _ & Eq).
  exists q. rewrite Eq. eexists. eexists. split; [apply fl_max_val; lia|]. apply quantize_rows; [len; auto|len; lia|repeat constructor].
Qed.

Example C45_nontrivial : exists q,
  (forall z, (0 <= z <= 2 ^ 24)%Z -> fl 24 (IZR z) = IZR z) /\
  scalar_train 8 (fun r => r) (A2 2 (fin_rows demo_data)) (snd (scalar_initialize scalar_new)) = (Ok tt, q) /\
  rect 2 [[7/2; 5]; [200; 5]] /\ Forall (in_range demo_data) [[7/2; 5]; [200; 5]].
Proof.
  destruct (demo_trained 8 (fun r => r)) as [q E]. exists q. split; [intros z Hz; apply fl_exact; lia|]. split; auto.
  split; [repeat constructor|].
  apply Forall_cons; [|apply Forall_cons; [|apply Forall_nil]]; intros [|[|j]] Hj; simpl in *; try lia;
    (split; [exists [0; 5] | exists [255; 5]]; simpl; split; auto; lra).
Qed.

Example C46_nontrivial : exists q cx cy qx qy,
  fl 24 (2 ^ 8 - 1) = 2 ^ 8 - 1 /\ monotone (fl 24) /\ fl 24 0 = 0 /\
  scalar_train 8 (fl 24) (A2 2 (fin_rows demo_data)) (snd (scalar_initialize scalar_new)) = (Ok tt, q) /\
  scalar_quantize 8 (fl 24) (A2 2 [[Fin 3; Fin 5]]) q = (Ok [cx], qx) /\
  scalar_quantize 8 (fl 24) (A2 2 [[PInf; Fin 5]]) q = (Ok [cy], qy).
Proof.
  destruct (demo_trained 8 (fl 24)) as [q E].
  destruct (train_state _ _ _ _ _ _ (ltac:(repeat constructor) : rect 2 demo_data) ltac:(discriminate) E) as (lo & hi & Ll & Lh & _ & Eq).
  exists q. do 4 eexists. split; [apply fl_max_val; lia|].
  split; [intros x y; apply fl_mono; lia|]. split; [apply fl_0|]. split; [exact E|]. rewrite Eq.
  split; (rewrite quantize_rows; [reflexivity|len; auto|len; lia|repeat constructor]).
Qed.

Print Assumptions C44_codes_in_range_partial.
Print Assumptions C44_codes_in_range_refuted.
Print Assumptions C45_half_step_partial.
Print Assumptions C45_half_step_refuted.
Print Assumptions C46_monotone_partial.
Print Assumptions C46_monotone_refuted.
Print Assumptions C46_idempotent_partial.
Print Assumptions C46_idempotent_refuted.
