(** The LSH similarity over exact reals, and C33 with thresholds instead of model values. *)

From Coq Require Import List Arith ZArith NArith Lia Bool Reals Lra Permutation Sorted.
From Verif Require Import PyBase BaseLemmas PyMore Payload Num SimilarityModel RealNum
  LshModel LshSpec LshProofs PropsLsh PropsSimilarity.
Import ListNotations.
Open Scope R_scope.

(** C32: the similarity in a result is the textbook one. *)
Theorem C32_similarity_value lmt x y : length x = length y -> lmt <> LOther ->
  exists s, lsh_similarity lmt x y = Ok s /\
    match lmt with
    | LCosine => (zero_vec x \/ zero_vec y -> s = 0) /\
                 (~ zero_vec x -> ~ zero_vec y -> s = inner x y / (len x * len y)) /\ -1 <= s <= 1
    | LEuclidean => s = 1 / (1 + euclid x y) /\ 0 < s <= 1
    | LManhattan => s = 1 / (1 + abs_dist x y) /\ 0 < s <= 1
    | LOther => False
    end.
Proof.
  intros E Hm. unfold lsh_similarity, np_sub. rewrite E, Nat.eqb_refl. cbn [negb rbind].
  assert (Hinv : forall r, 0 <= r -> 0 < 1 / (1 + r) <= 1).
  { intros r Hr. assert (0 < / (1 + r)) by (apply Rinv_0_lt_compat; lra).
    assert ((1 + r) * / (1 + r) = 1) by (apply Rinv_r; lra).
    unfold Rdiv. rewrite Rmult_1_l. split; auto. nra. }
  destruct lmt; try congruence.
  - rewrite !norm_len, dot_inner. destruct (neqb (nmul (len x) (len y)) nzero) eqn:En.
    + apply neqb_R in En. simpl in En. exists 0. split; [reflexivity|]. split; auto. split; [|lra].
      intros Hx Hy. pose proof (len_nonzero_mult x y Hx Hy). lra.
    + assert (Hn : len x * len y <> 0).
      { intros E'. pose proof (proj2 (neqb_R (nmul (len x) (len y)) nzero) E'). congruence. }
      assert (Hx : ~ zero_vec x).
      { rewrite <- len_zero. intros E'. apply Hn. rewrite E'. lra. }
      assert (Hy : ~ zero_vec y).
      { rewrite <- len_zero. intros E'. apply Hn. rewrite E'. lra. }
      eexists. split; [reflexivity|]. simpl ndiv. simpl nmul. split; [tauto|]. split; [auto|].
      now apply cos_bounds.
  - rewrite norm_diff. eexists. split; [reflexivity|]. split; [reflexivity|]. apply Hinv. apply sqrt_pos.
  - assert (Ed : nsum (map nabs (zip_with nsub x y)) = abs_dist x y).
    { pose proof (C41_manhattan_value x y E) as Hv. unfold manhattan_distance in Hv.
      rewrite checked_eq in Hv by auto. now injection Hv. }
    rewrite Ed. eexists. split; [reflexivity|]. split; [reflexivity|]. apply Hinv.
    now apply (abs_dist_laws x y E).
Qed.

(** A vector is at similarity 1 from itself; under the cosine it must not be zero. *)
Lemma self_similarity lmt v : lmt <> LOther -> (lmt = LCosine -> ~ zero_vec v) ->
  lsh_similarity lmt v v = Ok 1.
Proof.
  intros Hm Hz. destruct (C32_similarity_value lmt v v eq_refl Hm) as (s & -> & Hs). f_equal.
  destruct lmt; [| | |tauto].
  - destruct Hs as (_ & Hs & _). specialize (Hz eq_refl). rewrite Hs by auto. rewrite len_sq.
    apply Rinv_r. rewrite inner_zero. auto.
  - destruct Hs as (-> & _). unfold euclid.
    assert (sq_dist v v = 0) as ->.
    { clear. induction v as [|a v IH]; simpl; auto. rewrite IH. lra. }
    rewrite sqrt_0. lra.
  - destruct Hs as (-> & _).
    rewrite (proj2 (proj1 (proj2 (proj2 (abs_dist_laws v v eq_refl)))) eq_refl). lra.
Qed.

(** C33 over reals: with a threshold of at most 1, searching with the vector stored under a live
    id finds that id with score 1.  Partial: as for C31. *)
Theorem C33_finds_itself_real_partial {Mt} `{Payload (list R) Mt} T hs P lmt threshold (empty : Mt)
    ops o i v m k :
  lsh_config T hs P lmt empty -> lhistory P empty no_slots ops -> lsh_orc_ok P o ->
  sl_open (sl_after empty ops) = true ->
  nth_error (sl_slots (sl_after empty ops)) i = Some (Some (v, m)) ->
  v <> [] -> (lmt = LCosine -> ~ zero_vec v) -> threshold <= 1 ->
  (Z.of_nat (live_count (sl_slots (sl_after empty ops))) <= k)%Z ->
  exists hits,
    fst (lsh_step T hs P lmt threshold empty (LSearch o (Vec v) k)
           (lsh_after T hs P lmt threshold empty ops)) = LHits hits /\
    In (MkLhit (Z.of_nat i) 1 (Some m)) hits.
Proof.
  intros Hc Hh Ho Hop E Hv Hz Ht Hk.
  apply (C33_finds_itself_partial T hs P lmt threshold empty ops o i v m 1 k); auto.
  - clear. induction v; simpl; auto.
  - apply self_similarity; auto. apply Hc.
  - now apply nleb_R.
Qed.

(** The hypotheses are met by an index holding one vector. *)
#[local] Instance demo_payload_R : Payload (list R) Z := {|
  nbytes v := (4 * N.of_nat (length v))%N; strbytes m := 5%N;
  copyable m := (0 <=? m)%Z; picklable m := true
|}.

Definition real_orc : lsh_orc R :=
  MkLshOrc (fun d => map (fun i => repeat (INR i - 1) d) (seq 0 3)) [0; 1; -1] (fun l => l).

Example C33_real_hypotheses_met :
  let ops := [LInit; LInsert real_orc (Mat [[1; 2]; [0; 5]]) None] in
  lsh_config (F := R) 2 2 3 LCosine 0%Z /\ lhistory 3 0%Z no_slots ops /\ lsh_orc_ok 3 real_orc /\
  sl_open (sl_after 0%Z ops) = true /\
  nth_error (sl_slots (sl_after 0%Z ops)) 1 = Some (Some ([0; 5], 0%Z)) /\ ~ zero_vec [0; 5].
Proof.
  assert (Ho : lsh_orc_ok 3 real_orc).
  { split; [|split]; [|reflexivity|reflexivity]. intros d. simpl. split; auto.
    repeat constructor; apply repeat_length. }
  split; [repeat split; auto; discriminate|]. split.
  { simpl. repeat split; try apply Ho; try discriminate.
    intros rows E. injection E as <-. repeat constructor. }
  split; [exact Ho|]. split; [reflexivity|]. split; [reflexivity|].
  intros Hz. inversion Hz as [|? ? _ Hz']; subst. inversion Hz'; subst. lra.
Qed.

Print Assumptions C32_similarity_value.
Print Assumptions C33_finds_itself_real_partial.
