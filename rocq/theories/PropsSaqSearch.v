(** Search with rescoring of SAQ: C77. *)

From Coq Require Import List Arith ZArith Lia Bool Permutation Sorted.
From Verif Require Import PyBase PyMore BaseLemmas Num FlatProofs ProductModel SaqModel.
Import ListNotations.

(** ** Specification *)

(** The [k] members of [pool] (all of them when there are fewer) with the least values of [d], in
    order. *)
Definition k_best {F} `{Num F} (d : nat -> F) (pool : list nat) (k : nat) (res : list nat) : Prop :=
  NoDup res /\ incl res pool /\ length res = Nat.min k (length pool) /\
  StronglySorted (fun i j => nleb (d i) (d j) = true) res /\
  (forall i j, In i res -> In j pool -> ~ In j res -> nleb (d i) (d j) = true).

Section Search.
  Context {F : Type} `{Num F}.
  Context (argsort : list F -> list nat) (decode : list Z -> result (list F)).
  Hypothesis Harg : argsort_ok argsort.

  Lemma slice_count {A} (k : Z) (l : list A) : (0 <= k)%Z -> slice_to k l = firstn (Z.to_nat k) l.
  Proof. apply slice_to_nonneg. Qed.

  Lemma firstn_skipn_In {A} k (l : list A) x : In x l -> ~ In x (firstn k l) -> In x (skipn k l).
  Proof. intros H1 H2. rewrite <- (firstn_skipn k l) in H1. apply in_app_or in H1 as [?|?]; tauto. Qed.

  (** The first [k] positions of an argsort are the [k] best. *)
  Lemma argsort_best ds k : k_best (fun i => nth i ds nzero) (seq 0 (length ds)) k (firstn k (argsort ds)).
  Proof.
    destruct (Harg ds) as [Hp Hs].
    assert (Hnd : NoDup (argsort ds)) by (eapply Permutation_NoDup; [symmetry; exact Hp|apply seq_NoDup]).
    assert (Hin : forall i, In i (argsort ds) -> i < length ds).
    { intros i Hi. apply (Permutation_in _ Hp) in Hi. apply in_seq in Hi. lia. }
    assert (Hs' : StronglySorted (fun i j => nleb (nth i ds nzero) (nth j ds nzero) = true) (argsort ds)).
    { clear Hp Hnd. revert Hs Hin. generalize (argsort ds). intros l Hs.
      induction Hs as [|i l Hs IH Hf]; intros Hin; constructor.
      - apply IH. intros j Hj. apply Hin. now right.
      - rewrite Forall_forall in *. intros j Hj. apply (Hf j Hj); apply nth_error_nth', Hin; [now left|now right]. }
    repeat split.
    - now apply NoDup_firstn.
    - intros i Hi. apply In_firstn in Hi. now apply (Permutation_in _ Hp).
    - rewrite firstn_length. apply Permutation_length in Hp. congruence.
    - now apply StronglySorted_firstn.
    - intros i j Hi Hj Hn. assert (Hj' : In j (argsort ds)) by now apply (Permutation_in _ (Permutation_sym Hp)).
      eapply StronglySorted_firstn_skipn with (1 := Hs'); [exact Hi|]. now apply firstn_skipn_In.
  Qed.

  Lemma rmap_at {A B} (f : A -> result B) l ys da db i : rmap f l = Ok ys -> i < length l ->
    f (nth i l da) = Ok (nth i ys db).
  Proof.
    intros E Hi. destruct (rmap_nth _ _ _ E) as [Hl Hn].
    destruct (Hn i (nth i l da)) as (y & Ey & Ef); [now apply nth_error_nth'|].
    rewrite Ef. f_equal. symmetry. now apply nth_error_nth.
  Qed.

  (** From positions in the candidate list to the candidates. *)
  Lemma best_through (cands : list nat) (d e : nat -> F) k js : NoDup cands ->
    (forall j, j < length cands -> e j = d (nth j cands 0)) ->
    k_best e (seq 0 (length cands)) k js -> k_best d cands k (map (fun j => nth j cands 0) js).
  Proof.
    intros Hnd He (H1 & H2 & H3 & H4 & H5).
    assert (Hlt : forall j, In j js -> j < length cands).
    { intros j Hj. apply H2 in Hj. apply in_seq in Hj. lia. }
    assert (Hinj : forall i j, i < length cands -> j < length cands -> nth i cands 0 = nth j cands 0 -> i = j).
    { intros i j Hi Hj E. now apply (proj1 (NoDup_nth cands 0) Hnd). }
    repeat split.
    - clear H3 H4 H5 H2. induction H1 as [|j js Hn Hd IH]; simpl; constructor.
      + intros Hin. apply in_map_iff in Hin as (i & Ei & Hi). apply Hinj in Ei; [subst; auto| |];
          apply Hlt; [now right|now left].
      + apply IH. intros i Hi. apply Hlt. now right.
    - intros x Hx. apply in_map_iff in Hx as (j & <- & Hj). apply nth_In. auto.
    - rewrite map_length, H3, seq_length. reflexivity.
    - clear H1 H2 H3 H5. induction H4 as [|j js Hs IH Hf]; simpl; constructor.
      + apply IH. intros i Hi. apply Hlt. now right.
      + rewrite Forall_forall in *. intros x Hx. apply in_map_iff in Hx as (i & <- & Hi).
        specialize (Hf i Hi). rewrite !He in Hf; auto; apply Hlt; [now right|now left].
    - intros x y Hx Hy Hn. apply in_map_iff in Hx as (i & <- & Hi).
      destruct (In_nth _ _ 0 Hy) as (j & Hj & <-). rewrite <- !He by auto. apply H5; auto.
      + apply in_seq. lia.
      + intros Hin. apply Hn. apply in_map_iff. exists j. auto.
  Qed.

  (** ** C77 *)

  (** When the search answers, it found candidates that are the [rescore_top_k] best by the distance
      to the decoded codes, and its answer is the [top_k] best of these by the exact distance to the
      stored vectors, with that distance. *)
  Theorem C77_best_of_candidates dim full rk query codes k hits :
    (0 <= rk)%Z -> (0 <= k)%Z ->
    saq_search argsort decode dim (Some full) rk query codes k = Ok hits ->
    exists approx exact cands,
      length approx = length codes /\
      (forall i, i < length codes -> saq_distance decode dim query (nth i codes []) = Ok (nth i approx nzero)) /\
      k_best (fun i => nth i approx nzero) (seq 0 (length codes)) (Z.to_nat rk) cands /\
      (forall i, In i cands -> i < length full /\ cosine_of (align dim query) (nth i full []) = Ok (exact i)) /\
      k_best exact cands (Z.to_nat k) (map fst hits) /\
      (forall i d, In (i, d) hits -> d = exact i).
  Proof.
    intros Hrk Hk E. unfold saq_search, initial_search in E.
    destruct (rmap (saq_distance decode dim query) codes) as [approx|] eqn:Ea; [|discriminate]. cbn [rbind] in E.
    rewrite slice_to_nonneg in E by auto. set (cands := firstn (Z.to_nat rk) (argsort approx)) in *.
    destruct (rmap_nth _ _ _ Ea) as [Hla _].
    pose proof (argsort_best approx (Z.to_nat rk)) as Hb. fold cands in Hb. rewrite Hla in Hb.
    unfold rescore in E.
    destruct (rmap (fun i => py_index full (Z.of_nat i)) cands) as [vecs|] eqn:Ev; [|discriminate]. cbn [rbind] in E.
    destruct (rmap (cosine_of (align dim query)) vecs) as [ds|] eqn:Ed; [|discriminate]. cbn [rbind] in E.
    rewrite slice_to_nonneg in E by auto.
    destruct (rmap_nth _ _ _ Ev) as [Hlv _]. destruct (rmap_nth _ _ _ Ed) as [Hld _].
    assert (Hnd : NoDup cands) by apply Hb.
    assert (Hv : forall j, j < length cands -> nth j cands 0 < length full /\ nth j vecs [] = nth (nth j cands 0) full []).
    { intros j Hj. pose proof (rmap_at _ _ _ 0 [] j Ev Hj) as Hx. cbn beta in Hx. rewrite py_index_nat in Hx.
      destruct (nth_error full (nth j cands 0)) eqn:En; [|discriminate]. injection Hx as ->.
      split; [apply nth_error_Some; congruence|]. symmetry. now apply nth_error_nth. }
    set (exact := fun i => match cosine_of (align dim query) (nth i full []) with Ok d => d | Raise _ => nzero end).
    assert (He : forall j, j < length cands -> cosine_of (align dim query) (nth (nth j cands 0) full []) = Ok (nth j ds nzero)).
    { intros j Hj. destruct (Hv j Hj) as [_ <-]. apply rmap_at with (1 := Ed). lia. }
    assert (Hex : forall j, j < length cands -> nth j ds nzero = exact (nth j cands 0)).
    { intros j Hj. unfold exact. now rewrite He. }
    set (js := firstn (Z.to_nat k) (argsort ds)) in *.
    pose proof (argsort_best ds (Z.to_nat k)) as Hj. fold js in Hj.
    replace (length ds) with (length cands) in Hj by congruence.
    assert (Hh : hits = map (fun j => (nth j cands 0, nth j ds nzero)) js).
    { assert (Hok : rmap (fun j => rbind (py_index cands (Z.of_nat j)) (fun i =>
                     rbind (py_index ds (Z.of_nat j)) (fun d => Ok (i, d)))) js =
                    Ok (map (fun j => (nth j cands 0, nth j ds nzero)) js)).
      { apply rmap_Ok. intros j Hin. apply Hj in Hin. apply in_seq in Hin.
        rewrite !py_index_nat, (nth_error_nth' cands 0), (nth_error_nth' ds nzero) by lia. reflexivity. }
      congruence. }
    exists approx, exact, cands. repeat split; auto; try apply Hb.
    - intros i Hi. apply rmap_at with (1 := Ea). exact Hi.
    - destruct (In_nth _ _ 0 H0) as (j & Hlt & <-). now apply Hv.
    - destruct (In_nth _ _ 0 H0) as (j & Hlt & <-). rewrite He, Hex by auto. reflexivity.
    - rewrite Hh, map_map. cbn [fst]. apply (best_through cands exact _ _ _ Hnd Hex Hj).
    - rewrite Hh, map_map. cbn [fst]. apply (best_through cands exact _ _ _ Hnd Hex Hj).
    - rewrite Hh, map_map. cbn [fst]. apply (best_through cands exact _ _ _ Hnd Hex Hj).
    - rewrite Hh, map_map. cbn [fst]. apply (best_through cands exact _ _ _ Hnd Hex Hj).
    - rewrite Hh, map_map. cbn [fst]. apply (best_through cands exact _ _ _ Hnd Hex Hj).
    - intros i d Hin. rewrite Hh in Hin. apply in_map_iff in Hin as (j & Ej & Hin). injection Ej as <- <-.
      apply Hex. apply Hj in Hin. apply in_seq in Hin. lia.
  Qed.

  Lemma k_best_pool (d : nat -> F) pool pool' k res : Permutation pool pool' -> k_best d pool k res -> k_best d pool' k res.
  Proof.
    intros Hp (H1 & H2 & H3 & H4 & H5). repeat split; auto.
    - intros i Hi. apply (Permutation_in _ Hp). auto.
    - now rewrite <- (Permutation_length Hp).
    - intros i j Hi Hj. apply H5; auto. now apply (Permutation_in _ (Permutation_sym Hp)).
  Qed.

  (** With [rescore_top_k] at least the number of codes the search is exact: the answer is the
      [top_k] best of all vectors by the exact distance. *)
  Theorem C77_exact_search dim full rk query codes k hits :
    (Z.of_nat (length codes) <= rk)%Z -> (0 <= k)%Z ->
    saq_search argsort decode dim (Some full) rk query codes k = Ok hits ->
    exists exact,
      (forall i, i < length codes -> i < length full /\ cosine_of (align dim query) (nth i full []) = Ok (exact i)) /\
      k_best exact (seq 0 (length codes)) (Z.to_nat k) (map fst hits) /\
      (forall i d, In (i, d) hits -> d = exact i).
  Proof.
    intros Hrk Hk E.
    destruct (C77_best_of_candidates dim full rk query codes k hits ltac:(lia) Hk E)
      as (approx & exact & cands & Hl & _ & (B1 & B2 & B3 & _) & Hex & Hbest & Hd).
    assert (Hp : Permutation cands (seq 0 (length codes))).
    { apply NoDup_Permutation_bis; auto. rewrite B3, seq_length. lia. }
    exists exact. repeat split; auto; try (apply (k_best_pool _ _ _ _ _ Hp Hbest)).
    - apply Hex. apply (Permutation_in _ (Permutation_sym Hp)). apply in_seq. lia.
    - apply Hex. apply (Permutation_in _ (Permutation_sym Hp)). apply in_seq. lia.
  Qed.

  Lemma align_length dim (q : list F) : length (align dim q) = dim.
  Proof.
    unfold align. destruct (Nat.ltb_spec (length q) dim).
    - rewrite app_length, repeat_length. lia.
    - destruct (Nat.ltb_spec dim (length q)); [rewrite firstn_length|]; lia.
  Qed.

  Lemma cosine_ok (q v : list F) : length q = length v -> exists d, cosine_of q v = Ok d.
  Proof.
    intros El. unfold cosine_of. rewrite El, Nat.eqb_refl. cbn [negb].
    destruct (neqb (norm q) nzero || neqb (norm v) nzero); eexists; reflexivity.
  Qed.

  Lemma rmap_all {A B} (f : A -> result B) l : Forall (fun x => exists y, f x = Ok y) l -> exists ys, rmap f l = Ok ys.
  Proof.
    induction 1 as [|x l [y Ey] _ [ys Eys]]; [exists []; reflexivity|].
    exists (y :: ys). cbn [rmap]. rewrite Ey. cbn [rbind]. now rewrite Eys.
  Qed.

  (** The search answers whenever the codes decode to vectors of the trained dimension and there are
      no more codes than stored vectors, for a query of any length. *)
  Theorem C77_answers dim full rk query codes k :
    (0 <= rk)%Z -> (0 <= k)%Z -> length codes <= length full ->
    Forall (fun v => length v = dim) full ->
    Forall (fun c => exists v, decode c = Ok v /\ length v = dim) codes ->
    exists hits, saq_search argsort decode dim (Some full) rk query codes k = Ok hits.
  Proof.
    intros Hrk Hk Hle Hf Hc. unfold saq_search, initial_search.
    destruct (rmap_all (saq_distance decode dim query) codes) as [approx Ea].
    { apply Forall_impl with (2 := Hc). intros c (v & Ev & Hv). unfold saq_distance. rewrite Ev. cbn [rbind].
      apply cosine_ok. rewrite align_length. congruence. }
    rewrite Ea. cbn [rbind]. rewrite slice_to_nonneg by auto. unfold rescore.
    destruct (rmap_nth _ _ _ Ea) as [Hla _].
    pose proof (argsort_best approx (Z.to_nat rk)) as (_ & Hb & _). rewrite Hla in Hb.
    set (cands := firstn (Z.to_nat rk) (argsort approx)) in *.
    assert (Hin : forall i, In i cands -> i < length full) by (intros i Hi; apply Hb, in_seq in Hi; lia).
    rewrite (rmap_Ok (fun i => py_index full (Z.of_nat i)) (fun i => nth i full [])).
    2:{ intros i Hi. rewrite py_index_nat, (nth_error_nth' full []) by auto. reflexivity. }
    cbn [rbind].
    destruct (rmap_all (cosine_of (align dim query)) (map (fun i => nth i full []) cands)) as [ds Ed].
    { apply Forall_map, Forall_forall. intros i Hi. apply cosine_ok. rewrite align_length.
      rewrite Forall_forall in Hf. symmetry. apply Hf, nth_In. auto. }
    rewrite Ed. cbn [rbind]. destruct (rmap_nth _ _ _ Ed) as [Hld _]. rewrite map_length in Hld.
    rewrite slice_to_nonneg by auto. apply rmap_all. apply Forall_forall. intros j Hj.
    apply (argsort_best ds (Z.to_nat k)) in Hj. apply in_seq in Hj.
    rewrite !py_index_nat, (nth_error_nth' cands 0), (nth_error_nth' ds nzero) by lia. eexists; reflexivity.
  Qed.
End Search.

(** ** Examples *)

From Verif Require Import Demo DemoIndex.

(** Codes that decode to vectors of dimension 2 with integer entries. *)
Definition demo_decode (c : list Z) : result (list Z) :=
  match c with [a; b] => Ok [a; b] | _ => Raise EQuant end.
Definition demo_full : list (list Z) := [[3; 4]; [4; 3]; [0; 5]; [5; 0]]%Z.
Definition demo_saq_codes : list (list Z) := [[3; 4]; [4; 3]; [0; 4]; [4; 0]]%Z.

Example C77_nontrivial :
  saq_search stable_argsort demo_decode 2 (Some demo_full) 3 [1; 0]%Z demo_saq_codes 2 <> Raise EQuant /\
  exists hits, saq_search stable_argsort demo_decode 2 (Some demo_full) 3 [1; 0]%Z demo_saq_codes 2 = Ok hits /\
    length hits = 2.
Proof.
  split; [vm_compute; discriminate|]. eexists. split; [vm_compute; reflexivity|reflexivity].
Qed.

Example C77_exact_nontrivial : exists hits,
  saq_search stable_argsort demo_decode 2 (Some demo_full) 4 [1; 0]%Z demo_saq_codes 2 = Ok hits /\ length hits = 2 /\
  exists exact, k_best exact (seq 0 4) 2 (map fst hits).
Proof.
  destruct (C77_answers stable_argsort demo_decode stable_argsort_ok 2 demo_full 4 [1; 0]%Z demo_saq_codes 2) as [hits E].
  - lia.
  - lia.
  - simpl. lia.
  - repeat constructor.
  - repeat (apply Forall_cons; [eexists; split; reflexivity|]). constructor.
  - exists hits. split; auto.
    destruct (C77_exact_search stable_argsort demo_decode stable_argsort_ok 2 demo_full 4 [1; 0]%Z demo_saq_codes 2 hits)
      as (exact & _ & Hb & _); auto; [simpl; lia|lia|].
    split; [|exists exact; exact Hb]. destruct Hb as (_ & _ & Hl & _). rewrite map_length in Hl. exact Hl.
Qed.

Print Assumptions C77_best_of_candidates.
Print Assumptions C77_exact_search.
Print Assumptions C77_answers.
