(** Properties C174 to C176: the benchmark script. *)

From Coq Require Import List Arith ZArith NArith Lia Bool Permutation.
From Coq Require String.
Import (notations) Coq.Strings.String.
From Verif Require Import PyBase BaseLemmas Payload StorageModel StorageSpec StorageRun
  StorageProofs StorageThms StorageOk Num ClientModel DbSpec ClientRun ClientProofs FlatModel FlatProofs
  IvfModel IvfProofs HnswModel HnswProofs XReal ScalarModel ProductModel FullClientModel
  BenchModel Demo DemoIndex PropsFlat PropsHnsw PropsIvf PropsFullClient.
Import ListNotations.

(** ** Specification *)

Section Spec.
  Context {F Mt Orc : Type} `{Num F} `{Payload (list F) Mt}.

  (** A measurement that can be made: at least one vector, all of the same dimension and finite,
      plain metadata, clocks that moved. *)
  Definition measurable (dim : nat) (orc_ok : Orc -> Prop) (r : bench F Mt Orc) : Prop :=
    bn_rows r <> [] /\
    Forall (fun v => length v = dim /\ forallb nfinite v = true) (bn_rows r) /\
    (forall l m, bn_meta r = Some l -> In m l -> meta_ok m) /\
    (forall i, orc_ok (bn_orc r i)) /\
    bn_insert_time r <> 0%Z /\ bn_search_time r <> 0%Z.

  (** The uuids of all measurements are different. *)
  Fixpoint uuids_new (used : list pystr) (runs : list (bench F Mt Orc)) : Prop :=
    match runs with
    | [] => True
    | r :: runs' =>
        fresh_ids (bn_fresh r) (length (bn_rows r)) used /\
        uuids_new (used ++ map (bn_fresh r) (seq 0 (length (bn_rows r)))) runs'
    end.

  (** The counts a backend leads to: with files ([p]) the vectors of all runs so far. *)
  Fixpoint counts (p : bool) (found : nat) (sizes : list nat) : list (result Z) :=
    match sizes with
    | [] => []
    | n :: sizes' =>
        Ok (Z.of_nat (found + n)) :: counts p (if p then found + n else 0) sizes'
    end.
End Spec.

(** ** One measurement *)

Section Generic.
  Context {X S F Mt Orc : Type} `{Payload (list F) Mt}.
  Context (C : storage_class S (list F) Mt) (IC : index_class X S F Mt Orc).
  Context (p b : bool) (sz : option (list F * option Mt -> N))
          (A : sstate (list F) Mt -> S -> Prop) (HC : storage_ok C p b sz A).
  Context (reinit : bool) (row_fits : list F -> Prop) (orc_ok : Orc -> Prop)
          (search_ok : list (entry (list F) Mt) -> list F -> Z -> cret F Mt -> Prop)
          (Iopen Iclosed : list (entry (list F) Mt) -> X -> Prop).
  Context (HI : index_ok IC A reinit row_fits orc_ok search_ok Iopen Iclosed).
  Notation R := (Rcl A row_fits Iopen Iclosed).
  Notation step := (Rcl_step C IC p b sz A HC reinit row_fits orc_ok search_ok Iopen Iclosed HI).

  Lemma searches_ok (r : bench F Mt Orc) q d :
    (forall i, orc_ok (bn_orc r i)) -> s_open d = true ->
    (forall a, search_ok (s_recs d) q 10 a -> exists hits, a = AHits hits) ->
    forall l c, R d c ->
    exists c', forM l (fun i => bind (cl_search IC (bn_orc r i) (Vec q) 10) (fun _ => ret tt)) c = (Ok tt, c') /\
               R d c'.
  Proof.
    intros Ho Hd Hs. induction l as [|i l IH]; intros c Hc; [exists c; auto|].
    cbn [forM]. pose proof (step d c (CSearch (bn_orc r i) (Vec q) 10) Hc (Ho i)) as Hst.
    cbn [cl_step db_next] in Hst.
    destruct (cl_search IC (bn_orc r i) (Vec q) 10 c) as [[hits|e] c1] eqn:E; cbn [cobs] in Hst;
      destruct Hst as [Ha HR]; simpl in Ha; rewrite Hd in Ha.
    - destruct (IH c1 HR) as (c' & E' & HR'). exists c'. unfold bind at 1 2. rewrite E. simpl. auto.
    - destruct (Hs _ Ha) as (hits & Eh). discriminate.
  Qed.

  Lemma bench_ok (r : bench F Mt Orc) d c :
    R d c -> s_open d = false ->
    let found := if p then s_recs d else [] in
    bn_rows r <> [] -> Forall row_fits (bn_rows r) ->
    (forall l m, bn_meta r = Some l -> In m l -> meta_ok m) ->
    (forall i, orc_ok (bn_orc r i)) ->
    bn_insert_time r <> 0%Z -> bn_search_time r <> 0%Z ->
    fresh_ids (bn_fresh r) (length (bn_rows r)) (map fst found) ->
    (forall recs q a, fit_recs row_fits recs -> row_fits q -> search_ok recs q 10 a ->
       exists hits, a = AHits hits) ->
    exists c', bench_client C IC r c = (Ok (Z.of_nat (length found + length (bn_rows r))), c') /\
      R (MkS false (if p then found ++ batch_recs (bn_fresh r) (bn_rows r) (bn_meta r) else [])) c'.
  Proof.
    intros HR Hcl found Hrows Hfit Hm Ho Ht1 Ht2 Hfr Hs.
    unfold bench_client.
    (* initialise *)
    pose proof (step d c (CInit (bn_orc r 0) []) HR (conj (Ho 0) (fun _ => conj Hcl eq_refl))) as Hst.
    cbn [cl_step] in Hst. destruct (cl_initialize C IC (bn_orc r 0) [] c) as [[[]|e] c1] eqn:E1;
      cbn [cobs] in Hst; destruct Hst as [Ha HR1]; simpl in Ha; [|discriminate]. clear Ha.
    cbn [db_next first_exn] in HR1. fold found in HR1.
    unfold bind at 1. rewrite E1.
    (* insert *)
    pose proof (step _ c1 (CInsert (bn_orc r 0) (bn_fresh r) (Mat (bn_rows r)) (bn_meta r)) HR1
                  (conj (Ho 0) (fun _ => conj Hfr (conj Hfit Hm)))) as Hst.
    cbn [cl_step] in Hst.
    destruct (cl_insert IC (bn_orc r 0) (bn_fresh r) (Mat (bn_rows r)) (bn_meta r) c1) as [[ids|e] c2] eqn:E2;
      cbn [cobs] in Hst; destruct Hst as [Ha HR2]; simpl in Ha; [|discriminate]. clear Ha.
    cbn [db_next s_open s_recs] in HR2. set (all := found ++ _) in HR2.
    unfold bind at 1. rewrite E2.
    (* query *)
    destruct (bn_rows r) as [|q rest] eqn:Erows; [contradiction|].
    cbn [first_row]. unfold bind at 1, ret at 1.
    destruct (searches_ok r q (MkS true all) Ho eq_refl) with (l := seq 1 100) (c := c2)
      as (c3 & E3 & HR3); auto.
    { intros a. apply Hs; [apply HR2|]. now inversion Hfit. }
    unfold bench_searches. unfold bind at 1. rewrite E3.
    (* report *)
    pose proof (step _ c3 CStats HR3 I) as Hst. cbn [cl_step] in Hst.
    destruct (cl_stats C IC c3) as [[st|e] c4] eqn:E4; cbn [cobs] in Hst; destruct Hst as [Ha HR4];
      simpl in Ha; [|discriminate]. injection Ha as Hcount _. cbn [db_next] in HR4.
    unfold bind at 1. rewrite E4. unfold per.
    apply Z.eqb_neq in Ht1, Ht2. rewrite Ht1, Ht2. unfold bind at 1 2, ret at 1 2.
    rewrite Hcount. unfold bind at 1, ret at 1.
    (* close *)
    pose proof (step _ c4 (CClose []) HR4 I) as Hst. cbn [cl_step] in Hst.
    destruct (cl_close C IC [] c4) as [[[]|e] c5] eqn:E5; cbn [cobs] in Hst; destruct Hst as [Ha HR5];
      simpl in Ha; [|discriminate]. clear Ha. cbn [db_next first_exn s_recs] in HR5.
    unfold bind at 1. rewrite E5. exists c5. split; [|exact HR5].
    unfold ret. do 3 f_equal. unfold all. rewrite app_length. f_equal.
    unfold batch_recs. rewrite map_length, combine_length, seq_length. apply Nat.min_id.
  Qed.

  Lemma bench_again_ok (runs : list (bench F Mt Orc)) : forall d c used,
    R d c -> s_open d = false ->
    (forall r, In r runs ->
       bn_rows r <> [] /\ Forall row_fits (bn_rows r) /\
       (forall l m, bn_meta r = Some l -> In m l -> meta_ok m) /\
       (forall i, orc_ok (bn_orc r i)) /\ bn_insert_time r <> 0%Z /\ bn_search_time r <> 0%Z) ->
    incl (map fst (if p then s_recs d else [])) used ->
    uuids_new used runs ->
    (forall recs q a, fit_recs row_fits recs -> row_fits q -> search_ok recs q 10 a ->
       exists hits, a = AHits hits) ->
    bench_again C IC runs c =
    counts p (length (if p then s_recs d else [])) (map (fun r => length (bn_rows r)) runs).
  Proof.
    induction runs as [|r runs IH]; intros d c used HR Hcl Hruns Hincl Hnew Hs; [reflexivity|].
    destruct (Hruns r (or_introl eq_refl)) as (H1 & H2 & H3 & H4 & H5 & H6).
    destruct Hnew as [Hfr Hnew].
    assert (Hfr' : fresh_ids (bn_fresh r) (length (bn_rows r)) (map fst (if p then s_recs d else []))).
    { destruct Hfr as [Hi Hf]. split; auto. intros i Hlt. destruct (Hf i Hlt). split; auto. }
    destruct (bench_ok r d c HR Hcl H1 H2 H3 H4 H5 H6 Hfr' Hs) as (c1 & E1 & HR1).
    cbn [bench_again map counts]. rewrite E1. f_equal.
    pose proof (step _ c1 CReopen HR1 I) as Hst. cbn [cl_step] in Hst. destruct Hst as [_ HR2].
    cbn [db_next s_recs] in HR2.
    rewrite (IH _ _ (used ++ map (bn_fresh r) (seq 0 (length (bn_rows r)))) HR2 eq_refl); auto.
    - f_equal. cbn [s_recs]. destruct p; [|reflexivity]. rewrite app_length. f_equal.
      unfold batch_recs. rewrite map_length, combine_length, seq_length. apply Nat.min_id.
    - intros r' Hr'. apply Hruns. now right.
    - cbn [s_recs]. destruct p; [|intros x []]. rewrite map_app. apply incl_app.
      + intros x Hx. apply in_or_app. left. now apply Hincl.
      + intros x Hx. apply in_or_app. right. unfold batch_recs in Hx. rewrite map_map in Hx.
        apply in_map_iff in Hx as ([i row] & <- & Hin). simpl. apply in_map.
        now apply in_combine_l in Hin.
  Qed.
End Generic.

(** ** C174: the vector counts of the storage comparison *)

Section Storage.
  Context {F Mt S : Type} `{Num F} `{!NumOrder F} `{Payload (list F) Mt} `{Unicode}.

  Notation same_dim dim := (fun v : list F => length v = dim /\ forallb nfinite v = true).

  Lemma flat_index_ok_dim (C : storage_class S (list F) Mt) mt p b sz A (HC : storage_ok C p b sz A) dim :
    index_ok (flat_class C mt) A true (same_dim dim) argsort_ok (flat_ok mt) fopen fcoh.
  Proof.
    destruct (flat_index_ok C mt p b sz A HC true) as [i1 i2 i3 i4 i5 i6 i7 i8 i9 i10].
    assert (HT : forall recs, fit_recs (F := F) (Mt := Mt) (fun _ => True) recs).
    { intros recs. unfold fit_recs. rewrite Forall_forall. auto. }
    constructor; [exact i1|exact i2|exact i3| | | | | |exact i9|exact i10].
    - intros o recs x s Ho _. apply i4; auto.
    - intros o fresh arr meta recs x s _ Ho HA'.
      specialize (i5 o fresh arr meta recs x s (HT recs) Ho HA').
      destruct arr; auto. intros H2' H3 _ H4. apply i5; auto. rewrite Forall_forall. auto.
    - intros o q' k' recs x s Ho _. apply i6; auto.
    - intros ids recs x s _. apply i7; auto.
    - intros o id v m recs x s Ho _ Hx HA' _ Hm. apply i8; auto.
  Qed.

  Lemma flat_finds mt dim recs q k a : mt = MCosine \/ mt = MEuclidean -> 0 < dim ->
    fit_recs (Mt := Mt) (same_dim dim) recs -> same_dim dim q -> flat_ok mt recs q k a ->
    exists hits, a = AHits hits.
  Proof.
    intros Hmt Hd Hfr [Hq Hqf] Ha.
    assert (searchable recs q = true) as Hs.
    { unfold searchable. rewrite !andb_true_iff. repeat split; auto.
      - destruct (Nat.eqb_spec (length q) 0); simpl; auto. lia.
      - rewrite forallb_forall. intros e He. unfold fit_recs in Hfr. rewrite Forall_forall in Hfr.
        destruct (Hfr e He) as [E1 E2]. rewrite E1, Hq, Nat.eqb_refl. exact E2. }
    unfold flat_ok in Ha. rewrite Hs in Ha. destruct recs as [|e recs]; [eauto|].
    destruct Hmt as [-> | ->]; destruct Ha as (hits & -> & _); eauto.
  Qed.

  (** C174, the part that holds: the script is run as often as one likes over a backend of the
      library that started empty, with vectors of one dimension.  No run fails, and the count a
      run reports is the number of its vectors over the in-memory backend, and the number of the
      vectors of all runs so far over the two backends with files.  Missing (refuted below): that
      the count is always the number of vectors of the run. *)
  Theorem C174_reported_counts_partial (C : storage_class S (list F) Mt) s0 p dim runs :
    library_backend C s0 p -> 0 < dim ->
    Forall (measurable dim argsort_ok) runs -> uuids_new [] runs ->
    bench_again C (flat_class C MCosine) runs (cl_new (flat_class C MCosine) s0) =
    counts p 0 (map (fun r => length (bn_rows r)) runs).
  Proof.
    intros HB Hd Hruns Hnew. destruct (library_ok C s0 p HB) as (b & sz & A & HC & HA).
    pose proof (flat_index_ok_dim C MCosine p b sz A HC dim) as HI.
    rewrite Forall_forall in Hruns.
    rewrite (bench_again_ok C _ p b sz A HC true _ argsort_ok _ _ _ HI runs (MkS false []) _ []).
    - destruct p; reflexivity.
    - split; simpl; auto. split; [constructor|]. split; [exists false; split; auto|].
      exact (io_new _ _ _ _ _ _ _ _ HI []).
    - reflexivity.
    - intros r Hr. apply (Hruns r Hr).
    - destruct p; intros x [].
    - exact Hnew.
    - intros recs q a. apply flat_finds; auto.
  Qed.
End Storage.

(** ** C176: the comparison of indexes *)

Section Indexes.
  Context {F Mt : Type} `{Num F} `{!NumOrder F} `{Payload (list F) Mt} `{Unicode}.
  Notation C := (mem_class (V := list F) (Mt := Mt)).

  (** Whatever has been done, a closed in-memory backend is as new. *)
  Lemma bench_leaves_new {X Orc} (IC : index_class X (mem (list F) Mt) F Mt Orc) r s n s' :
    bench_index C IC r s = (Ok n, s') -> s' = mem_new.
  Proof.
    unfold bench_index. destruct (bench_client C IC r (cl_new IC s)) as [a c] eqn:E.
    intros E'. injection E' as -> <-. revert E. unfold bench_client.
    generalize (cl_new IC s). intros c0.
    unfold bind at 1. destruct (cl_initialize _ _ _ _ c0) as [[[]|e] c1]; [|discriminate].
    unfold bind at 1. destruct (cl_insert _ _ _ _ _ c1) as [[ids|e] c2]; [|discriminate].
    unfold bind at 1. destruct (first_row _ c2) as [[q|e] c3]; [|discriminate].
    unfold bind at 1. destruct (bench_searches _ _ _ c3) as [[[]|e] c4]; [|discriminate].
    unfold bind at 1. destruct (cl_stats _ _ c4) as [[st|e] c5]; [|discriminate].
    unfold bind at 1. destruct (per _ c5) as [[[]|e] c6]; [|discriminate].
    unfold bind at 1. destruct (per _ c6) as [[[]|e] c7]; [|discriminate].
    destruct (fst st) as [k|]; [|discriminate]. unfold bind at 1, ret at 1.
    unfold bind at 1. unfold cl_close. cbn [forM].
    unfold bind at 1, ret at 1. unfold bind at 1.
    destruct (on_index (ix_close IC) c7) as [[[]|e] c9]; [|discriminate].
    unfold bind, on_storage, zoom. simpl. intros E. injection E as <- <-. reflexivity.
  Qed.

  Lemma bench_index_ok {X Orc} (IC : index_class X (mem (list F) Mt) F Mt Orc)
      reinit row_fits (orc_ok : Orc -> Prop) search_ok (Iopen Iclosed : list (entry (list F) Mt) -> X -> Prop) r :
    (forall b sz A, storage_ok C false b sz A ->
       index_ok IC A reinit row_fits orc_ok search_ok Iopen Iclosed) ->
    bn_rows r <> [] -> Forall row_fits (bn_rows r) ->
    (forall l m, bn_meta r = Some l -> In m l -> meta_ok m) ->
    (forall i, orc_ok (bn_orc r i)) ->
    bn_insert_time r <> 0%Z -> bn_search_time r <> 0%Z ->
    fresh_ids (bn_fresh r) (length (bn_rows r)) [] ->
    (forall recs q a, fit_recs row_fits recs -> row_fits q -> search_ok recs q 10%Z a ->
       exists hits, a = AHits hits) ->
    bench_index C IC r mem_new = (Ok (Z.of_nat (length (bn_rows r))), mem_new).
  Proof.
    intros HI' H3 H4 H5 H6 H7 H8 Hfr Hs.
    destruct (library_ok _ mem_new false (lb_memory (V := list F) (Mt := Mt))) as (b & sz & A & HC & HA).
    pose proof (HI' b sz A HC) as HI.
    destruct (bench_ok C IC false b sz A HC reinit row_fits orc_ok search_ok Iopen Iclosed HI r
                (MkS false []) (cl_new IC mem_new)) as (c' & E & _); auto.
    { split; simpl; auto. split; [constructor|]. split; [exists false; split; auto|].
      exact (io_new _ _ _ _ _ _ _ _ HI []). }
    assert (E2 : bench_index C IC r mem_new = (Ok (Z.of_nat (length (bn_rows r))), c_storage c')).
    { unfold bench_index. rewrite E. reflexivity. }
    rewrite E2. f_equal. exact (bench_leaves_new IC r mem_new _ _ E2).
  Qed.

  (** C176: the three indexes are measured over the same number of vectors: the backend they share
      is as new at the start of each round, whatever the parameters; each reports the vectors of
      its own round. *)
  Theorem C176_indexes_measured_alike dim m ef nc np r1 r2 r3 :
    0 < dim -> (0 <= m)%Z -> (1 <= nc)%Z ->
    measurable dim argsort_ok r1 -> measurable dim sample_ok r2 -> measurable dim kmeans_ok r3 ->
    uuids_new [] [r1] -> uuids_new [] [r2] -> uuids_new [] [r3] ->
    bench_indexes C (flat_class C MCosine) (hnsw_class C m ef MCosine) (ivf_class C nc np MCosine)
      r1 r2 r3 mem_new =
    (Ok [Z.of_nat (length (bn_rows r1)); Z.of_nat (length (bn_rows r2)); Z.of_nat (length (bn_rows r3))],
     mem_new).
  Proof.
    intros Hd Hm Hn (A1 & A2 & A3 & A4 & A5 & A6) (B1 & B2 & B3 & B4 & B5 & B6)
      (D1 & D2 & D3 & D4 & D5 & D6) [F1 _] [F2 _] [F3 _].
    unfold bench_indexes. unfold bind at 1.
    rewrite (bench_index_ok (flat_class C MCosine) true _ argsort_ok (flat_ok MCosine) fopen fcoh r1
               (fun b sz A HC => flat_index_ok_dim C MCosine false b sz A HC dim)); auto.
    2:{ intros recs q a. apply flat_finds; auto. }
    unfold bind at 1.
    rewrite (bench_index_ok (hnsw_class C m ef MCosine) false
               (fun v : list F => length v = dim /\ forallb nfinite v = true) sample_ok
               (hnsw_ok MCosine) hopen hclosed r2
               (fun b sz A HC => hnsw_index_ok C m ef MCosine false b sz A HC Hm _)); auto.
    2:{ intros recs q a Hf [Hq _] Ha. unfold hnsw_ok in Ha. destruct a; try contradiction; eauto. exfalso.
        destruct Ha as (_ & id & v & mm & e' & Hin & Ed).
        unfold fit_recs in Hf. rewrite Forall_forall in Hf. destruct (Hf _ Hin) as [Hv _]. simpl in Hv.
        rewrite pair_distance_true in Ed by congruence. discriminate. }
    unfold bind at 1.
    rewrite (bench_index_ok (ivf_class C nc np MCosine) false (dim_ok dim) kmeans_ok
               (ivf_ok MCosine dim) (iopen nc dim) iclosed r3
               (fun b sz A HC => ivf_index_ok C nc np MCosine dim false b sz A HC Hn ltac:(discriminate) Hd)); auto.
    intros recs q a Hf [Hq _] Ha. destruct a; simpl in Ha; try contradiction; eauto.
    destruct Ha as [_ Ha]. congruence.
  Qed.
End Indexes.

(** ** C175: the comparison of quantizers *)

Section Quantizers.
  Context {X S F Mt Orc P : Type} `{Num F}.
  Context (C : storage_class S (list F) Mt) (IC : index_class X S F Mt Orc) (CP : component P).

  (** A round gets as far as the ratio only when every call before it answered; the quantizer has
      by then been initialised and nothing else, so there is no ratio. *)
  Lemma round_fails {Q} (CQ : component Q) (ratio : Q -> option Z) (bad : Q -> Prop) q0 r query w :
    bad q0 -> (forall q, bad q -> ratio q = None) ->
    (forall ops (c : fclient X S Q P) q, fc_quant c = Some q -> bad q ->
       exists q', fc_quant (snd (fl_run C IC CQ CP c ops)) = Some q' /\ bad q') ->
    exists e, fst (bench_round C IC CP CQ ratio q0 r query w) = Raise e.
  Proof.
    intros Hq0 Hratio Hkeep. unfold bench_round.
    set (still := fun c : fclient X S Q P => exists q, fc_quant c = Some q /\ bad q).
    assert (H1 : forall o c, still c -> still (snd (fl_step C IC CQ CP c o))).
    { intros o c (q & E & B). destruct (Hkeep [o] c q E B) as (q' & E' & B'). exists q'. split; auto.
      revert E'. cbn [fl_run]. destruct (fl_step C IC CQ CP c o). auto. }
    assert (H0 : still (MkFull (fst w) (snd w) (Some q0) None false)) by (exists q0; auto).
    revert H0. generalize (MkFull (P := P) (fst w) (snd w) (Some q0) None false). intros c0 H0.
    destruct (bench_quantizer C IC CP CQ ratio r query c0) as [a c'] eqn:E. simpl.
    revert E. unfold bench_quantizer, bind at 1.
    pose proof (H1 (CInit (bn_orc r 0) []) c0 H0) as S1. cbn [fl_step] in S1.
    destruct (fl_initialize C IC CQ CP (bn_orc r 0) c0) as [[[]|e] c1]; cbn [fobs snd] in S1;
      [|intros E; injection E as <- _; eauto].
    unfold bind at 1.
    pose proof (H1 (CInsert (bn_orc r 0) (bn_fresh r) (Mat (bn_rows r)) (bn_meta r)) c1 S1) as S2.
    cbn [fl_step] in S2.
    destruct (fl_insert IC (bn_orc r 0) (bn_fresh r) (Mat (bn_rows r)) (bn_meta r) c1) as [[ids|e] c2];
      cbn [fobs snd] in S2; [|intros E; injection E as <- _; eauto].
    unfold bind at 1.
    assert (Hsearch : forall l c, still c ->
      still (snd (forM l (fun i => bind (fl_search IC (bn_orc r i) (Vec query) 10) (fun _ => ret tt)) c))).
    { induction l as [|i l IH]; intros c Hc; [exact Hc|]. cbn [forM]. unfold bind at 1 2.
      pose proof (H1 (CSearch (bn_orc r i) (Vec query) 10%Z) c Hc) as Sc. cbn [fl_step] in Sc.
      destruct (fl_search IC (bn_orc r i) (Vec query) 10 c) as [[h|e] c'']; cbn [fobs snd ret] in *; auto. }
    specialize (Hsearch (seq 1 100) c2 S2).
    destruct (forM (seq 1 100) _ c2) as [[[]|e] c3]; cbn [snd] in Hsearch;
      [|intros E; injection E as <- _; eauto].
    unfold bind at 1. pose proof (H1 CStats c3 Hsearch) as S4. cbn [fl_step] in S4.
    destruct (fl_stats C IC CQ CP c3) as [[st|e] c4]; cbn [fobs snd] in S4;
      [|intros E; injection E as <- _; eauto].
    unfold bind at 1, get. destruct S4 as (q & -> & B). rewrite (Hratio q B).
    unfold bind at 1, raise. intros E. injection E as <- _. eauto.
  Qed.

  (** No comparison of quantizers ever completes, whatever the backend, the index, the vectors and
      the product quantizer would report: the first quantizer at the latest ends it. *)
  Theorem C175_never_completes r x w : exists e, fst (bench_quantization C IC CP r x w) = Raise e.
  Proof.
    unfold bench_quantization, bind at 1. destruct (bench_baseline C IC (r 0) w) as [[[]|e] w1]; [|simpl; eauto].
    unfold bind at 1. destruct (first_row (bn_rows (r 0)) w1) as [[q|e] w2]; [|simpl; eauto].
    unfold bind at 1.
    destruct (round_fails scalar_component (scalar_ratio 4) (fun s => sq_trained s = false) scalar_new
                (r 1) q w2) as (e & E); auto.
    - intros s Hs. unfold scalar_ratio. rewrite Hs. now destruct (negb (sq_init s)).
    - intros ops c s Es Hs. destruct (C125_scalar_untrained_partial C IC CP ops c s Es Hs) as (q' & ? & ? & _).
      eauto.
    - destruct (bench_round C IC CP scalar_component (scalar_ratio 4) scalar_new (r 1) q w2) as [a w3].
      simpl in E. subst a. simpl. eauto.
  Qed.

  (** ... nor would it with any one of the other quantizers alone. *)
  Theorem C175_every_round_fails bits x r query w :
    (exists e, fst (bench_round C IC CP scalar_component (scalar_ratio bits) scalar_new r query w) = Raise e) /\
    (exists e, fst (bench_round C IC CP (product_component (F := F)) (product_ratio x) product_new r query w) = Raise e).
  Proof.
    split.
    - apply (round_fails scalar_component (scalar_ratio bits) (fun s => sq_trained s = false)); auto.
      + intros s Hs. unfold scalar_ratio. rewrite Hs. now destruct (negb (sq_init s)).
      + intros ops c s Es Hs. destruct (C125_scalar_untrained_partial C IC CP ops c s Es Hs) as (q' & ? & ? & _).
        eauto.
    - apply (round_fails product_component (product_ratio x) (fun s => pq_trained s = false)); auto.
      + intros s Hs. unfold product_ratio. rewrite Hs. now destruct (negb (pq_init s)).
      + intros ops c s Es Hs. destruct (C125_product_untrained_partial C IC CP ops c s Es Hs) as (q' & ? & ? & _).
        eauto.
  Qed.

  (** The script therefore never writes its results file and never comes to its summary. *)
  Theorem C175_no_results_file {W} (before after : M W unit) r x report s :
    (exists e, fst (run_benchmarks C IC CP before after r x report s) = Raise e) /\
    snd (snd (run_benchmarks C IC CP before after r x report s)) = snd s.
  Proof.
    assert (Hrun : exists e s', run_benchmarks C IC CP before after r x report s = (Raise e, s') /\
                                snd s' = snd s).
    { destruct s as [[w db] files]. unfold run_benchmarks, run_all, bind, zoom. cbn [fst snd].
      destruct (before w) as [[[]|e] w1]; [|eauto]. cbn [fst snd].
      destruct (C175_never_completes r x db) as (e & E).
      destruct (bench_quantization C IC CP r x db) as [a db']. simpl in E. subst a. eauto. }
    destruct Hrun as (e & s' & -> & E). simpl. eauto.
  Qed.

  (** It is the only obstacle: with a comparison of quantizers that answers, and the others
      answering, one file is written. *)
  Theorem C175_only_obstacle {W} (before after : M W unit) quantization report w w1 w2 db db' a files :
    before w = (Ok tt, w1) -> quantization db = (Ok a, db') -> after w1 = (Ok tt, w2) ->
    run_all (X := X) (S := S) before after quantization report (w, db, files) =
    (Ok tt, (w2, db', files ++ [report])).
  Proof.
    intros E1 E2 E3. unfold run_all, bind, zoom. cbn [fst snd]. rewrite E1. cbn [fst snd].
    rewrite E2. cbn [fst snd]. rewrite E3. reflexivity.
  Qed.
End Quantizers.

(** ** Concrete cases *)

(** Two vectors of two numbers, uuids that start with the given letter. *)
Definition demo_bench (letter : N) : bench Z Z (list Z -> list nat) :=
  MkBench [[3; 4]; [1; 0]]%Z (Some [Some 7; None]%Z) (demo_ids letter) (fun _ => stable_argsort) 5%Z 6%Z.

(** Three vectors of one number. *)
Definition demo_bench_other : bench Z Z (list Z -> list nat) :=
  MkBench [[3]; [1]; [2]]%Z None (demo_ids 100) (fun _ => stable_argsort) 5%Z 6%Z.

Lemma demo_fresh c n used : (97 <= c <= 102)%N ->
  (forall i, i < n -> ~ In (demo_ids c i) used) -> fresh_ids (demo_ids c) n used.
Proof.
  intros Hc Hu. split.
  - intros i j _ _. apply demo_ids_inj.
  - intros i Hi. split; [now apply demo_ids_uuid|auto].
Qed.

Lemma demo_bench_measurable {Orc} (orc_ok : Orc -> Prop) o c : orc_ok o ->
  measurable 2 orc_ok (MkBench [[3; 4]; [1; 0]]%Z (Some [Some 7; None]%Z) (demo_ids c) (fun _ => o) 5%Z 6%Z).
Proof.
  intros Ho. split; [discriminate|]. split; [repeat constructor|]. split.
  - intros l m E Hin. injection E as <-. destruct Hin as [<-|[<-|[]]]; split; simpl; auto.
  - split; [intros i; exact Ho|]. split; discriminate.
Qed.

Example C174_hypotheses_met :
  Forall (measurable 2 argsort_ok) [demo_bench 97; demo_bench 98; demo_bench 99] /\
  uuids_new [] [demo_bench 97; demo_bench 98; demo_bench 99].
Proof.
  split.
  - repeat (constructor; [apply demo_bench_measurable, stable_argsort_ok|]). constructor.
  - cbn [uuids_new]. split; [|split; [|split; [|exact I]]]; apply demo_fresh; try lia; intros i Hi Hin;
      simpl in Hin; repeat destruct Hin as [Hin|Hin]; try discriminate; auto.
Qed.

Example C174_run :
  bench_again mem_class (flat_class mem_class MCosine) [demo_bench 97; demo_bench 98; demo_bench 99]
    (cl_new (flat_class mem_class MCosine) mem_new) = [Ok 2; Ok 2; Ok 2]%Z /\
  bench_again (disk_class demo_order) (flat_class (disk_class demo_order) MCosine)
    [demo_bench 97; demo_bench 98; demo_bench 99]
    (cl_new (flat_class (disk_class demo_order) MCosine) (disk_new [] [])) = [Ok 2; Ok 4; Ok 6]%Z.
Proof. split; vm_compute; reflexivity. Qed.

(** C174, refuted: the directory of the disk backend is never emptied, so the second run reports
    twice its vectors (and measures searches among twice as many as over the in-memory backend). *)
Theorem C174_second_run_refuted :
  exists runs : list (bench Z Z (list Z -> list nat)),
    Forall (measurable 2 argsort_ok) runs /\ uuids_new [] runs /\
    Forall (fun r => length (bn_rows r) = 2) runs /\
    bench_again (disk_class demo_order) (flat_class (disk_class demo_order) MCosine) runs
      (cl_new (flat_class (disk_class demo_order) MCosine) (disk_new [] [])) <>
    map (fun r => Ok (Z.of_nat (length (bn_rows r)))) runs.
Proof.
  exists [demo_bench 97; demo_bench 98; demo_bench 99].
  split; [apply C174_hypotheses_met|]. split; [apply C174_hypotheses_met|].
  split; [repeat constructor|]. vm_compute. discriminate.
Qed.

(** C174, refuted: run again with another dimension, the script fails in its first search over the
    disk backend, which still holds the vectors of the run before. *)
Theorem C174_other_dimension_refuted :
  exists r1 r2 : bench Z Z (list Z -> list nat),
    measurable 2 argsort_ok r1 /\ measurable 1 argsort_ok r2 /\ uuids_new [] [r1; r2] /\
    bench_again (disk_class demo_order) (flat_class (disk_class demo_order) MCosine) [r1; r2]
      (cl_new (flat_class (disk_class demo_order) MCosine) (disk_new [] [])) = [Ok 2%Z; Raise EIndex].
Proof.
  exists (demo_bench 97), demo_bench_other.
  split; [apply demo_bench_measurable, stable_argsort_ok|]. split.
  { split; [discriminate|]. split; [repeat constructor|]. split; [discriminate|].
    split; [intros i; apply stable_argsort_ok|]. split; discriminate. }
  split; [|vm_compute; reflexivity].
  cbn [uuids_new]. split; [|split; [|exact I]]; apply demo_fresh; try lia; intros i Hi Hin;
    simpl in Hin; repeat destruct Hin as [Hin|Hin]; try discriminate; auto.
Qed.

(** C174, refuted: when the clock shows the same time before and after, a rate divides by zero. *)
Theorem C174_still_clock_refuted :
  exists r : bench Z Z (list Z -> list nat),
    bn_insert_time r = 0%Z /\ bn_rows r <> [] /\
    fst (bench_client mem_class (flat_class mem_class MCosine) r
           (cl_new (flat_class mem_class MCosine) mem_new)) = Raise EZeroDiv.
Proof.
  exists (MkBench [[3; 4]]%Z None (demo_ids 97) (fun _ => stable_argsort) 0%Z 6%Z).
  split; [reflexivity|]. split; [discriminate|]. vm_compute. reflexivity.
Qed.

(** C175, refuted: over a new in-memory backend the baseline is measured, and then the report of the
    first quantizer has no compression ratio: KeyError. *)
Theorem C175_missing_ratio_refuted :
  exists r : nat -> bench Z Z (list Z -> list nat),
    (forall i, measurable 2 argsort_ok (r i)) /\
    fst (bench_baseline mem_class (flat_class mem_class MCosine) (r 0) (flat_new, mem_new)) = Ok tt /\
    fst (bench_quantization mem_class (flat_class mem_class MCosine) scalar_component r 0
           (flat_new, mem_new)) = Raise EKey.
Proof.
  exists (fun _ => demo_bench 97). split; [intros i; apply demo_bench_measurable, stable_argsort_ok|].
  split; vm_compute; reflexivity.
Qed.

(** A comparison that answers: the baseline and nothing else. *)
Example C175_obstacle_removed :
  fst (run_all (W := unit) (ret tt) (ret tt)
         (bind (bench_baseline mem_class (flat_class mem_class MCosine) (demo_bench 97)) (fun _ => ret [1000%Z]))
         [7%Z] (tt, (flat_new, mem_new), [])) = Ok tt.
Proof. vm_compute. reflexivity. Qed.

(** A report does have a ratio after training: the model does not rule it out by definition. *)
Example C175_trained_has_ratio :
  scalar_ratio 8 (mkScalarq (Some 2) None None None true true) = Some 4000%Z.
Proof. reflexivity. Qed.

(** The hypotheses of C176 are met, and the rounds go as it says: the clusters are trained in the
    third round (one cluster), the graph has two levels. *)
Definition demo_round2 : bench Z Z hnsw_rand :=
  MkBench [[3; 4]; [1; 0]]%Z (Some [Some 7; None]%Z) (demo_ids 97) (fun _ => first_high) 5%Z 6%Z.
Definition demo_round3 : bench Z Z (kmeans_fn Z) :=
  MkBench [[3; 4]; [1; 0]]%Z (Some [Some 7; None]%Z) (demo_ids 97) (fun _ => demo_kmeans) 5%Z 6%Z.

Example C176_hypotheses_met :
  measurable 2 argsort_ok (demo_bench 97) /\ measurable 2 sample_ok demo_round2 /\
  measurable 2 kmeans_ok demo_round3 /\ uuids_new [] [demo_bench 97] /\
  uuids_new [] [demo_round2] /\ uuids_new [] [demo_round3].
Proof.
  split; [apply demo_bench_measurable, stable_argsort_ok|].
  split; [apply demo_bench_measurable, demo_rand_ok|].
  split; [apply demo_bench_measurable, demo_kmeans_ok|].
  cbn [uuids_new]. repeat (split; auto); try (intros; now apply demo_ids_inj in H1);
    try (apply demo_fresh; [lia|auto]); try discriminate; try (apply demo_ids_uuid; lia).
  all: try (apply demo_ids_inj with (c := 97%N); assumption).
Qed.

Example C176_run :
  fst (bench_indexes mem_class (flat_class mem_class MCosine) (hnsw_class mem_class 16 200 MCosine)
         (ivf_class mem_class 1 10 MCosine) (demo_bench 97) demo_round2 demo_round3 mem_new) =
  Ok [2; 2; 2]%Z.
Proof. vm_compute. reflexivity. Qed.

Print Assumptions C174_reported_counts_partial.
Print Assumptions C174_second_run_refuted.
Print Assumptions C174_other_dimension_refuted.
Print Assumptions C174_still_clock_refuted.
Print Assumptions C175_never_completes.
Print Assumptions C175_every_round_fails.
Print Assumptions C175_no_results_file.
Print Assumptions C175_only_obstacle.
Print Assumptions C175_missing_ratio_refuted.
Print Assumptions C176_indexes_measured_alike.
