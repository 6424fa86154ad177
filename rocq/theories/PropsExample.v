(** Properties C177 and C178: two example programs. *)

From Coq Require Import List Arith ZArith NArith Lia Bool.
From Coq Require String.
Import (notations) Coq.Strings.String.
From Verif Require Import PyBase BaseLemmas Payload StorageModel StorageSpec StorageRun
  StorageProofs StorageThms StorageOk Num ClientModel DbSpec ClientRun ClientProofs FlatModel FlatProofs
  XReal ScalarModel ProductModel FullClientModel BenchModel ExampleModel
  Demo DemoIndex PropsFlat PropsFullClient PropsBench.
Import ListNotations.

(** ** C177: basic_usage.py *)

Section Lists.
  Context {F Mt : Type}.
  Implicit Types recs : list (entry (list F) Mt).

  Lemma sp_del_absent id recs : ~ In id (map fst recs) -> sp_del id recs = recs.
  Proof.
    unfold sp_del. induction recs as [|e recs IH]; simpl; auto. intros Hn.
    destruct (eqb_spec id (fst e)) as [->|Hne]; [exfalso; auto|]. simpl. f_equal. auto.
  Qed.

  Lemma del_first k : forall recs, NoDup (map fst recs) ->
    del_recs (firstn k (map fst recs)) recs = skipn k recs /\
    del_ans (firstn k (map fst recs)) recs = true.
  Proof.
    induction k as [|k IH]; intros recs Hnd; [auto|]. destruct recs as [|[id x] recs]; [auto|].
    simpl in Hnd. inversion Hnd as [|? ? Hn Hnd']; subst.
    assert (E : sp_del id ((id, x) :: recs) = recs).
    { unfold sp_del. simpl. rewrite eqb_refl. simpl. now apply sp_del_absent. }
    cbn [map firstn skipn fst]. unfold del_recs. cbn [fold_left del_ans sp_find].
    rewrite E, eqb_refl. destruct (IH recs Hnd') as [E1 E2]. split; auto.
  Qed.

  Lemma put_first id x y recs : ~ In id (map fst recs) ->
    sp_put id y ((id, x) :: recs) = (id, y) :: recs.
  Proof.
    intros Hn. unfold sp_put. simpl. rewrite eqb_refl. f_equal.
    induction recs as [|e recs IH]; simpl; auto. simpl in Hn.
    destruct (eqb_spec id (fst e)) as [->|Hne]; [exfalso; auto|]. f_equal. auto.
  Qed.

  Lemma batch_keys fresh (rows : list (list F)) (meta : option (list (option Mt))) :
    map fst (batch_recs fresh rows meta) = map fresh (seq 0 (length rows)).
  Proof.
    unfold batch_recs. rewrite map_map. generalize 0. induction rows as [|r rows IH]; intros n; simpl; auto.
    f_equal. apply IH.
  Qed.

  Lemma batch_nodup fresh (rows : list (list F)) (meta : option (list (option Mt))) :
    (forall i j, i < length rows -> j < length rows -> fresh i = fresh j -> i = j) ->
    NoDup (map fst (batch_recs fresh rows meta)).
  Proof.
    intros Hi. rewrite batch_keys. 
    assert (Hs : forall m n, n + m = length rows -> NoDup (map fresh (seq n m))).
    { induction m as [|m IH]; intros n Hn; simpl; constructor; [|apply IH; lia].
      intros Hin. apply in_map_iff in Hin as (j & E & Hj). apply in_seq in Hj.
      apply Hi in E; lia. }
    now apply Hs.
  Qed.
End Lists.

Section Basic.
  Context {F Mt : Type} `{Num F} `{!NumOrder F} `{Payload (list F) Mt} `{Unicode}.
  Notation C := (mem_class (V := list F) (Mt := Mt)).
  Notation IC := (flat_class C MCosine).
  Notation fits_dim dim := (fun v : list F => length v = dim /\ forallb nfinite v = true).

  (** What the example should print over [batch], the records it inserts: everything inserted; the
      nearest five; the first record replaced, and the nearest three with it; the first five
      records gone, and the nearest three of the others; the number of the others. *)
  Definition basic_expected (batch : list (entry (list F) Mt)) (query new_vector : list F)
      (new_meta : option Mt) (r : basic_report F Mt) : Prop :=
    let dist := row_distance MCosine query in
    let updated := match batch with
                   | [] => []
                   | (id, _) :: others => (id, (new_vector, new_meta)) :: others
                   end in
    let left := skipn 5 batch in
    ba_inserted r = map fst batch /\
    nearest nleb dist batch (Nat.min 5 (length batch)) (ba_found r) /\
    ba_updated r = true /\
    nearest nleb dist updated (Nat.min 3 (length batch)) (ba_found_after_update r) /\
    ba_deleted r = true /\
    nearest nleb dist left (Nat.min 3 (length batch - 5)) (ba_found_after_deletion r) /\
    ba_count r = Z.of_nat (length batch - 5).

  Lemma flat_nearest dim recs q k a : 0 < dim -> (0 <= k)%Z ->
    fit_recs (Mt := Mt) (fits_dim dim) recs -> fits_dim dim q -> flat_ok MCosine recs q k a ->
    exists hits, a = AHits hits /\
      nearest nleb (row_distance MCosine q) recs (Nat.min (Z.to_nat k) (length recs)) hits.
  Proof.
    intros Hd Hk Hf Hq Ha.
    assert (searchable recs q = true) as Hs.
    { destruct Hq as [Hq Hqf]. unfold searchable. rewrite !andb_true_iff. repeat split; auto.
      - destruct (Nat.eqb_spec (length q) 0); simpl; auto. lia.
      - rewrite forallb_forall. intros e He. unfold fit_recs in Hf. rewrite Forall_forall in Hf.
        destruct (Hf e He) as [E1 E2]. rewrite E1, Hq, Nat.eqb_refl. exact E2. }
    unfold flat_ok in Ha. rewrite Hs in Ha. destruct recs as [|e recs].
    - exists []. split; auto. simpl. rewrite Nat.min_0_r. constructor; simpl; try constructor; intros; contradiction.
    - destruct Ha as (hits & -> & Hn). exists hits. split; auto.
      unfold want in Hn. apply Z.leb_le in Hk. now rewrite Hk in Hn.
  Qed.

  (** C177: for every non-empty set of vectors of one dimension the example runs to its end, prints
      what it should at every step, and leaves the backend as new. *)
  Theorem C177_basic_usage dim rows meta fresh orc query new_vector new_meta :
    0 < dim -> Forall (fits_dim dim) rows -> hd_error rows = Some query ->
    fits_dim dim new_vector -> meta_ok new_meta ->
    (forall l m, meta = Some l -> In m l -> meta_ok m) ->
    (forall i, argsort_ok (orc i)) -> fresh_ids fresh (length rows) [] ->
    exists report c',
      basic_usage C IC rows meta fresh orc new_vector new_meta (cl_new IC mem_new) = (Ok report, c') /\
      basic_expected (batch_recs fresh rows meta) query new_vector new_meta report /\
      c_storage c' = mem_new.
  Proof.
    intros Hd Hrows Hq Hv Hvm Hm Ho Hfr.
    destruct (library_ok _ mem_new false (lb_memory (V := list F) (Mt := Mt))) as (b & sz & A & HC & HA).
    pose proof (flat_index_ok_dim C MCosine false b sz A HC dim) as HI.
    pose proof (Rcl_step C IC false b sz A HC true _ argsort_ok _ _ _ HI) as step.
    set (R := Rcl A _ fopen fcoh) in step.
    assert (R0 : R (MkS false []) (cl_new IC mem_new)).
    { split; simpl; auto. split; [constructor|]. split; [exists false; split; auto|].
      exact (io_new _ _ _ _ _ _ _ _ HI []). }
    revert R0. generalize (cl_new IC mem_new). intros c0 R0.
    destruct rows as [|q0 rest]; [discriminate|]. injection Hq as ->.
    assert (Hqf : fits_dim dim query) by now inversion Hrows.
    set (rows := query :: rest) in *. set (batch := batch_recs fresh rows meta).
    assert (Hnd : NoDup (map fst batch)) by (apply batch_nodup, Hfr).
    assert (Hids : map fst batch = map fresh (seq 0 (length rows))) by apply batch_keys.
    assert (Eb : exists x others, batch = (fresh 0, x) :: others).
    { unfold batch, batch_recs, rows. simpl. eauto. }
    destruct Eb as (x0 & others & Eb).
    assert (Hn0 : ~ In (fresh 0) (map fst others)) by (rewrite Eb in Hnd; now inversion Hnd).
    unfold basic_usage.
    (* initialise *)
    pose proof (step _ c0 (CInit (orc 0) []) R0 (conj (Ho 0) (fun _ => conj eq_refl eq_refl))) as Hst.
    cbn [cl_step] in Hst. destruct (cl_initialize C IC (orc 0) [] c0) as [[[]|e] c1] eqn:E1;
      cbn [cobs] in Hst; destruct Hst as [Ha R1]; simpl in Ha; [|discriminate]. clear Ha.
    cbn [db_next first_exn] in R1. unfold bind at 1. rewrite E1.
    (* insert *)
    pose proof (step _ c1 (CInsert (orc 1) fresh (Mat rows) meta) R1
                  (conj (Ho 1) (fun _ => conj Hfr (conj Hrows Hm)))) as Hst.
    cbn [cl_step] in Hst.
    destruct (cl_insert IC (orc 1) fresh (Mat rows) meta c1) as [[ids|e] c2] eqn:E2;
      cbn [cobs] in Hst; destruct Hst as [Ha R2]; cbn [db_ans s_open] in Ha; [|discriminate].
    assert (Ei : ids = map fst batch) by (rewrite Hids; congruence). subst ids. clear Ha.
    cbn [db_next s_open s_recs app] in R2. fold batch in R2.
    unfold bind at 1. rewrite E2. clear E2.
    unfold bind at 1. change (first_row rows c2) with (@Ok (list F) query, c2). cbv beta iota.
    (* search *)
    pose proof (step _ c2 (CSearch (orc 2) (Vec query) 5) R2 (Ho 2)) as Hst.
    cbn [cl_step] in Hst.
    destruct (cl_search IC (orc 2) (Vec query) 5 c2) as [r1 c3] eqn:E3.
    assert (S1 : exists h1, r1 = Ok h1 /\
      nearest nleb (row_distance MCosine query) batch (Nat.min 5 (length batch)) h1).
    { destruct r1 as [h|e]; cbn [cobs] in Hst; destruct Hst as [Ha _]; cbn [db_ans s_open s_recs] in Ha;
        apply (flat_nearest dim) in Ha; try lia; auto; try apply R2;
        destruct Ha as (h1 & E & Hh); [injection E as ->; eauto|discriminate]. }
    destruct S1 as (h1 & -> & Hh1). cbn [cobs] in Hst. destruct Hst as [_ R3].
    cbn [db_next] in R3. unfold bind at 1. rewrite E3. clear E3.
    (* update *)
    replace (match map fst batch with [] => raise EIndexRange | i :: _ => ret i end)
      with (ret (S := client (flat F) (mem (list F) Mt)) (fresh 0)) by now rewrite Eb.
    unfold bind at 1, ret at 1.
    pose proof (step _ c3 (CUpdate (orc 3) (fresh 0) new_vector new_meta) R3
                  (conj (Ho 3) (conj Hv Hvm))) as Hst.
    cbn [cl_step] in Hst.
    assert (Ef : sp_find (fresh 0) batch = Some x0) by (rewrite Eb; simpl; now rewrite eqb_refl).
    destruct (cl_update IC (orc 3) (fresh 0) new_vector new_meta c3) as [[u|e] c4] eqn:E4;
      cbn [cobs] in Hst; destruct Hst as [Ha R4]; cbn [db_ans s_open s_recs] in Ha; rewrite Ef in Ha;
      [|discriminate].
    injection Ha as ->. cbn [db_next s_open s_recs] in R4. rewrite Ef in R4.
    rewrite Eb in R4 at 1. rewrite put_first in R4 by auto.
    set (updated := (fresh 0, (new_vector, new_meta)) :: others) in R4.
    unfold bind at 1. rewrite E4. clear E4.
    assert (Hkeys : map fst updated = map fst batch) by now rewrite Eb.
    assert (Hlen : length updated = length batch) by now rewrite Eb.
    (* search *)
    pose proof (step _ c4 (CSearch (orc 4) (Vec query) 3) R4 (Ho 4)) as Hst.
    cbn [cl_step] in Hst.
    destruct (cl_search IC (orc 4) (Vec query) 3 c4) as [r2 c5] eqn:E5.
    assert (S2 : exists h2, r2 = Ok h2 /\
      nearest nleb (row_distance MCosine query) updated (Nat.min 3 (length batch)) h2).
    { rewrite <- Hlen. destruct r2 as [h|e]; cbn [cobs] in Hst; destruct Hst as [Ha _]; cbn [db_ans s_open s_recs] in Ha;
        apply (flat_nearest dim) in Ha; try lia; auto; try apply R4;
        destruct Ha as (h2 & E & Hh); [injection E as ->; eauto|discriminate]. }
    destruct S2 as (h2 & -> & Hh2). cbn [cobs] in Hst. destruct Hst as [_ R5].
    cbn [db_next] in R5. unfold bind at 1. rewrite E5. clear E5.
    (* delete *)
    pose proof (step _ c5 (CDelete (firstn 5 (map fst batch))) R5 I) as Hst. cbn [cl_step] in Hst.
    destruct (del_first 5 updated) as [D1 D2]; [now rewrite Hkeys|]. rewrite Hkeys in D1, D2.
    destruct (cl_delete IC (firstn 5 (map fst batch)) c5) as [[u|e] c6] eqn:E6;
      cbn [cobs] in Hst; destruct Hst as [Ha R6]; cbn [db_ans s_open s_recs] in Ha; rewrite D2 in Ha;
      [|discriminate].
    injection Ha as ->. cbn [db_next s_open s_recs] in R6. rewrite D1 in R6.
    assert (El : skipn 5 updated = skipn 5 batch) by now rewrite Eb.
    rewrite El in R6. set (left := skipn 5 batch) in R6.
    assert (Hll : length left = length batch - 5) by apply skipn_length.
    unfold bind at 1. rewrite E6. clear E6.
    (* search *)
    pose proof (step _ c6 (CSearch (orc 5) (Vec query) 3) R6 (Ho 5)) as Hst.
    cbn [cl_step] in Hst.
    destruct (cl_search IC (orc 5) (Vec query) 3 c6) as [r3 c7] eqn:E7.
    assert (S3 : exists h3, r3 = Ok h3 /\
      nearest nleb (row_distance MCosine query) left (Nat.min 3 (length batch - 5)) h3).
    { rewrite <- Hll. destruct r3 as [h|e]; cbn [cobs] in Hst; destruct Hst as [Ha _]; cbn [db_ans s_open s_recs] in Ha;
        apply (flat_nearest dim) in Ha; try lia; auto; try apply R6;
        destruct Ha as (h3 & E & Hh); [injection E as ->; eauto|discriminate]. }
    destruct S3 as (h3 & -> & Hh3). cbn [cobs] in Hst. destruct Hst as [_ R7].
    cbn [db_next] in R7. unfold bind at 1. rewrite E7. clear E7.
    (* report *)
    pose proof (step _ c7 CStats R7 I) as Hst. cbn [cl_step] in Hst.
    destruct (cl_stats C IC c7) as [[st|e] c8] eqn:E8; cbn [cobs] in Hst; destruct Hst as [Ha R8];
      cbn [db_ans s_open s_recs] in Ha; [|discriminate]. injection Ha as Hcount _.
    unfold bind at 1. rewrite E8. rewrite Hcount. unfold bind at 1, ret at 1.
    (* close *)
    pose proof (step _ c8 (CClose []) R8 I) as Hst. cbn [cl_step] in Hst.
    destruct (cl_close C IC [] c8) as [[[]|e] c9] eqn:E9; cbn [cobs] in Hst; destruct Hst as [Ha _];
      simpl in Ha; [|discriminate]. clear Ha.
    unfold bind at 1. rewrite E9. unfold ret. eexists _, c9. split; [reflexivity|].
    split.
    - unfold basic_expected.
      cbn [ba_inserted ba_found ba_updated ba_found_after_update ba_deleted ba_found_after_deletion ba_count].
      split; [reflexivity|]. split; [exact Hh1|]. split; [reflexivity|].
      split; [clearbody batch; subst batch; exact Hh2|]. split; [reflexivity|].
      split; [exact Hh3|]. now rewrite Hll.
    - revert E9. unfold cl_close. cbn [forM]. unfold bind at 1, ret at 1. unfold bind at 1.
      destruct (on_index (ix_close IC) c8) as [[[]|e] c10]; [|discriminate].
      unfold bind, on_storage, zoom. simpl. intros E. injection E as <-. reflexivity.
  Qed.

  (** In particular no deleted id is among the last results. *)
  Theorem C177_deleted_not_found dim rows meta fresh orc query new_vector new_meta report c' :
    0 < dim -> Forall (fits_dim dim) rows -> hd_error rows = Some query ->
    fits_dim dim new_vector -> meta_ok new_meta ->
    (forall l m, meta = Some l -> In m l -> meta_ok m) ->
    (forall i, argsort_ok (orc i)) -> fresh_ids fresh (length rows) [] ->
    basic_usage C IC rows meta fresh orc new_vector new_meta (cl_new IC mem_new) = (Ok report, c') ->
    forall h, In h (ba_found_after_deletion report) -> ~ In (h_id h) (firstn 5 (ba_inserted report)).
  Proof.
    intros Hd Hrows Hq Hv Hvm Hm Ho Hfr Erun h Hh.
    destruct (C177_basic_usage dim rows meta fresh orc query new_vector new_meta Hd Hrows Hq Hv Hvm Hm Ho Hfr)
      as (r & c & E & (X1 & _ & _ & _ & _ & X6 & _) & _).
    rewrite Erun in E. injection E as <- <-.
    rewrite X1. pose proof (batch_nodup fresh rows meta (proj1 Hfr)) as Hnd.
    destruct (nn_true _ _ _ _ _ X6 h Hh) as (v & Hin & _).
    intros Hf. rewrite <- (firstn_skipn 5 (batch_recs fresh rows meta)), map_app in Hnd.
    rewrite <- firstn_map in Hnd.
    assert (In (h_id h) (map fst (skipn 5 (batch_recs fresh rows meta)))) as Hs.
    { apply (in_map fst) in Hin. exact Hin. }
    clear - Hnd Hf Hs. revert Hnd Hf. induction (firstn 5 _) as [|a l IH]; intros Hnd Hf; [destruct Hf|].
    inversion Hnd as [|? ? Hn Hnd']; subst. destruct Hf as [->|Hf]; [|auto].
    apply Hn, in_or_app. now right.
  Qed.
End Basic.

(** ** C178: the quantizer comparison of advanced_quantization.py *)

Section Quantized.
  Context {X S F Mt Orc P : Type} `{Num F}.
  Context (C : storage_class S (list F) Mt) (IC : index_class X S F Mt Orc) (CP : component P).

  Notation calls rows meta fresh orc query :=
    [CInit (orc 0) []; CInsert (orc 1) fresh (Mat rows) meta; CSearch (orc 2) (Vec query) 5%Z; CStats].

  (** Either one of the calls before it raised, or the ratio is looked up in the quantizer as the
      calls left it. *)
  Lemma quantized_answer {Q} (CQ : component Q) ratio rows meta fresh orc query (c : fclient X S Q P) :
    let r := fst (quantized_client C IC CP CQ ratio rows meta fresh orc query c) in
    let run := fl_run C IC CQ CP c (calls rows meta fresh orc query) in
    (exists e, In (AExn e) (fst run) /\ r = Raise e) \/
    r = match fc_quant (snd run) with
        | Some q => match ratio q with Some x => Ok x | None => Raise EKey end
        | None => Raise EKey
        end.
  Proof.
    unfold quantized_client, bind, get, ret, raise. cbn [fl_run fl_step].
    destruct (fl_initialize C IC CQ CP (orc 0) c) as [[[]|e] c1]; cbn [fobs];
      destruct (fl_insert IC (orc 1) fresh (Mat rows) meta c1) as [[ids|e2] c2]; cbn [fobs];
      destruct (fl_search IC (orc 2) (Vec query) 5 c2) as [[hits|e3] c3]; cbn [fobs];
      destruct (fl_stats C IC CQ CP c3) as [[st|e4] c4]; cbn [fobs fst snd];
      try (left; eexists; split; [|reflexivity]; simpl; tauto).
    right. destruct (fc_quant c4) as [q|]; [destruct (ratio q)|]; reflexivity.
  Qed.

  (** C178, what holds: no client with a scalar quantizer, of however many bits, or a product
      quantizer gets to its ratio, whatever the backend, the index and the vectors. *)
  Theorem C178_no_ratio_partial bits x rows meta fresh orc query s0 :
    (exists e, fst (quantized_client C IC CP scalar_component (scalar_ratio bits) rows meta fresh orc query
                      (fl_new IC s0 (Some scalar_new) None)) = Raise e) /\
    (exists e, fst (quantized_client C IC CP (product_component (F := F)) (product_ratio x) rows meta fresh orc query
                      (fl_new IC s0 (Some product_new) None)) = Raise e).
  Proof.
    split.
    - destruct (quantized_answer scalar_component (scalar_ratio bits) rows meta fresh orc query
                  (fl_new IC s0 (Some scalar_new) None)) as [(e & _ & E)|E]; [eauto|].
      destruct (C125_scalar_untrained_partial C IC CP (calls rows meta fresh orc query)
                  (fl_new IC s0 (Some scalar_new) None) scalar_new eq_refl eq_refl) as (q & Eq & Ht & _).
      rewrite E, Eq. unfold scalar_ratio. rewrite Ht. destruct (negb (sq_init q)); eauto.
    - destruct (quantized_answer (product_component (F := F)) (product_ratio x) rows meta fresh orc query
                  (fl_new IC s0 (Some product_new) None)) as [(e & _ & E)|E]; [eauto|].
      destruct (C125_product_untrained_partial C IC CP (calls rows meta fresh orc query)
                  (fl_new IC s0 (Some product_new) None) product_new eq_refl eq_refl) as (q & Eq & Ht & _).
      rewrite E, Eq. unfold product_ratio. rewrite Ht. destruct (negb (pq_init q)); eauto.
  Qed.

  (** The example therefore never prints that it completed, whatever its other demonstrations do. *)
  Theorem C178_never_completes_partial {W} s0 rows meta fresh orc x (rest others : M W unit) w n :
    exists e w', quantization_example C IC CP s0 rows meta fresh orc x rest others (w, n) = (Raise e, (w', n)).
  Proof.
    unfold quantization_example. unfold bind at 1.
    destruct rows as [|query rows]; [cbn; eauto|]. cbn [first_row]. unfold ret at 1.
    unfold bind at 1, zoom at 1. cbn [fst snd]. unfold compare_methods at 1.
    unfold bind at 1, on_new at 1.
    match goal with |- context [fst (?m (cl_new IC s0))] => destruct (fst (m (cl_new IC s0))) as [st|e] end;
      [|eauto].
    unfold bind at 1, on_new at 1.
    destruct (proj1 (C178_no_ratio_partial 8 x (query :: rows) meta fresh orc query s0)) as (e & ->).
    eauto.
  Qed.
End Quantized.

Section Exact.
  Context {F Mt S P : Type} `{Num F} `{!NumOrder F} `{Payload (list F) Mt} `{Unicode}.
  Notation fits_dim dim := (fun v : list F => length v = dim /\ forallb nfinite v = true).

  (** C178: with vectors the database accepts it is the missing key that ends it, over every backend
      of the library: all calls before it answer, and nothing after it is done. *)
  Theorem C178_key_error_partial {W} (C : storage_class S (list F) Mt) (CP : component P) s0 p dim rows meta
      fresh orc x (rest others : M W unit) w n :
    library_backend C s0 p -> 0 < dim -> rows <> [] -> Forall (fits_dim dim) rows ->
    (forall l m, meta = Some l -> In m l -> meta_ok m) ->
    (forall i, argsort_ok (orc i)) -> fresh_ids fresh (length rows) [] ->
    quantization_example C (flat_class C MCosine) CP s0 rows meta fresh orc x rest others (w, n) =
    (Raise EKey, (w, n)).
  Proof.
    intros HB Hd Hne Hrows Hm Ho Hfr. set (IC := flat_class C MCosine).
    destruct (library_ok C s0 p HB) as (b & sz & A & HC & HA).
    pose proof (flat_index_ok_dim C MCosine p b sz A HC dim) as HI.
    destruct rows as [|query rest']; [contradiction|]. set (rows := query :: rest') in *.
    assert (Hq : fits_dim dim query) by now inversion Hrows.
    set (calls := [CInit (orc 0) []; CInsert (orc 1) fresh (Mat rows) meta; CSearch (orc 2) (Vec query) 5%Z; CStats]).
    (* the calls answer *)
    assert (Hans : forall e, ~ In (AExn e) (fst (cl_run C IC (cl_new IC s0) calls))).
    { assert (R0 : Rcl A (fits_dim dim) fopen fcoh (MkS false []) (cl_new IC s0)).
      { split; simpl; auto. split; [constructor|]. split; [exists false; split; auto|].
        exact (io_new _ _ _ _ _ _ _ _ HI []). }
      pose proof (Rcl_run C IC p b sz A HC true _ argsort_ok _ _ _ HI calls _ _ R0) as Hrun.
      assert (Hall : all_fit true (fits_dim dim) argsort_ok p (MkS false []) calls).
      { unfold calls. cbn [all_fit fits db_next first_exn s_open s_recs].
        split; [split; auto|]. split; [split; auto; intros _; destruct p; auto|]. split; auto. }
      specialize (Hrun Hall). destruct (cl_run C IC (cl_new IC s0) calls) as [rs c'].
      destruct Hrun as [Hrs _]. unfold calls in Hrs.
      destruct rs as [|r1 [|r2 [|r3 [|r4 [|]]]]]; cbn [db_conforms] in Hrs; try tauto.
      destruct Hrs as (H1' & H2' & H3' & H4' & _).
      cbn [db_ans db_next first_exn s_open s_recs] in H1', H2', H3', H4'.
      apply (flat_finds MCosine dim) in H3'; auto.
      - destruct H3' as (hits & E). subst r1 r2 r3 r4. intros e Hin. simpl in Hin. intuition discriminate.
      - unfold fit_recs. destruct p; cbn [s_recs app].
        + rewrite Forall_forall in *. intros e He. unfold batch_recs in He.
          apply in_map_iff in He as ([i row] & <- & Hin). apply Hrows. now apply in_combine_r in Hin.
        + rewrite Forall_forall in *. intros e He. unfold batch_recs in He.
          apply in_map_iff in He as ([i row] & <- & Hin). apply Hrows. now apply in_combine_r in Hin. }
    (* the client without a quantizer *)
    assert (Hbase : exists st, fst (bind (cl_initialize C IC (orc 0) []) (fun _ =>
              bind (cl_insert IC (orc 1) fresh (Mat rows) meta) (fun _ =>
              bind (cl_search IC (orc 2) (Vec query) 5) (fun _ => cl_stats C IC))) (cl_new IC s0)) = Ok st).
    { revert Hans. unfold calls, bind. cbn [cl_run cl_step].
      destruct (cl_initialize C IC (orc 0) [] (cl_new IC s0)) as [[[]|e] c1]; cbn [cobs];
        destruct (cl_insert IC (orc 1) fresh (Mat rows) meta c1) as [[ids|e2] c2]; cbn [cobs];
        destruct (cl_search IC (orc 2) (Vec query) 5 c2) as [[hits|e3] c3]; cbn [cobs];
        destruct (cl_stats C IC c3) as [[st|e4] c4]; cbn [cobs fst snd]; intros Hans;
        try (exfalso; eapply Hans; simpl; eauto 6; fail).
      eauto. }
    (* the client with the scalar quantizer *)
    assert (Hscalar : fst (quantized_client C IC CP scalar_component (scalar_ratio 8) rows meta fresh orc query
                             (fl_new IC s0 (Some scalar_new) None)) = Raise EKey).
    { destruct (quantized_answer C IC CP scalar_component (scalar_ratio 8) rows meta fresh orc query
                  (fl_new IC s0 (Some scalar_new) None)) as [(e & Hin & _)|E].
      - exfalso. fold calls in Hin.
        rewrite (proj1 (C124_as_without C IC scalar_component CP calls (fl_new IC s0 (Some scalar_new) None)
                   (scalar_never_raises _)
                   (conj (fun q q' (E : None = Some q) _ => ltac:(discriminate E))
                         (fun q q' (E : None = Some q) _ => ltac:(discriminate E))))) in Hin.
        exact (Hans e Hin).
      - fold calls in E.
        destruct (C125_scalar_untrained_partial C IC CP calls
                    (fl_new IC s0 (Some scalar_new) None) scalar_new eq_refl eq_refl) as (q & Eq & Ht & _).
        rewrite E, Eq. unfold scalar_ratio. rewrite Ht. now destruct (negb (sq_init q)). }
    unfold quantization_example. unfold bind at 1. change (first_row rows (w, n)) with (Ok query, (w, n)).
    cbv beta iota. unfold bind at 1, zoom at 1. cbn [fst snd]. unfold compare_methods at 1.
    unfold bind at 1, on_new at 1. destruct Hbase as (st & ->).
    unfold bind at 1, on_new at 1. rewrite Hscalar. reflexivity.
  Qed.
End Exact.

(** ** Concrete cases *)

(** Seven vectors of two numbers, metadata for the first three. *)
Definition demo_seven : list (list Z) := [[3; 4]; [1; 0]; [0; 2]; [5; 5]; [-1; 2]; [2; 1]; [4; 3]]%Z.
Definition demo_seven_meta : option (list (option Z)) := Some [Some 7; None; Some 8]%Z.

Example C177_hypotheses_met :
  Forall (fun v => length v = 2 /\ forallb nfinite v = true) demo_seven /\
  hd_error demo_seven = Some [3; 4]%Z /\ meta_ok (Some 9%Z) /\
  (forall l m, demo_seven_meta = Some l -> In m l -> meta_ok m) /\
  argsort_ok stable_argsort /\ fresh_ids (demo_ids 97) (length demo_seven) [].
Proof.
  split; [repeat constructor|]. split; [reflexivity|]. split; [split; simpl; auto|].
  split; [|split; [apply stable_argsort_ok|apply demo_fresh; [lia|auto]]].
  intros l m E Hin. injection E as <-. destruct Hin as [<-|[<-|[<-|[]]]]; split; simpl; auto.
Qed.

Example C177_run :
  match fst (basic_usage mem_class (flat_class mem_class MCosine) demo_seven demo_seven_meta (demo_ids 97)
               (fun _ => stable_argsort) [0; 1]%Z (Some 9%Z) (cl_new (flat_class mem_class MCosine) mem_new)) with
  | Ok r => ba_inserted r = map (demo_ids 97) (seq 0 7) /\ length (ba_found r) = 5 /\
            ba_updated r = true /\ length (ba_found_after_update r) = 3 /\ ba_deleted r = true /\
            length (ba_found_after_deletion r) = 2 /\ ba_count r = 2%Z
  | Raise _ => False
  end.
Proof. vm_compute. repeat split. Qed.

(** C178, refuted: it does not complete even with the vectors of C177, though all its calls answer. *)
Theorem C178_quantization_example_refuted :
  exists (rows : list (list Z)) (meta : option (list (option Z))),
    rows <> [] /\ Forall (fun v => length v = 2 /\ forallb nfinite v = true) rows /\
    quantization_example (P := scalarq) mem_class (flat_class mem_class MCosine) scalar_component mem_new rows meta
      (demo_ids 97) (fun _ => stable_argsort) 0%Z (W := unit) (ret tt) (ret tt) (tt, 0) = (Raise EKey, (tt, 0)).
Proof.
  exists demo_seven, demo_seven_meta. split; [discriminate|]. split; [apply C177_hypotheses_met|].
  vm_compute. reflexivity.
Qed.

(** A trained quantizer would have its ratio: the model does not rule it out by definition. *)
Example C178_trained_has_ratio :
  fst (quantized_client mem_class (flat_class mem_class MCosine) scalar_component scalar_component (scalar_ratio 8)
         demo_seven demo_seven_meta (demo_ids 97) (fun _ => stable_argsort) [3; 4]%Z
         (fl_new (P := scalarq) (flat_class mem_class MCosine) mem_new
            (Some (mkScalarq (Some 2) None None None true true)) None)) = Ok 4000%Z.
Proof. vm_compute. reflexivity. Qed.

Print Assumptions C177_basic_usage.
Print Assumptions C177_deleted_not_found.
Print Assumptions C178_no_ratio_partial.
Print Assumptions C178_never_completes_partial.
Print Assumptions C178_key_error_partial.
Print Assumptions C178_quantization_example_refuted.
