(** Generic refinement: if an index's methods keep an invariant relating the index object to the
    records, then the whole client conforms to the database specification. *)

From Coq Require Import List Arith ZArith NArith Lia Bool Permutation Sorted ZifyBool ZifyNat.
From Verif Require Import PyBase BaseLemmas Payload StorageModel StorageSpec StorageRun
  StorageProofs StorageThms StorageOk Num ClientModel DbSpec ClientRun.
Import ListNotations.
Open Scope py_scope.

Lemma slice_to_want {T} k (l : list T) : slice_to k l = firstn (want k (length l)) l.
Proof.
  unfold want. destruct (Z.leb_spec 0 k).
  - rewrite slice_to_nonneg by lia.
    destruct (Nat.le_ge_cases (Z.to_nat k) (length l)).
    + now rewrite Nat.min_l by lia.
    + rewrite Nat.min_r by lia. now rewrite firstn_all, firstn_all2.
  - now rewrite slice_to_neg by lia.
Qed.

(** ** The storage contract, method by method *)

Section Methods.
  Context {S V Mt : Type} `{Payload V Mt} (C : storage_class S V Mt).
  Context (p b : bool) (sz : option (V * option Mt -> N)) (A : sstate V Mt -> S -> Prop).
  Context (HC : storage_ok C p b sz A).

  Lemma so_nd a s : A a s -> NoDup (map fst (s_recs a)).
  Proof. apply HC. Qed.

  Lemma obs_inv {B} (f : B -> sret V Mt) (x : result B * S) r s' :
    obs f x = (r, s') ->
    (exists v, x = (Ok v, s') /\ r = f v) \/ (exists e, x = (Raise e, s') /\ r = RExn e).
  Proof. destruct x as [[v|e] t]; simpl; intros E; injection E as <- <-; eauto. Qed.

  Ltac use o :=
    match goal with
    | HA : A ?a ?s |- _ =>
        let Q := fresh in
        pose proof (proj2 HC a s o HA) as Q; simpl in Q;
        match type of Q with
        | context [obs ?f ?x] =>
            let E := fresh "E" in
            destruct (obs f x) as [rr s'] eqn:E; apply obs_inv in E;
            destruct Q as [Qa Qb];
            [ try exact I; auto | try exact I; auto |
              destruct E as [[rv [-> ->]]|[re [-> ->]]] ]
        end
    end.

  Lemma so_init op recs s : A (MkS op recs) s ->
    exists s', sc_init C s = (Ok tt, s') /\ A (MkS true (if p then recs else [])) s'.
  Proof.
    intros HA. use (@OInit V Mt).
    - destruct rv. eauto.
    - discriminate.
  Qed.

  Lemma so_close op recs s : A (MkS op recs) s ->
    exists s', sc_close C s = (Ok tt, s') /\ A (MkS false (if p then recs else [])) s'.
  Proof.
    intros HA. use (@OClose V Mt).
    - destruct rv. eauto.
    - discriminate.
  Qed.

  Lemma so_reopen op recs s : A (MkS op recs) s ->
    A (MkS false (if p then recs else [])) (sc_reopen C s).
  Proof. intros HA. apply (proj2 HC _ s (@OReopen V Mt) HA I I). Qed.

  Lemma so_store recs s id v m : A (MkS true recs) s -> uuid_like id -> meta_ok m ->
    exists s', sc_store C id v m s = (Ok true, s') /\ A (MkS true (sp_put id (v, m) recs)) s'.
  Proof.
    intros HA Hid Hm. destruct id as [|c id]; [now destruct Hid|].
    use (OStore (c :: id) v m).
    - injection Qa as ->. eauto.
    - discriminate.
  Qed.

  Lemma so_retrieve recs s id : A (MkS true recs) s ->
    exists s', sc_retrieve C id s = (Ok (sp_find id recs), s') /\ A (MkS true recs) s'.
  Proof.
    intros HA. use (@ORetrieve V Mt id).
    - injection Qa as ->. eauto.
    - discriminate.
  Qed.

  Lemma so_delete recs s id : A (MkS true recs) s ->
    exists s', sc_delete C id s =
      (Ok (match sp_find id recs with Some _ => true | None => false end), s') /\
      A (MkS true (sp_del id recs)) s'.
  Proof.
    intros HA. use (@ODelete V Mt id).
    - injection Qa as ->. eauto.
    - discriminate.
  Qed.

  Lemma so_update recs s id v m : A (MkS true recs) s -> meta_ok m ->
    exists s', sc_update C id v m s =
      (Ok (match sp_find id recs with Some _ => true | None => false end), s') /\
      A (MkS true (match sp_find id recs with Some _ => sp_put id (v, m) recs | None => recs end)) s'.
  Proof.
    intros HA Hm. use (OUpdate id v m).
    - injection Qa as ->. exists s'. split; auto. destruct (sp_find id recs); auto.
    - discriminate.
  Qed.

  Lemma so_list recs s : A (MkS true recs) s ->
    exists l s', sc_list C None s = (Ok l, s') /\ Permutation l (map fst recs) /\
                 A (MkS true recs) s'.
  Proof.
    intros HA. use (@OList V Mt None).
    - destruct Qa as [l [Hp [_ E]]]. injection E as ->. eauto 6.
    - destruct Qa as [l [_ [_ E]]]. discriminate.
  Qed.

  Lemma so_stats recs s : A (MkS true recs) s ->
    exists x s', sc_stats C s = (Ok (Some (Z.of_nat (length recs), x)), s') /\
                 A (MkS true recs) s'.
  Proof.
    intros HA. use (@OStats V Mt).
    - injection Qa as ->. eauto.
    - discriminate.
  Qed.
End Methods.

(** ** The generic client theorem *)

Section Generic.
  Context {X S F Mt Orc : Type} `{Payload (list F) Mt}.
  Context (C : storage_class S (list F) Mt) (IC : index_class X S F Mt Orc).
  Context (p b : bool) (sz : option (list F * option Mt -> N))
          (A : sstate (list F) Mt -> S -> Prop).
  Context (HC : storage_ok C p b sz A).
  Context (reinit : bool) (row_fits : list F -> Prop) (orc_ok : Orc -> Prop).
  Context (search_ok : list (entry (list F) Mt) -> list F -> Z -> cret F Mt -> Prop).

  (** All recorded vectors are acceptable. *)
  Definition fit_recs (recs : list (entry (list F) Mt)) : Prop :=
    Forall (fun e => row_fits (fst (snd e))) recs.

  (** What an index must provide.  [Iopen recs x]: the index is in use over [recs]; [Iclosed
      recs x]: it may be initialised over [recs]. *)
  Record index_ok (Iopen Iclosed : list (entry (list F) Mt) -> X -> Prop) : Prop := {
    io_new : forall recs, Iclosed recs (ix_new IC);
    io_reinit : reinit = true -> forall recs x, Iopen recs x -> Iclosed recs x;
    io_empty : forall recs x, Iclosed recs x -> Iclosed [] x;
    io_init : forall o recs x s,
      orc_ok o -> fit_recs recs -> Iclosed recs x -> A (MkS true recs) s ->
      exists x' s', ix_init IC o (x, s) = (Ok tt, (x', s')) /\
                    Iopen recs x' /\ A (MkS true recs) s';
    io_insert : forall o fresh arr meta recs x s,
      fit_recs recs -> Iopen recs x -> A (MkS true recs) s ->
      match arr with
      | Mat rows =>
          orc_ok o -> fresh_ids fresh (length rows) (map fst recs) -> Forall row_fits rows ->
          (forall l m, meta = Some l -> In m l -> meta_ok m) ->
          exists x' s', ix_insert IC o fresh arr meta (x, s) =
                          (Ok (map fresh (seq 0 (length rows))), (x', s')) /\
                        Iopen (recs ++ batch_recs fresh rows meta) x' /\
                        A (MkS true (recs ++ batch_recs fresh rows meta)) s'
      | _ => ix_insert IC o fresh arr meta (x, s) = (Raise EIndex, (x, s))
      end;
    io_search : forall o q k recs x s,
      orc_ok o -> fit_recs recs -> Iopen recs x -> A (MkS true recs) s ->
      match ix_search IC o q k (x, s) with
      | (r, (x', s')) =>
          Iopen recs x' /\ A (MkS true recs) s' /\
          match q with
          | Vec q => search_ok recs q k (match r with Ok l => AHits l | Raise e => AExn e end)
          | _ => r = Raise EIndex
          end
      end;
    io_delete : forall ids recs x s,
      fit_recs recs -> Iopen recs x -> A (MkS true recs) s ->
      exists x' s', ix_delete IC ids (x, s) = (Ok (del_ans ids recs), (x', s')) /\
                    Iopen (del_recs ids recs) x' /\ A (MkS true (del_recs ids recs)) s';
    io_update : forall o id v m recs x s,
      orc_ok o -> fit_recs recs -> Iopen recs x -> A (MkS true recs) s ->
      row_fits v -> meta_ok m ->
      let recs' := match sp_find id recs with
                   | Some _ => sp_put id (v, m) recs
                   | None => recs
                   end in
      exists x' s', ix_update IC o id v m (x, s) =
                      (Ok (match sp_find id recs with Some _ => true | None => false end), (x', s')) /\
                    Iopen recs' x' /\ A (MkS true recs') s';
    io_count : forall recs x, Iopen recs x -> ix_count IC x = Some (Z.of_nat (length recs));
    io_close : forall x s, exists x', ix_close IC (x, s) = (Ok tt, (x', s)) /\
                                      forall recs, Iclosed recs x'
  }.

  Context (Iopen Iclosed : list (entry (list F) Mt) -> X -> Prop).
  Context (HI : index_ok Iopen Iclosed).

  (** The client represents the database state. *)
  Definition Rcl (d : sstate (list F) Mt) (c : client X S) : Prop :=
    c_init c = s_open d /\ fit_recs (s_recs d) /\
    (exists op, A (MkS op (s_recs d)) (c_storage c) /\ (s_open d = true -> op = true)) /\
    (if s_open d then Iopen (s_recs d) (c_index c) else Iclosed (s_recs d) (c_index c)).

  Lemma fit_del ids : forall recs, fit_recs recs -> fit_recs (del_recs ids recs).
  Proof.
    unfold del_recs, fit_recs. induction ids as [|id ids IH]; simpl; auto.
    intros recs HF. apply IH. unfold sp_del. rewrite Forall_forall in *.
    intros e He. apply filter_In in He. now apply HF.
  Qed.

  Lemma fit_put id v m recs : row_fits v -> fit_recs recs -> fit_recs (sp_put id (v, m) recs).
  Proof.
    intros Hv HF. unfold sp_put, fit_recs in *. destruct (sp_find id recs).
    - rewrite Forall_map. rewrite Forall_forall in *. intros e He.
      destruct (eqb id (fst e)); simpl; auto.
    - apply Forall_app. split; auto.
  Qed.

  Lemma combine_seq_In {T} (l : list T) : forall k i x,
    In (i, x) (combine (seq k (length l)) l) <-> k <= i /\ nth_error l (i - k) = Some x.
  Proof.
    induction l as [|y l IH]; simpl; intros k i x.
    - split; [tauto|]. intros [_ E]. destruct (i - k); discriminate.
    - rewrite IH. split.
      + intros [E|[Hi E]].
        * injection E as -> ->. split; auto. now rewrite Nat.sub_diag.
        * split; [lia|]. replace (i - k) with (Datatypes.S (i - Datatypes.S k)) by lia. exact E.
      + intros [Hi E]. destruct (Nat.eq_dec i k) as [->|].
        * rewrite Nat.sub_diag in E. injection E as ->. auto.
        * right. split; [lia|].
          replace (i - k) with (Datatypes.S (i - Datatypes.S k)) in E by lia. exact E.
  Qed.

  Lemma fit_batch fresh rows meta : Forall row_fits rows ->
    fit_recs (batch_recs (Mt := Mt) fresh rows meta).
  Proof.
    intros HF. unfold fit_recs, batch_recs. rewrite Forall_map. rewrite Forall_forall in *.
    intros [i row] Hin. simpl. apply HF. apply in_combine_r in Hin. exact Hin.
  Qed.

  Lemma forM_lift (l : list (result unit)) (c : client X S) :
    forM l (fun r => lift r) c =
    (match first_exn l with None => Ok tt | Some e => Raise e end, c).
  Proof.
    induction l as [|[[]|e] l IH]; simpl; auto.
  Qed.

  Lemma Rcl_step d c o : Rcl d c -> fits reinit row_fits orc_ok d o ->
    let (r, c') := cl_step C IC c o in
    db_ans search_ok d o r /\ Rcl (db_next p d o) c'.
  Proof.
    intros (Hc & Hf & (op & HA & Hop) & HX) Ho.
    destruct d as [od recs]. destruct c as [x s ci]. simpl in *. subst ci.
    assert (Hcl : forall recs x, Iclosed recs x -> Iclosed (if p then recs else []) x).
    { intros. destruct p; auto. eapply io_empty; eauto. }
    assert (Hfe : fit_recs (if p then recs else [])).
    { destruct p; auto. constructor. }
    assert (Hopen : od = true -> A (MkS true recs) s) by (intros E; now rewrite (Hop E) in HA).
    destruct o as [o extra|o fresh arr meta|o q k|ids|o id v m| |extra|]; simpl in *.
    - (* init *)
      destruct Ho as [Ho Hre].
      destruct (so_init C p b sz A HC op recs s HA) as [s1 [E1 A1]].
      assert (Iclosed (if p then recs else []) x) as HXc.
      { apply Hcl. destruct od; auto. destruct reinit eqn:Er.
        - eapply io_reinit; eauto.
        - destruct (Hre eq_refl) as [? _]. discriminate. }
      destruct (io_init _ _ HI o _ x s1 Ho Hfe HXc A1) as [x2 [s2 [E2 [I2 A2]]]].
      unfold cl_initialize, on_storage, on_index, wrap, bind, zoom. simpl.
      rewrite E1. simpl. rewrite E2. simpl. rewrite forM_lift. simpl.
      destruct (first_exn extra) as [e|] eqn:Ex; simpl.
      + split; auto. split; [|split; [|split]]; simpl; auto.
        * exists true. auto.
        * destruct od.
          -- exact I2.
          -- destruct reinit eqn:Er.
             ++ eapply io_reinit; eauto.
             ++ destruct (Hre eq_refl) as [_ ?]. discriminate.
      + split; auto. split; [|split; [|split]]; simpl; auto. exists true. auto.
    - (* insert *)
      unfold cl_insert, guarded, on_index, bind, zoom, get. simpl.
      destruct od; simpl.
      + pose proof (io_insert _ _ HI o fresh arr meta recs x s Hf HX (Hopen eq_refl)) as HIn.
        destruct arr as [v|rows|].
        * rewrite HIn. simpl. split; auto. split; simpl; auto. split; auto. split; auto.
          exists op. auto.
        * destruct Ho as [Ho Hf2]. destruct (Hf2 eq_refl) as (Hfr & Hrows & Hm).
          destruct (HIn Ho Hfr Hrows Hm) as (x' & s' & E & I' & A').
          rewrite E. simpl. split; auto. split; [|split; [|split]]; simpl; auto.
          -- apply Forall_app. split; auto. now apply fit_batch.
          -- exists true. auto.
        * rewrite HIn. simpl. split; auto. split; simpl; auto. split; auto. split; auto.
          exists op. auto.
      + split.
        * destruct arr; auto.
        * destruct arr; split; simpl; auto; split; auto; split; auto; exists op; auto.
    - (* search *)
      unfold cl_search, guarded, on_index, bind, zoom, get. simpl.
      destruct od; simpl.
      + pose proof (io_search _ _ HI o q k recs x s Ho Hf HX (Hopen eq_refl)) as HS.
        destruct (ix_search IC o q k (x, s)) as [r [x' s']]. destruct HS as (I' & A' & Hr).
        destruct r as [l|e]; simpl.
        * split; [destruct q; auto; discriminate|]. split; simpl; auto. split; auto. split; auto.
          exists true. auto.
        * split; [destruct q; auto; congruence|]. split; simpl; auto. split; auto. split; auto.
          exists true. auto.
      + split; auto. split; simpl; auto. split; auto. split; auto. exists op; auto.
    - (* delete *)
      unfold cl_delete, guarded, on_index, bind, zoom, get. simpl.
      destruct od; simpl.
      + destruct (io_delete _ _ HI ids recs x s Hf HX (Hopen eq_refl)) as (x' & s' & E & I' & A').
        rewrite E. simpl. split; auto. split; simpl; auto. split; [now apply fit_del|].
        split; auto. exists true. auto.
      + split; auto. split; simpl; auto. split; auto. split; auto. exists op; auto.
    - (* update *)
      destruct Ho as (Ho & Hv & Hm).
      unfold cl_update, guarded, on_index, bind, zoom, get. simpl.
      destruct od; simpl.
      + destruct (io_update _ _ HI o id v m recs x s Ho Hf HX (Hopen eq_refl) Hv Hm)
          as (x' & s' & E & I' & A').
        rewrite E. simpl. split; auto.
        destruct (sp_find id recs); split; simpl; auto; split; auto using fit_put;
          split; auto; exists true; auto.
      + split; auto. split; simpl; auto. split; auto. split; auto. exists op; auto.
    - (* stats *)
      unfold cl_stats, guarded, on_storage, bind, zoom, get. simpl.
      destruct od; simpl.
      + destruct (so_stats C p b sz A HC recs s (Hopen eq_refl)) as (y & s' & E & A').
        rewrite E. simpl. rewrite (io_count _ _ HI recs x HX). split; auto.
        split; simpl; auto. split; auto. split; auto. exists true. auto.
      + split; auto. split; simpl; auto. split; auto. split; auto. exists op; auto.
    - (* close *)
      unfold cl_close. unfold bind at 1. rewrite forM_lift.
      destruct (first_exn extra) as [e|]; simpl.
      + split; auto. split; simpl; auto. split; auto. split; auto. exists op; auto.
      + destruct (io_close _ _ HI x s) as (x' & E & I').
        unfold on_index, on_storage, bind, zoom. simpl. rewrite E. simpl.
        destruct (so_close C p b sz A HC op recs s HA) as [s1 [E1 A1]]. rewrite E1. simpl.
        split; auto. split; simpl; auto. split; auto. split; auto. exists false. split; auto.
    - (* reopen *)
      split; auto. split; simpl; auto. split; auto. split.
      + exists false. split; auto. eapply so_reopen; eauto.
      + apply (io_new _ _ HI).
  Qed.

  Lemma Rcl_run ops : forall d c, Rcl d c -> all_fit reinit row_fits orc_ok p d ops ->
    let (rs, c') := cl_run C IC c ops in
    db_conforms p search_ok d ops rs /\ Rcl (db_after p d ops) c'.
  Proof.
    induction ops as [|o ops IH]; intros d c HR Hfit; simpl.
    - split; auto.
    - destruct Hfit as [H1 H2]. pose proof (Rcl_step d c o HR H1) as Hst.
      destruct (cl_step C IC c o) as [r c']. destruct Hst as [Ha HR'].
      specialize (IH _ c' HR' H2). destruct (cl_run C IC c' ops) as [rs c'']. simpl in *. tauto.
  Qed.

  (** A client over empty storage conforms to the specification on every admissible history. *)
  Lemma client_conforms s0 ops : A (MkS false []) s0 ->
    all_fit reinit row_fits orc_ok p (MkS false []) ops ->
    db_conforms p search_ok (MkS false []) ops (cl_answers C IC s0 ops) /\
    Rcl (db_after p (MkS false []) ops) (cl_after C IC s0 ops).
  Proof.
    intros HA Hfit. unfold cl_answers, cl_after.
    assert (Rcl (MkS false []) (cl_new IC s0)) as HR.
    { split; simpl; auto. split; [constructor|]. split.
      - exists false. split; auto.
      - apply (io_new _ _ HI). }
    pose proof (Rcl_run ops _ _ HR Hfit) as HH.
    now destruct (cl_run C IC (cl_new IC s0) ops).
  Qed.

  (** ** Effects seen through storage reads *)

  Lemma Rcl_read d c id : Rcl d c -> s_open d = true ->
    read C (c_storage c) id = Ok (sp_find id (s_recs d)).
  Proof.
    intros (_ & _ & (op & HA & Hop) & _) Ho. rewrite (Hop Ho) in HA.
    destruct (so_retrieve C p b sz A HC _ _ id HA) as (s' & E & _).
    unfold read. now rewrite E.
  Qed.

  Lemma Rcl_nd d c : Rcl d c -> NoDup (map fst (s_recs d)).
  Proof. intros (_ & _ & (op & HA & _) & _). apply (so_nd C p b sz A HC _ _ HA). Qed.

  Lemma find_app id (r1 r2 : list (entry (list F) Mt)) :
    sp_find id (r1 ++ r2) = match sp_find id r1 with Some x => Some x | None => sp_find id r2 end.
  Proof. induction r1 as [|[k x] r1 IH]; simpl; auto. destruct (eqb id k); auto. Qed.

  Lemma find_batch fresh (rows : list (list F)) meta i row :
    (forall i j, i < length rows -> j < length rows -> fresh i = fresh j -> i = j) ->
    nth_error rows i = Some row ->
    sp_find (fresh i) (batch_recs fresh rows meta) = Some (row, meta_of (Mt := Mt) meta i).
  Proof.
    intros Hinj Hr. assert (Hi : i < length rows) by (apply nth_error_Some; congruence).
    rewrite sp_find_dget. apply In_dget.
    - unfold dkeys, batch_recs. rewrite map_map.
      rewrite (map_ext _ (fun e => fresh (fst e))) by (intros [? ?]; reflexivity).
      rewrite <- map_map. 
      assert (map fst (combine (seq 0 (length rows)) rows) = seq 0 (length rows)) as ->.
      { generalize 0. induction rows as [|r rs IH]; intros k; simpl; auto.
        f_equal. clear. generalize (Datatypes.S k). induction rs; simpl; intros; f_equal; auto. }
      assert (forall n k, k + n <= length rows -> NoDup (map fresh (seq k n))) as Hg.
      { induction n as [|n IH]; intros k Hk; simpl; constructor.
        - intros Hin. apply in_map_iff in Hin as [j [E Hj]]. apply in_seq in Hj.
          apply Hinj in E; lia.
        - apply IH. lia. }
      apply Hg. lia.
    - unfold batch_recs. apply in_map_iff. exists (i, row). split; auto.
      apply combine_seq_In. rewrite Nat.sub_0_r. split; auto. lia.
  Qed.

  Lemma find_batch_None fresh (rows : list (list F)) meta id :
    (forall i, i < length rows -> id <> fresh i) ->
    sp_find id (batch_recs (Mt := Mt) fresh rows meta) = None.
  Proof.
    intros Hn. rewrite sp_find_dget. apply dget_None. intros Hin. unfold dkeys, batch_recs in Hin.
    rewrite map_map in Hin. apply in_map_iff in Hin as [[i row] [E Hin]]. simpl in E.
    apply combine_seq_In in Hin as [_ Hin]. rewrite Nat.sub_0_r in Hin.
    apply (Hn i); auto. apply nth_error_Some. congruence.
  Qed.

  Lemma insert_effect d c o fresh rows meta :
    Rcl d c -> s_open d = true ->
    orc_ok o -> fresh_ids fresh (length rows) (map fst (s_recs d)) -> Forall row_fits rows ->
    (forall l m, meta = Some l -> In m l -> meta_ok m) ->
    let (r, c') := cl_step C IC c (CInsert o fresh (Mat rows) meta) in
    r = AIds (map fresh (seq 0 (length rows))) /\
    NoDup (map fresh (seq 0 (length rows))) /\
    (forall i, i < length rows -> read C (c_storage c) (fresh i) = Ok None) /\
    (forall i row, nth_error rows i = Some row ->
       read C (c_storage c') (fresh i) = Ok (Some (row, meta_of meta i))) /\
    (forall id, (forall i, i < length rows -> id <> fresh i) ->
       read C (c_storage c') id = read C (c_storage c) id).
  Proof.
    intros HR Ho Horc Hfr Hrows Hm.
    pose proof (Rcl_step d c (CInsert o fresh (Mat rows) meta) HR) as Hst. simpl in Hst.
    assert (Hst' := Hst (conj Horc (fun _ => conj Hfr (conj Hrows Hm)))). clear Hst. simpl.
    destruct (cobs AIds (cl_insert IC o fresh (Mat rows) meta c)) as [r c'].
    rewrite Ho in Hst'. destruct Hst' as [-> HR']. destruct Hfr as [Hinj Hfr].
    split; auto. split; [|split; [|split]].
    - assert (forall n k, k + n <= length rows -> NoDup (map fresh (seq k n))) as Hg.
      { induction n as [|n IH]; intros k Hk; simpl; constructor.
        - intros Hin. apply in_map_iff in Hin as [j [E Hj]]. apply in_seq in Hj.
          apply Hinj in E; lia.
        - apply IH. lia. }
      apply Hg. lia.
    - intros i Hi. rewrite (Rcl_read d c (fresh i) HR Ho). f_equal.
      rewrite sp_find_dget. apply dget_None. now apply Hfr.
    - intros i row Hr. rewrite (Rcl_read _ c' (fresh i) HR' eq_refl). simpl. f_equal.
      rewrite find_app.
      assert (i < length rows) as Hi by (apply nth_error_Some; congruence).
      replace (sp_find (fresh i) (s_recs d)) with (@None (list F * option Mt)).
      + now apply find_batch.
      + symmetry. rewrite sp_find_dget. apply dget_None. now apply Hfr.
    - intros id Hn. rewrite (Rcl_read _ c' id HR' eq_refl), (Rcl_read d c id HR Ho). simpl. f_equal.
      rewrite find_app, find_batch_None by auto. now destruct (sp_find id (s_recs d)).
  Qed.

  Lemma find_del_recs ids : forall (recs : list (entry (list F) Mt)) id,
    sp_find id (del_recs ids recs) = if memb id ids then None else sp_find id recs.
  Proof.
    unfold del_recs. induction ids as [|j ids IH]; intros recs id; simpl; auto.
    rewrite IH. destruct (memb id ids) eqn:E; simpl; [now rewrite orb_true_r|].
    rewrite orb_false_r. rewrite sp_del_ddel, !sp_find_dget, dget_ddel. now destruct (eqb id j).
  Qed.

  Lemma del_ans_spec ids : forall (recs : list (entry (list F) Mt)),
    del_ans ids recs = true <-> NoDup ids /\ forall id, In id ids -> sp_find id recs <> None.
  Proof.
    induction ids as [|j ids IH]; intros recs; simpl.
    - split; auto. intros _. split; [constructor|tauto].
    - rewrite andb_true_iff, IH.
      assert (forall id, sp_find id (sp_del j recs) = if eqb id j then None else sp_find id recs) as Hd.
      { intros id. rewrite sp_del_ddel, !sp_find_dget. apply dget_ddel. }
      split.
      + intros [H1 [H2 H3]]. split.
        * constructor; auto. intros Hin. apply (H3 j Hin). now rewrite Hd, eqb_refl.
        * intros id [->|Hin].
          -- now destruct (sp_find id recs).
          -- specialize (H3 id Hin). rewrite Hd in H3. now destruct (eqb id j).
      + intros [H1 H2]. inversion H1; subst. split.
        * specialize (H2 j (or_introl eq_refl)). now destruct (sp_find j recs).
        * split; auto. intros id Hin. rewrite Hd. destruct (eqb_spec id j) as [->|]; [tauto|].
          apply H2. auto.
  Qed.

  Lemma delete_effect d c ids : Rcl d c -> s_open d = true ->
    let (r, c') := cl_step C IC c (CDelete ids) in
    (exists ok, r = ABool ok /\
       (ok = true <-> NoDup ids /\ forall id, In id ids -> read C (c_storage c) id <> Ok None)) /\
    (forall id, In id ids -> read C (c_storage c') id = Ok None) /\
    (forall id, ~ In id ids -> read C (c_storage c') id = read C (c_storage c) id).
  Proof.
    intros HR Ho. pose proof (Rcl_step d c (CDelete ids) HR I) as Hst.
    destruct (cl_step C IC c (CDelete ids)) as [r c']. simpl in Hst. rewrite Ho in Hst.
    destruct Hst as [-> HR']. split; [|split].
    - exists (del_ans ids (s_recs d)). split; auto. rewrite del_ans_spec.
      split; intros [H1 H2]; split; auto; intros id Hin; specialize (H2 id Hin);
        rewrite (Rcl_read d c id HR Ho) in *; congruence.
    - intros id Hin. rewrite (Rcl_read _ c' id HR' eq_refl). simpl. f_equal.
      rewrite find_del_recs. apply memb_In in Hin. now rewrite Hin.
    - intros id Hin. rewrite (Rcl_read _ c' id HR' eq_refl), (Rcl_read d c id HR Ho). simpl. f_equal.
      rewrite find_del_recs. apply memb_false in Hin. now rewrite Hin.
  Qed.

  Lemma update_effect d c o id v m : Rcl d c -> s_open d = true ->
    orc_ok o -> row_fits v -> meta_ok m ->
    let (r, c') := cl_step C IC c (CUpdate o id v m) in
    (exists ok, r = ABool ok /\
       (ok = true <-> read C (c_storage c) id <> Ok None) /\
       read C (c_storage c') id = Ok (if ok then Some (v, m) else None)) /\
    (forall j, j <> id -> read C (c_storage c') j = read C (c_storage c) j).
  Proof.
    intros HR Ho H1 H2 H3.
    pose proof (Rcl_step d c (CUpdate o id v m) HR (conj H1 (conj H2 H3))) as Hst.
    destruct (cl_step C IC c (CUpdate o id v m)) as [r c']. simpl in Hst. rewrite Ho in Hst.
    destruct Hst as [-> HR'].
    assert (Hfp : forall j, sp_find j (sp_put id (v, m) (s_recs d)) =
                  if eqb j id then Some (v, m) else sp_find j (s_recs d)).
    { intros j. apply sp_find_put. }
    destruct (sp_find id (s_recs d)) eqn:E.
    - split.
      + exists true. split; auto. split.
        * rewrite (Rcl_read d c id HR Ho), E. split; auto. congruence.
        * rewrite (Rcl_read _ c' id HR' eq_refl). simpl. now rewrite Hfp, eqb_refl.
      + intros j Hj. rewrite (Rcl_read _ c' j HR' eq_refl), (Rcl_read d c j HR Ho). simpl.
        now rewrite Hfp, eqb_neq.
    - split.
      + exists false. split; auto. split.
        * rewrite (Rcl_read d c id HR Ho), E. split; congruence.
        * now rewrite (Rcl_read _ c' id HR' Ho), E.
      + intros j Hj. now rewrite (Rcl_read _ c' j HR' Ho), (Rcl_read d c j HR Ho).
  Qed.

  (** The call hands out [id] to a new row. *)
  Definition hands_out (id : pystr) (o : cop F Mt Orc) : Prop :=
    match o with
    | CInsert _ fresh (Mat rows) _ => exists i, i < length rows /\ fresh i = id
    | _ => False
    end.

  Lemma dead_stays_dead id o d :
    sp_find id (s_recs d) = None -> ~ hands_out id o ->
    sp_find id (s_recs (db_next p d o)) = None.
  Proof.
    intros Hd Hn. destruct o as [o extra|o fresh arr meta|o q k|ids|o j v m| |extra|]; simpl; auto.
    - destruct p; auto.
    - destruct arr as [v|rows|]; auto. destruct (s_open d); auto. simpl.
      rewrite find_app, Hd. apply find_batch_None. intros i Hi ->. apply Hn. simpl. eauto.
    - destruct (s_open d); auto. simpl. rewrite find_del_recs. now destruct (memb id ids).
    - destruct (s_open d); auto. destruct (sp_find j (s_recs d)) eqn:E; auto. simpl.
      rewrite sp_find_put. destruct (eqb_spec id j) as [->|]; auto. congruence.
    - destruct (first_exn extra); auto. simpl. destruct p; auto.
    - destruct p; auto.
  Qed.

  (** Answers of a history in which [id] is dead and not handed out never mention [id]. *)
  Lemma dead_never_found id
      (Hlive : forall recs q k l h, search_ok recs q k (AHits l) -> In h l ->
                                    sp_find (h_id h) recs <> None) :
    forall ops d c, Rcl d c -> all_fit reinit row_fits orc_ok p d ops ->
    sp_find id (s_recs d) = None -> Forall (fun o => ~ hands_out id o) ops ->
    Forall (fun r => match r with AHits l => ~ In id (map h_id l) | _ => True end)
           (fst (cl_run C IC c ops)).
  Proof.
    induction ops as [|o ops IH]; intros d c HR Hfit Hd Hn; simpl; auto.
    destruct Hfit as [Hf1 Hf2]. inversion Hn as [|? ? Hn1 Hn2]; subst.
    pose proof (Rcl_step d c o HR Hf1) as Hst.
    destruct (cl_step C IC c o) as [r c']. destruct Hst as [Ha HR'].
    specialize (IH _ c' HR' Hf2 (dead_stays_dead id o d Hd Hn1) Hn2).
    destruct (cl_run C IC c' ops) as [rs c'']. simpl. constructor; auto.
    destruct r as [| |l| | |]; auto. intros Hin. apply in_map_iff in Hin as [h [E Hin]]. subst id.
    destruct o as [o extra|o fresh arr meta|o q k|ids|o j v m| |extra|]; simpl in Ha;
      try (destruct (first_exn extra)); try discriminate;
      destruct (s_open d); try discriminate.
    - destruct arr; discriminate.
    - destruct q; try discriminate. exact (Hlive _ _ _ _ _ Ha Hin Hd).
  Qed.

  Lemma all_fit_app l2 : forall l1 (d : sstate (list F) Mt),
    all_fit reinit row_fits orc_ok p d (l1 ++ l2) <->
    all_fit reinit row_fits orc_ok p d l1 /\
    all_fit reinit row_fits orc_ok p (db_after p d l1) l2.
  Proof.
    induction l1 as [|o l1 IH]; intros d; simpl.
    - unfold db_after. simpl. tauto.
    - rewrite IH. unfold db_after. simpl. tauto.
  Qed.

  (** Searches after a deletion never mention the deleted ids. *)
  Lemma deleted_never_found
      (Hlive : forall recs q k l h, search_ok recs q k (AHits l) -> In h l ->
                                    sp_find (h_id h) recs <> None)
      s0 ops ids later id : A (MkS false []) s0 ->
    all_fit reinit row_fits orc_ok p (MkS false []) (ops ++ CDelete ids :: later) ->
    c_init (cl_after C IC s0 ops) = true ->
    In id ids -> Forall (fun o => ~ hands_out id o) later ->
    Forall (fun r => match r with AHits l => ~ In id (map h_id l) | _ => True end)
           (fst (cl_run C IC (cl_after C IC s0 (ops ++ [CDelete ids])) later)).
  Proof.
    intros HA Hfit Hi Hin Hn.
    replace (ops ++ CDelete ids :: later) with ((ops ++ [CDelete ids]) ++ later) in Hfit
      by now rewrite <- app_assoc.
    apply all_fit_app in Hfit as [Hf1 Hf2]. destruct (proj1 (all_fit_app _ _ _) Hf1) as [Hf0 _].
    destruct (client_conforms s0 _ HA Hf0) as [_ HR0].
    destruct (client_conforms s0 _ HA Hf1) as [_ HR].
    apply (dead_never_found id Hlive) with (d := db_after p (MkS false []) (ops ++ [CDelete ids])); auto.
    unfold db_after. rewrite fold_left_app. simpl.
    change (fold_left (db_next p) ops (MkS false [])) with (db_after p (MkS false []) ops).
    rewrite <- (proj1 HR0), Hi. simpl. rewrite find_del_recs.
    apply memb_In in Hin. now rewrite Hin.
  Qed.

  (** In service, the client's two counts are the number of live records. *)
  Lemma counts_agree s0 ops : A (MkS false []) s0 ->
    all_fit reinit row_fits orc_ok p (MkS false []) ops ->
    c_init (cl_after C IC s0 ops) = true ->
    let n := Z.of_nat (length (s_recs (db_after p (MkS false []) ops))) in
    fst (cl_step C IC (cl_after C IC s0 ops) CStats) = ACounts (Some n) (Some n).
  Proof.
    intros HA Hfit Hi n. destruct (client_conforms s0 ops HA Hfit) as [_ HR].
    pose proof (Rcl_step _ _ CStats HR I) as Hst.
    destruct (cl_step C IC (cl_after C IC s0 ops) CStats) as [r c'].
    destruct Hst as [Ha _]. simpl in Ha. rewrite <- (proj1 HR), Hi in Ha. exact Ha.
  Qed.
End Generic.
