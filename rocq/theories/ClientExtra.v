(** A further invariant of the index, kept by every call whose records stay within a bound, holds
    after every history within the bound. *)

From Coq Require Import List Arith ZArith NArith Lia Bool Permutation.
From Verif Require Import PyBase BaseLemmas Payload StorageModel StorageSpec StorageRun
  StorageProofs StorageThms StorageOk Num ClientModel DbSpec ClientRun ClientProofs.
Import ListNotations.
Open Scope py_scope.

Section Extra.
  Context {X S F Mt Orc : Type} `{Payload (list F) Mt}.
  Context (C : storage_class S (list F) Mt) (IC : index_class X S F Mt Orc).
  Context (p b : bool) (sz : option (list F * option Mt -> N))
          (A : sstate (list F) Mt -> S -> Prop).
  Context (HC : storage_ok C p b sz A).
  Context (row_fits : list F -> Prop) (orc_ok : Orc -> Prop).
  Context (search_ok : list (entry (list F) Mt) -> list F -> Z -> cret F Mt -> Prop).
  Context (Iopen Iclosed : list (entry (list F) Mt) -> X -> Prop).
  Context (HI : index_ok IC A false row_fits orc_ok search_ok Iopen Iclosed).

  (** The invariant [E], kept while the records satisfy [bound]. *)
  Context (bound : list (entry (list F) Mt) -> Prop).
  Context (E : list (entry (list F) Mt) -> X -> Prop).

  (** Each call of the index keeps the invariant. *)
  Record keeps : Prop := {
    k_init : forall o recs x s x' s',
      orc_ok o -> Iclosed recs x -> A (MkS true recs) s -> bound recs ->
      ix_init IC o (x, s) = (Ok tt, (x', s')) -> E recs x';
    k_insert : forall o fresh rows meta recs x s x' s' r,
      orc_ok o -> fresh_ids fresh (length rows) (map fst recs) -> Forall row_fits rows ->
      (forall l m, meta = Some l -> In m l -> meta_ok m) ->
      fit_recs row_fits recs -> Iopen recs x -> E recs x -> A (MkS true recs) s ->
      bound (recs ++ batch_recs fresh rows meta) ->
      ix_insert IC o fresh (Mat rows) meta (x, s) = (r, (x', s')) ->
      E (recs ++ batch_recs fresh rows meta) x';
    k_search : forall o q k recs x s x' s' r,
      orc_ok o -> fit_recs row_fits recs -> Iopen recs x -> E recs x -> A (MkS true recs) s ->
      ix_search IC o q k (x, s) = (r, (x', s')) -> E recs x';
    k_delete : forall ids recs x s x' s' r,
      fit_recs row_fits recs -> Iopen recs x -> E recs x -> A (MkS true recs) s ->
      ix_delete IC ids (x, s) = (r, (x', s')) -> E (del_recs ids recs) x';
    k_update : forall o id v m recs x s x' s' r,
      orc_ok o -> fit_recs row_fits recs -> Iopen recs x -> E recs x -> A (MkS true recs) s ->
      row_fits v -> meta_ok m ->
      ix_update IC o id v m (x, s) = (r, (x', s')) ->
      E (match sp_find id recs with Some _ => sp_put id (v, m) recs | None => recs end) x'
  }.
  Context (HK : keeps).

  Notation R := (Rcl A row_fits Iopen Iclosed).

  Lemma extra_step d c o : R d c -> fits false row_fits orc_ok d o ->
    (s_open d = true -> E (s_recs d) (c_index c)) -> bound (s_recs (db_next p d o)) ->
    s_open (db_next p d o) = true ->
    E (s_recs (db_next p d o)) (c_index (snd (cl_step C IC c o))).
  Proof.
    intros (Hc & Hf & (op & HA & Hop) & HX) Ho HE Hb Hopen'.
    destruct d as [od recs]. destruct c as [x s ci]. simpl in *. subst ci.
    assert (Hfe : fit_recs row_fits (if p then recs else [])).
    { destruct p; auto. constructor. }
    assert (Hopen : od = true -> A (MkS true recs) s) by (intros Eo; now rewrite (Hop Eo) in HA).
    destruct o as [o extra|o fresh arr meta|o q k|ids|o id v m| |extra|]; simpl in *.
    - destruct Ho as [Ho Hre]. destruct (Hre eq_refl) as [-> Hex]. rewrite Hex in *.
      destruct (so_init C p b sz A HC op recs s HA) as [s1 [E1 A1]].
      assert (Iclosed (if p then recs else []) x) as HXc.
      { destruct p; auto. eapply io_empty; eauto. }
      destruct (io_init _ _ _ _ _ _ _ _ HI o _ x s1 Ho Hfe HXc A1) as [x2 [s2 [E2 [I2 A2]]]].
      unfold cl_initialize, on_storage, on_index, wrap, bind, zoom. simpl.
      rewrite E1. simpl. rewrite E2. simpl. rewrite forM_lift. simpl. rewrite Hex. simpl.
      exact (k_init HK o _ x s1 x2 s2 Ho HXc A1 Hb E2).
    - unfold cl_insert, guarded, on_index, bind, zoom, get. simpl.
      destruct od; simpl in *.
      + pose proof (io_insert _ _ _ _ _ _ _ _ HI o fresh arr meta recs x s Hf HX (Hopen eq_refl)) as HIn.
        destruct arr as [v|rows|]; simpl in *.
        * rewrite HIn. simpl. auto.
        * destruct Ho as [Ho Hf2]. destruct (Hf2 eq_refl) as (Hfr & Hrows & Hm).
          destruct (HIn Ho Hfr Hrows Hm) as (x' & s' & Ei & I' & A').
          rewrite Ei. simpl. eapply (k_insert HK); eauto.
        * rewrite HIn. simpl. auto.
      + destruct arr; simpl in *; discriminate.
    - unfold cl_search, guarded, on_index, bind, zoom, get. simpl.
      destruct od; simpl in *; [|discriminate].
      destruct (ix_search IC o q k (x, s)) as [r [x' s']] eqn:Es.
      destruct r; simpl; eapply (k_search HK); eauto.
    - unfold cl_delete, guarded, on_index, bind, zoom, get. simpl.
      destruct od; simpl in *; [|discriminate].
      destruct (ix_delete IC ids (x, s)) as [r [x' s']] eqn:Es.
      destruct r; simpl; eapply (k_delete HK); eauto.
    - destruct Ho as (Ho & Hv & Hm).
      unfold cl_update, guarded, on_index, bind, zoom, get. simpl.
      destruct od; simpl in *; [|discriminate].
      destruct (ix_update IC o id v m (x, s)) as [r [x' s']] eqn:Es.
      pose proof (k_update HK o id v m recs x s x' s' r Ho Hf HX (HE eq_refl) (Hopen eq_refl) Hv Hm Es) as HE'.
      destruct r; simpl; destruct (sp_find id recs); exact HE'.
    - unfold cl_stats, guarded, on_storage, bind, zoom, get. simpl.
      destruct od; simpl in *; [|discriminate].
      destruct (so_stats C p b sz A HC recs s (Hopen eq_refl)) as (y & s' & Es & A').
      rewrite Es. simpl. auto.
    - unfold cl_close. unfold bind at 1. rewrite forM_lift.
      destruct (first_exn extra) as [e|]; simpl in *; auto. discriminate.
    - discriminate.
  Qed.

  Lemma extra_run ops : forall d c, R d c -> all_fit false row_fits orc_ok p d ops ->
    (s_open d = true -> E (s_recs d) (c_index c)) ->
    (forall n, bound (s_recs (db_after p d (firstn n ops)))) ->
    s_open (db_after p d ops) = true ->
    E (s_recs (db_after p d ops)) (c_index (snd (cl_run C IC c ops))).
  Proof.
    induction ops as [|o ops IH]; intros d c HR Hfit HE Hb Hop; simpl in *; auto.
    destruct Hfit as [H1 H2].
    pose proof (Rcl_step C IC p b sz A HC false row_fits orc_ok search_ok _ _ HI d c o HR H1) as Hst.
    assert (HE' : s_open (db_next p d o) = true ->
                  E (s_recs (db_next p d o)) (c_index (snd (cl_step C IC c o)))).
    { apply extra_step; auto. apply (Hb 1). }
    destruct (cl_step C IC c o) as [r c']. destruct Hst as [_ HR']. simpl in HE'.
    specialize (IH _ c' HR' H2 HE' (fun n => Hb (Datatypes.S n)) Hop).
    now destruct (cl_run C IC c' ops).
  Qed.

  (** A client over empty storage, in service after a history within the bound. *)
  Lemma extra_reach s0 ops : A (MkS false []) s0 ->
    all_fit false row_fits orc_ok p (MkS false []) ops ->
    (forall n, bound (s_recs (db_after p (MkS false []) (firstn n ops)))) ->
    c_init (cl_after C IC s0 ops) = true ->
    E (s_recs (db_after p (MkS false []) ops)) (c_index (cl_after C IC s0 ops)).
  Proof.
    intros HA Hfit Hb Hi.
    destruct (client_conforms C IC p b sz A HC false _ orc_ok search_ok _ _ HI s0 ops HA Hfit)
      as [_ (Hc & _)].
    apply extra_run; auto.
    - split; simpl; auto. split; [constructor|]. split.
      + exists false. split; auto.
      + apply (io_new _ _ _ _ _ _ _ _ HI).
    - discriminate.
    - congruence.
  Qed.
End Extra.

(** A weaker condition on the rows. *)
Lemma all_fit_weaken {F Mt Orc} `{Payload (list F) Mt} reinit (fit fit' : list F -> Prop)
    (orc_ok : Orc -> Prop) p (ops : list (cop F Mt Orc)) :
  (forall v, fit v -> fit' v) ->
  forall d, all_fit reinit fit orc_ok p d ops -> all_fit reinit fit' orc_ok p d ops.
Proof.
  intros Hw. induction ops as [|o ops IH]; simpl; auto. intros d [H1 H2]. split; auto.
  destruct o as [o extra|o fresh arr meta|o q k|ids|o id v m| |extra|]; simpl in *; auto.
  - destruct arr; auto. destruct H1 as [Ho Hf]. split; auto. intros Hop.
    destruct (Hf Hop) as (Hfr & Hr & Hm). split; auto. split; auto.
    eapply Forall_impl; [|exact Hr]. auto.
  - destruct H1 as (Ho & Hv & Hm). auto.
Qed.
