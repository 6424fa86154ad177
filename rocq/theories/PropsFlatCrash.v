(** C118: the process dies inside a call of a flat database on disk. *)

From Coq Require Import List Arith ZArith NArith Lia Bool Permutation.
From Coq Require String.
Import (notations) Coq.Strings.String.
From Verif Require Import PyBase BaseLemmas Payload StorageModel StorageSpec StorageRun
  StorageProofs StorageThms StorageOk Num ClientModel DbSpec ClientRun ClientProofs FlatModel
  FlatProofs StepModel StepProofs FlatSteps FlatDiskSteps PropsCrash FlatCrashProofs Demo DemoIndex
  PropsFlat.
Import ListNotations.
Open Scope py_scope.

(** ** Methods that keep a condition *)

Section Pres.
  Context {S : Type} (P : S -> Prop).

  Definition pres {A} (m : M S A) : Prop := forall s, P s -> P (snd (m s)).

  Lemma pres_bind {A B} (m : M S A) (k : A -> M S B) :
    pres m -> (forall a, pres (k a)) -> pres (bind m k).
  Proof.
    intros Hm Hk s Hs. unfold bind. specialize (Hm s Hs). destruct (m s) as [[a|e] s']; auto.
    now apply Hk.
  Qed.

  Lemma pres_ret {A} (a : A) : pres (ret a).
  Proof. intros s Hs. exact Hs. Qed.

  Lemma pres_lift {A} (r : result A) : pres (lift r).
  Proof. intros s Hs. destruct r; exact Hs. Qed.

  Lemma pres_raise {A} e : pres (raise (A := A) e).
  Proof. intros s Hs. exact Hs. Qed.

  Lemma pres_wrap {A} E (m : M S A) : pres m -> pres (wrap E m).
  Proof.
    intros Hm s Hs. unfold wrap. specialize (Hm s Hs). destruct (m s) as [[a|e] s']; auto.
  Qed.

  Lemma pres_mapM {A B} (f : A -> M S B) l : (forall a, pres (f a)) -> pres (mapM l f).
  Proof.
    intros Hf. induction l as [|a l IH]; [apply pres_ret|]. simpl.
    apply pres_bind; [apply Hf|intros b]. apply pres_bind; [exact IH|intros bs]. apply pres_ret.
  Qed.
End Pres.

Section HoldMore.
  Context {S : Type} (Q : S -> Prop).

  Lemma hold_frame {A} (R : S -> S -> Prop) (p : prog S A) :
    (forall s s', R s s' -> Q s -> Q s') -> frame R p -> forall s, Q s -> hold Q p s.
  Proof.
    intros HR. induction p as [r|f IH] using prog_induction; simpl; auto.
    intros Hf s Hs. split; auto. specialize (Hf s). specialize (IH s). destruct (f s) as [p' s'].
    destruct Hf as [Hr Hf]. simpl in IH. eauto.
  Qed.
End HoldMore.

Section Crash.
  Context {F Mt : Type} `{Num F} `{!NumOrder F} `{Payload (list F) Mt} `{Unicode}.
  Context (dirorder : list pystr -> list pystr)
          (Hdir : forall l, Permutation (dirorder l) l) (mt : metric).

  Notation D := (disk (list F) Mt).
  Notation W := (flat F * disk (list F) Mt)%type.
  Notation Cl := (client (flat F) (disk (list F) Mt)).
  Notation C := (disk_class dirorder).
  Notation IC := (flat_class (disk_class dirorder) mt).
  Notation Op := (cop F Mt (list F -> list nat)).
  Implicit Types (d : D) (x : flat F) (w : W) (c : Cl).

  (** ** Programs of the client *)

  Lemma hold_sb {A} (Q : D -> Prop) (p : prog D A) : forall w,
    hold Q p (snd w) -> hold (fun w => Q (snd w)) (sb_steps p) w.
  Proof.
    induction p as [r|f IH] using prog_induction; intros [x d]; simpl; auto.
    intros [Hq Hd]. split; auto. specialize (IH d). destruct (f d) as [p' d'].
    apply (IH (x, d')). exact Hd.
  Qed.

  Lemma hold_index {A} (Q : D -> Prop) (p : prog W A) : forall c,
    hold (fun w => Q (snd w)) p (c_index c, c_storage c) ->
    hold (fun c => Q (c_storage c)) (index_steps p) c.
  Proof.
    induction p as [r|f IH] using prog_induction; intros [x d b]; simpl; auto.
    intros [Hq Hd]. split; auto. specialize (IH (x, d)). destruct (f (x, d)) as [p' [x' d']].
    apply (IH (MkClient x' d' b)). exact Hd.
  Qed.

  Lemma hold_seen {S A} (Q : S -> Prop) (f : A -> cret F Mt) (p : prog S A) : forall s,
    hold Q p s -> hold Q (seen f p) s.
  Proof.
    induction p as [[a|e]|g IH] using prog_induction; intros s; simpl; auto.
    intros [Hq Hd]. split; auto. specialize (IH s). destruct (g s) as [p' s'].
    apply IH. exact Hd.
  Qed.

  Lemma hold_fwrite (Q : D -> Prop) (f : flat F -> flat F) w :
    Q (snd w) -> hold (fun w => Q (snd w)) (fwrite f) w.
  Proof. intros Hq. now apply hold_atomic. Qed.

  Lemma hold_rows (Q : D -> Prop) fresh meta rows : forall i w,
    (forall j row, nth_error rows j = Some row -> forall d, Q d ->
       hold Q (store_steps dirorder (fresh (i + j)) row (row_meta meta (i + j))) d) ->
    Q (snd w) ->
    hold (fun w => Q (snd w)) (rows_disk_steps dirorder fresh meta i rows) w.
  Proof.
    induction rows as [|row rows IH]; intros i w Hs Hq; [simpl; auto|]. cbn [rows_disk_steps].
    apply hold_bind.
    { apply hold_sb. rewrite <- (Nat.add_0_r i). now apply (Hs 0). }
    intros _ w1 _ Q1. apply hold_bind; [now apply hold_fwrite|].
    intros _ w2 _ Q2. apply hold_bind; [now apply hold_fwrite|].
    intros _ w3 _ Q3. apply hold_bind.
    { apply IH; auto. intros j r Hr d Hd. replace (1 + i + j) with (i + S j) by lia. now apply Hs. }
    intros l w4 _ Q4. simpl. auto.
  Qed.

  Lemma hold_ids (Q : D -> Prop) ids : forall ok w,
    (forall id, In id ids -> forall d, Q d -> hold Q (delete_steps dirorder id) d) ->
    Q (snd w) ->
    hold (fun w => Q (snd w)) (ids_disk_steps dirorder ids ok) w.
  Proof.
    induction ids as [|id ids IH]; intros ok w Hs Hq; [simpl; auto|]. cbn [ids_disk_steps].
    apply hold_bind.
    { apply hold_sb. apply Hs; auto. now left. }
    intros b w1 _ Q1. apply hold_bind; [now apply hold_fwrite|].
    intros _ w2 _ Q2. apply hold_bind; [now apply hold_fwrite|].
    intros _ w3 _ Q3. apply IH; auto. intros j Hj. apply Hs. now right.
  Qed.

  (** *** Calls that write no file *)

  Definition same_files d d' : Prop := d_vectors d' = d_vectors d /\ d_metadata d' = d_metadata d.

  Definition writes (o : Op) : bool :=
    match o with
    | CInsert _ _ (Mat _) _ | CDelete _ | CUpdate _ _ _ _ => true
    | _ => false
    end.

  Lemma retrieve_state id d : snd (disk_retrieve id d) = d.
  Proof.
    unfold disk_retrieve, bind, get, wrap. destruct (negb (d_init d)); [reflexivity|].
    destruct (dget (npy_name _) _) as [[v|]|]; try reflexivity.
    destruct (dget (pkl_name _) _) as [[m|]|]; reflexivity.
  Qed.

  Lemma pres_retrieve (Q : D -> Prop) id :
    pres (fun w : W => Q (snd w)) (on_sb (sc_retrieve C id)).
  Proof.
    intros [x d] Hw. unfold on_sb, zoom. simpl. pose proof (retrieve_state id d) as E.
    destruct (disk_retrieve id d) as [r d']. simpl in E. now subst.
  Qed.

  Lemma pres_set (Q : D -> Prop) (f : flat F -> flat F) :
    pres (fun w : W => Q (snd w)) (set_ix f).
  Proof. intros w Hw. exact Hw. Qed.

  Lemma pres_load (Q : D -> Prop) ids : pres (fun w : W => Q (snd w)) (flat_load C ids).
  Proof.
    induction ids as [|id ids IH]; [apply pres_ret|]. cbn [flat_load].
    apply pres_bind; [intros w Hw; exact Hw|]. intros x. destruct (dget id (f_cache x)).
    - apply pres_bind; auto. intros l0. apply pres_ret.
    - apply pres_bind; [apply pres_retrieve|]. intros [[v m]|]; auto.
      apply pres_bind; [apply pres_set|]. intros _. apply pres_bind; auto. intros l0. apply pres_ret.
  Qed.

  Lemma pres_search (Q : D -> Prop) argsort q k :
    pres (fun w : W => Q (snd w)) (flat_search C mt argsort q k).
  Proof.
    unfold flat_search. apply pres_bind; [intros w Hw; exact Hw|]. intros x.
    destruct (negb (f_init x)); [apply pres_raise|]. destruct q; try apply pres_raise.
    apply pres_wrap. destruct (Nat.eqb _ 0); [apply pres_ret|].
    apply pres_bind; [apply pres_load|]. intros l0. destruct (Nat.eqb _ 0); [apply pres_ret|].
    apply pres_bind; [apply pres_lift|]. intros ds. apply pres_mapM. intros i. unfold flat_result.
    destruct (nth_error _ i); [|apply pres_raise]. destruct (nth_error _ i); [|apply pres_raise].
    apply pres_bind; [apply pres_retrieve|]. intros [[v1 m1]|]; [apply pres_ret|apply pres_raise].
  Qed.

  Lemma quiet_step (o : Op) c : writes o = false ->
    same_files (c_storage c) (c_storage (snd (cl_step C IC c o))).
  Proof.
    intros Ho.
    assert (Hobs : forall A (f : A -> cret F Mt) (m : M Cl A),
      pres (fun c' => same_files (c_storage c) (c_storage c')) m ->
      same_files (c_storage c) (c_storage (snd (cobs f (m c))))).
    { intros A f m Hm. specialize (Hm c (conj eq_refl eq_refl)). unfold cobs.
      destruct (m c) as [[a|e] c']; exact Hm. }
    assert (Hix : forall A (m : M W A),
      pres (fun w => same_files (c_storage c) (snd w)) m ->
      pres (fun c' => same_files (c_storage c) (c_storage c')) (on_index m)).
    { intros A m Hm c' Hc'. unfold on_index, zoom. specialize (Hm (c_index c', c_storage c') Hc').
      destruct (m _) as [r w]. exact Hm. }
    assert (Hst : forall A (m : M D A),
      pres (same_files (c_storage c)) m ->
      pres (fun c' => same_files (c_storage c) (c_storage c')) (on_storage m)).
    { intros A m Hm c' Hc'. unfold on_storage, zoom. specialize (Hm (c_storage c') Hc').
      destruct (m _) as [r w]. exact Hm. }
    assert (Hgd : forall A (m : M Cl A),
      pres (fun c' => same_files (c_storage c) (c_storage c')) m ->
      pres (fun c' => same_files (c_storage c) (c_storage c')) (guarded m)).
    { intros A m Hm. unfold guarded. apply pres_bind; [intros c' Hc'; exact Hc'|]. intros c'.
      destruct (negb _); [apply pres_raise|]. exact Hm. }
    assert (Hex : forall l : list (result unit),
      pres (fun c' => same_files (c_storage c) (c_storage c')) (forM l (fun r => lift r))).
    { induction l as [|r l IH]; [apply pres_ret|]. simpl. apply pres_bind; [apply pres_lift|].
      intros _. exact IH. }
    destruct o as [o extra|o fresh arr meta|o q k|ids|o id v m| |extra|]; try discriminate Ho;
      cbn [cl_step].
    - apply Hobs. unfold cl_initialize. apply pres_wrap.
      apply pres_bind; [apply Hst; intros d Hd; exact Hd|]. intros _.
      apply pres_bind.
      { apply Hix. cbn [ix_init flat_class]. unfold flat_initialize.
        apply pres_bind; [apply pres_set|]. intros _. apply pres_wrap.
        apply pres_bind.
        - intros [x d] Hw. unfold on_sb, zoom. simpl. unfold disk_list, bind, get, raise, ret.
          destruct (negb (d_init d)); exact Hw.
        - intros l0. apply pres_bind; [apply pres_set|]. intros _. apply pres_set. }
      intros _. apply pres_bind; [apply Hex|]. intros _ c' Hc'. exact Hc'.
    - apply Hobs, Hgd, Hix. cbn [ix_insert flat_class]. unfold flat_insert.
      apply pres_bind; [intros w Hw; exact Hw|]. intros x. destruct (negb _); [apply pres_raise|].
      destruct arr; try discriminate Ho; apply pres_raise.
    - apply Hobs, Hgd, Hix. apply (pres_search (same_files (c_storage c))).
    - apply Hobs, Hgd. apply pres_bind.
      + apply Hst. intros d Hd. cbn. unfold bind, disk_get_stats, bind, get, ret.
        destruct (negb _); exact Hd.
      + intros st. apply pres_bind; [intros c' Hc'; exact Hc'|]. intros c'. apply pres_ret.
    - apply Hobs. unfold cl_close. apply pres_bind; [apply Hex|]. intros _.
      apply pres_bind; [apply Hix; apply (pres_set (same_files (c_storage c)))|]. intros _.
      apply pres_bind; [apply Hst; intros d Hd; exact Hd|]. intros _ c' Hc'. exact Hc'.
    - split; reflexivity.
  Qed.

  Lemma hold_client (Q : D -> Prop) (o : Op) c :
    (forall d d', d_vectors d' = d_vectors d -> d_metadata d' = d_metadata d -> Q d -> Q d') ->
    match o with
    | CInsert _ fresh (Mat rows) meta =>
        forall j row, nth_error rows j = Some row -> forall d, Q d ->
          hold Q (store_steps dirorder (fresh j) row (row_meta meta j)) d
    | CDelete ids => forall id, In id ids -> forall d, Q d -> hold Q (delete_steps dirorder id) d
    | CUpdate _ id v m => forall d, Q d -> hold Q (update_steps id v m) d
    | _ => True
    end ->
    Q (c_storage c) -> hold (fun c => Q (c_storage c)) (client_steps dirorder mt o) c.
  Proof.
    intros Hext Ho Hq.
    assert (Hg : forall A (f : A -> cret F Mt) (p : prog W A),
      hold (fun w => Q (snd w)) p (c_index c, c_storage c) ->
      hold (fun c => Q (c_storage c)) (seen f (guard_steps (index_steps p))) c).
    { intros A f p Hp. apply hold_seen. unfold guard_steps. apply hold_bind; [now apply hold_atomic|].
      intros b c'. rewrite finish_atomic. unfold bind, get, ret. intros [= <- <-] _.
      destruct (negb (c_init c)); [simpl; auto|]. now apply hold_index. }
    assert (Hr : forall A (p : prog W A) w, Q (snd w) ->
      (forall w, Q (snd w) -> hold (fun w => Q (snd w)) p w) ->
      hold (fun w => Q (snd w))
        (opened <~ fread f_init ;; if negb opened then Return (Raise EIndex) else pwrap EIndex p) w).
    { intros A p w Hw Hp. apply hold_bind; [now apply hold_atomic|]. intros b w' _ Qw.
      destruct (negb b); [simpl; auto|]. apply hold_wrap. auto. }
    assert (Hc : forall A (p : prog W A) w,
      hold (fun w => Q (snd w)) p w ->
      hold (fun w => Q (snd w)) (r <~ p ;; fwrite fset_count ;~ Return (Ok r)) w).
    { intros A p w Hp. apply hold_bind; auto. intros r w' _ Qw.
      apply hold_bind; [now apply hold_fwrite|]. intros _ w2 _ Q2. simpl. auto. }
    assert (Hone : writes o = false -> hold (fun c => Q (c_storage c))
      (Step (fun c => let (r, c') := cl_step C IC c o in (Return (Ok r), c'))) c).
    { intros Hw. pose proof (quiet_step o c Hw) as [E1 E2]. simpl. split; auto.
      destruct (cl_step C IC c o) as [r c']. simpl in *. split; eauto. }
    destruct o as [o extra|o fresh arr meta|o q k|ids|o id v m| |extra|];
      try (apply Hone; reflexivity).
    - destruct arr as [v|rows|]; try (apply Hone; reflexivity).
      cbn [client_steps]. apply Hg. unfold insert_disk_steps. apply Hr; auto. intros w Hw. apply Hc.
      now apply hold_rows.
    - cbn [client_steps]. apply Hg. unfold delete_disk_steps. apply Hr; auto. intros w Hw. apply Hc.
      now apply hold_ids.
    - cbn [client_steps]. apply Hg. unfold update_disk_steps. apply Hr; auto. intros w Hw.
      apply hold_bind; [apply hold_sb; auto|]. intros b w' _ Qw. destruct (negb b); [simpl; auto|].
      apply hold_bind; [now apply hold_fwrite|]. intros _ w2 _ Q2. simpl. auto.
  Qed.
  (** ** Directories stay tidy *)

  Lemma tidy_ext d d' : d_vectors d' = d_vectors d -> tidy d -> tidy d'.
  Proof. unfold tidy. now intros ->. Qed.

  Lemma tidy_dset d k f (m : dict pystr (fcontent Mt)) n b : tidy d -> uuid_like k ->
    tidy (MkDisk (dset (npy_name k) f (d_vectors d)) m n b).
  Proof.
    intros [Hnd HF] Hk. split; simpl; [now apply NoDup_dkeys_dset|].
    rewrite Forall_forall in *. intros n' Hn. apply In_dkeys_dset in Hn as [->|Hn]; eauto.
  Qed.

  Lemma tidy_put k (m : option Mt) d : tidy d -> hold tidy (put_metadata (V := list F) k m) d.
  Proof.
    apply (hold_frame tidy (fun d d' => d_vectors d' = d_vectors d)).
    { intros d1 d2 E. now apply tidy_ext. }
    destruct m as [m|]; simpl put_metadata.
    - unfold save_metadata. apply frame_bind; [apply frame_atomic; reflexivity|]. intros _.
      destruct (picklable m); [|exact I]. apply frame_atomic. intros s. simpl.
      destruct (dmem _ _); reflexivity.
    - unfold drop_metadata. apply frame_bind; [apply frame_atomic; reflexivity|]. intros [|]; [|exact I].
      apply frame_atomic. intros s. unfold bind, get. destruct (dmem _ _); reflexivity.
  Qed.

  Lemma tidy_save k (v : list F) d : uuid_like k -> tidy d -> hold tidy (save_vector (Mt := Mt) k v) d.
  Proof.
    intros Hk Hd. unfold save_vector. apply hold_bind.
    - apply hold_atomic; auto. now apply tidy_dset.
    - intros _ d1 _ T1. apply hold_atomic; auto. simpl. destruct (dmem _ _); auto.
      now apply tidy_dset.
  Qed.

  Lemma tidy_store id v (m : option Mt) d : uuid_like id -> tidy d ->
    hold tidy (store_steps dirorder id v m) d.
  Proof.
    intros Hu Hd. destruct id as [|a id]; [simpl; auto|]. unfold store_steps.
    apply hold_bind.
    { apply hold_atomic; auto. unfold bind, get. destruct (negb _); exact Hd. }
    intros _ d1 _ T1. apply hold_wrap. rewrite uuid_sanitize by auto.
    apply hold_bind; [now apply tidy_save|]. intros _ d2 _ T2.
    apply hold_bind; [now apply tidy_put|]. intros _ d3 _ T3.
    apply hold_bind; [now apply hold_atomic|]. intros _ d4 _ T4. simpl. auto.
  Qed.

  Lemma tidy_update id v (m : option Mt) d : tidy d -> hold tidy (update_steps id v m) d.
  Proof.
    intros Hd. unfold update_steps. apply hold_bind.
    { apply hold_atomic; auto. unfold bind, get. destruct (negb _); exact Hd. }
    intros _ d1 _ T1. apply hold_wrap. apply hold_bind; [now apply hold_atomic|].
    intros b d2. unfold has_vector. rewrite finish_atomic. unfold bind, get, ret.
    intros [= <- <-] _. destruct (dmem _ _) eqn:E; [|simpl; auto].
    apply listing_In, listing_uuid in E; auto.
    apply hold_bind; [now apply tidy_save|]. intros _ d2 _ T2.
    apply hold_bind; [now apply tidy_put|]. intros _ d3 _ T3. simpl. auto.
  Qed.

  Lemma tidy_delete id d : tidy d -> hold tidy (delete_steps dirorder id) d.
  Proof.
    intros Hd. unfold delete_steps. apply hold_bind.
    { apply hold_atomic; auto. unfold bind, get. destruct (negb _); exact Hd. }
    intros _ d1 _ T1. apply hold_wrap. apply hold_bind; [now apply hold_atomic|].
    intros b d2 _ T2. apply hold_bind.
    { destruct b; [|simpl; auto]. apply hold_atomic; auto. unfold bind, get.
      destruct (dmem _ _); auto. now apply tidy_ddel. }
    intros _ d3 _ T3. apply hold_bind; [now apply (tidy_put _ None)|]. intros _ d4 _ T4.
    destruct b; [|simpl; auto]. apply hold_bind; [now apply hold_atomic|]. intros _ d5 _ T5. simpl. auto.
  Qed.

  (** ** Histories *)

  (** The ids a call hands out are uuids, as flat.py:70 draws them. *)
  Definition draws_uuids (o : Op) : Prop :=
    match o with
    | CInsert _ fresh (Mat rows) _ => forall i, i < length rows -> uuid_like (fresh i)
    | _ => True
    end.

  (** The call of an event. *)
  Definition event_call (e : event F Mt) : Op := match e with Done o => o | Dies o _ => o end.

  Lemma tidy_client (o : Op) c : draws_uuids o -> tidy (c_storage c) ->
    hold (fun c => tidy (c_storage c)) (client_steps dirorder mt o) c.
  Proof.
    intros Ho. apply hold_client.
    - intros d d' E _. now apply tidy_ext.
    - destruct o as [o extra|o fresh arr meta|o q k|ids|o id v m| |extra|]; auto.
      + destruct arr as [v|rows|]; auto. intros j row Hj d. apply tidy_store. apply Ho.
        apply nth_error_Some. congruence.
      + intros id _ d. apply tidy_delete.
      + intros d. apply tidy_update.
  Qed.

  Lemma done_finish (o : Op) c :
    snd (cl_step C IC c o) = snd (finish (client_steps dirorder mt o) c).
  Proof. rewrite finish_client. now destruct (cl_step C IC c o). Qed.

  Lemma tidy_event c e : draws_uuids (event_call e) -> tidy (c_storage c) ->
    tidy (c_storage (after_event dirorder mt c e)).
  Proof.
    intros He Hc. pose proof (tidy_client _ c He Hc) as Hh. destruct e as [o|o n]; simpl in *.
    - rewrite done_finish. apply (hold_finish _ _ _ Hh).
    - apply (hold_run _ _ _ n Hh).
  Qed.

  (** Whatever happens, the directory holds only files named by uuids. *)
  Lemma tidy_events es : Forall (fun e => draws_uuids (event_call e)) es ->
    tidy (c_storage (after_events dirorder mt es)).
  Proof.
    intros HF. unfold after_events. set (c0 := cl_new _ _).
    assert (tidy (c_storage c0)) as T0 by (split; constructor).
    revert HF. generalize dependent c0.
    induction es as [|e es IH]; intros c0 T0 HF; simpl; auto.
    inversion HF as [|? ? He Hes]; subst. apply IH; auto. now apply tidy_event.
  Qed.

  (** C118: the steps are the calls. *)
  Theorem C118_steps_are_the_call (o : Op) c :
    finish (client_steps dirorder mt o) c = (let (r, c') := cl_step C IC c o in (Ok r, c')).
  Proof. apply finish_client. Qed.

  (** C118 (partial): if after any history of calls and crashes every record found can be read, the
      database opened on the directory conforms to the specification from there on, starting with
      exactly the records that can be read.  Missing: a record torn by a crash, with which no
      search is answered ([C118_torn_record_blocks_search], [C118_searchable_refuted]). *)
  Theorem C118_reopened_partial es later :
    Forall (fun e => draws_uuids (event_call e)) es ->
    let d := c_storage (after_events dirorder mt es) in
    (forall id, In id (listing d) -> exists r, reading (files id d) = Ok (Some r)) ->
    exists recs,
      NoDup (map fst recs) /\
      (forall id r, sp_find id recs = Some r <-> reading (files id d) = Ok (Some r)) /\
      (all_fit true (fun _ => True) argsort_ok true (MkS false recs) later ->
       db_conforms true (flat_ok mt) (MkS false recs) later
         (cl_answers C IC (restart d) later)).
  Proof.
    intros He d Hw. pose proof (tidy_events es He) as T. fold d in T.
    exists (records d). split; [now apply records_nd|]. split.
    - intros id r. rewrite records_find by auto. unfold found.
      destruct (reading (files id d)) as [[r'|]|e]; split; congruence.
    - intros Hfit. pose proof (disk_ok_o dirorder Hdir) as HC.
      pose proof (flat_index_ok C mt true false None Adisk_o HC true) as HI.
      assert (Adisk_o (MkS false (records d)) (restart d)) as HA.
      { apply (whole_Adisk (restart d)); auto. discriminate. }
      unfold cl_answers.
      assert (Rcl Adisk_o (fun _ => True) (fopen (Mt := Mt)) (fcoh (Mt := Mt))
                (MkS false (records d)) (cl_new IC (restart d))) as HR.
      { split; [reflexivity|]. split; [apply Forall_forall; auto|]. split.
        - exists false. split; auto.
        - intros id v r Hd. discriminate. }
      pose proof (Rcl_run C IC true false None Adisk_o HC true _ argsort_ok (flat_ok mt) _ _ HI
                    later _ _ HR Hfit) as Hrun.
      destruct (cl_run C IC (cl_new IC (restart d)) later) as [rs c']. apply Hrun.
  Qed.
  (** ** Deleting unreadable records *)

  (** A directory in use by an index that has read nothing yet. *)
  Definition unread x d : Prop :=
    tidy d /\ d_init d = true /\ d_count d = Z.of_nat (length (d_vectors d)) /\
    f_cache x = [] /\ f_init x = true /\ Permutation (f_ids x) (listing d).

  Lemma same_name d id k : tidy d -> In k (listing d) -> eqb (sanitize_id id) k = eqb id k.
  Proof.
    intros T Hk. apply listing_uuid in Hk; auto.
    destruct (eqb_spec id k) as [->|Hn].
    - rewrite uuid_sanitize by auto. apply eqb_refl.
    - apply eqb_neq. intros E. now apply sanitize_uuid in E.
  Qed.

  Lemma listing_ddel d id m n b : tidy d ->
    listing (MkDisk (Mt := Mt) (ddel (npy_name (sanitize_id id)) (d_vectors d)) m n b) =
    filter (fun k => negb (eqb id k)) (listing d).
  Proof.
    intros T. unfold listing at 1. cbn [d_vectors]. rewrite dkeys_ddel.
    pose proof (same_name d id) as Hs. specialize (fun k => Hs k T).
    rewrite (tidy_npy d T). induction (listing d) as [|k l IH]; auto.
    cbn [map filter]. rewrite <- (Hs k (or_introl eq_refl)).
    destruct (eqb_spec (sanitize_id id) k) as [<-|E].
    - rewrite eqb_refl. cbn [negb]. apply IH. intros j Hj. apply Hs. now right.
    - rewrite eqb_neq by (intros E'; apply E; now apply app_inj_tail_py in E').
      cbn [negb map]. rewrite stem4_npy. f_equal. apply IH. intros j Hj. apply Hs. now right.
  Qed.

  Lemma delete_one d id : tidy d -> d_init d = true ->
    d_count d = Z.of_nat (length (d_vectors d)) ->
    exists b d', disk_delete dirorder id d = (Ok b, d') /\
      tidy d' /\ d_init d' = true /\ d_count d' = Z.of_nat (length (d_vectors d')) /\
      listing d' = filter (fun k => negb (eqb id k)) (listing d) /\
      (forall k, In k (listing d') -> files k d' = files k d).
  Proof.
    intros T Hi Hc. unfold disk_delete, bind, get, wrap, modify. rewrite Hi. cbn [negb].
    assert (Hfiles : forall n b k,
      In k (filter (fun k => negb (eqb id k)) (listing d)) ->
      files k (MkDisk (ddel (npy_name (sanitize_id id)) (d_vectors d))
                      (ddel (pkl_name (sanitize_id id)) (d_metadata d)) n b) = files k d).
    { intros n b k Hk. apply filter_In in Hk as [Hk Hn].
      rewrite <- (same_name d id k T Hk) in Hn. unfold files. cbn [d_vectors d_metadata].
      assert (k <> sanitize_id id) as Hd.
      { intros ->. now rewrite eqb_refl in Hn. }
      rewrite dget_ddel_other by now apply npy_other.
      now rewrite dget_ddel_other by now apply pkl_other. }
    destruct (dmem (npy_name (sanitize_id id)) (d_vectors d)) eqn:E; cbn.
    - eexists true, _. split; [reflexivity|].
      assert (forall n b m, tidy (MkDisk (Mt := Mt) (ddel (npy_name (sanitize_id id)) (d_vectors d)) m n b)) as T'
        by (intros; now apply tidy_ddel).
      split; [apply T'|]. split; [exact Hi|]. cbn [d_init d_count d_vectors].
      rewrite listing_ddel by auto. split; [|split; auto].
      f_equal. apply (glob_tidy dirorder Hdir). apply T'.
    - eexists false, _. split; [reflexivity|].
      split; [now apply tidy_ddel|]. split; [exact Hi|]. cbn [d_init d_count d_vectors].
      rewrite listing_ddel by auto. split; [|split; auto].
      now rewrite ddel_absent.
  Qed.

  Lemma records_filter d d' id :
    listing d' = filter (fun k => negb (eqb id k)) (listing d) ->
    (forall k, In k (listing d') -> files k d' = files k d) ->
    records d' = sp_del id (records d).
  Proof.
    intros El Ef. rewrite !records_found.
    assert (Hf : forall k, In k (listing d') -> found d' k = found d k)
      by (intros k Hk; unfold found; now rewrite Ef).
    rewrite El in *. clear El Ef. induction (listing d) as [|k l IH]; auto. simpl in *.
    destruct (eqb id k) eqn:E; simpl in *.
    - rewrite IH by auto. destruct (found d k); simpl; auto. unfold sp_del. simpl. now rewrite E.
    - rewrite Hf by now left. rewrite IH by (intros j Hj; apply Hf; now right).
      destruct (found d k); simpl; auto. unfold sp_del. simpl. now rewrite E.
  Qed.

  Lemma delete_many ids : forall x d ok, unread x d ->
    exists b x' d', flat_delete_ids C ids ok (x, d) = (Ok b, (x', d')) /\ unread x' d' /\
      records d' = del_recs ids (records d) /\
      (forall k, In k (listing d') <-> In k (listing d) /\ ~ In k ids) /\
      (forall k, In k (listing d') -> files k d' = files k d).
  Proof.
    induction ids as [|id ids IH]; intros x d ok HU.
    - exists ok, x, d. split; [reflexivity|]. split; auto. split; auto. split; auto. simpl. tauto.
    - destruct HU as (T & Hi & Hc & Hca & Hix & Hp). cbn [flat_delete_ids].
      destruct (delete_one d id T Hi Hc) as (b & d1 & E1 & T1 & Hi1 & Hc1 & El & Ef).
      unfold bind, on_sb, zoom. cbn [fst snd sc_delete disk_class]. rewrite E1.
      unfold set_ix, modify. cbn [fst snd].
      match goal with |- context [flat_delete_ids _ ids ?o (?y, d1)] =>
        destruct (IH y d1 o) as (b' & x' & d' & E & U' & Er & Ek & Eg) end.
      { split; auto. split; auto. split; auto.
        assert (Hfi : f_ids (if memb id (f_ids x) then fset_ids (remove_first id (f_ids x)) x else x)
                      = remove_first id (f_ids x)).
        { destruct (memb_spec id (f_ids x)); auto. now rewrite remove_first_notin. }
        split; [|split].
        - simpl. destruct (memb id (f_ids x)); simpl; now rewrite Hca.
        - simpl. now destruct (memb id (f_ids x)).
        - cbn [f_ids fset_cache]. rewrite Hfi, El.
          assert (NoDup (f_ids x)) as Hnx.
          { eapply Permutation_NoDup; [symmetry; exact Hp|]. now apply listing_NoDup. }
          rewrite remove_first_filter by auto.
          apply NoDup_Permutation; try apply NoDup_filter; auto; [now apply listing_NoDup|].
          intros j. rewrite !filter_In. split; intros [Hj Hn]; split; auto.
          + eapply Permutation_in; eauto.
          + eapply Permutation_in; [symmetry|]; eauto. }
      exists b', x', d'. split; [exact E|]. split; auto. split; [|split].
      + rewrite Er. rewrite (records_filter d d1 id El Ef). reflexivity.
      + intros k. rewrite Ek, El, filter_In. simpl. split.
        * intros [[Hk Hn] Hni]. split; auto. intros [->|Hin]; auto. now rewrite eqb_refl in Hn.
        * intros [Hk Hn]. split; [|tauto]. split; auto. rewrite eqb_neq; auto.
      + intros k Hk. rewrite Eg by auto. apply Ef. apply Ek in Hk. tauto.
  Qed.

  (** C118: deleting the unreadable records brings the database back: with nothing but the other
      records, it conforms to the specification from there on. *)
  Theorem C118_delete_recovers es o bad later :
    Forall (fun e => draws_uuids (event_call e)) es ->
    let d := c_storage (after_events dirorder mt es) in
    (forall id, In id (listing d) -> reading (files id d) = Raise EStorage -> In id bad) ->
    exists recs ok rs,
      NoDup (map fst recs) /\
      (forall id r, sp_find id recs = Some r <->
         reading (files id d) = Ok (Some r) /\ ~ In id bad) /\
      (all_fit true (fun _ => True) argsort_ok true (MkS true recs) later ->
       cl_answers C IC (restart d) (CInit o [] :: CDelete bad :: later) =
         AUnit :: ABool ok :: rs /\
       db_conforms true (flat_ok mt) (MkS true recs) later rs).
  Proof.
    intros He d Hbad. pose proof (tidy_events es He) as T. fold d in T.
    pose proof (disk_ok_o dirorder Hdir) as HC.
    pose proof (flat_index_ok C mt true false None Adisk_o HC true) as HI.
    set (d0 := MkDisk (d_vectors d) (d_metadata d) (Z.of_nat (length (d_vectors d))) true).
    set (x0 := MkFlat (map stem4 (glob_npy dirorder d)) ([] : dict pystr (list F))
                 (Z.of_nat (length (map stem4 (glob_npy dirorder d)))) true).
    assert (Einit : cl_step C IC (cl_new IC (restart d)) (CInit o []) = (AUnit, MkClient x0 d0 true)).
    { unfold x0, d0. rewrite <- (proj2 (glob_tidy dirorder Hdir d T)). reflexivity. }
    assert (U0 : unread x0 d0).
    { repeat split; try apply T. apply (proj1 (glob_tidy dirorder Hdir d T)). }
    destruct (delete_many bad x0 d0 true U0) as (b & x' & d' & E & U' & Er & Ek & Eg).
    assert (Ed : cl_step C IC (MkClient x0 d0 true) (CDelete bad) =
                 (ABool b, MkClient (fset_count x') d' true)).
    { cbn [cl_step]. unfold cl_delete, guarded, bind at 1, get. cbn [c_init negb].
      unfold on_index, zoom. cbn [c_index c_storage ix_delete flat_class].
      unfold flat_delete, bind, get_ix. cbn [fst f_init x0 negb]. unfold wrap. rewrite E. reflexivity. }
    exists (records d'), b,
      (fst (cl_run C IC (MkClient (fset_count x') d' true) later)).
    split; [apply records_nd, U'|]. split.
    - intros id r. destruct U' as (T' & _). rewrite records_find by auto.
      rewrite <- (records_find d' id T'), Er, find_del_recs.
      rewrite (records_find d0 id) by apply T. unfold found. change (files id d0) with (files id d).
      destruct (memb_spec id bad) as [Hin|Hin].
      + split; [discriminate|tauto].
      + destruct (reading (files id d)) as [[r'|]|e]; split; try discriminate; try tauto.
        * intros [= ->]. auto.
        * intros [[= ->] _]. auto.
        * intros [? _]. discriminate.
        * intros [? _]. discriminate.
    - intros Hfit. destruct U' as (T' & Hi' & Hc' & Hca & Hix & Hp).
      assert (Hw : whole d').
      { intros k Hk. pose proof (proj1 (Ek k) Hk) as [Hk0 Hnb].
        assert (files k d' = files k d) as Ef by now apply Eg.
        unfold readable. rewrite Ef.
        apply listing_In in Hk0; [|exact T]. cbn [d_vectors d0] in Hk0.
        assert (reading (files k d) = Raise EStorage -> In k bad) as Hb
          by (apply Hbad; now apply listing_In).
        unfold reading, files in *. unfold dmem in Hk0.
        destruct (dget (npy_name k) (d_vectors d)) as [[v|]|]; try discriminate; [|tauto].
        destruct (dget (pkl_name k) (d_metadata d)) as [[m|]|]; eauto. tauto. }
      assert (Rcl Adisk_o (fun _ => True) (fopen (Mt := Mt)) (fcoh (Mt := Mt))
                (MkS true (records d')) (MkClient (fset_count x') d' true)) as HR.
      { split; [reflexivity|]. split; [apply Forall_forall; auto|]. split.
        - exists true. split; auto. rewrite <- Hi'. apply whole_Adisk; auto.
        - cbn [s_open s_recs c_index]. split; [|split; [|split]]; simpl; auto.
          + intros id v r. simpl. rewrite Hca. discriminate.
          + rewrite whole_keys by auto. exact Hp. }
      pose proof (Rcl_run C IC true false None Adisk_o HC true _ argsort_ok (flat_ok mt) _ _ HI
                    later _ _ HR Hfit) as Hrun.
      unfold cl_answers. cbn [cl_run]. rewrite Einit. rewrite Ed.
      destruct (cl_run C IC (MkClient (fset_count x') d' true) later) as [rs c']. simpl.
      split; auto. apply Hrun.
  Qed.
  (** ** An unreadable record *)

  (** The record cannot be read. *)
  Definition torn (k : pystr) d : Prop := uuid_like k /\ reading (files k d) = Raise EStorage.

  Lemma torn_files k d d' : files k d' = files k d -> torn k d -> torn k d'.
  Proof. unfold torn. now intros ->. Qed.

  Lemma torn_mem k d : torn k d -> dmem (npy_name k) (d_vectors d) = true.
  Proof.
    intros [_ Hk]. unfold reading, files in Hk. unfold dmem.
    destruct (dget (npy_name k) (d_vectors d)); [auto|discriminate].
  Qed.

  (** Calls that neither rewrite nor delete the record. *)
  Definition spares (k : pystr) (o : Op) : Prop :=
    match o with
    | CInsert _ fresh (Mat rows) _ => forall i, i < length rows -> uuid_like (fresh i) /\ fresh i <> k
    | CDelete ids => ~ In k ids
    | CUpdate _ id _ _ => id <> k
    | _ => True
    end.

  Lemma torn_others k id d d' : torn k d -> id <> k -> others (sanitize_id id) d d' -> torn k d'.
  Proof.
    intros Hk Hn Ho. apply (torn_files k d); auto. eapply files_others; eauto.
    intros E. apply Hn. symmetry in E. apply sanitize_uuid in E; auto. apply Hk.
  Qed.

  Lemma torn_steps {A} k id (p : prog D A) : id <> k -> frame (others (sanitize_id id)) p ->
    forall d, torn k d -> hold (torn k) p d.
  Proof.
    intros Hn Hf d Hd. apply (hold_frame (torn k) (others (sanitize_id id))); auto.
    intros d1 d2 Ho Hk. eapply torn_others; eauto.
  Qed.

  Lemma torn_client k (o : Op) c : spares k o -> torn k (c_storage c) ->
    hold (fun c => torn k (c_storage c)) (client_steps dirorder mt o) c.
  Proof.
    intros Ho. apply hold_client.
    - intros d d' E1 E2. apply torn_files. unfold files. now rewrite E1, E2.
    - destruct o as [o extra|o fresh arr meta|o q j|ids|o id v m| |extra|]; auto.
      + destruct arr as [v|rows|]; auto. intros j row Hj. apply (torn_steps k (fresh j)).
        * apply (Ho j). apply nth_error_Some. congruence.
        * apply frame_store.
      + intros id Hin. apply (torn_steps k id); [|apply frame_delete]. intros ->. now apply Ho.
      + apply (torn_steps k id); [exact Ho|apply frame_update].
  Qed.

  (** The index does not have the record in memory, and knows the id while in service. *)
  Definition shut (k : pystr) w : Prop := torn k (snd w) /\ dget k (f_cache (fst w)) = None.
  Definition stuck (k : pystr) w : Prop :=
    shut k w /\ d_init (snd w) = true /\ f_init (fst w) = true /\ In k (f_ids (fst w)).
  Definition blocked (k : pystr) c : Prop :=
    shut k (c_index c, c_storage c) /\ (c_init c = true -> stuck k (c_index c, c_storage c)).

  (** Loading the vectors fails at the record. *)
  Lemma load_stuck k ids : forall x d, shut k (x, d) -> d_init d = true -> In k ids ->
    exists e x', flat_load C ids (x, d) = (Raise e, (x', d)) /\
      dget k (f_cache x') = None /\ f_ids x' = f_ids x /\ f_init x' = f_init x.
  Proof.
    induction ids as [|id ids IH]; intros x d Hs Hi Hin; [destruct Hin|]. cbn [flat_load].
    unfold bind at 1. unfold get_ix at 1. cbn [fst].
    assert (Hread : forall j, sc_retrieve C j d = (reading (files (sanitize_id j) d), d)).
    { intros j. pose proof (read_reading dirorder d j Hi) as Er. unfold read in Er.
      rewrite (surjective_pairing (sc_retrieve C j d)), Er. f_equal. apply retrieve_state. }
    destruct (eqb_spec id k) as [->|Hn].
    - rewrite (proj2 Hs : dget k (f_cache x) = None).
      unfold bind, on_sb, zoom. cbn [snd fst]. rewrite Hread.
      destruct Hs as [[Hu Ht] Hc]. cbn [snd] in Ht. rewrite uuid_sanitize by auto. rewrite Ht.
      eexists _, x. split; [reflexivity|]. auto.
    - destruct Hin as [Hin|Hin]; [congruence|].
      destruct (dget id (f_cache x)).
      + unfold bind. destruct (IH x d Hs Hi Hin) as (e & x' & -> & Hx'). eauto.
      + unfold bind, on_sb, zoom. cbn [snd fst]. rewrite Hread.
        destruct (reading _) as [[[v m]|]|e].
        * unfold set_ix, modify. cbn [fst snd].
          destruct (IH (fset_cache (dset id v (f_cache x)) x) d) as (e & x' & -> & Hx'); auto; [|eauto].
          split; [apply Hs|]. simpl. rewrite dget_dset_other by congruence. apply Hs.
        * destruct (IH x d Hs Hi Hin) as (e & x' & -> & Hx'). eauto.
        * eexists _, x. split; [reflexivity|]. split; auto. apply Hs.
  Qed.

  Lemma frame_finish {S A} (R : S -> S -> Prop) (p : prog S A) :
    (forall s, R s s) -> (forall r s t, R r s -> R s t -> R r t) ->
    frame R p -> forall s, R s (snd (finish p s)).
  Proof.
    intros Hr Ht. induction p as [r|f IH] using prog_induction; simpl; auto.
    intros Hf s. specialize (Hf s). specialize (IH s). destruct (f s) as [p' s'].
    destruct Hf as [HR Hf]. simpl in IH. eauto.
  Qed.

  (** A storage call on another id. *)
  Lemma stuck_sb {A} k id (m : M D A) : id <> k ->
    (forall d, others (sanitize_id id) d (snd (m d))) -> pres (stuck k) (on_sb m).
  Proof.
    intros Hn Hm [x d] [[Ht Hc] [Hi [Hf Hin]]]. unfold on_sb, zoom. cbn [fst snd] in *.
    specialize (Hm d). destruct (m d) as [r d']. cbn [snd] in *.
    split; [split; auto; eapply torn_others; eauto|]. split; [|split; auto].
    cbn [snd]. rewrite (proj1 Hm). exact Hi.
  Qed.

  Lemma stuck_set k (f : flat F -> flat F) :
    (forall x, dget k (f_cache x) = None -> dget k (f_cache (f x)) = None) ->
    (forall x, In k (f_ids x) -> In k (f_ids (f x))) ->
    (forall x, f_init (f x) = f_init x) -> pres (stuck k) (set_ix f).
  Proof.
    intros Hc Hi Hf [x d] [[Ht Hca] [Hd [Hx Hin]]]. unfold set_ix, modify. cbn [fst snd] in *.
    split; [split; cbn [fst snd]; auto|]. cbn [fst snd]. rewrite Hf. auto.
  Qed.

  Lemma stuck_rows k fresh meta rows : forall i,
    (forall j, j < length rows -> fresh (i + j) <> k) ->
    pres (stuck k) (flat_insert_rows C fresh meta i rows).
  Proof.
    induction rows as [|row rows IH]; intros i Hn; [apply pres_ret|]. cbn [flat_insert_rows].
    assert (fresh i <> k) as Hi by (rewrite <- (Nat.add_0_r i); apply Hn; simpl; lia).
    apply pres_bind.
    { apply (stuck_sb k (fresh i)); auto. intros d. cbn [sc_store disk_class].
      rewrite <- finish_store. apply frame_finish; [apply others_refl|apply others_trans|].
      apply frame_store. }
    intros _. apply pres_bind.
    { apply stuck_set; simpl; auto. intros x Hx. apply in_or_app. auto. }
    intros _. apply pres_bind.
    { apply stuck_set; simpl; auto. intros x Hx. rewrite dget_dset_other; auto. }
    intros _. apply pres_bind; [|intros l0; apply pres_ret].
    apply IH. intros j Hj. replace (1 + i + j) with (i + S j) by lia. apply Hn. simpl. lia.
  Qed.

  Lemma stuck_ids k ids : forall ok, ~ In k ids -> pres (stuck k) (flat_delete_ids C ids ok).
  Proof.
    induction ids as [|id ids IH]; intros ok Hn; [apply pres_ret|]. cbn [flat_delete_ids].
    assert (id <> k) as Hi by (intros ->; apply Hn; now left).
    apply pres_bind.
    { apply (stuck_sb k id); auto. intros d. cbn [sc_delete disk_class].
      rewrite <- finish_delete. apply frame_finish; [apply others_refl|apply others_trans|].
      apply frame_delete. }
    intros b. apply pres_bind.
    { apply stuck_set; intros x; destruct (memb id (f_ids x)); auto.
      simpl. intros Hx. clear - Hx Hi. induction (f_ids x) as [|y l IH]; simpl in *; auto.
      destruct (eqb_spec id y) as [->|Hy]; simpl; destruct Hx as [->|Hx]; auto. congruence. }
    intros _. apply pres_bind.
    { apply stuck_set; simpl; auto. intros x Hx. rewrite dget_ddel_other; auto. }
    intros _. apply IH. intros Hin. apply Hn. now right.
  Qed.

  Lemma stuck_retrieve k id : pres (stuck k) (on_sb (sc_retrieve C id)).
  Proof.
    intros [x d] Hw. unfold on_sb, zoom. simpl. pose proof (retrieve_state id d) as E.
    destruct (disk_retrieve id d) as [r d']. simpl in E. now subst.
  Qed.

  (** A search is not answered, and changes nothing that matters. *)
  Lemma stuck_search k argsort q n x d : stuck k (x, d) ->
    exists x', flat_search C mt argsort q n (x, d) = (Raise EIndex, (x', d)) /\ stuck k (x', d).
  Proof.
    intros Hs. pose proof Hs as [Hsh [Hi [Hf Hin]]]. cbn [fst snd] in *.
    unfold flat_search, bind at 1. unfold get_ix. cbn [fst]. rewrite Hf. cbn [negb].
    destruct q as [q|rows|]; [|exists x; split; [reflexivity|exact Hs]..].
    unfold wrap. destruct (Nat.eqb_spec (length (f_ids x)) 0) as [E|E].
    { destruct (f_ids x); [destruct Hin|discriminate]. }
    unfold bind at 1.
    destruct (load_stuck k (f_ids x) x d Hsh Hi Hin) as (e & x' & -> & Hc & Eids & Einit).
    exists x'. split; [reflexivity|]. split; [split; auto; apply Hsh|]. cbn [fst snd].
    rewrite Eids, Einit. auto.
  Qed.

  Lemma stuck_insert k fresh arr meta :
    match arr with Mat rows => forall j, j < length rows -> fresh j <> k | _ => True end ->
    pres (stuck k) (flat_insert C fresh arr meta).
  Proof.
    intros Ha. unfold flat_insert. apply pres_bind; [intros w Hw; exact Hw|]. intros x.
    destruct (negb _); [apply pres_raise|]. destruct arr as [v|rows|]; try apply pres_raise.
    apply pres_wrap. apply pres_bind; [now apply stuck_rows|]. intros l0.
    apply pres_bind; [apply stuck_set; auto|]. intros _. apply pres_ret.
  Qed.

  Lemma stuck_delete k ids : ~ In k ids -> pres (stuck k) (flat_delete C ids).
  Proof.
    intros Ha. unfold flat_delete. apply pres_bind; [intros w Hw; exact Hw|]. intros x.
    destruct (negb _); [apply pres_raise|].
    apply pres_wrap. apply pres_bind; [now apply stuck_ids|]. intros b.
    apply pres_bind; [apply stuck_set; auto|]. intros _. apply pres_ret.
  Qed.

  Lemma stuck_update k id v m : id <> k -> pres (stuck k) (flat_update C id v m).
  Proof.
    intros Ha. unfold flat_update. apply pres_bind; [intros w Hw; exact Hw|]. intros x.
    destruct (negb _); [apply pres_raise|]. apply pres_wrap. apply pres_bind.
    { apply (stuck_sb k id); auto. intros d. cbn [sc_update disk_class].
      rewrite <- finish_update. apply frame_finish; [apply others_refl|apply others_trans|].
      apply frame_update. }
    intros b. destruct (negb b); [apply pres_ret|]. apply pres_bind; [|intros _; apply pres_ret].
    apply stuck_set; auto. intros y Hy. simpl. rewrite dget_dset_other; auto.
  Qed.

  Lemma blocked_index {A} k (f : A -> cret F Mt) (m : M W A) c :
    pres (stuck k) m -> blocked k c -> blocked k (snd (cobs f (guarded (on_index m) c))).
  Proof.
    intros Hm [Hs Hb]. unfold cobs, guarded, bind, get. destruct (c_init c) eqn:Hi.
    - cbn [negb]. unfold on_index, zoom. specialize (Hm _ (Hb eq_refl)).
      destruct (m _) as [[a|e] w]; cbn [snd] in *; destruct w as [x' d'];
        (split; [apply Hm|intros _; exact Hm]).
    - cbn [negb snd raise]. split; auto. now rewrite Hi.
  Qed.

  Lemma blocked_step k (o : Op) c : spares k o -> blocked k c -> blocked k (snd (cl_step C IC c o)).
  Proof.
    intros Ho Hb.
    destruct o as [o extra|o fresh arr meta|o q n|ids|o id v m| |extra|]; cbn [cl_step].
    - destruct Hb as [Hs Hb]. destruct c as [x d b]. unfold cl_initialize, wrap, bind, cobs.
      cbn [c_index c_storage c_init] in *.
      set (d0 := snd (disk_initialize dirorder d)).
      set (x1 := fset_count (fset_ids (map stem4 (glob_npy dirorder d0)) (fset_init true x))).
      assert (Hst : stuck k (x1, d0)).
      { destruct Hs as [Ht Hc]. split; [split; auto|]; cbn [fst snd].
        split; [reflexivity|]. split; [reflexivity|]. cbn [x1 f_ids fset_count fset_ids].
        apply in_map_iff. exists (npy_name k). split; [apply stem4_npy|].
        unfold glob_npy. apply filter_In. split; [|apply ends_with_npy].
        eapply Permutation_in; [symmetry; apply Hdir|]. apply torn_mem in Ht. unfold dmem in Ht.
        cbn [d0 snd disk_initialize d_vectors fst] in *.
        destruct (dget (npy_name k) (d_vectors d)) eqn:E; [|discriminate]. apply dget_In. eauto. }
      assert (E : (on_storage (sc_init C)) (MkClient x d b) = (Ok tt, MkClient x d0 b)) by reflexivity.
      rewrite E.
      assert (E' : on_index (ix_init IC o) (MkClient x d0 b) = (Ok tt, MkClient x1 d0 b)) by reflexivity.
      rewrite E', forM_lift.
      destruct (first_exn extra); cbn; (split; [apply Hst|intros _; exact Hst]).
    - apply blocked_index; auto. apply stuck_insert. destruct arr as [v|rows|]; auto.
      intros j Hj. now apply (Ho j).
    - apply blocked_index; auto. intros [x d] Hw. cbn [ix_search flat_class].
      destruct (stuck_search k o q n x d Hw) as (x' & -> & Hx'). exact Hx'.
    - apply blocked_index; auto. now apply stuck_delete.
    - apply blocked_index; auto. now apply stuck_update.
    - assert (snd (cobs (fun y => ACounts (fst y) (snd y)) (cl_stats C IC c)) = c) as ->; auto.
      destruct c as [x d b]. unfold cobs, cl_stats, guarded, bind, get. cbn.
      unfold on_storage, zoom, bind, get, disk_get_stats. cbn. destruct b; auto. cbn.
      destruct (negb (d_init d)); reflexivity.
    - unfold cl_close, bind, cobs. rewrite forM_lift. destruct (first_exn extra); auto.
      destruct c as [x d b]. cbn. destruct Hb as [[Ht Hc] _]. split; [|discriminate].
      split; [exact Ht|reflexivity].
    - destruct Hb as [[Ht Hc] _]. split; [|discriminate]. split; [|reflexivity]. exact Ht.
  Qed.

  Lemma blocked_event k c e : spares k (event_call e) -> blocked k c ->
    blocked k (after_event dirorder mt c e).
  Proof.
    intros He Hb. destruct e as [o|o n]; [now apply blocked_step|].
    pose proof (torn_client k o c He (proj1 (proj1 Hb))) as Hh. simpl.
    split; [|discriminate]. split; [|reflexivity]. apply (hold_run _ _ _ n Hh).
  Qed.

  (** C118: as long as a record that a crash has torn is neither deleted nor rewritten, no new
      process gets an answer to a search, whatever else is called and however often it crashes. *)
  Theorem C118_torn_record_blocks_search es later k argsort q n :
    let d := c_storage (after_events dirorder mt es) in
    uuid_like k -> reading (files k d) = Raise EStorage ->
    Forall (fun e => spares k (event_call e)) later ->
    exists e, fst (cl_step C IC (after_events dirorder mt (es ++ Done CReopen :: later))
                    (CSearch argsort q n)) = AExn e.
  Proof.
    intros d Hu Ht HF. unfold after_events. rewrite fold_left_app.
    fold (after_events dirorder mt es). simpl fold_left.
    assert (blocked k (cl_reopen C IC (after_events dirorder mt es))) as Hb.
    { split; [|discriminate]. split; [|reflexivity]. split; auto. }
    revert HF Hb. generalize (cl_reopen C IC (after_events dirorder mt es)).
    induction later as [|e later IH]; intros c HF Hb; simpl fold_left.
    - destruct Hb as [Hs Hb]. cbn [cl_step]. unfold cl_search, guarded, bind, get, cobs.
      destruct (c_init c) eqn:Hi; [|eexists; reflexivity]. cbn [negb]. unfold on_index, zoom.
      cbn [ix_search flat_class].
      destruct (stuck_search k argsort q n _ _ (Hb eq_refl)) as (x' & -> & _).
      eexists. reflexivity.
    - inversion HF as [|? ? He Hes]; subst. apply IH; auto. now apply blocked_event.
  Qed.

  (** ** What an interrupted call leaves *)

  Lemma run_guarded {A} (f : A -> cret F Mt) (p : prog W A) n c :
    exists m, c_storage (run_for n (seen f (guard_steps (index_steps p))) c) =
              snd (run_for m p (c_index c, c_storage c)).
  Proof.
    rewrite run_seen. unfold guard_steps.
    destruct (run_bind (atomic (c <- get ;; ret (c_init c)))
                (fun opened => if negb opened then Return (Raise EValori) else index_steps p) n c)
      as [->|(b & c' & m & E & ->)].
    - exists 0. destruct n as [|n]; simpl; [reflexivity|]. destruct n; reflexivity.
    - rewrite finish_atomic in E. unfold bind, get, ret in E. injection E as <- <-.
      destruct (negb (c_init c)); [exists 0; destruct m; reflexivity|].
      exists m. rewrite run_index. reflexivity.
  Qed.

  Lemma run_opened {A} (p : prog W A) n w :
    exists m, snd (run_for n (opened <~ fread f_init ;;
                              if negb opened then Return (Raise EIndex) else pwrap EIndex p) w) =
              snd (run_for m p w).
  Proof.
    destruct (run_bind (fread f_init)
                (fun opened => if negb opened then Return (Raise EIndex) else pwrap EIndex p) n w)
      as [->|(b & w' & m & E & ->)].
    - exists 0. destruct n as [|n]; simpl; [reflexivity|]. destruct n; reflexivity.
    - rewrite finish_fread in E. injection E as <- <-.
      destruct (negb (f_init (fst w))); [exists 0; destruct m; reflexivity|].
      exists m. now rewrite run_wrap.
  Qed.

  Lemma run_fwrite {A} (f : flat F -> flat F) (p : prog W A) n w :
    snd (run_for n (fwrite f ;~ p) w) = snd w \/
    exists x' m, snd (run_for n (fwrite f ;~ p) w) = snd (run_for m p (x', snd w)).
  Proof.
    destruct n as [|n]; [left; reflexivity|]. right. exists (f (fst w)), n. reflexivity.
  Qed.

  Lemma store_done id v (m : option Mt) d b d' : id <> [] ->
    disk_store dirorder id v m d = (Ok b, d') -> files (sanitize_id id) d' = put_files v m.
  Proof.
    intros Hn. destruct id as [|a id]; [congruence|]. unfold disk_store, bind, get, wrap.
    destruct (negb (d_init d)); [discriminate|]. unfold disk_write_vec, modify.
    destruct m as [m|]; cbn [disk_write_meta].
    - unfold bind, modify. destruct (picklable m); [|discriminate]. intros [= <- <-].
      unfold files, put_files. cbn. now rewrite !dget_dset_same.
    - unfold modify. intros [= <- <-]. unfold files, put_files. cbn.
      now rewrite dget_dset_same, dget_ddel_same.
  Qed.

  Lemma run_all {W A} (p : prog W A) : forall s, exists n, run_for n p s = snd (finish p s).
  Proof.
    induction p as [r|f IH] using prog_induction; intros s; [exists 0; reflexivity|].
    simpl. specialize (IH s). destruct (f s) as [p' s'] eqn:E. simpl in IH. destruct (IH s') as [n En].
    exists (S n). simpl. rewrite E. exact En.
  Qed.

  Lemma run_rows fresh meta rows : forall i n w,
    (forall a b, a < length rows -> b < length rows -> fresh (i + a) = fresh (i + b) -> a = b) ->
    (forall a, a < length rows -> uuid_like (fresh (i + a))) ->
    let d := snd w in
    let d' := snd (run_for n (rows_disk_steps dirorder fresh meta i rows) w) in
    exists j,
      (forall a row, a < j -> nth_error rows a = Some row ->
         reading (files (fresh (i + a)) d') = Ok (Some (row, row_meta meta (i + a)))) /\
      (forall row, nth_error rows j = Some row ->
         half (files (fresh (i + j)) d) row (row_meta meta (i + j)) (files (fresh (i + j)) d')) /\
      (forall a, j < a < length rows -> files (fresh (i + a)) d' = files (fresh (i + a)) d) /\
      (forall k, (forall a, a < length rows -> k <> fresh (i + a)) -> files k d' = files k d).
  Proof.
    induction rows as [|row rows IH]; intros i n w Hinj Hu d d'.
    - exists 0. unfold d'. destruct n; simpl; repeat split; intros; lia || discriminate || reflexivity.
    - assert (Hu0 : uuid_like (fresh i)) by (rewrite <- (Nat.add_0_r i); apply Hu; simpl; lia).
      assert (Hne : forall a, a < length rows -> fresh (i + S a) <> fresh i).
      { intros a Ha E. rewrite <- (Nat.add_0_r i) in E at 2.
        apply Hinj in E; simpl in *; lia. }
      unfold d'. cbn [rows_disk_steps].
      destruct (run_bind (sb_steps (store_steps dirorder (fresh i) row (row_meta meta i)))
        (fun _ => fwrite (fun x => fset_ids (f_ids x ++ [fresh i]) x) ;~
                  fwrite (fun x => fset_cache (dset (fresh i) row (f_cache x)) x) ;~
                  (ids <~ rows_disk_steps dirorder fresh meta (1 + i) rows ;;
                   Return (Ok (fresh i :: ids)))) n w) as [->|(b & w1 & m & E & ->)].
      + (* inside the store of this row *)
        exists 0. rewrite run_sb. cbn [snd].
        assert (Ho : others (fresh i) (snd w)
                  (run_for n (store_steps dirorder (fresh i) row (row_meta meta i)) (snd w))).
        { rewrite <- (uuid_sanitize (fresh i)) at 1 by auto.
          apply (frame_run _ (others_refl _) (others_trans _)). apply frame_store. }
        split; [intros; lia|]. split; [|split].
        * intros r0 Hr. simpl in Hr. injection Hr as <-. rewrite Nat.add_0_r.
          pose proof (store_half dirorder (fresh i) row (row_meta meta i) (snd w) n) as Hh.
          now rewrite uuid_sanitize in Hh by auto.
        * intros a Ha. apply (files_others (fresh i)); auto. destruct a as [|a]; [lia|].
          apply Hne. simpl in Ha. lia.
        * intros k Hk. apply (files_others (fresh i)); auto.
          rewrite <- (Nat.add_0_r i). apply Hk. simpl. lia.
      + (* the row is stored *)
        rewrite finish_sb in E. unfold on_sb, zoom in E. rewrite finish_store in E.
        destruct (disk_store dirorder (fresh i) row (row_meta meta i) (snd w)) as [r d1] eqn:Es.
        injection E as -> <-.
        assert (Ho : others (fresh i) (snd w) d1).
        { replace d1 with (snd (disk_store dirorder (fresh i) row (row_meta meta i) (snd w)))
            by now rewrite Es.
          rewrite <- finish_store. rewrite <- (uuid_sanitize (fresh i)) at 1 by auto.
          apply frame_finish; [apply others_refl|apply others_trans|]. apply frame_store. }
        apply store_done in Es; [|apply Hu0]. rewrite uuid_sanitize in Es by auto.
        (* whatever remains of the loop runs over the other rows *)
        assert (Hrest : exists x' m', 
          snd (run_for m
             (fwrite (fun x => fset_ids (f_ids x ++ [fresh i]) x) ;~
              fwrite (fun x => fset_cache (dset (fresh i) row (f_cache x)) x) ;~
              (ids <~ rows_disk_steps dirorder fresh meta (1 + i) rows ;;
               Return (Ok (fresh i :: ids)))) (fst w, d1)) =
          snd (run_for m' (rows_disk_steps dirorder fresh meta (1 + i) rows) (x', d1))).
        { destruct m as [|[|m]]; [exists (fst w), 0; reflexivity|eexists _, 0; reflexivity|].
          cbn [run_for pbind fwrite atomic]. unfold set_ix, modify. cbn [fst snd pbind].
          match goal with |- context [run_for m _ (?y, d1)] => exists y end.
          match goal with |- context [run_for m (pbind ?p ?k) ?w1] =>
            destruct (run_bind p k m w1) as [->|(l0 & w2 & m2 & E2 & ->)] end.
          - exists m. reflexivity.
          - destruct (run_all (rows_disk_steps dirorder fresh meta (1 + i) rows)
                        (fset_cache (dset (fresh i) row (f_cache (fst w)))
                           (fset_ids (f_ids (fst w) ++ [fresh i]) (fst w)), d1)) as [n2 En].
            exists n2. cbn [f_cache fset_ids] in *. rewrite En.
            match goal with H : finish _ ?y = (Ok l0, w2) |- _ = snd (snd (finish _ ?z)) =>
              change y with z in H; rewrite H end.
            destruct m2; reflexivity. }
        destruct Hrest as (x' & m' & ->).
        destruct (IH (1 + i) m' (x', d1)) as (j & J1 & Jh & J2 & J3).
        { intros a b0 Ha Hb E. replace (1 + i + a) with (i + S a) in E by lia.
          replace (1 + i + b0) with (i + S b0) in E by lia. apply Hinj in E; simpl; lia. }
        { intros a Ha. replace (1 + i + a) with (i + S a) by lia. apply Hu. simpl. lia. }
        cbn [snd] in *. exists (S j). split; [|split; [|split]].
        * intros [|a] r0 Ha Hr.
          -- simpl in Hr. injection Hr as ->. rewrite Nat.add_0_r. rewrite J3, Es.
             ++ unfold put_files. now destruct (row_meta meta i).
             ++ intros a Ha' E. replace (1 + i + a) with (i + S a) in E by lia.
                symmetry in E. now apply Hne in E.
          -- replace (i + S a) with (1 + i + a) by lia. apply J1; auto. lia.
        * intros r0 Hr. simpl in Hr. specialize (Jh r0 Hr).
          replace (i + S j) with (1 + i + j) by lia.
          assert (j < length rows) by (apply nth_error_Some; congruence).
          unfold d. rewrite <- (files_others (fresh i) (fresh (1 + i + j)) (snd w) d1); auto.
          replace (1 + i + j) with (i + S j) by lia. now apply Hne.
        * intros [|a] Ha; [lia|]. replace (i + S a) with (1 + i + a) by lia.
          rewrite J2 by (simpl in Ha; lia). apply (files_others (fresh i)); auto.
          replace (1 + i + a) with (i + S a) by lia. apply Hne. simpl in Ha. lia.
        * intros k Hk. rewrite J3.
          -- apply (files_others (fresh i)); auto. rewrite <- (Nat.add_0_r i). apply Hk. simpl. lia.
          -- intros a Ha. replace (1 + i + a) with (i + S a) by lia. apply Hk. simpl. lia.
  Qed.

  (** C118: a crash inside an insert leaves a prefix of its rows complete and readable, the next
      row half written, the rows after it unwritten, and every other record as it was. *)
  Theorem C118_interrupted_insert c o fresh rows meta n :
    (forall a b, a < length rows -> b < length rows -> fresh a = fresh b -> a = b) ->
    (forall a, a < length rows -> uuid_like (fresh a)) ->
    let d := c_storage c in
    let d' := c_storage (after_event dirorder mt c (Dies (CInsert o fresh (Mat rows) meta) n)) in
    exists j,
      (forall a row, a < j -> nth_error rows a = Some row ->
         reading (files (fresh a) d') = Ok (Some (row, meta_of meta a))) /\
      (forall row, nth_error rows j = Some row ->
         half (files (fresh j) d) row (meta_of meta j) (files (fresh j) d')) /\
      (forall a, j < a < length rows -> files (fresh a) d' = files (fresh a) d) /\
      (forall k, (forall a, a < length rows -> k <> fresh a) -> files k d' = files k d).
  Proof.
    intros Hinj Hu d d'. unfold d', after_event.
    destruct (run_guarded AIds (insert_disk_steps dirorder fresh rows meta) n c) as [m Em].
    unfold insert_disk_steps in Em.
    match type of Em with _ = snd (run_for m (pbind _ (fun opened => if negb opened then _ else pwrap _ ?p)) ?w) =>
      destruct (run_opened p m w) as [m1 E1] end.
    assert (Hfin : exists m2,
      c_storage (run_for n (client_steps dirorder mt (CInsert o fresh (Mat rows) meta)) c) =
      snd (run_for m2 (rows_disk_steps dirorder fresh meta 0 rows) (c_index c, c_storage c))).
    { cbn [client_steps]. unfold insert_disk_steps. rewrite Em, E1.
      match goal with |- context [run_for m1 (pbind ?p ?k) ?w1] =>
        destruct (run_bind p k m1 w1) as [->|(l0 & w2 & m2 & E2 & ->)] end; [eauto|].
      destruct (run_all (rows_disk_steps dirorder fresh meta 0 rows) (c_index c, c_storage c)) as [n2 En].
      exists n2. rewrite En, E2. destruct m2 as [|[|m2]]; reflexivity. }
    destruct Hfin as [m2 E2].
    destruct (run_rows fresh meta rows 0 m2 (c_index c, c_storage c)) as (j & J1 & Jh & J2 & J3); auto.
    cbn [Nat.add] in *. cbn [snd] in *. rewrite <- E2 in *.
    assert (Hf : forall k (c' : Cl), files k (c_storage (cl_reopen C IC c')) = files k (c_storage c'))
      by reflexivity.
    exists j. split; [|split; [|split]].
    - intros a row Ha Hr. rewrite Hf. rewrite <- row_meta_of. now apply J1.
    - intros row Hr. rewrite Hf. rewrite <- row_meta_of. now apply Jh.
    - intros a Ha. rewrite Hf. now apply J2.
    - intros k Hk. rewrite Hf. now apply J3.
  Qed.

  Definition gone k d : Prop := dget (npy_name k) (d_vectors d) = None.

  Lemma gone_delete k id d : gone k d -> hold (gone k) (delete_steps dirorder id) d.
  Proof.
    apply (hold_frame (gone k) (fun d d' => gone k d -> gone k d')); [auto|].
    unfold delete_steps. apply frame_bind.
    { apply frame_atomic. intros d0. unfold bind, get. destruct (negb _); auto. }
    intros _. apply frame_wrap. apply frame_bind; [apply frame_atomic; auto|]. intros b.
    apply frame_bind.
    { destruct b; [|exact Logic.I]. apply frame_atomic. intros d0. unfold bind, get.
      destruct (dmem _ _); auto. unfold gone. simpl. intros Hg.
      destruct (eqb_spec (npy_name k) (npy_name (sanitize_id id))) as [->|E].
      - now rewrite dget_ddel_same.
      - now rewrite dget_ddel_other. }
    intros _. apply frame_bind.
    { unfold drop_metadata. apply frame_bind; [apply frame_atomic; auto|]. intros [|]; [|exact Logic.I].
      apply frame_atomic. intros d0. unfold bind, get. destruct (dmem _ _); auto. }
    intros _. destruct b; [|exact Logic.I]. apply frame_bind; [|intros _; exact Logic.I].
    apply frame_atomic. auto.
  Qed.

  Lemma delete_done id d b d' : disk_delete dirorder id d = (Ok b, d') -> gone (sanitize_id id) d'.
  Proof.
    intros E. destruct (d_init d) eqn:Hi.
    - pose proof (delete_files dirorder id d Hi) as Ef. rewrite E in Ef. unfold files in Ef.
      now injection Ef.
    - unfold disk_delete, bind at 1, get in E. rewrite Hi in E. discriminate E.
  Qed.

  Lemma run_ids ids : forall ok n w,
    let d := snd w in
    let d' := snd (run_for n (ids_disk_steps dirorder ids ok) w) in
    exists j,
      (forall a id, a < j -> nth_error ids a = Some id -> gone (sanitize_id id) d') /\
      (forall k, ~ In k (map sanitize_id (firstn (S j) ids)) -> files k d' = files k d).
  Proof.
    induction ids as [|id ids IH]; intros ok n w d d'.
    - exists 0. unfold d'. split; [intros; lia|]. destruct n; reflexivity.
    - unfold d'. cbn [ids_disk_steps].
      match goal with |- context [run_for n (pbind ?p ?k) w] =>
        destruct (run_bind p k n w) as [->|(b & w1 & m & E & ->)] end.
      + exists 0. split; [intros; lia|]. intros k Hk. rewrite run_sb. cbn [snd].
        apply (files_others (sanitize_id id)).
        * apply (frame_run _ (others_refl _) (others_trans _)), frame_delete.
        * intros ->. apply Hk. now left.
      + rewrite finish_sb in E. unfold on_sb, zoom in E. rewrite finish_delete in E.
        destruct (disk_delete dirorder id (snd w)) as [r d1] eqn:Ed. injection E as -> <-.
        assert (Ho : others (sanitize_id id) (snd w) d1).
        { pose proof (delete_others dirorder id (snd w)) as Ho. now rewrite Ed in Ho. }
        apply delete_done in Ed.
        assert (Hrest : exists x' ok' m',
          snd (run_for m (fwrite (fun x => if memb id (f_ids x)
                            then fset_ids (remove_first id (f_ids x)) x else x) ;~
                          fwrite (fun x => fset_cache (ddel id (f_cache x)) x) ;~
                          ids_disk_steps dirorder ids (if b then ok else false)) (fst w, d1)) =
          snd (run_for m' (ids_disk_steps dirorder ids ok') (x', d1))).
        { destruct m as [|[|m]]; [exists (fst w), ok, 0; reflexivity|eexists _, ok, 0; reflexivity|].
          eexists _, _, m. reflexivity. }
        destruct Hrest as (x' & ok' & m' & ->).
        destruct (IH ok' m' (x', d1)) as (j & J1 & J2). cbn [snd] in *.
        exists (S j). split.
        * intros [|a] i Ha Hi; [|simpl in Hi; apply (J1 a); auto; lia].
          simpl in Hi. injection Hi as <-.
          assert (Hg : hold (fun w => gone (sanitize_id id) (snd w))
                         (ids_disk_steps dirorder ids ok') (x', d1)).
          { apply hold_ids; auto. intros i _ d0. apply gone_delete. }
          apply (hold_run _ _ _ m' Hg).
        * intros k Hk. rewrite J2; [|intros Hin; apply Hk; now right].
          apply (files_others (sanitize_id id)); auto. intros ->. apply Hk. now left.
  Qed.

  (** C118: a crash inside a delete leaves a prefix of the ids deleted, and every record but
      those and the one being deleted as it was. *)
  Theorem C118_interrupted_delete c ids n :
    let d := c_storage c in
    let d' := c_storage (after_event dirorder mt c (Dies (CDelete ids) n)) in
    exists j,
      (forall a id, a < j -> nth_error ids a = Some id ->
         reading (files (sanitize_id id) d') = Ok None) /\
      (forall k, ~ In k (map sanitize_id (firstn (S j) ids)) -> files k d' = files k d).
  Proof.
    intros d d'. unfold d', after_event.
    destruct (run_guarded ABool (delete_disk_steps dirorder ids) n c) as [m Em].
    unfold delete_disk_steps in Em.
    match type of Em with _ = snd (run_for m (pbind _ (fun opened => if negb opened then _ else pwrap _ ?p)) ?w) =>
      destruct (run_opened p m w) as [m1 E1] end.
    assert (Hfin : exists m2,
      c_storage (run_for n (client_steps dirorder mt (CDelete ids)) c) =
      snd (run_for m2 (ids_disk_steps dirorder ids true) (c_index c, c_storage c))).
    { cbn [client_steps]. unfold delete_disk_steps. rewrite Em, E1.
      match goal with |- context [run_for m1 (pbind ?p ?k) ?w1] =>
        destruct (run_bind p k m1 w1) as [->|(l0 & w2 & m2 & E2 & ->)] end; [eauto|].
      destruct (run_all (ids_disk_steps dirorder ids true) (c_index c, c_storage c)) as [n2 En].
      exists n2. rewrite En, E2. destruct m2 as [|[|m2]]; reflexivity. }
    destruct Hfin as [m2 E2].
    destruct (run_ids ids true m2 (c_index c, c_storage c)) as (j & J1 & J2).
    cbn [snd] in *. rewrite <- E2 in *. exists j. split; [|exact J2].
    intros a id Ha Hi. specialize (J1 a id Ha Hi). unfold gone in J1.
    change (reading (files (sanitize_id id)
      (c_storage (run_for n (client_steps dirorder mt (CDelete ids)) c))) = Ok None).
    unfold files. now rewrite J1.
  Qed.

  (** C118: a crash inside an update leaves every other record as it was; the record itself is as
      before, as it should be, or half written. *)
  Theorem C118_interrupted_update c o id v m n :
    let d := c_storage c in
    let d' := c_storage (after_event dirorder mt c (Dies (CUpdate o id v m) n)) in
    (forall k, k <> sanitize_id id -> files k d' = files k d) /\
    half (files (sanitize_id id) d) v m (files (sanitize_id id) d').
  Proof.
    intros d d'. unfold d', after_event.
    destruct (run_guarded ABool (update_disk_steps id v m) n c) as [m0 Em].
    unfold update_disk_steps in Em.
    match type of Em with _ = snd (run_for m0 (pbind _ (fun opened => if negb opened then _ else pwrap _ ?p)) ?w) =>
      destruct (run_opened p m0 w) as [m1 E1] end.
    assert (Hfin : exists m2,
      c_storage (run_for n (client_steps dirorder mt (CUpdate o id v m)) c) =
      run_for m2 (update_steps id v m) (c_storage c)).
    { cbn [client_steps]. unfold update_disk_steps. rewrite Em, E1.
      match goal with |- context [run_for m1 (pbind ?p ?k) ?w1] =>
        destruct (run_bind p k m1 w1) as [->|(l0 & w2 & m2 & E2 & ->)] end.
      - exists m1. now rewrite run_sb.
      - destruct (run_all (update_steps id v m) (c_storage c)) as [n2 En]. exists n2. rewrite En.
        rewrite finish_sb in E2. unfold on_sb, zoom in E2. cbn [snd] in E2.
        destruct (finish (update_steps id v m) (c_storage c)) as [r d1]. injection E2 as -> <-.
        destruct l0; destruct m2 as [|[|m2]]; reflexivity. }
    destruct Hfin as [m2 E2]. split.
    - intros k Hk. change (files k (c_storage (run_for n (client_steps dirorder mt (CUpdate o id v m)) c)) = files k d).
      rewrite E2. apply (files_others (sanitize_id id)); auto.
      apply (frame_run _ (others_refl _) (others_trans _)), frame_update.
    - change (half (files (sanitize_id id) d) v m (files (sanitize_id id)
        (c_storage (run_for n (client_steps dirorder mt (CUpdate o id v m)) c)))).
      rewrite E2. apply update_half.
  Qed.
End Crash.

(** Two records are stored; then the process dies [n] steps into an insert of two more. *)
Definition crash_demo (n : nat) : list (event Z Z) :=
  [Done (CInit stable_argsort []);
   Done (CInsert stable_argsort (demo_ids 97) (Mat [[1; 1]; [0; 2]]%Z) (Some [Some 8; None]%Z));
   Dies (CInsert stable_argsort (demo_ids 98) (Mat [[3; 3]; [0; 1]]%Z) None) n].

Lemma crash_demo_uuids n : Forall (fun e => draws_uuids (event_call e)) (crash_demo n).
Proof.
  constructor; [exact I|]. constructor; [intros i _; apply demo_ids_uuid; lia|].
  constructor; [intros i _; apply demo_ids_uuid; lia|]. constructor.
Qed.

(** C118 is false: a crash while the second row's vector file is being written leaves a directory
    on which a new process opens, but answers no search, although three records can be read. *)
Theorem C118_searchable_refuted :
  exists es : list (event Z Z),
    Forall (fun e => draws_uuids (event_call e)) es /\
    let d := c_storage (after_events demo_order MEuclidean es) in
    reading (files (demo_ids 97 0) d) = Ok (Some ([1; 1]%Z, Some 8%Z)) /\
    reading (files (demo_ids 97 1) d) = Ok (Some ([0; 2]%Z, None)) /\
    reading (files (demo_ids 98 0) d) = Ok (Some ([3; 3]%Z, None)) /\
    cl_answers (disk_class demo_order) (flat_class (disk_class demo_order) MEuclidean) (restart d)
      [CInit stable_argsort []; CSearch stable_argsort (Vec [0; 0]%Z) 2] = [AUnit; AExn EIndex].
Proof.
  exists (crash_demo 11). split; [apply crash_demo_uuids|]. vm_compute. auto.
Qed.

(** A crash one step later leaves every record readable; the new process finds the second row. *)
Example C118_reopened_example :
  let d := c_storage (after_events demo_order MEuclidean (crash_demo 12)) in
  let later := [CInit (Mt := Z) stable_argsort []; CSearch stable_argsort (Vec [0; 0]%Z) 2] in
  Forall (fun e => draws_uuids (event_call e)) (crash_demo 12) /\
  (forall id, In id (listing d) -> exists r, reading (files id d) = Ok (Some r)) /\
  (forall recs, all_fit true (fun _ : list Z => True) argsort_ok true (MkS false recs) later) /\
  cl_answers (disk_class demo_order) (flat_class (disk_class demo_order) MEuclidean) (restart d) later =
    [AUnit; AHits [MkHit (demo_ids 98 1) 1%Z None; MkHit (demo_ids 97 0) 1%Z (Some 8%Z)]].
Proof.
  cbv zeta. split; [apply crash_demo_uuids|]. split; [|split].
  - vm_compute. intros id Hid. repeat destruct Hid as [<-|Hid]; try contradiction; vm_compute; eauto.
  - intros recs. fit_demo; simpl; auto; try discriminate.
  - vm_compute. reflexivity.
Qed.

(** After the crash of the refutation, deleting the torn record gives the search back. *)
Example C118_recovers_example :
  let d := c_storage (after_events demo_order MEuclidean (crash_demo 11)) in
  let later := [CSearch (Mt := Z) stable_argsort (Vec [0; 0]%Z) 2] in
  Forall (fun e => draws_uuids (event_call e)) (crash_demo 11) /\
  reading (files (demo_ids 98 1) d) = Raise EStorage /\
  (forall id, In id (listing d) -> reading (files id d) = Raise EStorage -> In id [demo_ids 98 1]) /\
  (forall recs, all_fit true (fun _ : list Z => True) argsort_ok true (MkS true recs) later) /\
  cl_answers (disk_class demo_order) (flat_class (disk_class demo_order) MEuclidean) (restart d)
    (CInit stable_argsort [] :: CDelete [demo_ids 98 1] :: later) =
    [AUnit; ABool true; AHits [MkHit (demo_ids 97 0) 1%Z (Some 8%Z); MkHit (demo_ids 97 1) 2%Z None]].
Proof.
  cbv zeta. split; [apply crash_demo_uuids|]. split; [vm_compute; reflexivity|]. split; [|split].
  - intros id Hid. vm_compute in Hid. repeat destruct Hid as [<-|Hid]; try contradiction; vm_compute;
      try discriminate; auto.
  - intros recs. fit_demo; simpl; auto; try discriminate.
  - vm_compute. reflexivity.
Qed.

(** Nothing else does: not another crash, not more inserts, deletes and updates. *)
Example C118_torn_example :
  let d := c_storage (after_events demo_order MEuclidean (crash_demo 11)) in
  let later := [Done (CInit stable_argsort []); Done (CDelete [demo_ids 97 0]);
                Dies (CUpdate stable_argsort (demo_ids 97 1) [5; 5]%Z None) 6;
                Done (CInit stable_argsort []);
                Done (CInsert (Mt := Z) stable_argsort (demo_ids 99) (Mat [[0; 0]]%Z) None)] in
  uuid_like (demo_ids 98 1) /\ reading (files (demo_ids 98 1) d) = Raise EStorage /\
  Forall (fun e => spares (demo_ids 98 1) (event_call e)) later /\
  fst (cl_step (disk_class demo_order) (flat_class (disk_class demo_order) MEuclidean)
         (after_events demo_order MEuclidean (crash_demo 11 ++ Done CReopen :: later))
         (CSearch stable_argsort (Vec [0; 0]%Z) 2)) = AExn EIndex.
Proof.
  cbv zeta. split; [apply demo_ids_uuid; lia|]. split; [vm_compute; reflexivity|].
  split; [|vm_compute; reflexivity].
  constructor; [exact I|]. constructor; [intros [Hx|[]]; discriminate|].
  constructor; [discriminate|]. constructor; [exact I|]. constructor; [|constructor].
  intros i _. split; [apply demo_ids_uuid; lia|discriminate].
Qed.

(** The crash of the refutation, in the terms of [C118_interrupted_insert]: the first row is
    complete, the second one is the one torn. *)
Example C118_interrupted_example :
  let c := after_events demo_order MEuclidean (firstn 2 (crash_demo 11)) in
  let d' := c_storage (after_event demo_order MEuclidean c
    (Dies (CInsert stable_argsort (demo_ids 98) (Mat [[3; 3]; [0; 1]]%Z) None) 11)) in
  (forall a b, a < 2 -> b < 2 -> demo_ids 98 a = demo_ids 98 b -> a = b) /\
  (forall a, a < 2 -> uuid_like (demo_ids 98 a)) /\
  reading (files (demo_ids 98 0) d') = Ok (Some ([3; 3]%Z, None)) /\
  files (demo_ids 98 1) d' = (Some FBad, None) /\
  files (demo_ids 97 0) d' = (Some (FGood [1; 1]%Z), Some (FGood 8%Z)).
Proof.
  cbv zeta. split; [intros a b _ _; apply demo_ids_inj|].
  split; [intros a _; apply demo_ids_uuid; lia|]. vm_compute. auto.
Qed.

(** A delete of three ids, one of them unknown, that dies at the third: two are gone. *)
Example C118_interrupted_delete_example :
  let c := after_events demo_order MEuclidean (firstn 2 (crash_demo 0)) in
  let d' := c_storage (after_event demo_order MEuclidean c
    (Dies (CDelete [demo_ids 97 0; py "nobody"; demo_ids 97 1]) 16)) in
  reading (files (demo_ids 97 0) d') = Ok None /\
  reading (files (demo_ids 97 1) d') = Ok (Some ([0; 2]%Z, None)).
Proof. vm_compute. auto. Qed.

(** An update that dies between the two files: new vector, old metadata. *)
Example C118_interrupted_update_example :
  let c := after_events demo_order MEuclidean (firstn 2 (crash_demo 0)) in
  let d' := c_storage (after_event demo_order MEuclidean c
    (Dies (CUpdate stable_argsort (demo_ids 97 0) [7; 7]%Z (Some 9%Z)) 6)) in
  reading (files (demo_ids 97 0) d') = Ok (Some ([7; 7]%Z, Some 8%Z)) /\
  reading (files (demo_ids 97 1) d') = Ok (Some ([0; 2]%Z, None)).
Proof. vm_compute. auto. Qed.

Print Assumptions C118_steps_are_the_call.
Print Assumptions C118_reopened_partial.
Print Assumptions C118_delete_recovers.
Print Assumptions C118_torn_record_blocks_search.
Print Assumptions C118_interrupted_insert.
Print Assumptions C118_interrupted_delete.
Print Assumptions C118_interrupted_update.
Print Assumptions C118_searchable_refuted.
