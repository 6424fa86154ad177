(** Properties C55, C56 and C57: saving and loading with [IncrementalPersistence]. *)

From Coq Require Import String List Arith ZArith NArith Lia Bool Permutation Sorted.
From Coq Require Import ZifyBool ZifyNat.
From Verif Require Import PyBase PyMore Payload BaseLemmas FsModel PersistModel FsProofs PropsTensor Demo.
Import ListNotations.

(** ** Specification *)

(** Calls on a manager. *)
Inductive icall (V O : Type) : Type :=
| ISave (o : O) (p : pystr)
| ISaveIndex (o : O) (p : pystr)
| ISaveVectors (v : V) (ids : list pid) (p : pystr)
| ILoad (p : pystr)
| ILoadIndex (p : pystr)
| ILoadVectors (p : pystr)
| IInit
| IClose.
Arguments ISave {V O} o p.
Arguments ISaveIndex {V O} o p.
Arguments ISaveVectors {V O} v ids p.
Arguments ILoad {V O} p.
Arguments ILoadIndex {V O} p.
Arguments ILoadVectors {V O} p.
Arguments IInit {V O}.
Arguments IClose {V O}.

(** A call; an orderly restart with some checkpoint interval; a crash after [n] changes made by
    a call, followed by a restart. *)
Inductive iev (V O : Type) : Type :=
| IDo (x : icall V O)
| IRestart (interval : Z)
| ICrash (n : nat) (x : icall V O) (interval : Z).
Arguments IDo {V O} x.
Arguments IRestart {V O} interval.
Arguments ICrash {V O} n x interval.

(** Names in the data directory that belong to the manager itself. *)
Definition reserved (n : pystr) : Prop :=
  n = py "operations.log" \/ n = py "checkpoint.json" \/
  exists w, n = py "checkpoint_" ++ w ++ py ".pkl".

(** A path of the caller that does not lead to, or through, the manager's own files. *)
Definition avoids (base : loc) (parts : list pystr) : Prop :=
  forall n, reserved n -> ~ on_way parts (base ++ [n]).

Section Incr.
  Context {V O : Type} {PL : Payload V O}.
  Context (wide : list pid -> option (list pid)) (dirorder : list pystr -> list pystr).
  Context (dirorder_perm : forall l, Permutation (dirorder l) l).
  Implicit Types (s : incr V O) (o : O) (v : V) (p : pystr) (base : loc) (t u : dict loc (node V O)).

  (** A call, its value forgotten. *)
  Definition i_exec (x : icall V O) (s : incr V O) : incr V O :=
    match x with
    | ISave o p => snd (incr_save_state o p s)
    | ISaveIndex o p => snd (incr_save_index o p s)
    | ISaveVectors v ids p => snd (incr_save_vectors wide v ids p s)
    | ILoad p => snd (incr_load_state dirorder p s)
    | ILoadIndex p => snd (incr_load_index p s)
    | ILoadVectors p => snd (incr_load_vectors p s)
    | IInit => snd (incr_initialize s)
    | IClose => snd (incr_close s)
    end.

  Definition i_with_fs (fs : fsys V O) (s : incr V O) : incr V O :=
    MkIncr fs (i_base s) (i_interval s) (i_init s) (i_count s) (i_last s).

  Definition i_happen (s : incr V O) (e : iev V O) : incr V O :=
    match e with
    | IDo x => i_exec x s
    | IRestart iv => incr_new (reboot (i_fs s)) (i_base s) iv
    | ICrash n x iv =>
        incr_new (reboot (i_fs (i_exec x (i_with_fs (doomed n (i_fs s)) s)))) (i_base s) iv
    end.

  (** What has been saved: the object of the last [save_state] that returned True.  A call that
      died after the checkpoint and the checkpoint information were written counts as well. *)
  Definition i_track (sl : incr V O * option O) (e : iev V O) : incr V O * option O :=
    let (s, l) := sl in
    (i_happen s e,
     match e with
     | IDo (ISave o p) =>
         match fst (incr_save_state o p s) with Ok true => Some o | _ => l end
     | ICrash n (ISave o p) _ => if i_init s && (4 <=? n)%nat then Some o else l
     | _ => l
     end).

  Definition i_history (es : list (iev V O)) (s : incr V O) : incr V O * option O :=
    fold_left i_track es (s, None).

  (** Calls covered by the theorems: states can be pickled, the caller's paths avoid the
      manager's own files. *)
  Definition allowed (base : loc) (x : icall V O) : Prop :=
    match x with
    | ISave o _ => picklable o = true
    | ISaveIndex _ p => avoids base (full base p)
    | ISaveVectors _ _ p => avoids base (npz_path (full base p))
    | _ => True
    end.

  (** The data directory has never been used by a manager. *)
  Definition unused (base : loc) (t : dict loc (node V O)) : Prop :=
    forall n, reserved n -> lookup t (base ++ [n]) = None.

  (** ** File names *)

  Lemma reserved_ckpt w : reserved (py "checkpoint_" ++ w ++ py ".pkl").
  Proof. right. right. now exists w. Qed.
  Lemma reserved_log : reserved log_name.
  Proof. now left. Qed.
  Lemma reserved_info : reserved info_name.
  Proof. right. now left. Qed.

  Lemma py_ckpt_len : length (py "checkpoint_") = 11.
  Proof. reflexivity. Qed.

  Lemma is_ckpt_spec n : is_ckpt n = true <-> exists w, n = py "checkpoint_" ++ w ++ py ".pkl".
  Proof.
    unfold is_ckpt, has_suffix. split.
    - intros H. apply andb_prop in H as [H H3]. apply andb_prop in H as [H1 H2].
      apply (proj1 (eqb_eq _ _)) in H1. apply (proj1 (eqb_eq _ _)) in H2. apply Nat.leb_le in H3.
      change (length (py ".pkl")) with 4 in H2.
      exists (skipn 11 (firstn (length n - 4) n)).
      transitivity (firstn (length n - 4) n ++ skipn (length n - 4) n); [now rewrite firstn_skipn|].
      rewrite H2, app_assoc. f_equal.
      transitivity (firstn 11 (firstn (length n - 4) n) ++ skipn 11 (firstn (length n - 4) n));
        [now rewrite firstn_skipn|].
      f_equal. rewrite <- H1, firstn_firstn. f_equal. lia.
    - intros (w & ->). rewrite !app_length. change (length (py ".pkl")) with 4.
      rewrite py_ckpt_len. apply andb_true_intro. split; [apply andb_true_intro; split|].
      + rewrite firstn_app, py_ckpt_len, Nat.sub_diag. simpl. reflexivity.
      + rewrite app_assoc, skipn_app, skipn_all2; rewrite app_length, py_ckpt_len; [|lia].
        replace (11 + (length w + 4) - 4 - (11 + length w)) with 0 by lia. reflexivity.
      + apply Nat.leb_le. lia.
  Qed.

  Lemma str_nat_no95 k : ~ In 95%N (str_nat k).
  Proof.
    intros H. pose proof (digits_all (Nat.to_uint k)) as Hd. rewrite Forall_forall in Hd.
    specialize (Hd _ H). discriminate.
  Qed.

  Lemma ckpt_key_name k : ckpt_key (ckpt_name k) = Ok (Z.of_nat k).
  Proof.
    unfold ckpt_key, ckpt_name.
    replace (firstn _ _) with (py "checkpoint" ++ 95%N :: str_nat k).
    - rewrite split_app, split_none; [|apply str_nat_no95|simpl; intuition discriminate].
      cbn [nth_error]. now rewrite py_int_str.
    - symmetry. rewrite app_assoc, firstn_app, app_length. rewrite firstn_all2.
      + rewrite app_length. change (length (py ".pkl")) with 4.
        replace (_ - 4 - _) with 0 by lia. simpl firstn. rewrite app_nil_r. reflexivity.
      + rewrite !app_length. change (length (py ".pkl")) with 4. lia.
  Qed.

  Lemma ckpt_name_inj j k : ckpt_name j = ckpt_name k -> j = k.
  Proof.
    unfold ckpt_name. intros E. apply app_inv_head, app_inv_tail in E. now apply str_nat_inj.
  Qed.

  Lemma info_not_ckpt w : info_name <> py "checkpoint_" ++ w ++ py ".pkl".
  Proof. intros E. apply (f_equal (fun x => nth 10 x 0%N)) in E. discriminate. Qed.
  Lemma log_not_ckpt w : log_name <> py "checkpoint_" ++ w ++ py ".pkl".
  Proof. intros E. apply (f_equal (fun x => nth 0 x 0%N)) in E. discriminate. Qed.

  Lemma reserved_plain n : reserved n -> n <> py "..".
  Proof. intros [->|[->|(w & ->)]]; discriminate. Qed.

  Lemma In_children (t : dict loc (node V O)) l n :
    In n (children t l) <-> lookup t (l ++ [n]) <> None.
  Proof.
    assert (E : lookup t (l ++ [n]) = dget (l ++ [n]) t) by (destruct l; reflexivity).
    rewrite E. unfold children. rewrite in_map_iff. split.
    - intros (j & Hj & Hin). apply filter_In in Hin as [Hk Hf]. apply andb_prop in Hf as [Hf1 Hf2].
      apply (proj1 (eqb_eq _ _)) in Hf2. destruct (eqb_spec j []) as [|Hne]; [discriminate|].
      rewrite dget_None. intros Hc. apply Hc. rewrite <- Hj, <- Hf2, <- app_removelast_last; auto.
    - intros H. exists (l ++ [n]). rewrite last_last. split; auto.
      apply filter_In. split.
      + destruct (dget (l ++ [n]) t) as [x|] eqn:Ed; [|congruence]. apply dget_In. eauto.
      + rewrite removelast_last, eqb_refl. rewrite eqb_neq; auto. now destruct l.
  Qed.

  (** ** The data directory *)

  Definition base_ok (t : dict loc (node V O)) (base : loc) : Prop :=
    walk t [] base = Some base /\ lookup t base = Some Dir.

  Lemma walk_app_fwd (t : dict loc (node V O)) a b : forall cur m,
    walk t cur a = Some m -> walk t cur (a ++ b) = walk t m b.
  Proof.
    induction a as [|c a IH]; simpl; intros cur m E; [congruence|].
    destruct (lookup t cur) as [[|]|]; try discriminate. auto.
  Qed.

  Lemma walk_child t base n : base_ok t base -> reserved n ->
    walk t [] (base ++ [n]) = Some (base ++ [n]).
  Proof.
    intros [H1 H2] Hn. rewrite (walk_app_fwd _ _ _ _ _ H1). simpl. rewrite H2. unfold step.
    rewrite eqb_neq; auto. now apply reserved_plain.
  Qed.

  Lemma node_child t base n : base_ok t base -> reserved n ->
    node_at t (base ++ [n]) = lookup t (base ++ [n]).
  Proof. intros H Hn. unfold node_at. now rewrite walk_child. Qed.

  Lemma base_ok_evolves W C t u base : evolves W C t u -> base_ok t base -> base_ok u base.
  Proof.
    intros HE [H1 H2]. split; [eapply evolves_walk; eauto|]. destruct HE as (HD & _). auto.
  Qed.

  Lemma mkdir1_Ok a (fs fs' : fsys V O) : mkdir1 a fs = (Ok tt, fs') ->
    node_at (f_tree fs') a = Some Dir.
  Proof.
    intros E. pose proof (mkdir1_rel a (fun _ => False) (fun _ => True) I fs) as [HE _].
    rewrite E in HE. simpl in HE. unfold mkdir1, bind at 1, get in E.
    destruct (walk (f_tree fs) [] a) as [l|] eqn:Ew; [|discriminate].
    unfold node_at. rewrite (evolves_walk _ _ _ _ _ HE _ _ Ew).
    destruct (lookup (f_tree fs) l) as [[|c]|] eqn:El; [|discriminate|].
    - injection E as <-. exact El.
    - destruct (put_cases l (Dir : node V O) fs) as [(E1 & E2 & _)|(E1 & _)]; rewrite E in *; simpl in *;
        [|discriminate].
      rewrite E2, lookup_dset, eqb_refl; auto. intros ->. discriminate.
  Qed.

  Lemma node_dir_evolves W C t u (a : list pystr) : evolves W C t u ->
    node_at t a = Some Dir -> node_at u a = Some Dir.
  Proof.
    intros HE E. unfold node_at in *. destruct (walk t [] a) as [l|] eqn:Ew; [|discriminate].
    rewrite (evolves_walk _ _ _ _ _ HE _ _ Ew). destruct HE as (HD & _). auto.
  Qed.

  Lemma mkdirs_Ok l : forall (fs fs' : fsys V O), forM l mkdir1 fs = (Ok tt, fs') ->
    forall a, In a l -> node_at (f_tree fs') a = Some Dir.
  Proof.
    induction l as [|b l IH]; intros fs fs' E a Ha; [destruct Ha|].
    simpl in E. apply bind_Ok_inv in E as ([] & fs1 & E1 & E2).
    destruct Ha as [->|Ha]; [|eauto].
    apply mkdir1_Ok in E1.
    pose proof (runs_forM (fs_rel (fun _ => False) (fun _ => True))
                  (fs_rel_refl _ _) (fs_rel_trans _ _) l mkdir1
                  (fun a _ => mkdir1_rel a _ _ I) fs1) as [HE _].
    rewrite E2 in HE. simpl in HE. eapply node_dir_evolves; eauto.
  Qed.

  Lemma walk_all_dirs (t : dict loc (node V O)) ns : Forall ordinary ns -> forall cur,
    (forall k, k < length ns -> lookup t (cur ++ firstn k ns) = Some Dir) ->
    walk t cur ns = Some (cur ++ ns).
  Proof.
    induction 1 as [|n ns (_ & _ & Hn & _) Hns IH]; intros cur Hd; simpl; [now rewrite app_nil_r|].
    pose proof (Hd 0 ltac:(simpl; lia)) as H0. simpl in H0. rewrite app_nil_r in H0. rewrite H0.
    unfold step. rewrite eqb_neq by auto. rewrite IH.
    - now rewrite <- app_assoc.
    - intros k Hk. specialize (Hd (S k) ltac:(simpl; lia)). simpl in Hd. now rewrite <- app_assoc.
  Qed.

  Lemma mkdirs_base_ok base (fs fs' : fsys V O) : Forall ordinary base ->
    mkdirs base fs = (Ok tt, fs') -> base_ok (f_tree fs') base.
  Proof.
    intros Hb E. assert (Hd : forall k, k <= length base -> lookup (f_tree fs') (firstn k base) = Some Dir).
    { intros [|k] Hk; [reflexivity|].
      pose proof (mkdirs_Ok _ _ _ E (firstn (S k) base)) as H.
      assert (Hin : In (firstn (S k) base) (prefixes base)).
      { unfold prefixes. apply in_map_iff. exists k. split; auto. apply in_seq. lia. }
      specialize (H Hin). unfold node_at in H.
      destruct (walk (f_tree fs') [] (firstn (S k) base)) as [l|] eqn:Ew; [|discriminate].
      apply walk_norm in Ew. fold (norm (firstn (S k) base)) in Ew.
      rewrite norm_ordinary in Ew; [now subst l|].
      apply Forall_forall. intros x Hx. apply In_firstn in Hx. rewrite Forall_forall in Hb. auto. }
    split.
    - apply (walk_all_dirs _ _ Hb []). intros k Hk. apply Hd. lia.
    - rewrite <- (firstn_all base) at 1. apply Hd. lia.
  Qed.

  (** ** Invariants *)

  Definition i_tree s := f_tree (i_fs s).
  Definition at_ (t : dict loc (node V O)) (base : loc) (n : pystr) := lookup t (base ++ [n]).

  (** What the manager's files look like when [l] is the last saved object. *)
  Record tree_ok (base : loc) (t : dict loc (node V O)) (l : option O) : Prop := {
    tk_info : at_ t base info_name = None \/ exists a c, at_ t base info_name = Some (File (CInfo a c));
    tk_log : at_ t base log_name = None \/ exists ls, at_ t base log_name = Some (File (CLog ls));
    tk_ck : forall w x, at_ t base (py "checkpoint_" ++ w ++ py ".pkl") = Some x ->
      exists k o a c, w = str_nat k /\ x = File (CPickle o) /\
        at_ t base info_name = Some (File (CInfo a c)) /\ k <= c;
    tk_new : match l with
             | None => forall w, at_ t base (py "checkpoint_" ++ w ++ py ".pkl") = None
             | Some o => exists k, at_ t base (ckpt_name k) = Some (File (CPickle o)) /\
                 forall j, at_ t base (ckpt_name j) <> None -> j <= k
             end
  }.

  (** What an open manager knows. *)
  Definition sess s : Prop :=
    i_init s = true ->
    base_ok (i_tree s) (i_base s) /\
    (exists ls, at_ (i_tree s) (i_base s) log_name = Some (File (CLog ls))) /\
    (forall a c, at_ (i_tree s) (i_base s) info_name = Some (File (CInfo a c)) -> c <= i_count s).

  Lemma sess_mk t f d base iv b n lst :
    base_ok t base -> (exists ls, at_ t base log_name = Some (File (CLog ls))) ->
    (forall a c, at_ t base info_name = Some (File (CInfo a c)) -> c <= n) ->
    sess (MkIncr (MkFs t f d) base iv b n lst).
  Proof. intros H1 H2 H3 _. auto. Qed.

  Definition alive (fs : fsys V O) : Prop := f_fuse fs = None /\ f_dead fs = false.

  Definition good (base : loc) s (l : option O) : Prop :=
    i_base s = base /\ alive (i_fs s) /\ tree_ok base (i_tree s) l /\ sess s.

  Definition same_own (base : loc) (t u : dict loc (node V O)) : Prop :=
    forall n, reserved n -> at_ u base n = at_ t base n.

  Lemma tree_ok_ext base t u l : same_own base t u -> tree_ok base t l -> tree_ok base u l.
  Proof.
    intros HS [H1 H2 H3 H4].
    assert (Hc : forall w, at_ u base (py "checkpoint_" ++ w ++ py ".pkl") =
                           at_ t base (py "checkpoint_" ++ w ++ py ".pkl")) by (intros; apply HS, reserved_ckpt).
    pose proof (HS _ reserved_info) as Ei. pose proof (HS _ reserved_log) as El.
    constructor.
    - now rewrite Ei.
    - now rewrite El.
    - intros w x. rewrite Hc, Ei. apply H3.
    - destruct l as [o|].
      + destruct H4 as (k & A & B). exists k. unfold ckpt_name in *. rewrite Hc. split; auto.
        intros j. rewrite Hc. auto.
      + intros w. rewrite Hc. auto.
  Qed.

  Lemma evolves_own base (W C : loc -> Prop) t u : evolves W C t u ->
    (forall n, reserved n -> ~ W (base ++ [n]) /\ ~ C (base ++ [n])) -> same_own base t u.
  Proof.
    intros (A1 & A2 & A3) H n Hn. destruct (H n Hn) as [HW HC]. unfold at_.
    destruct (lookup t (base ++ [n])) as [[|c]|] eqn:E; auto.
    destruct (A2 _ _ E) as (c' & E' & F). rewrite E'. now rewrite F.
  Qed.

  (** ** Single steps *)

  (** The process lives for at least [k] more changes. *)
  Definition room (k : nat) (fs : fsys V O) : Prop :=
    f_dead fs = false /\ match f_fuse fs with None => True | Some n => k <= n end.

  Lemma write_runs base n c (fs : fsys V O) : base_ok (f_tree fs) base -> reserved n ->
    at_ (f_tree fs) base n <> Some Dir -> room 2 fs ->
    exists t', write (base ++ [n]) c true fs =
                 (Ok tt, MkFs t' (option_map (fun m => m - 2) (f_fuse fs)) false) /\
      forall j, lookup t' j = if eqb j (base ++ [n]) then Some (File c) else lookup (f_tree fs) j.
  Proof.
    intros Hb Hn Hd [R1 R2]. unfold write, bind at 1, get. rewrite walk_child by auto.
    assert (Hne : base ++ [n] <> []) by (destruct base; discriminate).
    exists (dset (base ++ [n]) (File c) (dset (base ++ [n]) (File CJunk) (f_tree fs))). split.
    - fold (at_ (f_tree fs) base n). destruct (at_ (f_tree fs) base n) as [[|]|]; [congruence| |];
      destruct fs as [t fu d]; simpl in *; subst d;
      unfold put, tick, bind, modify; (destruct fu as [m|]; [destruct m as [|[|m]]; [lia|lia|]|]);
      simpl; try reflexivity; now rewrite Nat.sub_0_r.
    - intros j. rewrite !lookup_dset by auto. destruct (eqb j (base ++ [n])); auto.
  Qed.

  Lemma append_runs base x ls (fs : fsys V O) : base_ok (f_tree fs) base -> alive fs ->
    at_ (f_tree fs) base log_name = Some (File (CLog ls)) ->
    exists t', append (base ++ [log_name]) x fs = (Ok tt, MkFs t' None false) /\
      forall j, lookup t' j = if eqb j (base ++ [log_name]) then Some (File (CLog (ls ++ [x])))
                              else lookup (f_tree fs) j.
  Proof.
    intros Hb [A1 A2] Hl. unfold append, bind at 1, get. rewrite walk_child by (auto; apply reserved_log).
    unfold at_ in Hl. rewrite Hl. rewrite put_alive by auto. eexists. split; [reflexivity|].
    intros j. apply lookup_dset. destruct base; discriminate.
  Qed.

  Lemma app_name_neq base m n : m <> n -> base ++ [m] <> base ++ [n].
  Proof. intros H E. apply app_inv_head in E. congruence. Qed.

  Lemma info_log_neq : info_name <> log_name.
  Proof. discriminate. Qed.

  (** An update of one file of the manager. *)
  Definition upd (base : loc) (n : pystr) (x : node V O) (t u : dict loc (node V O)) : Prop :=
    forall j, lookup u j = if eqb j (base ++ [n]) then Some x else lookup t j.

  Lemma upd_same base n x t u : upd base n x t u -> at_ u base n = Some x.
  Proof. intros H. unfold at_. rewrite H. now rewrite eqb_refl. Qed.
  Lemma upd_other base n x t u m : upd base n x t u -> m <> n -> at_ u base m = at_ t base m.
  Proof. intros H Hm. unfold at_. rewrite H. rewrite eqb_neq; auto. now apply app_name_neq. Qed.
  Lemma upd_base_ok base n x t u : upd base n x t u -> at_ t base n <> Some Dir ->
    base_ok t base -> base_ok u base.
  Proof.
    intros H Hd [B1 B2]. assert (HE : evolves (eq (base ++ [n])) (eq (base ++ [n])) t u -> base_ok u base).
    { intros HE. eapply base_ok_evolves; [exact HE|]. now split. }
    assert (HD : forall l, lookup t l = Some Dir -> lookup u l = Some Dir).
    { intros l E. rewrite H. destruct (eqb_spec l (base ++ [n])) as [->|]; auto. now unfold at_ in Hd. }
    clear HE. assert (G : forall ps cur l, walk t cur ps = Some l -> walk u cur ps = Some l).
    { induction ps as [|c r IH]; simpl; intros cur l E; auto.
      destruct (lookup t cur) as [[|]|] eqn:El; try discriminate. rewrite (HD _ El). auto. }
    split; auto.
  Qed.

  Lemma save_info_runs s : base_ok (i_tree s) (i_base s) ->
    at_ (i_tree s) (i_base s) info_name <> Some Dir -> room 2 (i_fs s) ->
    exists t', save_info s =
        (Ok tt, i_with_fs (MkFs t' (option_map (fun m => m - 2) (f_fuse (i_fs s))) false) s) /\
      upd (i_base s) info_name (File (CInfo (i_last s) (i_count s))) (i_tree s) t'.
  Proof.
    intros Hb Hd HR.
    destruct (write_runs (i_base s) info_name (CInfo (i_last s) (i_count s)) (i_fs s)
                Hb reserved_info Hd HR) as (t' & E & HU).
    exists t'. split; [|exact HU]. unfold save_info, wrap, bind, get, i_do, zoom. now rewrite E.
  Qed.

  Lemma log_runs op s ls : base_ok (i_tree s) (i_base s) -> alive (i_fs s) ->
    at_ (i_tree s) (i_base s) log_name = Some (File (CLog ls)) ->
    at_ (i_tree s) (i_base s) info_name <> Some Dir ->
    exists t' lst, log_operation op true s =
        (Ok tt, MkIncr (MkFs t' None false) (i_base s) (i_interval s) (i_init s) (S (i_count s)) lst) /\
      base_ok t' (i_base s) /\
      at_ t' (i_base s) log_name = Some (File (CLog (ls ++ [MkLine op (i_count s)]))) /\
      (at_ t' (i_base s) info_name = at_ (i_tree s) (i_base s) info_name \/
       at_ t' (i_base s) info_name = Some (File (CInfo (S (i_count s)) (S (i_count s))))) /\
      (forall n, n <> log_name -> n <> info_name -> at_ t' (i_base s) n = at_ (i_tree s) (i_base s) n).
  Proof.
    intros Hb Ha Hl Hd.
    destruct (append_runs (i_base s) (MkLine op (i_count s)) ls (i_fs s) Hb Ha Hl) as (t1 & E1 & U1).
    fold (upd (i_base s) log_name (File (CLog (ls ++ [MkLine op (i_count s)]))) (f_tree (i_fs s)) t1) in U1.
    assert (Hb1 : base_ok t1 (i_base s)).
    { eapply upd_base_ok; [exact U1| |exact Hb]. fold (i_tree s). congruence. }
    assert (Hd1 : at_ t1 (i_base s) info_name = at_ (i_tree s) (i_base s) info_name).
    { eapply upd_other; [exact U1|discriminate]. }
    unfold log_operation, wrap, bind at 1, get, bind at 1, i_do, zoom.
    rewrite E1. unfold bind at 1, set_count, modify. cbn [i_fs i_base i_interval i_init i_count i_last].
    unfold bind, get. cbn [i_fs i_base i_interval i_init i_count i_last].
    destruct (i_interval s <=? Z.of_nat (S (i_count s)) - Z.of_nat (i_last s))%Z.
    - unfold create_checkpoint, wrap, bind, get, set_last, modify.
      cbn [i_fs i_base i_interval i_init i_count i_last].
      set (s2 := MkIncr (MkFs t1 None false) (i_base s) (i_interval s) (i_init s) (S (i_count s)) (S (i_count s))).
      destruct (save_info_runs s2) as (t2 & E2 & U2).
      + exact Hb1.
      + change (at_ t1 (i_base s) info_name <> Some Dir). now rewrite Hd1.
      + split; cbn; auto.
      + rewrite E2. unfold i_with_fs. exists t2, (S (i_count s)). split; [reflexivity|].
        change (i_base s2) with (i_base s) in *. change (i_tree s2) with t1 in *.
        split; [eapply upd_base_ok; [exact U2| |exact Hb1]; now rewrite Hd1|].
        split; [|split].
        * rewrite (upd_other _ _ _ _ _ log_name U2) by discriminate. exact (upd_same _ _ _ _ _ U1).
        * right. exact (upd_same _ _ _ _ _ U2).
        * intros n H1 H2. rewrite (upd_other _ _ _ _ _ n U2) by auto. exact (upd_other _ _ _ _ _ n U1 H1).
    - exists t1, (i_last s). split; [reflexivity|]. split; [exact Hb1|]. split; [exact (upd_same _ _ _ _ _ U1)|].
      split; [left; exact Hd1|]. intros n H1 H2. exact (upd_other _ _ _ _ _ n U1 H1).
  Qed.

  (** ** Calls *)

  (** The log grows by entries numbered from the operation count on. *)
  Definition logged s s' : Prop :=
    forall ls, at_ (i_tree s) (i_base s) log_name = Some (File (CLog ls)) ->
    exists ls', at_ (i_tree s') (i_base s) log_name = Some (File (CLog (ls ++ ls'))) /\
      map l_id ls' = seq (i_count s) (length ls') /\ i_count s' = i_count s + length ls'.

  Lemma logged_same s s' : at_ (i_tree s') (i_base s) log_name = at_ (i_tree s) (i_base s) log_name ->
    i_count s' = i_count s -> logged s s'.
  Proof.
    intros H Hc ls Hl. exists []. rewrite app_nil_r, H. repeat split; auto. simpl. lia.
  Qed.

  Lemma tree_ok_log base t u l :
    tree_ok base t l ->
    (exists ls, at_ u base log_name = Some (File (CLog ls))) ->
    (at_ u base info_name = at_ t base info_name \/
     exists m, at_ u base info_name = Some (File (CInfo m m)) /\
       forall a c, at_ t base info_name = Some (File (CInfo a c)) -> c <= m) ->
    (forall n, n <> log_name -> n <> info_name -> at_ u base n = at_ t base n) ->
    tree_ok base u l.
  Proof.
    intros [H1 H2 H3 H4] Hlog Hinfo Hrest.
    assert (Hc : forall w, at_ u base (py "checkpoint_" ++ w ++ py ".pkl") =
                           at_ t base (py "checkpoint_" ++ w ++ py ".pkl")).
    { intros w. apply Hrest; intros E; symmetry in E; [now apply log_not_ckpt in E|now apply info_not_ckpt in E]. }
    constructor.
    - destruct Hinfo as [->|(m & -> & _)]; eauto.
    - auto.
    - intros w x. rewrite Hc. intros Hx. destruct (H3 w x Hx) as (k & o & a & c & E1 & E2 & E3 & E4).
      destruct Hinfo as [->|(m & -> & Hm)].
      + exists k, o, a, c. auto.
      + exists k, o, m, m. specialize (Hm _ _ E3). repeat split; auto. lia.
    - destruct l as [o|].
      + destruct H4 as (k & A & B). exists k. unfold ckpt_name in *. rewrite Hc. split; auto.
        intros j. rewrite Hc. auto.
      + intros w. rewrite Hc. auto.
  Qed.

  (** The tree after the checkpoint and the checkpoint information are written. *)
  Lemma tree_ok_saved base t t1 u l o c : tree_ok base t l ->
    (forall a b, at_ t base info_name = Some (File (CInfo a b)) -> b <= c) ->
    upd base (ckpt_name c) (File (CPickle o)) t t1 ->
    upd base info_name (File (CInfo c c)) t1 u -> tree_ok base u (Some o).
  Proof.
    intros [H1 H2 H3 H4] Hc U1 U2.
    assert (Hi : at_ u base info_name = Some (File (CInfo c c))) by exact (upd_same _ _ _ _ _ U2).
    assert (Hk : forall w, at_ u base (py "checkpoint_" ++ w ++ py ".pkl") =
               if eqb w (str_nat c) then Some (File (CPickle o))
               else at_ t base (py "checkpoint_" ++ w ++ py ".pkl")).
    { intros w. rewrite (upd_other _ _ _ _ _ _ U2) by (intros E; symmetry in E; now apply info_not_ckpt in E).
      destruct (eqb_spec w (str_nat c)) as [->|Hw].
      - exact (upd_same _ _ _ _ _ U1).
      - apply (upd_other _ _ _ _ _ _ U1). unfold ckpt_name. intros E.
        apply app_inv_head, app_inv_tail in E. congruence. }
    constructor.
    - right. eauto.
    - rewrite (upd_other _ _ _ _ _ log_name U2) by discriminate.
      rewrite (upd_other _ _ _ _ _ log_name U1) by (apply log_not_ckpt). exact H2.
    - intros w x. rewrite Hk. destruct (eqb_spec w (str_nat c)) as [->|Hw].
      + intros [= <-]. exists c, o, c, c. auto.
      + intros Hx. destruct (H3 w x Hx) as (k & o' & a & b & E1 & E2 & E3 & E4).
        exists k, o', c, c. specialize (Hc _ _ E3). repeat split; auto. lia.
    - exists c. unfold ckpt_name. rewrite Hk, eqb_refl. split; auto.
      intros j. rewrite Hk. destruct (eqb_spec (str_nat j) (str_nat c)) as [E|_].
      + apply str_nat_inj in E. lia.
      + intros Hj. destruct (at_ t base (py "checkpoint_" ++ str_nat j ++ py ".pkl")) as [x|] eqn:Ex; [|congruence].
        destruct (H3 _ _ Ex) as (k & o' & a & b & E1 & E2 & E3 & E4). apply str_nat_inj in E1.
        specialize (Hc _ _ E3). lia.
  Qed.

  Lemma ckpt_not_dir base t l c : tree_ok base t l -> at_ t base (ckpt_name c) <> Some Dir.
  Proof.
    intros [_ _ H3 _] E. destruct (H3 _ _ E) as (k & o' & a & b & _ & E2 & _). discriminate.
  Qed.

  Lemma info_not_dir base t l : tree_ok base t l -> at_ t base info_name <> Some Dir.
  Proof. intros [[->|(a & c & ->)] _ _ _]; discriminate. Qed.

  (** Both files of a checkpoint are written. *)
  Lemma checkpoint_runs base s l o : i_base s = base -> tree_ok base (i_tree s) l -> sess s ->
    i_init s = true -> picklable o = true -> room 4 (i_fs s) ->
    exists t', (i_do (write_pickle (i_base s ++ [ckpt_name (i_count s)]) o) ;;;
                set_last (i_count s) ;;; save_info) s =
        (Ok tt, MkIncr (MkFs t' (option_map (fun m => m - 4) (f_fuse (i_fs s))) false)
                  (i_base s) (i_interval s) (i_init s) (i_count s) (i_count s)) /\
      base_ok t' base /\ tree_ok base t' (Some o) /\
      at_ t' base info_name = Some (File (CInfo (i_count s) (i_count s))) /\
      at_ t' base log_name = at_ (i_tree s) base log_name.
  Proof.
    intros Hbase HT HS Hi Hp [R1 R2]. subst base. destruct (HS Hi) as (Hb & _ & Hc).
    destruct (write_runs (i_base s) (ckpt_name (i_count s)) (CPickle o) (i_fs s)) as (t1 & E1 & U1).
    { exact Hb. } { apply reserved_ckpt. } { eapply ckpt_not_dir; exact HT. }
    { split; auto. destruct (f_fuse (i_fs s)); auto. lia. }
    fold (upd (i_base s) (ckpt_name (i_count s)) (File (CPickle o)) (f_tree (i_fs s)) t1) in U1.
    fold (i_tree s) in U1.
    assert (Hb1 : base_ok t1 (i_base s)).
    { eapply upd_base_ok; [exact U1| |exact Hb]. eapply ckpt_not_dir; exact HT. }
    assert (Hi1 : at_ t1 (i_base s) info_name = at_ (i_tree s) (i_base s) info_name).
    { apply (upd_other _ _ _ _ _ _ U1). apply info_not_ckpt. }
    unfold bind at 1, i_do, zoom, write_pickle. rewrite Hp, E1.
    unfold bind, set_last, modify. cbn [i_fs i_base i_interval i_init i_count i_last].
    set (s2 := MkIncr _ _ _ _ _ _).
    destruct (save_info_runs s2) as (t2 & E2 & U2).
    { exact Hb1. }
    { change (at_ t1 (i_base s) info_name <> Some Dir). rewrite Hi1. eapply info_not_dir; exact HT. }
    { split; [reflexivity|]. simpl. destruct (f_fuse (i_fs s)); simpl; auto. lia. }
    change (i_base s2) with (i_base s) in *. change (i_tree s2) with t1 in *.
    change (i_last s2) with (i_count s) in *. change (i_count s2) with (i_count s) in *.
    exists t2. split; [|split; [|split; [|split]]].
    - rewrite E2. unfold i_with_fs, s2. cbn [i_fs i_base i_interval i_init i_count i_last f_fuse].
      destruct (f_fuse (i_fs s)) as [m|]; cbn [option_map]; [|reflexivity].
      replace (m - 2 - 2) with (m - 4) by lia. reflexivity.
    - eapply upd_base_ok; [exact U2| |exact Hb1]. rewrite Hi1. eapply info_not_dir; exact HT.
    - eapply tree_ok_saved; eauto.
    - exact (upd_same _ _ _ _ _ U2).
    - rewrite (upd_other _ _ _ _ _ log_name U2) by discriminate.
      apply (upd_other _ _ _ _ _ _ U1). apply log_not_ckpt.
  Qed.

  Lemma save_shape o p s : i_init s = true ->
    incr_save_state o p s =
    wrap EPersist ((i_do (write_pickle (i_base s ++ [ckpt_name (i_count s)]) o) ;;;
                    set_last (i_count s) ;;; save_info) ;;;
                   log_operation (py "save_state") true ;;; ret true) s.
  Proof.
    intros Hi. unfold incr_save_state, bind at 1, get. rewrite Hi. cbn [negb].
    unfold wrap, bind. destruct (i_do _ s) as [[a|e] s1]; [|reflexivity].
    destruct (set_last _ s1) as [[b|e] s2]; [|reflexivity].
    destruct (save_info s2) as [[b'|e] s3]; reflexivity.
  Qed.

  (** [save_state] by an open manager returns True and the object becomes the last saved. *)
  Lemma save_good base s l o p : good base s l -> i_init s = true -> picklable o = true ->
    exists s', incr_save_state o p s = (Ok true, s') /\ good base s' (Some o) /\ i_init s' = true /\
               logged s s'.
  Proof.
    intros (Hbase & [A1 A2] & HT & HS) Hi Hp.
    destruct (HS Hi) as (Hb & (ls & Hl) & Hc).
    destruct (checkpoint_runs base s l o Hbase HT HS Hi Hp) as (t2 & E & Hb2 & HT2 & Hi2 & Hl2).
    { split; auto. now rewrite A1. }
    rewrite A1 in E. cbn [option_map] in E.
    set (s2 := MkIncr _ _ _ _ _ _) in E. subst base.
    destruct (log_runs (py "save_state") s2 ls) as (t3 & lst & E3 & Hb3 & Hl3 & Hi3 & Hr3).
    { exact Hb2. } { split; reflexivity. } { rewrite <- Hl2 in Hl. exact Hl. }
    { change (at_ t2 (i_base s) info_name <> Some Dir). rewrite Hi2. discriminate. }
    change (i_base s2) with (i_base s) in *. change (i_tree s2) with t2 in *.
    change (i_count s2) with (i_count s) in *. change (i_init s2) with (i_init s) in *.
    change (i_interval s2) with (i_interval s) in *.
    exists (MkIncr (MkFs t3 None false) (i_base s) (i_interval s) (i_init s) (S (i_count s)) lst).
    split; [|split; [|split]].
    - rewrite save_shape by auto. unfold wrap.
      rewrite (bind_Ok _ _ _ _ _ E), (bind_Ok _ _ _ _ _ E3). reflexivity.
    - split; [reflexivity|]. split; [split; reflexivity|]. split.
      + change (tree_ok (i_base s) t3 (Some o)). apply tree_ok_log with (t := t2); eauto.
        destruct Hi3 as [->|Hi3]; [left; congruence|]. right. exists (S (i_count s)). split; auto.
        intros a c. rewrite Hi2. intros [= <- <-]. lia.
      + apply sess_mk; [exact Hb3|eauto|].
        intros a c. destruct Hi3 as [-> | ->].
        * rewrite Hi2. intros [= <- <-]. lia.
        * intros [= <- <-]. lia.
    - exact Hi.
    - intros ls0 Hl0. rewrite Hl in Hl0. injection Hl0 as <-.
      exists [MkLine (py "save_state") (i_count s)]. split; [exact Hl3|]. cbn. split; auto. lia.
  Qed.

  (** Saves of the caller's own files. *)
  Definition i_rel (W C : loc -> Prop) s s' : Prop :=
    s' = i_with_fs (i_fs s') s /\ fs_rel W C (i_fs s) (i_fs s').

  Lemma i_rel_refl W C s : i_rel W C s s.
  Proof. split; [now destruct s|apply fs_rel_refl]. Qed.
  Lemma i_rel_trans W C a b c : i_rel W C a b -> i_rel W C b c -> i_rel W C a c.
  Proof. intros [A1 A2] [B1 B2]. split; [rewrite B1, A1; reflexivity|eauto using fs_rel_trans]. Qed.

  Lemma i_do_rel {A} W C (m : M (fsys V O) A) : runs (fs_rel W C) m -> runs (i_rel W C) (i_do m).
  Proof.
    intros Hm s. unfold i_do, zoom. specialize (Hm (i_fs s)). destruct (m (i_fs s)) as [r fs].
    split; auto.
  Qed.

  Definition user_files parts q (c : content V O) fine : M (incr V O) unit :=
    i_do (mkdirs (removelast parts)) ;;; i_do (write q c fine).

  Lemma user_files_own base parts q c fine s s1 r : i_base s = base ->
    removelast q = removelast parts -> avoids base q ->
    user_files parts q c fine s = (r, s1) ->
    s1 = i_with_fs (i_fs s1) s /\ same_own base (i_tree s) (i_tree s1) /\
    (base_ok (i_tree s) base -> base_ok (i_tree s1) base) /\ (alive (i_fs s) -> alive (i_fs s1)).
  Proof.
    intros Hbase Hq Hav E.
    assert (HR : i_rel (eq (norm q)) (on_way (removelast parts)) s s1).
    { assert (H : runs (i_rel (eq (norm q)) (on_way (removelast parts))) (user_files parts q c fine)).
      { apply runs_bind; [apply i_rel_trans| |intros _].
        - apply i_do_rel, mkdirs_rel. auto.
        - apply i_do_rel, write_rel. auto. }
      specialize (H s). now rewrite E in H. }
    destruct HR as [H1 (H2 & _ & H3)]. split; [exact H1|]. split; [|split].
    - eapply evolves_own; [exact H2|]. intros n Hn. specialize (Hav n Hn). split.
      + intros Hw. apply Hav. rewrite <- Hw. exists (length q). split; auto. now rewrite firstn_all.
      + intros (k & Hk & El). apply Hav. rewrite El. rewrite <- Hq in Hk |- *. clear - Hk. exists k.
        destruct q as [|q0 q1]; [simpl in *; split; [lia|]; destruct k; auto|].
        revert Hk. assert (Hne : q0 :: q1 <> []) by discriminate.
        destruct (exists_last Hne) as (a & x & ->). rewrite removelast_last. intros Hk.
        rewrite app_length. split; [simpl; lia|]. rewrite firstn_app.
        replace (k - length a) with 0 by lia. simpl. now rewrite app_nil_r.
    - intros Hb. eapply base_ok_evolves; eauto.
    - intros [A1 A2]. apply H3; auto.
  Qed.

  Lemma user_good base s l parts q c fine op js : good base s l -> i_init s = true ->
    removelast q = removelast parts -> avoids base q ->
    let s' := snd ((user_files parts q c fine ;;; log_operation op js ;;; ret true) s) in
    good base s' l /\ i_init s' = true /\ logged s s'.
  Proof.
    intros (Hbase & HA & HT & HS) Hi Hq Hav.
    destruct (HS Hi) as (Hb & (ls & Hl) & Hc).
    unfold bind at 1. destruct (user_files parts q c fine s) as [r s1] eqn:E1.
    destruct (user_files_own base parts q c fine s s1 r Hbase Hq Hav E1) as (Es & Ho & Hb1 & HA1).
    assert (G1 : good base s1 l /\ i_init s1 = true /\ logged s s1).
    { rewrite Es. subst base. split; [|split].
      - split; [reflexivity|]. split; [auto|]. split; [eapply tree_ok_ext; eauto|].
        intros _. cbn. split; [auto|]. split.
        + exists ls. rewrite <- Hl. apply Ho, reserved_log.
        + intros a b. intros Hx. apply (Hc a b). rewrite <- Hx. symmetry. apply (Ho _ reserved_info).
      - exact Hi.
      - apply logged_same; [|reflexivity]. apply Ho, reserved_log. }
    destruct r as [[]|e]; [|exact G1].
    destruct G1 as ((Hbase1 & HA1' & HT1 & HS1) & Hi1 & HL1).
    destruct (HS1 Hi1) as (Hb1' & (ls1 & Hl1) & Hc1).
    destruct js.
    - destruct (log_runs op s1 ls1 Hb1' HA1' Hl1) as (t3 & lst & E3 & Hb3 & Hl3 & Hi3 & Hr3).
      { rewrite Hbase1. eapply info_not_dir; eauto. }
      rewrite (bind_Ok _ _ _ _ _ E3). cbn [snd ret].
      split; [|split].
      + split; [exact Hbase1|]. split; [split; reflexivity|]. rewrite Hbase1 in *. split.
        * change (tree_ok base t3 l). apply tree_ok_log with (t := i_tree s1); eauto.
          destruct Hi3 as [Hi3|Hi3]; [left; auto|]. right. exists (S (i_count s1)). split; auto.
          intros a c0 Hx. specialize (Hc1 a c0 Hx). lia.
        * apply sess_mk; [exact Hb3|eauto|].
          intros a c0. destruct Hi3 as [Hi3|Hi3]; rewrite Hi3.
          -- intros Hx. specialize (Hc1 a c0 Hx). lia.
          -- intros [= <- <-]. lia.
      + exact Hi1.
      + intros ls0 Hl0. destruct (HL1 ls0 Hl0) as (ls' & A & B & D).
        rewrite Es in A, D. assert (Hls : ls1 = ls0 ++ ls').
        { rewrite Es in Hl1. change (i_base (i_with_fs (i_fs s1) s)) with (i_base s) in Hl1. congruence. }
        exists (ls' ++ [MkLine op (i_count s1)]). rewrite app_assoc, <- Hls.
        replace (i_base s) with (i_base s1) by (now rewrite Es).
        unfold i_tree. cbn [i_fs f_tree i_count]. split; [exact Hl3|].
        rewrite map_app, app_length, seq_app, B. cbn. change (i_count (i_with_fs (i_fs s1) s)) with (i_count s) in D.
        assert (Hn : length ls' = 0) by lia. destruct ls'; [|discriminate]. cbn.
        rewrite Es. cbn. rewrite Nat.add_0_r. split; auto. lia.
    - cbn. split; [|split]; auto. split; auto.
  Qed.

  (** [initialize], for a process that may die on the way. *)
  Lemma not_on_way_base base n : Forall ordinary base -> ~ on_way base (base ++ [n]).
  Proof.
    intros Hb (k & Hk & E). rewrite norm_ordinary in E.
    - apply (f_equal (@length _)) in E. rewrite app_length, firstn_length in E. simpl in E. lia.
    - apply Forall_forall. intros x Hx. apply In_firstn in Hx. rewrite Forall_forall in Hb. auto.
  Qed.

  Lemma init_good base s l : Forall ordinary base -> i_base s = base ->
    tree_ok base (i_tree s) l -> (alive (i_fs s) -> sess s) ->
    let s' := snd (incr_initialize s) in
    i_base s' = base /\ tree_ok base (i_tree s') l /\
    (alive (i_fs s) -> alive (i_fs s') /\ sess s').
  Proof.
    intros Hord Hbase HT HS. cbv zeta.
    set (P := fun s' => i_base s' = base /\ tree_ok base (i_tree s') l /\
                        (alive (i_fs s) -> alive (i_fs s') /\ sess s')).
    change (P (snd (incr_initialize s))).
    unfold incr_initialize, wrap, bind at 1, get, bind at 1.
    destruct (i_do (mkdirs (i_base s)) s) as [r s1] eqn:E1.
    assert (HR : i_rel (fun _ => False) (on_way base) s s1).
    { pose proof (i_do_rel (fun _ => False) (on_way base) (mkdirs (i_base s))) as H.
      specialize (H (mkdirs_rel (i_base s) _ _ (fun l H => eq_rect_r (fun b => on_way b l) H (eq_sym Hbase))) s).
      now rewrite E1 in H. }
    destruct HR as [Es (HE & _ & HA)].
    assert (Ho : same_own base (i_tree s) (i_tree s1)).
    { eapply evolves_own; [exact HE|]. intros n Hn. split; auto. now apply not_on_way_base. }
    assert (HT1 : tree_ok base (i_tree s1) l) by (eapply tree_ok_ext; eauto).
    assert (HA1 : alive (i_fs s) -> alive (i_fs s1)) by (intros [A1 A2]; apply HA; auto).
    assert (Hb1 : i_base s1 = base) by (now rewrite Es).
    destruct r as [[]|e].
    2:{ cbn [snd]. unfold P. split; [exact Hb1|]. split; [exact HT1|]. intros Hal. split; [auto|].
        specialize (HS Hal). intros Hi. rewrite Es in Hi. destruct (HS Hi) as (B1 & B2 & B3).
        subst base. rewrite Hb1. split; [eapply base_ok_evolves; eauto|]. split.
        - destruct B2 as (ls & B2). exists ls. rewrite <- B2. apply Ho, reserved_log.
        - intros a c Hx. rewrite Es. apply (B3 a c). rewrite <- Hx. symmetry. apply (Ho _ reserved_info). }
    assert (Hok : base_ok (i_tree s1) base).
    { unfold i_do, zoom in E1. destruct (mkdirs (i_base s) (i_fs s)) as [r fs1] eqn:E2.
      injection E1 as -> <-. cbn. rewrite <- Hbase. eapply mkdirs_base_ok; [now rewrite Hbase|exact E2]. }
    unfold bind at 1, bind at 1, get. rewrite Hb1. rewrite node_child by (auto; apply reserved_log).
    (* the log file *)
    assert (G : exists r2 s2,
       (match lookup (f_tree (i_fs s1)) (base ++ [log_name]) with
        | None => i_do (touch (base ++ [log_name]))
        | Some _ => ret tt
        end) s1 = (r2, s2) /\ s2 = i_with_fs (i_fs s2) s1 /\ tree_ok base (i_tree s2) l /\
       base_ok (i_tree s2) base /\
       at_ (i_tree s2) base info_name = at_ (i_tree s1) base info_name /\
       (alive (i_fs s1) -> alive (i_fs s2)) /\
       match r2 with
       | Ok _ => exists ls, at_ (i_tree s2) base log_name = Some (File (CLog ls))
       | Raise _ => ~ alive (i_fs s1)
       end).
    { fold (at_ (i_tree s1) base log_name). unfold i_tree at 1 in HT1.
      destruct (at_ (f_tree (i_fs s1)) base log_name) as [x|] eqn:El;
        unfold at_ in El; rewrite El.
      - exists (Ok tt), s1. split; [reflexivity|]. split; [now destruct s1|]. split; [exact HT1|]. split; [exact Hok|].
        split; [reflexivity|]. split; [auto|].
        destruct HT1 as [_ [H|(ls & H)] _ _]; [unfold at_ in H; congruence|eauto].
      - unfold i_do, zoom, touch, bind at 1, get. rewrite walk_child by (auto; apply reserved_log).
        pose proof (put_cases (base ++ [log_name]) (File (CLog []) : node V O) (i_fs s1)) as HP.
        destruct (put (base ++ [log_name]) (File (CLog [])) (i_fs s1)) as [r2 fs2]. cbn [fst snd] in HP.
        exists r2, (i_with_fs fs2 s1). split; [reflexivity|]. split; [reflexivity|].
        destruct HP as [(-> & Et & Hd & F1 & F2)|(-> & Et & Hd & F1 & F2)].
        + assert (U : upd base log_name (File (CLog [])) (i_tree s1) (f_tree fs2)).
          { intros j. rewrite Et. apply lookup_dset. destruct base; discriminate. }
          unfold i_tree at 1 2 3 5. cbn [i_with_fs i_fs]. split; [|split; [|split; [|split]]].
          * apply tree_ok_log with (t := i_tree s1); auto.
            -- exists []. exact (upd_same _ _ _ _ _ U).
            -- left. exact (upd_other _ _ _ _ _ _ U info_log_neq).
            -- intros n H1 _. exact (upd_other _ _ _ _ _ _ U H1).
          * eapply upd_base_ok; [exact U| |exact Hok]. unfold at_, i_tree. rewrite El. discriminate.
          * exact (upd_other _ _ _ _ _ _ U info_log_neq).
          * intros [A1 A2]. split; auto.
          * exists []. exact (upd_same _ _ _ _ _ U).
        + unfold i_tree at 1 2 3. cbn [i_with_fs i_fs]. rewrite Et.
          split; [exact HT1|]. split; [exact Hok|]. split; [reflexivity|]. split.
          * intros [A1 A2]. destruct Hd; congruence.
          * intros [A1 A2]. destruct Hd; congruence. }
    destruct G as (r2 & s2 & E2 & Es2 & HT2 & Hok2 & Hi2 & HA2 & Hr2).
    unfold node_at in E2. rewrite E2. assert (Hb2 : i_base s2 = base) by (now rewrite Es2).
    destruct r2 as [[]|e].
    2:{ cbn [snd]. unfold P. split; [exact Hb2|]. split; [exact HT2|]. intros Hal. exfalso. auto. }
    unfold bind at 1, load_info, bind at 1, get. rewrite Hb2, node_child by (auto; apply reserved_info).
    fold (i_tree s2). fold (at_ (i_tree s2) base info_name).
    destruct (tk_info _ _ _ HT2) as [Hn|(a & c & Hn)]; rewrite Hn;
      unfold bind, set_last, set_count, set_init, modify; cbn [snd i_base i_fs]; unfold P.
    - cbn [i_base i_fs]. split; [exact Hb2|]. split; [exact HT2|]. intros Hal. split; [cbn; auto|].
      intros _. cbn [i_base i_count]. rewrite Hb2. unfold i_tree. cbn [i_fs].
      split; [exact Hok2|]. split; [exact Hr2|]. intros a c Hx. unfold i_tree in Hn. congruence.
    - cbn [i_base i_fs]. split; [exact Hb2|]. split; [exact HT2|]. intros Hal. split; [cbn; auto|].
      intros _. cbn [i_base i_count]. rewrite Hb2. unfold i_tree. cbn [i_fs].
      split; [exact Hok2|]. split; [exact Hr2|]. intros a' c' Hx. unfold i_tree in Hn.
      rewrite Hn in Hx. injection Hx as <- <-. auto.
  Qed.

  (** ** Loading *)

  Lemma sorted_last_max (ps : list (Z * pystr)) : ps <> [] ->
    let x := last (sort (fun x y => (fst x <=? fst y)%Z) ps) (0%Z, []) in
    In x ps /\ forall y, In y ps -> (fst y <= fst x)%Z.
  Proof.
    intros Hne. set (srt := sort (fun x y => (fst x <=? fst y)%Z) ps).
    assert (HS : StronglySorted (fun x y => (fst x <=? fst y)%Z = true) srt).
    { apply (sort_sorted _ (fun _ => True)).
      - split; intros; lia.
      - apply Forall_forall. auto. }
    assert (Hp : Permutation srt ps) by apply sort_perm.
    assert (Hs : srt <> []).
    { intros E. rewrite E in Hp. apply Permutation_nil in Hp. congruence. }
    destruct (exists_last Hs) as (a & x & E). cbv zeta. rewrite E, last_last. split.
    - apply (Permutation_in _ Hp). rewrite E. apply in_app_iff. right. now left.
    - intros y Hy. apply (Permutation_in _ (Permutation_sym Hp)) in Hy. rewrite E in *.
      apply in_app_iff in Hy as [Hy|[<-|[]]]; [|lia].
      destruct (StronglySorted_app_inv _ _ _ HS) as (_ & _ & H).
      specialize (H y x Hy (or_introl eq_refl)). cbv beta in H. lia.
  Qed.

  Lemma combine_map {A B} (f : A -> B) l : combine (map f l) l = map (fun x => (f x, x)) l.
  Proof. induction l as [|a l IH]; simpl; congruence. Qed.

  Lemma load_good base s l p : good base s l -> i_init s = true ->
    incr_load_state dirorder p s = (Ok l, s).
  Proof.
    intros (Hbase & HA & HT & HS) Hi. destruct (HS Hi) as (Hb & _ & _).
    unfold incr_load_state, bind at 1, get. rewrite Hi. cbn [negb].
    set (files := filter is_ckpt (dirorder (children (f_tree (i_fs s)) (i_base s)))).
    assert (Hfiles : forall n, In n files <->
      at_ (i_tree s) base n <> None /\ exists w, n = py "checkpoint_" ++ w ++ py ".pkl").
    { intros n. unfold files. rewrite filter_In, is_ckpt_spec.
      rewrite (Permutation_in' eq_refl (dirorder_perm _)), In_children. rewrite Hbase. reflexivity. }
    assert (Hnames : forall n, In n files -> exists k o, n = ckpt_name k /\
              at_ (i_tree s) base n = Some (File (CPickle o))).
    { intros n Hn. apply Hfiles in Hn as [H1 (w & ->)].
      destruct (at_ (i_tree s) base (py "checkpoint_" ++ w ++ py ".pkl")) as [x|] eqn:Ex; [|congruence].
      destruct (tk_ck _ _ _ HT w x Ex) as (k & o & a & c & -> & -> & _). exists k, o. auto. }
    destruct l as [o|].
    - destruct (tk_new _ _ _ HT) as (k & Hk & Hmax).
      assert (Hin : In (ckpt_name k) files).
      { apply Hfiles. split; [congruence|]. now exists (str_nat k). }
      set (kof := fun n => match ckpt_key n with Ok z => z | Raise _ => 0%Z end).
      assert (HK : rmap ckpt_key files = Ok (map kof files)).
      { apply rmap_Ok. intros n Hn. destruct (Hnames n Hn) as (j & o' & -> & _).
        unfold kof. now rewrite ckpt_key_name. }
      clearbody files. destruct files as [|f0 fs0]; [destruct Hin|].
      unfold wrap, bind at 1, lift. rewrite HK, combine_map.
      set (ps := map (fun x => (kof x, x)) (f0 :: fs0)).
      assert (Hne : ps <> []) by discriminate.
      destruct (sorted_last_max ps Hne) as [X1 X2].
      set (srt := sort (fun x y => (fst x <=? fst y)%Z) ps) in *.
      assert (Hlast : last (map snd srt) [] = snd (last srt (0%Z, []))).
      { clearbody srt. clear. induction srt as [|a srt IH]; [reflexivity|]. destruct srt; [reflexivity|exact IH]. }
      rewrite Hlast. unfold ps in X1. apply in_map_iff in X1 as (n & En & Hn). rewrite <- En.
      destruct (Hnames n Hn) as (j & o' & -> & Hj).
      assert (j = k).
      { apply Nat.le_antisymm.
        - apply Hmax. congruence.
        - specialize (X2 (kof (ckpt_name k), ckpt_name k)). rewrite <- En in X2. cbn [fst] in X2.
          unfold kof in X2. rewrite !ckpt_key_name in X2.
          enough (G : (Z.of_nat k <= Z.of_nat j)%Z) by lia. apply X2.
          unfold ps. apply in_map_iff. exists (ckpt_name k). split; auto. unfold kof. now rewrite ckpt_key_name. }
      subst j. cbn [snd]. rewrite Hbase in *. rewrite node_child by (auto; apply reserved_ckpt).
      unfold at_ in Hk. fold (i_tree s). rewrite Hk. reflexivity.
    - assert (E : files = []).
      { destruct files as [|f0 fs0]; auto. destruct (Hnames f0 (or_introl eq_refl)) as (k & o & -> & Hx).
        pose proof (tk_new _ _ _ HT (str_nat k)) as Hn. unfold ckpt_name in Hx. congruence. }
      rewrite E. reflexivity.
  Qed.

  (** ** Histories *)

  Lemma snd_wrap {S A} e (m : M S A) (x : S) : snd (wrap e m x) = snd (m x).
  Proof. unfold wrap. now destruct (m x) as [[a|e'] y]. Qed.

  Lemma user_shape parts q c fine op js s :
    wrap EPersist (i_do (mkdirs (removelast parts)) ;;; i_do (write q c fine) ;;; log_operation op js ;;; ret true) s =
    wrap EPersist (user_files parts q c fine ;;; log_operation op js ;;; ret true) s.
  Proof.
    unfold wrap, user_files, bind. destruct (i_do (mkdirs (removelast parts)) s) as [[a|e] s1]; [|reflexivity].
    destruct (i_do (write q c fine) s1) as [[b|e] s2]; reflexivity.
  Qed.

  Lemma save_index_shape o p s : i_init s = true ->
    snd (incr_save_index o p s) =
    snd ((user_files (full (i_base s) p) (full (i_base s) p) (CPickle o) (picklable o) ;;;
          log_operation (py "save_index") true ;;; ret true) s).
  Proof.
    intros Hi. unfold incr_save_index, bind at 1, get. rewrite Hi. cbn [negb]. cbv zeta.
    unfold write_pickle. rewrite user_shape. apply snd_wrap.
  Qed.

  Lemma save_vectors_shape v ids p s : i_init s = true -> exists c js,
    snd (incr_save_vectors wide v ids p s) =
    snd ((user_files (full (i_base s) p) (npz_path (full (i_base s) p)) c true ;;;
          log_operation (py "save_vectors") js ;;; ret true) s).
  Proof.
    intros Hi. exists (CNpz v (np_ids wide ids)), (json_ids ids).
    unfold incr_save_vectors, bind at 1, get. rewrite Hi. cbn [negb]. cbv zeta.
    rewrite user_shape. apply snd_wrap.
  Qed.

  Lemma removelast_npz parts : removelast (npz_path parts) = removelast parts.
  Proof.
    unfold npz_path. destruct parts as [|a r]; [reflexivity|].
    destruct (has_suffix (py ".npz") (last (a :: r) [])); [reflexivity|]. apply removelast_last.
  Qed.

  (** Reading changes nothing. *)
  Lemma load_index_same p s : snd (incr_load_index p s) = s.
  Proof.
    unfold incr_load_index, bind at 1, get. destruct (i_init s); [|reflexivity]. cbn [negb].
    rewrite snd_wrap. destruct (node_at _ _) as [x|]; [|reflexivity].
    unfold bind, lift. now destruct (read_pickle x).
  Qed.
  Lemma load_vectors_same p s : snd (incr_load_vectors p s) = s.
  Proof.
    unfold incr_load_vectors, bind at 1, get. destruct (i_init s); [|reflexivity]. cbn [negb].
    rewrite snd_wrap. destruct (node_at _ _) as [x|]; [|reflexivity].
    unfold bind, lift. now destruct (read_npz x).
  Qed.
  Lemma load_state_same p s : snd (incr_load_state dirorder p s) = s.
  Proof.
    unfold incr_load_state, bind at 1, get. destruct (i_init s); [|reflexivity]. cbn [negb].
    rewrite snd_wrap. destruct (filter _ _) as [|f fs]; [reflexivity|].
    unfold bind at 1, lift. destruct (rmap ckpt_key (f :: fs)) as [ks|]; [|reflexivity]. cbv zeta.
    destruct (node_at _ _) as [x|]; [|reflexivity]. unfold bind. now destruct (read_pickle x).
  Qed.

  (** Within a session, calls other than [initialize] and [close] keep the invariant and number
      the log. *)
  Definition in_session (x : icall V O) : Prop :=
    match x with IInit | IClose => False | _ => True end.

  Lemma call_good base s l x : good base s l -> i_init s = true -> in_session x -> allowed base x ->
    good base (i_exec x s) (match x with ISave o _ => Some o | _ => l end) /\
    i_init (i_exec x s) = true /\ logged s (i_exec x s).
  Proof.
    intros HG Hi Hx Ha. assert (Hbase : i_base s = base) by apply HG.
    destruct x as [o p|o p|v ids p|p|p|p| |]; simpl in Ha; try destruct Hx; simpl i_exec.
    - destruct (save_good base s l o p HG Hi Ha) as (s' & E & HG' & Hi' & HL). rewrite E. auto.
    - rewrite save_index_shape by auto. apply user_good; auto. now rewrite Hbase.
    - destruct (save_vectors_shape v ids p s Hi) as (c & js & ->).
      apply user_good; auto; [apply removelast_npz|now rewrite Hbase].
    - rewrite load_state_same. split; [auto|]. split; [auto|]. apply logged_same; reflexivity.
    - rewrite load_index_same. split; [auto|]. split; [auto|]. apply logged_same; reflexivity.
    - rewrite load_vectors_same. split; [auto|]. split; [auto|]. apply logged_same; reflexivity.
  Qed.

  (** A closed manager does nothing. *)
  Lemma call_closed s x : i_init s = false -> in_session x -> i_exec x s = s.
  Proof.
    intros Hi Hx. destruct x as [o p|o p|v ids p|p|p|p| |]; try destruct Hx; simpl;
      unfold incr_save_state, incr_save_index, incr_save_vectors, incr_load_state, incr_load_index,
        incr_load_vectors, bind, get; now rewrite Hi.
  Qed.

  Lemma close_good base s l : good base s l -> good base (snd (incr_close s)) l.
  Proof.
    intros (H1 & H2 & H3 & H4). split; [exact H1|]. split; [exact H2|]. split; [exact H3|].
    intros Hi. discriminate.
  Qed.

  Lemma do_good base s l x : Forall ordinary base -> good base s l -> allowed base x ->
    good base (i_happen s (IDo x)) (snd (i_track (s, l) (IDo x))).
  Proof.
    intros Hord HG Ha. simpl i_happen.
    assert (Hin : in_session x -> good base (i_exec x s) (snd (i_track (s, l) (IDo x)))).
    { intros Hx. destruct (i_init s) eqn:Hi.
      - destruct (call_good base s l x HG Hi Hx Ha) as (HG' & _).
        destruct x as [o p|o p|v ids p|p|p|p| |]; try exact HG'. simpl.
        destruct (save_good base s l o p HG Hi Ha) as (s' & E & HG2 & _). rewrite E. exact HG2.
      - rewrite call_closed by auto. destruct x as [o p|o p|v ids p|p|p|p| |]; try exact HG. simpl.
        replace (fst (incr_save_state o p s)) with (Raise EPersist : result bool); [exact HG|].
        unfold incr_save_state, bind, get. now rewrite Hi. }
    destruct x as [o p|o p|v ids p|p|p|p| |]; try (apply Hin; exact I).
    - destruct HG as (H1 & H2 & H3 & H4). simpl.
      destruct (init_good base s l Hord H1 H3 (fun _ => H4)) as (A & B & D).
      destruct (D H2) as [D1 D2]. split; auto.
    - apply close_good. exact HG.
  Qed.

  Lemma restart_good base s l iv : good base s l -> good base (i_happen s (IRestart iv)) l.
  Proof.
    intros (H1 & H2 & H3 & H4). split; [exact H1|]. split; [split; reflexivity|]. split; [exact H3|].
    intros Hi. discriminate.
  Qed.

  Lemma new_good base t iv : unused base t -> good base (incr_new (MkFs t None false) base iv) None.
  Proof.
    intros HU. split; [reflexivity|]. split; [split; reflexivity|]. split.
    - constructor.
      + left. apply HU, reserved_info.
      + left. apply HU, reserved_log.
      + intros w x E. assert (E' : at_ t base (py "checkpoint_" ++ w ++ py ".pkl") = None) by apply HU, reserved_ckpt.
        change (at_ t base (py "checkpoint_" ++ w ++ py ".pkl") = Some x) in E. congruence.
      + intros w. apply (HU _ (reserved_ckpt w)).
    - intros Hi. discriminate.
  Qed.

  (** ** C55: the last saved state is loaded *)

  (** Orderly events. *)
  Definition orderly base (e : iev V O) : Prop :=
    match e with IDo x => allowed base x | IRestart _ => True | ICrash _ _ _ => False end.

  Lemma history_good base es : Forall ordinary base -> forall s l,
    good base s l -> Forall (orderly base) es ->
    good base (fst (fold_left i_track es (s, l))) (snd (fold_left i_track es (s, l))).
  Proof.
    intros Hord. induction es as [|e es IH]; intros s l HG HF; [exact HG|].
    inversion HF as [|? ? He Hes]; subst. cbn [fold_left].
    rewrite (surjective_pairing (i_track (s, l) e)). apply IH; auto.
    destruct e as [x|iv|n x iv]; [|apply restart_good; exact HG|destruct He].
    exact (do_good base s l x Hord HG He).
  Qed.

  (** For every history of saves, loads, closings and orderly restarts over a data directory
      that no manager used before, an open manager loads the object of the last [save_state]
      that returned True, whatever path is given, and None when there was none; and every
      [save_state] by an open manager returns True.  Missing from the full claim: objects that
      cannot be pickled and caller's paths that hit the manager's own files, see
      [C55_last_state_refuted]. *)
  Theorem C55_last_state_partial base iv t es s l :
    Forall ordinary base -> unused base t -> Forall (orderly base) es ->
    i_history es (incr_new (MkFs t None false) base iv) = (s, l) ->
    i_init s = true ->
    (forall p, fst (incr_load_state dirorder p s) = Ok l) /\
    (forall o p, picklable o = true -> fst (incr_save_state o p s) = Ok true).
  Proof.
    intros Hord HU HF E Hi. pose proof (new_good base t iv HU) as HG.
    pose proof (history_good base es Hord _ _ HG HF) as HG'. unfold i_history in E. rewrite E in HG'.
    cbn [fst snd] in HG'. split.
    - intros p. now rewrite (load_good base s l p HG' Hi).
    - intros o p Hp. destruct (save_good base s l o p HG' Hi Hp) as (s' & E' & _). now rewrite E'.
  Qed.

  (** ** C57: numbers in the log *)

  (** In one session the entries appended to the log carry consecutive numbers, starting with
      the operation count at the beginning.  Across restarts numbers repeat, see
      [C57_unique_refuted]. *)
  Theorem C57_session_partial base iv t es xs s l ls :
    Forall ordinary base -> unused base t -> Forall (orderly base) es ->
    i_history es (incr_new (MkFs t None false) base iv) = (s, l) -> i_init s = true ->
    Forall in_session xs -> Forall (allowed base) xs ->
    lookup (f_tree (i_fs s)) (base ++ [py "operations.log"]) = Some (File (CLog ls)) ->
    let s' := fold_left (fun s x => i_exec x s) xs s in
    exists ls', lookup (f_tree (i_fs s')) (base ++ [py "operations.log"]) = Some (File (CLog (ls ++ ls'))) /\
      map l_id ls' = seq (i_count s) (length ls') /\ i_count s' = i_count s + length ls'.
  Proof.
    intros Hord HU HF E Hi. pose proof (new_good base t iv HU) as HG.
    pose proof (history_good base es Hord _ _ HG HF) as HG'. unfold i_history in E. rewrite E in HG'.
    cbn [fst snd] in HG'. clear E HG HF HU es. revert s l ls HG' Hi.
    induction xs as [|x xs IH]; intros s l ls HG Hi HS HA Hl; cbv zeta; cbn [fold_left].
    - exists []. rewrite app_nil_r. repeat split; auto.
    - inversion HS as [|? ? Hs Hss]; subst. inversion HA as [|? ? Ha Hal]; subst.
      destruct (call_good base s l x HG Hi Hs Ha) as (HG1 & Hi1 & HL1).
      assert (Hbase : i_base s = base) by apply HG. unfold logged, at_ in HL1. rewrite Hbase in HL1.
      destruct (HL1 ls Hl) as (l1 & A1 & A2 & A3).
      destruct (IH _ _ _ HG1 Hi1 Hss Hal A1) as (l2 & B1 & B2 & B3).
      exists (l1 ++ l2). rewrite app_assoc, map_app, app_length, seq_app, A2, B2, A3.
      repeat split; auto. lia.
  Qed.

  (** ** C56: crashes *)

  Lemma append_any base x ls (fs : fsys V O) : base_ok (f_tree fs) base ->
    at_ (f_tree fs) base log_name = Some (File (CLog ls)) ->
    let t' := f_tree (snd (append (base ++ [log_name]) x fs)) in
    t' = f_tree fs \/ upd base log_name (File (CLog (ls ++ [x]))) (f_tree fs) t'.
  Proof.
    intros Hb Hl. cbv zeta.
    assert (E : append (base ++ [log_name]) x fs = put (base ++ [log_name]) (File (CLog (ls ++ [x]))) fs).
    { unfold append, bind at 1, get. rewrite walk_child by (auto; apply reserved_log).
      unfold at_ in Hl. now rewrite Hl. }
    rewrite E. destruct (put_cases (base ++ [log_name]) (File (CLog (ls ++ [x])) : node V O) fs) as
      [(_ & Et & _)|(_ & Et & _)]; rewrite Et; [right|now left].
    intros j. apply lookup_dset. destruct base; discriminate.
  Qed.

  (** No automatic checkpoint falls due with the next operation. *)
  Definition not_due s : Prop :=
    (Z.of_nat (S (i_count s)) - Z.of_nat (i_last s) < i_interval s)%Z.

  Lemma log_any base op js s ls : i_base s = base -> base_ok (i_tree s) base -> not_due s ->
    at_ (i_tree s) base log_name = Some (File (CLog ls)) ->
    let t' := i_tree (snd (log_operation op js s)) in
    t' = i_tree s \/ upd base log_name (File (CLog (ls ++ [MkLine op (i_count s)]))) (i_tree s) t'.
  Proof.
    intros Hbase Hb Hd Hl. cbv zeta. unfold log_operation. rewrite snd_wrap. subst base.
    pose proof (append_any (i_base s) (MkLine op (i_count s)) ls (i_fs s) Hb Hl) as HA. cbv zeta in HA.
    set (P := fun z : incr V O => i_tree z = i_tree s \/
       upd (i_base s) log_name (File (CLog (ls ++ [MkLine op (i_count s)]))) (i_tree s) (i_tree z)).
    match goal with |- i_tree ?z = _ \/ _ => change (P z) end.
    unfold bind at 1, get. destruct js; [|now left].
    unfold bind at 1, i_do, zoom.
    destruct (append (i_base s ++ [log_name]) (MkLine op (i_count s)) (i_fs s)) as [[a|e] fs1]; [|exact HA].
    unfold bind at 1, set_count, modify, bind, get. cbn [i_interval i_count i_last].
    unfold not_due in Hd. destruct (Z.leb_spec (i_interval s) (Z.of_nat (S (i_count s)) - Z.of_nat (i_last s))); [lia|].
    exact HA.
  Qed.

  Lemma tree_ok_log_any base t u l x : tree_ok base t l ->
    (u = t \/ upd base log_name (File (CLog x)) t u) -> tree_ok base u l.
  Proof.
    intros HT [->|U]; auto. apply tree_ok_log with (t := t); auto.
    - exists x. exact (upd_same _ _ _ _ _ U).
    - left. exact (upd_other _ _ _ _ _ _ U info_log_neq).
    - intros n H1 _. exact (upd_other _ _ _ _ _ _ U H1).
  Qed.

  (** Crash points covered: anywhere in a load, in [initialize] or in [close]; anywhere in
      [save_vectors] and [save_index] unless an automatic checkpoint falls due; in [save_state]
      before its first change, or after the checkpoint and the checkpoint information are
      written (with a checkpoint interval above one). *)
  Definition safe_crash s (n : nat) (x : icall V O) : Prop :=
    match x with
    | ISave _ _ => n = 0 \/ (4 <= n /\ (1 < i_interval s)%Z)
    | ISaveIndex _ _ | ISaveVectors _ _ _ => not_due s
    | _ => True
    end.

  Lemma write_zero parts c fine (fs : fsys V O) : f_fuse fs = Some 0 -> f_dead fs = false ->
    exists e fs', write parts c fine fs = (Raise e, fs') /\ f_tree fs' = f_tree fs.
  Proof.
    intros H1 H2. unfold write, bind at 1, get. destruct (walk (f_tree fs) [] parts) as [l|];
      [|exists EOs, fs; split; reflexivity].
    assert (G : exists e fs', (put l (File CJunk) ;;; (if fine then put l (File c) else raise EType)) fs =
      (Raise e, fs') /\ f_tree fs' = f_tree fs).
    { unfold put, tick, bind at 1, bind at 1. rewrite H1, H2. eauto. }
    destruct (lookup (f_tree fs) l) as [[|]|]; auto. exists EOs, fs. split; reflexivity.
  Qed.

  Lemma user_crash base s l parts q c fine op js : i_base s = base -> tree_ok base (i_tree s) l ->
    base_ok (i_tree s) base -> (exists ls, at_ (i_tree s) base log_name = Some (File (CLog ls))) ->
    not_due s -> removelast q = removelast parts -> avoids base q ->
    tree_ok base (i_tree (snd ((user_files parts q c fine ;;; log_operation op js ;;; ret true) s))) l.
  Proof.
    intros Hbase HT Hb (ls & Hl) Hd Hq Hav. unfold bind at 1.
    destruct (user_files parts q c fine s) as [r s1] eqn:E1.
    destruct (user_files_own base parts q c fine s s1 r Hbase Hq Hav E1) as (Es & Ho & Hb1 & _).
    assert (HT1 : tree_ok base (i_tree s1) l) by (eapply tree_ok_ext; eauto).
    destruct r as [[]|e]; [|exact HT1].
    assert (E : i_tree (snd ((log_operation op js ;;; ret true) s1)) = i_tree (snd (log_operation op js s1))).
    { unfold bind. now destruct (log_operation op js s1) as [[a|e] s2]. }
    rewrite E. eapply tree_ok_log_any; [exact HT1|].
    apply (log_any base op js s1 ls); auto.
    - now rewrite Es.
    - rewrite Es. exact Hd.
    - rewrite <- Hl. apply Ho, reserved_log.
  Qed.

  Lemma crash_good base s l n x iv : Forall ordinary base -> good base s l -> allowed base x ->
    safe_crash s n x ->
    good base (i_happen s (ICrash n x iv)) (snd (i_track (s, l) (ICrash n x iv))).
  Proof.
    intros Hord (Hbase & HA & HT & HS) Ha Hs.
    set (d := i_with_fs (doomed n (i_fs s)) s).
    assert (HSd : i_init s = true -> base_ok (i_tree d) base /\
        (exists ls, at_ (i_tree d) base log_name = Some (File (CLog ls)))).
    { intros Hi. destruct (HS Hi) as (B1 & B2 & _). subst base. split; auto. }
    assert (G : tree_ok base (i_tree (i_exec x d)) (snd (i_track (s, l) (ICrash n x iv)))).
    { destruct (i_init s) eqn:Hi.
      2:{ destruct x as [o p|o p|v ids p|p|p|p| |]; try (rewrite call_closed; [simpl; rewrite ?Hi; exact HT|exact Hi|exact I]).
          - apply (init_good base d l Hord Hbase HT). intros _ Hi'. unfold d in Hi'. simpl in Hi'. congruence.
          - exact HT. }
      destruct (HSd eq_refl) as (Hb & Hl).
      destruct x as [o p|o p|v ids p|p|p|p| |]; simpl in Ha, Hs; simpl i_exec.
      - change (snd (i_track (s, l) (ICrash n (ISave o p) iv))) with
          (if i_init s && (4 <=? n) then Some o else l).
        rewrite Hi. cbn [andb]. rewrite (save_shape o p d Hi). rewrite snd_wrap.
        destruct Hs as [->|[Hn Hiv]].
        + cbn [Nat.leb]. change (tree_ok base (i_tree s) l) in HT.
          destruct (write_zero (i_base d ++ [ckpt_name (i_count d)]) (CPickle o) (picklable o)
                      (i_fs d) eq_refl eq_refl) as (e & fs' & E & Et).
          unfold bind at 1, bind at 1, i_do, zoom, write_pickle. rewrite E. cbn [snd]. unfold i_tree. cbn [i_fs].
          rewrite Et. exact HT.
        + rewrite (proj2 (Nat.leb_le 4 n)) by auto.
          destruct (checkpoint_runs base d l o Hbase HT) as (t2 & E & Hb2 & HT2 & Hi2 & Hl2); auto.
          { split; [reflexivity|exact Hn]. }
          unfold bind at 1. rewrite E. set (s2 := MkIncr _ _ _ _ _ _).
          assert (E4 : i_tree (snd ((log_operation (py "save_state") true ;;; ret true) s2)) =
                       i_tree (snd (log_operation (py "save_state") true s2))).
          { unfold bind. now destruct (log_operation (py "save_state") true s2) as [[a|e] s3]. }
          rewrite E4. destruct Hl as (ls & Hl).
          eapply tree_ok_log_any; [exact HT2|]. apply (log_any base _ true s2 ls); auto.
          * unfold not_due, s2. cbn [i_interval i_count i_last]. change (i_interval d) with (i_interval s). lia.
          * rewrite <- Hl2 in Hl. exact Hl.
      - rewrite save_index_shape by auto. apply user_crash; auto.
        change (i_base d) with (i_base s). now rewrite Hbase.
      - destruct (save_vectors_shape v ids p d Hi) as (c & js & ->). apply user_crash; auto.
        + apply removelast_npz.
        + change (i_base d) with (i_base s). now rewrite Hbase.
      - rewrite load_state_same. exact HT.
      - rewrite load_index_same. exact HT.
      - rewrite load_vectors_same. exact HT.
      - apply (init_good base d l Hord Hbase HT). intros [A1 A2]. discriminate.
      - exact HT. }
    split; [exact Hbase|]. split; [split; reflexivity|]. split; [exact G|]. intros Hi. discriminate.
  Qed.

  (** Events covered by the theorem, with the state they happen in. *)
  Fixpoint covered base (es : list (iev V O)) s : Prop :=
    match es with
    | [] => True
    | e :: es' =>
        match e with
        | IDo x => allowed base x
        | IRestart _ => True
        | ICrash n x _ => allowed base x /\ safe_crash s n x
        end /\ covered base es' (i_happen s e)
    end.

  Lemma covered_good base es : Forall ordinary base -> forall s l,
    good base s l -> covered base es s ->
    good base (fst (fold_left i_track es (s, l))) (snd (fold_left i_track es (s, l))).
  Proof.
    intros Hord. induction es as [|e es IH]; intros s l HG HF; [exact HG|].
    destruct HF as [He Hes]. cbn [fold_left].
    rewrite (surjective_pairing (i_track (s, l) e)). apply IH; auto.
    destruct e as [x|iv|n x iv].
    - exact (do_good base s l x Hord HG He).
    - apply restart_good; exact HG.
    - destruct He. now apply crash_good.
  Qed.

  (** With crashes at the points of [safe_crash] as well, an open manager loads the last saved
      object, and so does every [load_state] after a further [save_state].  Missing from the
      full claim: the other crash points, see [C56_shadowed_refuted]. *)
  Theorem C56_safe_crashes_partial base iv t es s l o p s' :
    Forall ordinary base -> unused base t ->
    covered base es (incr_new (MkFs t None false) base iv) ->
    i_history es (incr_new (MkFs t None false) base iv) = (s, l) -> i_init s = true ->
    fst (incr_load_state dirorder p s) = Ok l /\
    (picklable o = true -> incr_save_state o p s = (Ok true, s') ->
     fst (incr_load_state dirorder p s') = Ok (Some o)).
  Proof.
    intros Hord HU HF E Hi. pose proof (new_good base t iv HU) as HG.
    pose proof (covered_good base es Hord _ _ HG HF) as HG'. unfold i_history in E. rewrite E in HG'.
    cbn [fst snd] in HG'. split.
    - now rewrite (load_good base s l p HG' Hi).
    - intros Hp E1. destruct (save_good base s l o p HG' Hi Hp) as (s2 & E2 & HG2 & Hi2 & _).
      rewrite E1 in E2. injection E2 as <-. now rewrite (load_good base s' (Some o) p HG2 Hi2).
  Qed.
End Incr.

(** ** Examples and refutations *)

Definition idemo0 : incr (list Z) Z := incr_new (MkFs [] None false) [py "d"] 100.

Lemma unused_empty base : @unused (list Z) Z base [].
Proof. intros n _. destruct base; reflexivity. Qed.

Lemma avoids_x : avoids [py "d"] (full [py "d"] (py "sub/x")).
Proof.
  intros n Hn (k & Hk & E).
  assert (Hk' : k = 0 \/ k = 1 \/ k = 2 \/ k = 3) by (cbv in Hk; lia).
  destruct Hk' as [->|[->|[->| ->]]]; cbv in E; try discriminate. injection E as ->.
  destruct Hn as [H|[H|(w & H)]]; try discriminate.
Qed.

(** The caller saves an index under the name of a checkpoint: the last saved state is not what
    is loaded.  A state that cannot be pickled (13) makes every later load of an open manager
    fail after a restart although later saves are acknowledged. *)
Theorem C55_last_state_refuted :
  (exists es : list (iev (list Z) Z),
     Forall (fun e => match e with ICrash _ _ _ => False | _ => True end) es /\
     let sl := i_history no_wide demo_order es idemo0 in
     i_init (fst sl) = true /\ snd sl = Some 1%Z /\
     fst (incr_load_state demo_order (py "p") (fst sl)) = Ok (Some 2%Z)) /\
  (exists es : list (iev (list Z) Z),
     Forall (fun e => match e with IDo (ISave _ _) => True | _ => orderly [py "d"] e end) es /\
     let sl := i_history no_wide demo_order es idemo0 in
     i_init (fst sl) = true /\ snd sl = Some 1%Z /\
     fst (incr_load_state demo_order (py "p") (fst sl)) = Raise EPersist).
Proof.
  split.
  - exists [IDo IInit; IDo (ISave 1%Z (py "p")); IDo (ISaveIndex 2%Z (py "checkpoint_7.pkl"))].
    split; [repeat constructor|]. cbv zeta. split; [|split]; vm_compute; reflexivity.
  - exists [IDo IInit; IDo (ISaveIndex 2%Z (py "sub/x")); IDo (ISave 13%Z (py "p")); IRestart 100; IDo IInit;
            IDo (ISave 1%Z (py "p"))].
    split; [repeat constructor; apply avoids_x|]. cbv zeta. split; [|split]; vm_compute; reflexivity.
Qed.

(** The process dies after writing a checkpoint and before writing the checkpoint information;
    a later acknowledged save is shadowed by the checkpoint of the interrupted one. *)
Theorem C56_shadowed_refuted :
  exists (es : list (iev (list Z) Z)) (n : nat),
    Forall (orderly [py "d"]) es /\
    let s := fst (i_history no_wide demo_order (es ++ [ICrash n (ISave 1%Z (py "p")) 100; IDo IInit]) idemo0) in
    fst (incr_save_state 2%Z (py "p") s) = Ok true /\
    fst (incr_load_state demo_order (py "p") (snd (incr_save_state 2%Z (py "p") s))) = Ok (Some 1%Z).
Proof.
  exists [IDo IInit; IDo (ISaveIndex 9%Z (py "sub/x"))], 2.
  split; [repeat constructor; apply avoids_x|]. cbv zeta. split; vm_compute; reflexivity.
Qed.

(** After a restart the log gets an entry with a number it has already. *)
Theorem C57_unique_refuted :
  exists (es : list (iev (list Z) Z)) a b, Forall (orderly [py "d"]) es /\
    lookup (f_tree (i_fs (fst (i_history no_wide demo_order es idemo0)))) [py "d"; py "operations.log"] =
      Some (File (CLog [a; b])) /\
    l_id a = l_id b.
Proof.
  exists [IDo IInit; IDo (ISaveIndex 1%Z (py "sub/x")); IRestart 100; IDo IInit; IDo (ISaveIndex 2%Z (py "sub/x"))].
  exists (MkLine (py "save_index") 0), (MkLine (py "save_index") 0).
  split; [repeat constructor; apply avoids_x|]. split; vm_compute; reflexivity.
Qed.

Example C55_last_state_example :
  let es := [IDo IInit; IDo (ISave 1%Z (py "p")); IDo (ISaveIndex 9%Z (py "sub/x")); IRestart 1;
             IDo IInit; IDo (ISave 2%Z (py "q")); IDo IClose; IDo IInit] in
  Forall ordinary [py "d"] /\ @unused (list Z) Z [py "d"] [] /\ Forall (orderly [py "d"]) es /\
  i_init (fst (i_history no_wide demo_order es idemo0)) = true /\
  snd (i_history no_wide demo_order es idemo0) = Some 2%Z /\ picklable 2%Z = true.
Proof.
  cbv zeta. split; [repeat constructor; try discriminate; simpl; intuition discriminate|].
  split; [apply unused_empty|]. split; [repeat constructor; apply avoids_x|].
  split; [|split]; vm_compute; reflexivity.
Qed.

Example C57_session_example :
  let s := fst (i_history no_wide demo_order [IDo IInit; IDo (ISave 1%Z (py "p"))] idemo0) in
  i_init s = true /\ Forall (@in_session (list Z) Z) [ISave 2%Z (py "p"); ISaveIndex 3%Z (py "sub/x")] /\
  Forall (@allowed (list Z) Z _ [py "d"]) [ISave 2%Z (py "p"); ISaveIndex 3%Z (py "sub/x")] /\
  lookup (f_tree (i_fs s)) ([py "d"] ++ [py "operations.log"]) = Some (File (CLog [MkLine (py "save_state") 0])).
Proof.
  cbv zeta. split; [vm_compute; reflexivity|]. split; [repeat constructor|].
  split; [constructor; [reflexivity|constructor; [apply avoids_x|constructor]]|vm_compute; reflexivity].
Qed.

Example C56_safe_crashes_example :
  let es := [IDo IInit; IDo (ISave 1%Z (py "p")); ICrash 1 (ISaveIndex 9%Z (py "sub/x")) 100;
             IDo IInit; ICrash 4 (ISave 2%Z (py "q")) 100; IDo IInit] in
  covered no_wide demo_order [py "d"] es idemo0 /\
  i_init (fst (i_history no_wide demo_order es idemo0)) = true /\
  snd (i_history no_wide demo_order es idemo0) = Some 2%Z.
Proof.
  cbv zeta. split; [|split; vm_compute; reflexivity].
  split; [exact I|]. split; [reflexivity|].
  split; [split; [apply avoids_x|vm_compute; reflexivity]|].
  split; [exact I|]. split; [split; [reflexivity|right; split; [lia|vm_compute; reflexivity]]|]. split; exact I.
Qed.

Print Assumptions C55_last_state_partial.
Print Assumptions C55_last_state_refuted.
Print Assumptions C56_safe_crashes_partial.
Print Assumptions C56_shadowed_refuted.
Print Assumptions C57_session_partial.
Print Assumptions C57_unique_refuted.
