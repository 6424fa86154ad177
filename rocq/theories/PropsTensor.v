(** Properties C53, C54 and C58: saving and loading with [TensorPersistence]. *)

From Coq Require Import String List Arith ZArith NArith Lia Bool.
From Coq Require Import ZifyBool ZifyNat.
From Verif Require Import PyBase PyMore Payload BaseLemmas FsModel PersistModel FsProofs Demo.
Import ListNotations.

(** ** Specification *)

(** Calls on a manager. *)
Inductive top (V O : Type) : Type :=
| SaveState (o : O) (p : pystr)
| SaveIndex (o : O) (p : pystr)
| SaveVectors (v : V) (ids : list pid) (p : pystr)
| LoadState (p : pystr)
| LoadIndex (p : pystr)
| LoadVectors (p : pystr)
| Initialize
| Close.
Arguments SaveState {V O} o p.
Arguments SaveIndex {V O} o p.
Arguments SaveVectors {V O} v ids p.
Arguments LoadState {V O} p.
Arguments LoadIndex {V O} p.
Arguments LoadVectors {V O} p.
Arguments Initialize {V O}.
Arguments Close {V O}.

(** What can happen: a call, a process that dies after [n] changes of the file system made by a
    call and is started again, an orderly restart. *)
Inductive tev (V O : Type) : Type :=
| Do (x : top V O)
| Crash (n : nat) (x : top V O)
| Restart.
Arguments Do {V O} x.
Arguments Crash {V O} n x.
Arguments Restart {V O}.

(** The names of a path joined by slashes. *)
Fixpoint joined (ns : list pystr) : pystr :=
  match ns with
  | [] => []
  | [n] => n
  | n :: ns' => n ++ 47%N :: joined ns'
  end.

(** An ordinary name of a file or directory. *)
Definition ordinary (n : pystr) : Prop :=
  n <> [] /\ n <> py "." /\ n <> py ".." /\ ~ In 47%N n.

(** Ids that numpy keeps: strings that do not end in NUL, or integers of 64 bits. *)
Definition kept_ids (ids : list pid) : Prop :=
  Forall (fun x => exists s, x = IStr s /\ last s 1%N <> 0%N) ids \/
  Forall (fun x => exists z, x = IInt z /\ (- 2 ^ 63 <= z < 2 ^ 63)%Z) ids.

Section Tensor.
  Context {V O : Type} {PL : Payload V O}.
  Context (wide : list pid -> option (list pid)).
  Implicit Types (s : tensor V O) (o : O) (v : V) (p : pystr) (base : loc).

  (** A call, its value forgotten. *)
  Definition exec (x : top V O) (s : tensor V O) : tensor V O :=
    match x with
    | SaveState o p => snd (tensor_save_state o p s)
    | SaveIndex o p => snd (tensor_save_index o p s)
    | SaveVectors v ids p => snd (tensor_save_vectors wide v ids p s)
    | LoadState p => snd (tensor_load_state p s)
    | LoadIndex p => snd (tensor_load_index p s)
    | LoadVectors p => snd (tensor_load_vectors p s)
    | Initialize => snd (tensor_initialize s)
    | Close => snd (tensor_close s)
    end.

  Definition with_fs (fs : fsys V O) (s : tensor V O) : tensor V O :=
    MkTensor fs (t_base s) (t_init s) (t_saves s) (t_loads s).

  Definition happen (s : tensor V O) (e : tev V O) : tensor V O :=
    match e with
    | Do x => exec x s
    | Crash n x => tensor_new (reboot (t_fs (exec x (with_fs (doomed n (t_fs s)) s)))) (t_base s)
    | Restart => tensor_new (reboot (t_fs s)) (t_base s)
    end.

  Definition history (es : list (tev V O)) (s : tensor V O) : tensor V O := fold_left happen es s.

  (** The file a path string stands for. *)
  Definition file_of (base : loc) (p : pystr) : loc := norm (full base p).

  (** The file a call writes. *)
  Definition written (base : loc) (x : top V O) : option loc :=
    match x with
    | SaveState _ p | SaveIndex _ p => Some (file_of base p)
    | SaveVectors _ _ p => Some (norm (npz_path (full base p)))
    | _ => None
    end.

  Definition ev_written (base : loc) (e : tev V O) : option loc :=
    match e with Do x | Crash _ x => written base x | Restart => None end.

  (** ** Proofs *)

  Definition t_rel (W : loc -> Prop) (s s' : tensor V O) : Prop :=
    fs_rel W (fun _ => True) (t_fs s) (t_fs s') /\ t_base s' = t_base s.

  Lemma t_rel_refl W s : t_rel W s s.
  Proof. split; [apply fs_rel_refl|auto]. Qed.
  Lemma t_rel_trans W a b c : t_rel W a b -> t_rel W b c -> t_rel W a c.
  Proof. intros [A1 A2] [B1 B2]. split; [eauto using fs_rel_trans|congruence]. Qed.

  Lemma t_do_rel {A} W (m : M (fsys V O) A) :
    runs (fs_rel W (fun _ => True)) m -> runs (t_rel W) (t_do m).
  Proof.
    intros Hm s. unfold t_do, zoom. specialize (Hm (t_fs s)). destruct (m (t_fs s)) as [r fs].
    split; auto.
  Qed.

  Ltac trel := first [ apply runs_bind; [apply t_rel_trans| |intros]
                     | apply runs_wrap
                     | apply runs_ret; apply t_rel_refl
                     | apply runs_lift; apply t_rel_refl
                     | apply runs_raise; apply t_rel_refl
                     | apply runs_modify; intros; split; [apply fs_rel_refl|reflexivity] ].

  Lemma save_rel (W : loc -> Prop) parts q c fine :
    W (norm q) ->
    runs (t_rel W) (t_do (mkdirs (removelast parts)) ;;; t_do (write q c fine) ;;; t_saved ;;; ret true).
  Proof.
    intros HW. repeat trel.
    - apply t_do_rel, mkdirs_rel. auto.
    - apply t_do_rel, write_rel. auto.
  Qed.

  Lemma load_rel {A} (W : loc -> Prop) (rd : node V O -> result A) x :
    runs (t_rel W) (match x with
                    | None => ret None
                    | Some x => o <- lift (rd x) ;; t_loaded ;;; ret (Some o)
                    end).
  Proof. destruct x; repeat trel. Qed.

  Lemma exec_rel x s (W : loc -> Prop) :
    (forall l, written (t_base s) x = Some l -> W l) -> t_rel W s (exec x s).
  Proof.
    intros HW. destruct x as [o p|o p|v ids p|p|p|p| |]; simpl in *.
    - unfold tensor_save_state, bind at 1, get. destruct (t_init s); [|apply t_rel_refl].
      refine (runs_wrap _ EPersist _ _ s). apply save_rel. auto.
    - unfold tensor_save_index, bind at 1, get. destruct (t_init s); [|apply t_rel_refl].
      refine (runs_wrap _ EPersist _ _ s). apply save_rel. auto.
    - unfold tensor_save_vectors, bind at 1, get. destruct (t_init s); [|apply t_rel_refl].
      refine (runs_wrap _ EPersist _ _ s). apply save_rel. auto.
    - unfold tensor_load_state, bind at 1, get. destruct (t_init s); [|apply t_rel_refl].
      refine (runs_wrap _ EPersist _ _ s). apply load_rel.
    - unfold tensor_load_index, bind at 1, get. destruct (t_init s); [|apply t_rel_refl].
      refine (runs_wrap _ EPersist _ _ s). apply load_rel.
    - unfold tensor_load_vectors, bind at 1, get. destruct (t_init s); [|apply t_rel_refl].
      refine (runs_wrap _ EPersist _ _ s). apply load_rel.
    - refine (runs_wrap _ EPersist _ _ s). apply runs_get. intros u.
      refine (runs_bind _ (t_rel_trans W) _ _ _ _ u).
      + apply t_do_rel, mkdirs_rel. auto.
      + intros. trel.
    - split; [apply fs_rel_refl|auto].
  Qed.

  Lemma happen_evolves e s (W : loc -> Prop) :
    (forall l, ev_written (t_base s) e = Some l -> W l) ->
    evolves W (fun _ => True) (f_tree (t_fs s)) (f_tree (t_fs (happen s e))) /\
    t_base (happen s e) = t_base s.
  Proof.
    intros HW. destruct e as [x|n x|]; simpl in *.
    - destruct (exec_rel x s W HW) as [[HE _] HB]. auto.
    - destruct (exec_rel x (with_fs (doomed n (t_fs s)) s) W HW) as [[HE _] HB]. auto.
    - split; auto. apply evolves_refl.
  Qed.

  Lemma history_file es : forall s parts c,
    node_at (f_tree (t_fs s)) parts = Some (File c) ->
    Forall (fun e => ev_written (t_base s) e <> Some (norm parts)) es ->
    node_at (f_tree (t_fs (history es s))) parts = Some (File c) /\
    t_base (history es s) = t_base s.
  Proof.
    induction es as [|e es IH]; intros s parts c E HF; [auto|].
    inversion HF as [|e' es' He Hes]; subst. simpl.
    destruct (happen_evolves e s (fun l => ev_written (t_base s) e = Some l)) as [HE HB]; [auto|].
    destruct (IH (happen s e) parts c) as [I1 I2].
    - eapply evolves_file; eauto.
    - now rewrite HB.
    - split; [exact I1|]. now rewrite <- HB.
  Qed.

  Lemma t_do_Ok {A} (m : M (fsys V O) A) s a s' :
    t_do m s = (Ok a, s') -> m (t_fs s) = (Ok a, t_fs s') /\ t_base s' = t_base s /\ t_init s' = t_init s.
  Proof. unfold t_do, zoom. destruct (m (t_fs s)) as [r fs]. intros [= -> <-]. auto. Qed.

  Lemma save_Ok parts q c fine s b s' :
    (t_do (mkdirs (removelast parts)) ;;; t_do (write q c fine) ;;; t_saved ;;; ret true) s = (Ok b, s') ->
    fine = true /\ node_at (f_tree (t_fs s')) q = Some (File c) /\ t_base s' = t_base s /\
    t_init s' = t_init s.
  Proof.
    intros E. apply bind_Ok_inv in E as (u & s1 & E1 & E). apply t_do_Ok in E1 as (_ & B1 & I1).
    apply bind_Ok_inv in E as ([] & s2 & E2 & E). apply t_do_Ok in E2 as (E2 & B2 & I2).
    apply write_Ok in E2 as [Hf Hn]. unfold t_saved, bind, modify, ret in E. injection E as <- <-.
    simpl. repeat split; auto; congruence.
  Qed.

  Lemma load_Ok {A} (ld : pystr -> M (tensor V O) (option A)) (rd : node V O -> result A) p s x a :
    (forall p s, ld p s =
       (if negb (t_init s) then raise EPersist
        else wrap EPersist
          (match node_at (f_tree (t_fs s)) (full (t_base s) p) with
           | None => ret None
           | Some x => o <- lift (rd x) ;; t_loaded ;;; ret (Some o)
           end)) s) ->
    t_init s = true -> node_at (f_tree (t_fs s)) (full (t_base s) p) = Some x -> rd x = Ok a ->
    fst (ld p s) = Ok (Some a).
  Proof. intros Hld Hi Hn Hr. rewrite Hld, Hi, Hn. cbn. rewrite Hr. reflexivity. Qed.

  (** ** C53: saved objects are read back *)

  (** After [save_state] or [save_index] returned, and whatever happens afterwards, crashes and
      restarts included, both load functions return the saved object for that path as long as
      no later call wrote the same file.  What is missing from the full claim: two different
      path strings can stand for one file, see [C53_plain_paths] and [C53_read_back_refuted]. *)
  Theorem C53_read_back_partial s o p s1 later :
    (tensor_save_state o p s = (Ok true, s1) \/ tensor_save_index o p s = (Ok true, s1)) ->
    Forall (fun e => ev_written (t_base s) e <> Some (file_of (t_base s) p)) later ->
    t_init (history later s1) = true ->
    fst (tensor_load_state p (history later s1)) = Ok (Some o) /\
    fst (tensor_load_index p (history later s1)) = Ok (Some o).
  Proof.
    intros E HF Hi.
    assert (G : node_at (f_tree (t_fs s1)) (full (t_base s) p) = Some (File (CPickle o)) /\
                t_base s1 = t_base s).
    { destruct E as [E|E].
      - unfold tensor_save_state, bind at 1, get in E. destruct (t_init s); [|discriminate].
        apply wrap_Ok_inv in E. apply save_Ok in E. tauto.
      - unfold tensor_save_index, bind at 1, get in E. destruct (t_init s); [|discriminate].
        apply wrap_Ok_inv in E. apply save_Ok in E. tauto. }
    destruct G as [G1 G2]. rewrite <- G2 in *.
    destruct (history_file later s1 _ _ G1 HF) as [H1 H2]. rewrite <- H2 in H1.
    split; eapply (load_Ok _ read_pickle); eauto; reflexivity.
  Qed.

  (** ** C54: saved vectors are read back *)

  Lemma strip_nul_id (u : pystr) : last u 1%N <> 0%N -> strip_nul u = u.
  Proof.
    induction u as [|c u IH]; simpl; auto. intros H.
    destruct u as [|d u].
    - simpl. destruct (N.eqb_spec c 0); congruence.
    - rewrite IH by exact H. reflexivity.
  Qed.

  Lemma np_ids_kept ids : kept_ids ids -> np_ids wide ids = Some ids.
  Proof.
    intros [H|H]; unfold np_ids.
    - replace (existsb is_obj ids) with false.
      2:{ symmetry. induction H as [|x ids (u & -> & _) _ IH]; simpl; auto. }
      replace (forallb is_str ids) with true.
      2:{ symmetry. induction H as [|x ids (u & -> & _) _ IH]; simpl; auto. }
      f_equal. induction H as [|x ids (u & -> & Hu) _ IH]; simpl; auto.
      rewrite strip_nul_id by auto. congruence.
    - destruct ids as [|x0 ids0]; [reflexivity|].
      remember (x0 :: ids0) as ids eqn:Eids.
      replace (existsb is_obj ids) with false.
      2:{ symmetry. clear Eids. induction H as [|x ids (u & -> & _) _ IH]; simpl; auto. }
      replace (forallb is_str ids) with false.
      2:{ symmetry. subst ids. inversion H as [|x ids (u & -> & _) _]; subst. reflexivity. }
      replace (forallb is_int ids) with true.
      2:{ symmetry. clear Eids. induction H as [|x ids (u & -> & Hu) _ IH]; simpl; auto.
          rewrite IH. unfold int64. lia. }
      f_equal. clear Eids. induction H as [|x ids (u & -> & Hu) _ IH]; simpl; auto. congruence.
  Qed.

  (** The full claim restricted to path strings whose last name ends in ".npz" and to lists of
      ids of one kind; see [C54_suffix_refuted] and [C54_ids_refuted] for the rest. *)
  Theorem C54_read_back_partial s v ids p s1 later :
    (exists start n, full (t_base s) p = start ++ [n ++ py ".npz"]) ->
    kept_ids ids ->
    tensor_save_vectors wide v ids p s = (Ok true, s1) ->
    Forall (fun e => ev_written (t_base s) e <> Some (file_of (t_base s) p)) later ->
    t_init (history later s1) = true ->
    fst (tensor_load_vectors p (history later s1)) = Ok (Some (v, ids)).
  Proof.
    intros (start & n & En) Hids E HF Hi.
    assert (Eq : npz_path (full (t_base s) p) = full (t_base s) p).
    { rewrite En. unfold npz_path. destruct (start ++ [n ++ py ".npz"]) eqn:Ex.
      - destruct start; discriminate.
      - rewrite <- Ex, last_last. unfold has_suffix. rewrite app_length.
        replace (length n + length (py ".npz") - length (py ".npz")) with (length n) by lia.
        rewrite skipn_app, skipn_all2, Nat.sub_diag by lia. reflexivity. }
    assert (G : node_at (f_tree (t_fs s1)) (full (t_base s) p) = Some (File (CNpz v (Some ids))) /\
                t_base s1 = t_base s).
    { unfold tensor_save_vectors, bind at 1, get in E. destruct (t_init s); [|discriminate].
      apply wrap_Ok_inv in E. cbv zeta in E. rewrite Eq, np_ids_kept in E by auto.
      apply save_Ok in E. tauto. }
    destruct G as [G1 G2]. rewrite <- G2 in *.
    destruct (history_file later s1 _ _ G1 HF) as [H1 H2]. rewrite <- H2 in H1.
    eapply (load_Ok _ read_npz); eauto; reflexivity.
  Qed.

  (** ** Path strings *)

  Lemma split_none c (w : pystr) : ~ In c w -> split c w = [w].
  Proof.
    induction w as [|x w IH]; simpl; intros H; auto.
    destruct (N.eqb_spec x c); [tauto|]. rewrite IH by tauto. reflexivity.
  Qed.

  Lemma split_app c (w r : pystr) : ~ In c w -> split c (w ++ c :: r) = w :: split c r.
  Proof.
    induction w as [|x w IH]; simpl; intros H; auto.
    - now rewrite N.eqb_refl.
    - destruct (N.eqb_spec x c); [tauto|]. rewrite IH by tauto. reflexivity.
  Qed.

  Lemma split_joined ns : ns <> [] -> Forall (fun n => ~ In 47%N n) ns -> split 47 (joined ns) = ns.
  Proof.
    induction ns as [|n ns IH]; [congruence|]. intros _ H. inversion H as [|? ? Hn Hns]; subst.
    destruct ns as [|m ns].
    - apply split_none. exact Hn.
    - change (joined (n :: m :: ns)) with (n ++ 47%N :: joined (m :: ns)).
      rewrite split_app, IH by (auto; discriminate). reflexivity.
  Qed.

  Lemma names_joined ns : Forall ordinary ns -> names (joined ns) = ns.
  Proof.
    intros H. unfold names. destruct ns as [|n ns]; [reflexivity|].
    rewrite split_joined; [|discriminate|].
    - induction H as [|m ms (H1 & H2 & _) _ IH]; [reflexivity|]. simpl.
      rewrite (eqb_neq m []), (eqb_neq m (py ".")) by auto. simpl. congruence.
    - eapply Forall_impl; [|exact H]. intros m (_ & _ & _ & Hm). exact Hm.
  Qed.

  Lemma full_joined base ns : Forall ordinary ns -> full base (joined ns) = base ++ ns.
  Proof.
    intros H. pose proof (names_joined ns H) as En. unfold full.
    destruct ns as [|n ns]; [cbn [joined] in *; now rewrite En|].
    inversion H as [|? ? (H1 & H2 & _ & H3) Hns]; subst.
    assert (E : match joined (n :: ns) with 47%N :: _ => False | _ => True end).
    { destruct n as [|c n]; [congruence|]. destruct ns; simpl.
      - destruct (N.eq_dec c 47) as [->|Hc]; [simpl in H3; tauto|].
        destruct c as [|q]; auto. do 6 (destruct q as [q|q|]; auto). 
      - destruct (N.eq_dec c 47) as [->|Hc]; [simpl in H3; tauto|].
        destruct c as [|q]; auto. do 6 (destruct q as [q|q|]; auto). }
    revert E En. generalize (joined (n :: ns)). intros J E En. destruct J as [|c r]; [now rewrite En|].
    destruct c as [|q]; [now rewrite En|].
    do 6 (destruct q as [q|q|]; try (now rewrite En)); destruct E.
  Qed.

  Lemma norm_ordinary ns : Forall ordinary ns -> norm ns = ns.
  Proof.
    intros H. unfold norm. enough (G : forall cur, fold_left step ns cur = cur ++ ns) by apply G.
    induction H as [|n ns (_ & _ & H1 & _) _ IH]; intros cur; simpl; [now rewrite app_nil_r|].
    rewrite IH. unfold step. rewrite eqb_neq by auto. now rewrite <- app_assoc.
  Qed.

  Lemma npz_path_app base ns : ns <> [] ->
    npz_path (base ++ ns) = base ++ npz_path ns.
  Proof.
    intros H. destruct (exists_last H) as (a & x & ->). unfold npz_path at 1.
    destruct (base ++ a ++ [x]) eqn:E; [destruct base, a; discriminate|]. rewrite <- E. clear E.
    unfold npz_path. destruct (a ++ [x]) eqn:E; [destruct a; discriminate|]. rewrite <- E.
    rewrite (app_assoc base), !last_last, !removelast_last.
    destruct (has_suffix (py ".npz") x); now rewrite <- !app_assoc.
  Qed.

  (** Path strings made of ordinary names: different strings stand for different files, and
      [save_vectors] writes either the file itself or the one with ".npz" appended. *)
  Theorem C53_plain_paths base ns v ids :
    Forall ordinary base -> Forall ordinary ns -> ns <> [] ->
    file_of base (joined ns) = base ++ ns /\
    (forall ms, Forall ordinary ms -> file_of base (joined ms) = file_of base (joined ns) -> ms = ns) /\
    (written base (SaveVectors v ids (joined ns)) = Some (base ++ ns) \/
     written base (SaveVectors v ids (joined ns)) =
       Some (base ++ removelast ns ++ [last ns [] ++ py ".npz"])).
  Proof.
    intros Hb Hns Hne.
    assert (F : forall ms, Forall ordinary ms -> file_of base (joined ms) = base ++ ms).
    { intros ms Hms. unfold file_of. rewrite full_joined by auto. apply norm_ordinary.
      now apply Forall_app. }
    split; [auto|]. split.
    - intros ms Hms E. rewrite !F in E by auto. now apply app_inv_head in E.
    - unfold written. rewrite full_joined by auto. rewrite npz_path_app by auto.
      unfold npz_path. destruct ns as [|n0 ns0]; [congruence|]. remember (n0 :: ns0) as ns eqn:E0. clear E0.
      assert (Hne' : ns <> []) by auto. destruct (exists_last Hne') as (a & x & ->).
      rewrite last_last, removelast_last. destruct (has_suffix (py ".npz") x).
      + left. f_equal. apply norm_ordinary, Forall_app. auto.
      + right. f_equal. apply norm_ordinary, Forall_app. split; auto.
        apply Forall_app in Hns as [Ha Hx]. apply Forall_app. split; auto.
        inversion Hx as [|? ? (H1 & H2 & H3 & H4) _]; subst. constructor; [|auto].
        repeat split.
        * destruct x; [congruence|discriminate].
        * intros E. apply (f_equal (@length _)) in E. rewrite app_length in E. simpl in E. lia.
        * intros E. apply (f_equal (@length _)) in E. rewrite app_length in E. simpl in E. lia.
        * rewrite in_app_iff. intros [Hi|Hi]; [auto|]. simpl in Hi.
          repeat (destruct Hi as [Hi|Hi]; [discriminate|]). exact Hi.
  Qed.

  (** Without the suffix the saved vectors are never found: [load_vectors] answers as if
      nothing had been saved. *)
  Theorem C54_lost_without_suffix s v ids ns s1 :
    Forall ordinary (t_base s) -> Forall ordinary ns -> ns <> [] ->
    (forall m, last ns [] <> m ++ py ".npz") ->
    lookup (f_tree (t_fs s)) (t_base s ++ ns) = None ->
    tensor_save_vectors wide v ids (joined ns) s = (Ok true, s1) ->
    fst (tensor_load_vectors (joined ns) s1) = Ok None.
  Proof.
    intros Hb Hns Hne Hsuf Hl E.
    unfold tensor_save_vectors, bind at 1, get in E. destruct (t_init s) eqn:Ei; [|discriminate].
    apply wrap_Ok_inv in E. cbv zeta in E. rewrite full_joined in E by auto.
    apply bind_Ok_inv in E as (u & s2 & E1 & E). apply t_do_Ok in E1 as (E1 & B1 & I1).
    apply bind_Ok_inv in E as ([] & s3 & E2 & E). apply t_do_Ok in E2 as (E2 & B2 & I2).
    unfold t_saved, bind, modify, ret in E. injection E as <-. simpl.
    unfold tensor_load_vectors, bind at 1, get. simpl. rewrite I2, I1, Ei. simpl.
    rewrite B2, B1, full_joined by auto.
    set (parts := t_base s ++ ns) in *.
    assert (Hord : Forall ordinary parts) by (now apply Forall_app).
    assert (Hp : norm parts = parts) by (now apply norm_ordinary).
    assert (Hx : parts <> []) by (unfold parts; destruct (t_base s), ns; simpl; congruence).
    pose proof (mkdirs_rel (removelast parts) (eq (norm (npz_path parts))) (on_way (removelast parts))
                  (fun _ H => H) (t_fs s)) as [R1 _].
    rewrite E1 in R1. simpl in R1.
    pose proof (write_rel (npz_path parts) (CNpz v (np_ids wide ids)) true
                  (eq (norm (npz_path parts))) (on_way (removelast parts)) eq_refl (t_fs s2)) as [R2 _].
    rewrite E2 in R2. simpl in R2.
    destruct (evolves_trans _ _ _ _ _ R1 R2) as (_ & _ & A3).
    assert (N3 : lookup (f_tree (t_fs s3)) parts = None).
    { apply A3; auto.
      - intros En. unfold parts in En. rewrite npz_path_app in En by auto.
        assert (Hne' : ns <> []) by auto. destruct (exists_last Hne') as (a & x & ->).
        rewrite last_last in Hsuf. unfold npz_path in En.
        destruct (a ++ [x]) eqn:Eax; [destruct a; discriminate|]. rewrite <- Eax in *. clear Eax.
        rewrite last_last, removelast_last in En. unfold has_suffix in En.
        destruct (eqb_spec (skipn (length x - length (py ".npz")) x) (py ".npz")) as [Es|Es].
        + apply (Hsuf (firstn (length x - length (py ".npz")) x)). rewrite <- Es at 2.
          now rewrite firstn_skipn.
        + rewrite norm_ordinary in En.
          * apply app_inv_head, app_inv_head in En. injection En as En.
            apply (f_equal (@length _)) in En. rewrite app_length in En. simpl in En. lia.
          * pose proof (C53_plain_paths (t_base s) (a ++ [x]) v ids Hb Hns Hne) as (_ & _ & Hw).
            apply Forall_app in Hns as [Ha Hxx]. apply Forall_app. split; auto. apply Forall_app. split; auto.
            inversion Hxx as [|? ? (H1 & H2 & H3 & H4) _]; subst. constructor; [|auto].
            repeat split.
            -- destruct x; [congruence|discriminate].
            -- intros E'. apply (f_equal (@length _)) in E'. rewrite app_length in E'. simpl in E'. lia.
            -- intros E'. apply (f_equal (@length _)) in E'. rewrite app_length in E'. simpl in E'. lia.
            -- rewrite in_app_iff. intros [Hi|Hi]; [auto|]. simpl in Hi.
               repeat (destruct Hi as [Hi|Hi]; [discriminate|]). exact Hi.
      - intros (k & Hk & El). clear - El Hk Hx Hord. clearbody parts.
        destruct (exists_last Hx) as (a & x & ->). rewrite removelast_last in *.
        rewrite norm_ordinary in El.
        + apply (f_equal (@length _)) in El. rewrite firstn_length in El.
          rewrite app_length in El. simpl in El. lia.
        + apply Forall_forall. intros y Hy. apply In_firstn in Hy.
          rewrite Forall_forall in Hord. apply Hord, in_app_iff. now left. }
    unfold node_at. destruct (walk (f_tree (t_fs s3)) [] parts) as [l|] eqn:Ew; [|reflexivity].
    apply walk_norm in Ew. fold (norm parts) in Ew. rewrite Hp in Ew. subst l. now rewrite N3.
  Qed.

  (** ** C58: a crash inside a save *)

  Lemma walk_app (t : dict loc (node V O)) a b : forall cur l,
    walk t cur (a ++ b) = Some l -> exists m, walk t cur a = Some m /\ walk t m b = Some l.
  Proof.
    induction a as [|c a IH]; simpl; intros cur l E; [eauto|].
    destruct (lookup t cur) as [[|]|]; try discriminate. eauto.
  Qed.

  Lemma mkdirs_nothing parts (fs : fsys V O) l :
    walk (f_tree fs) [] parts = Some l -> mkdirs (removelast parts) fs = (Ok tt, fs).
  Proof.
    intros Ew. unfold mkdirs.
    assert (G : forall a, In a (prefixes (removelast parts)) -> mkdir1 a fs = (Ok tt, fs)).
    { intros a Ha. unfold prefixes in Ha. apply in_map_iff in Ha as (k & <- & Hk). apply in_seq in Hk.
      assert (Hne : parts <> []) by (intros ->; simpl in Hk; lia).
      destruct (exists_last Hne) as (ps & x & Ep). rewrite Ep in *. rewrite removelast_last in *.
      rewrite <- (firstn_skipn (S k) ps), <- app_assoc in Ew.
      apply walk_app in Ew as (m & W1 & W2).
      unfold mkdir1, bind, get. rewrite W1.
      destruct (skipn (S k) ps ++ [x]) as [|c r] eqn:Es; [destruct (skipn (S k) ps); discriminate|].
      simpl in W2. destruct (lookup (f_tree fs) m) as [[|]|]; try discriminate. reflexivity. }
    induction (prefixes (removelast parts)) as [|a l' IH]; [reflexivity|].
    simpl. rewrite (bind_Ok _ _ _ tt fs) by (apply G; now left). apply IH. intros b Hb. apply G. now right.
  Qed.

  (** The process dies inside [save_state] or [save_index] while replacing a saved object:
      depending on the number of changes it made, a new process finds the old object, an
      unreadable file, or the new object.  What is missing from the full claim is the second
      case, see [C58_refuted]. *)
  Theorem C58_outcomes_partial s old new p n u :
    t_init s = true -> picklable new = true ->
    node_at (f_tree (t_fs s)) (full (t_base s) p) = Some (File (CPickle old)) ->
    (u = happen s (Crash n (SaveState new p)) \/ u = happen s (Crash n (SaveIndex new p))) ->
    t_init (exec Initialize u) = true ->
    fst (tensor_load_state p (exec Initialize u)) =
      match n with 0 => Ok (Some old) | 1 => Raise EPersist | _ => Ok (Some new) end.
  Proof.
    intros Hi Hpk Hn Hu HI.
    assert (G : node_at (f_tree (t_fs u)) (full (t_base s) p) =
                Some (File (match n with 0 => CPickle old | 1 => CJunk | _ => CPickle new end)) /\
                t_base u = t_base s).
    { unfold node_at in Hn. destruct (walk (f_tree (t_fs s)) [] (full (t_base s) p)) as [l|] eqn:Ew; [|discriminate].
      set (fs := doomed n (t_fs s)).
      assert (HM : mkdirs (removelast (full (t_base s) p)) fs = (Ok tt, fs)) by (eapply mkdirs_nothing; exact Ew).
      assert (Hl : l <> []) by (intros ->; discriminate).
      assert (HW : node_at (f_tree (snd (write_pickle (full (t_base s) p) new fs))) (full (t_base s) p) =
                Some (File (match n with 0 => CPickle old | 1 => CJunk | _ => CPickle new end))).
      { pose proof (write_rel (full (t_base s) p) (CPickle new) true (fun _ => True) (fun _ => True) I fs) as [HE _].
        unfold write_pickle. rewrite Hpk. unfold node_at.
        rewrite (evolves_walk _ _ _ _ _ HE _ _ Ew). clear HE.
        unfold write, bind at 1, get. change (f_tree fs) with (f_tree (t_fs s)). rewrite Ew, Hn.
        destruct n as [|[|n]]; cbn.
        - exact Hn.
        - rewrite lookup_dset by auto. now rewrite eqb_refl.
        - rewrite lookup_dset by auto. now rewrite eqb_refl. }
      assert (HT : f_tree (t_fs u) = f_tree (snd (write_pickle (full (t_base s) p) new fs)) /\ t_base u = t_base s).
      { assert (HB : forall m : M (tensor V O) bool,
          m = (t_do (mkdirs (removelast (full (t_base s) p))) ;;;
               t_do (write_pickle (full (t_base s) p) new) ;;; t_saved ;;; ret true) ->
          f_tree (t_fs (snd (wrap EPersist m (with_fs fs s)))) =
          f_tree (snd (write_pickle (full (t_base s) p) new fs))).
        { intros m ->. clearbody fs. unfold wrap, bind, t_do, zoom, with_fs. cbn [t_fs]. rewrite HM. cbn [t_fs].
          destruct (write_pickle (full (t_base s) p) new fs) as [[]]; reflexivity. }
        destruct Hu as [->| ->]; (split; [|reflexivity]); simpl.
        - unfold tensor_save_state, bind at 1, get. simpl. rewrite Hi. simpl. now rewrite HB.
        - unfold tensor_save_index, bind at 1, get. simpl. rewrite Hi. simpl. now rewrite HB. }
      destruct HT as [HT1 HT2]. rewrite HT1. auto. }
    destruct G as [G1 G2].
    destruct (exec_rel Initialize u (fun _ => False)) as [[HE _] HB]; [discriminate|].
    pose proof (evolves_file _ _ _ _ _ _ HE G1 (fun H => H)) as G3.
    rewrite G2 in HB. rewrite <- HB in G3.
    remember (exec Initialize u) as w. clear - G3 HI.
    unfold tensor_load_state, bind at 1, get. rewrite HI, G3. destruct n as [|[|n]]; reflexivity.
  Qed.
End Tensor.

(** ** Examples and refutations *)

(** An empty file system, the directory /d. *)
Definition demo0 : tensor (list Z) Z := tensor_new (MkFs [] None false) [py "d"].
(** The same, initialised. *)
Definition demo1 : tensor (list Z) Z := exec (fun _ => None) Initialize demo0.
Definition no_wide : list pid -> option (list pid) := fun _ => None.

(** Full read-back for different path strings fails: "a" and "./a" are one file, and saving
    vectors under "a" replaces the object saved under "a.npz". *)
Theorem C53_read_back_refuted :
  exists (o o' : Z) (p q r : pystr) (v : list Z) (ids : list pid),
    p <> q /\ p <> r /\
    fst (tensor_save_state o p demo1) = Ok true /\
    fst (tensor_load_state p (exec no_wide (SaveState o' q) (exec no_wide (SaveState o p) demo1))) = Ok (Some o') /\
    o <> o' /\
    fst (tensor_load_state p (exec no_wide (SaveVectors v ids r) (exec no_wide (SaveState o p) demo1))) =
      Raise EPersist.
Proof.
  exists 1%Z, 2%Z, (py "a.npz"), (py "./a.npz"), (py "a"), [7%Z], [IInt 0].
  repeat split; try discriminate.
Qed.

Theorem C54_suffix_refuted :
  exists (v : list Z) (ids : list pid) (p : pystr),
    fst (tensor_save_vectors no_wide v ids p demo1) = Ok true /\
    fst (tensor_load_vectors p (exec no_wide (SaveVectors v ids p) demo1)) = Ok None.
Proof. exists [7%Z], [IInt 0], (py "vectors"). split; reflexivity. Qed.

(** Integers and strings together come back as strings; a NUL at the end of an id is lost. *)
Theorem C54_ids_refuted :
  exists (v : list Z) (ids ids' : list pid) (p : pystr),
    fst (tensor_save_vectors no_wide v ids p demo1) = Ok true /\
    fst (tensor_load_vectors p (exec no_wide (SaveVectors v ids p) demo1)) = Ok (Some (v, ids')) /\
    ids <> ids'.
Proof.
  exists [7%Z], [IInt 1; IStr (py "a" ++ [0%N])], [IStr (py "1"); IStr (py "a")], (py "vectors.npz").
  repeat split; try discriminate.
Qed.

(** The crash between emptying the file and filling it loses the old object. *)
Theorem C58_refuted :
  exists (s : tensor (list Z) Z) (old new : Z) (p : pystr) (n : nat),
    fst (tensor_load_state p s) = Ok (Some old) /\
    t_init (exec no_wide Initialize (happen no_wide s (Crash n (SaveState new p)))) = true /\
    fst (tensor_load_state p (exec no_wide Initialize (happen no_wide s (Crash n (SaveState new p))))) =
      Raise EPersist.
Proof.
  exists (exec no_wide (SaveState 1%Z (py "sub/state")) demo1), 1%Z, 2%Z, (py "sub/state"), 1.
  repeat split.
Qed.

Example C53_read_back_example :
  let later := [Do (SaveIndex 5%Z (py "sub/other")); Crash 1 (SaveState 6%Z (py "x/y")); Do Initialize;
                Do (SaveVectors [3%Z] [IInt 1] (py "sub/state")); Restart; Do Initialize] in
  fst (tensor_save_state 4%Z (py "sub/state") demo1) = Ok true /\
  Forall (fun e => ev_written [py "d"] e <> Some (file_of [py "d"] (py "sub/state"))) later /\
  t_init (history no_wide later (exec no_wide (SaveState 4%Z (py "sub/state")) demo1)) = true /\
  fst (tensor_load_index (py "sub/state")
         (history no_wide later (exec no_wide (SaveState 4%Z (py "sub/state")) demo1))) = Ok (Some 4%Z).
Proof. cbv zeta. repeat split; repeat constructor; discriminate. Qed.

Example C53_plain_paths_example :
  Forall ordinary [py "d"] /\ Forall ordinary [py "sub"; py "state"] /\
  joined [py "sub"; py "state"] = py "sub/state".
Proof.
  repeat split; repeat constructor; try discriminate; simpl; intuition discriminate.
Qed.

Example C54_read_back_example :
  (exists start n, full [py "d"] (py "v.npz") = start ++ [n ++ py ".npz"]) /\
  kept_ids [IStr (py "x"); IStr (py "y")] /\
  fst (tensor_save_vectors no_wide [1%Z] [IStr (py "x"); IStr (py "y")] (py "v.npz") demo1) = Ok true /\
  t_init (exec no_wide (SaveVectors [1%Z] [IStr (py "x"); IStr (py "y")] (py "v.npz")) demo1) = true.
Proof.
  repeat split.
  - exists [py "d"], (py "v"). reflexivity.
  - left. repeat constructor; eexists; (split; [reflexivity|discriminate]).
Qed.

Example C54_lost_example :
  Forall ordinary (t_base demo1) /\ (forall m, last [py "vectors"] [] <> m ++ py ".npz") /\
  lookup (f_tree (t_fs demo1)) (t_base demo1 ++ [py "vectors"]) = None /\
  fst (tensor_save_vectors no_wide [1%Z] [] (joined [py "vectors"]) demo1) = Ok true.
Proof.
  repeat split.
  - repeat constructor; try discriminate; simpl; intuition discriminate.
  - intros m E. apply (f_equal (fun x => last x 0%N)) in E.
    change (m ++ py ".npz") with (m ++ py ".np" ++ py "z") in E. rewrite app_assoc in E.
    change (py "z") with [122%N] in E. rewrite last_last in E. discriminate.
Qed.

Example C58_outcomes_example :
  let s := exec no_wide (SaveState 1%Z (py "sub/state")) demo1 in
  t_init s = true /\ picklable 2%Z = true /\
  node_at (f_tree (t_fs s)) (full (t_base s) (py "sub/state")) = Some (File (CPickle 1%Z)) /\
  t_init (exec no_wide Initialize (happen no_wide s (Crash 1 (SaveState 2%Z (py "sub/state"))))) = true.
Proof. repeat split. Qed.

Print Assumptions C53_read_back_partial.
Print Assumptions C53_plain_paths.
Print Assumptions C53_read_back_refuted.
Print Assumptions C54_read_back_partial.
Print Assumptions C54_lost_without_suffix.
Print Assumptions C54_suffix_refuted.
Print Assumptions C54_ids_refuted.
Print Assumptions C58_outcomes_partial.
Print Assumptions C58_refuted.
