(** C89: index data and vectors saved with [IncrementalPersistence] are read back. *)

From Coq Require Import String List Arith ZArith NArith Lia Bool Permutation.
From Coq Require Import ZifyBool ZifyNat.
From Verif Require Import PyBase PyMore Payload BaseLemmas FsModel PersistModel FsProofs Demo PropsTensor
  PropsIncr.
Import ListNotations.

Section IncrData.
  Context {V O : Type} {PL : Payload V O}.
  Context (wide : list pid -> option (list pid)) (dirorder : list pystr -> list pystr).
  Implicit Types (s : incr V O) (o : O) (v : V) (p : pystr) (base : loc).

  (** ** Specification *)

  (** One of the manager's own files. *)
  Definition own_file (base l : loc) : Prop := exists n, reserved n /\ l = norm (base ++ [n]).

  (** The caller's file that a call, or an event, writes. *)
  Definition i_written (base : loc) (x : icall V O) : option loc :=
    match x with
    | ISaveIndex _ p => Some (norm (full base p))
    | ISaveVectors _ _ p => Some (norm (npz_path (full base p)))
    | _ => None
    end.
  Definition iev_written (base : loc) (e : iev V O) : option loc :=
    match e with IDo x | ICrash _ x _ => i_written base x | IRestart _ => None end.

  (** The state after some events. *)
  Definition i_after (es : list (iev V O)) s : incr V O := fold_left (i_happen wide dirorder) es s.

  (** ** Proofs *)

  Definition d_rel (W : loc -> Prop) s s' : Prop :=
    fs_rel W (fun _ => True) (i_fs s) (i_fs s') /\ i_base s' = i_base s.

  Lemma d_rel_refl W s : d_rel W s s.
  Proof. split; [apply fs_rel_refl|auto]. Qed.
  Lemma d_rel_trans W a b c : d_rel W a b -> d_rel W b c -> d_rel W a c.
  Proof. intros [A1 A2] [B1 B2]. split; [eauto using fs_rel_trans|congruence]. Qed.

  Lemma d_do_rel {A} W (m : M (fsys V O) A) :
    runs (fs_rel W (fun _ => True)) m -> runs (d_rel W) (i_do m).
  Proof.
    intros Hm s. unfold i_do, zoom. specialize (Hm (i_fs s)). destruct (m (i_fs s)) as [r fs].
    split; auto.
  Qed.

  (** A method that only ever sees states with a given data directory. *)
  Lemma d_get {A} (W : loc -> Prop) base (f : incr V O -> M (incr V O) A) s :
    i_base s = base -> (forall u, i_base u = base -> d_rel W u (snd (f u u))) ->
    d_rel W s (snd ((x <- get ;; f x) s)).
  Proof. intros Hb H. apply H. exact Hb. Qed.

  Lemma d_bind {A B} (W : loc -> Prop) (m : M (incr V O) A) (f : A -> M (incr V O) B) s :
    d_rel W s (snd (m s)) -> (forall a u, i_base u = i_base s -> d_rel W u (snd (f a u))) ->
    d_rel W s (snd ((x <- m ;; f x) s)).
  Proof.
    intros H1 H2. unfold bind. destruct (m s) as [[a|e] u]; [|exact H1]. cbn [snd] in H1.
    eapply d_rel_trans; [exact H1|]. apply H2. apply H1.
  Qed.

  Lemma d_wrap {A} (W : loc -> Prop) e (m : M (incr V O) A) s : d_rel W s (snd (m s)) -> d_rel W s (snd (wrap e m s)).
  Proof. unfold wrap. now destruct (m s) as [[a|e'] u]. Qed.

  Lemma save_info_d (W : loc -> Prop) s : W (norm (i_base s ++ [info_name])) -> d_rel W s (snd (save_info s)).
  Proof.
    intros H. apply d_wrap. apply (d_get W (i_base s)); auto. intros u Hu.
    apply (d_do_rel W). apply write_rel. now rewrite Hu.
  Qed.

  Lemma set_d (W : loc -> Prop) (f : incr V O -> incr V O) s :
    i_fs (f s) = i_fs s -> i_base (f s) = i_base s -> d_rel W s (snd (modify f s)).
  Proof. intros H1 H2. split; auto. simpl. rewrite H1. apply fs_rel_refl. Qed.

  Lemma log_d (W : loc -> Prop) op js s : (forall l, own_file (i_base s) l -> W l) ->
    d_rel W s (snd (log_operation op js s)).
  Proof.
    intros HW. apply d_wrap. apply (d_get W (i_base s)); auto. intros u Hu.
    apply d_bind.
    - destruct js; [|apply d_rel_refl].
      apply (d_do_rel W). apply append_rel. apply HW. exists log_name. split; [apply reserved_log|now rewrite Hu].
    - intros _ u1 Hu1. apply d_bind; [now apply set_d|]. intros _ u2 Hu2.
      apply (d_get W (i_base u2)); auto. intros u3 Hu3. destruct (_ <=? _)%Z; [|apply d_rel_refl].
      apply d_wrap. apply (d_get W (i_base u3)); auto. intros u4 Hu4. apply d_bind; [now apply set_d|].
      intros _ u5 Hu5. apply save_info_d. apply HW. exists info_name. split; [apply reserved_info|]. congruence.
  Qed.

  Lemma user_d (W : loc -> Prop) parts q c fine op js s : (forall l, own_file (i_base s) l -> W l) -> W (norm q) ->
    d_rel W s (snd ((user_files parts q c fine ;;; log_operation op js ;;; ret true) s)).
  Proof.
    intros HW Hq. apply d_bind.
    - apply d_bind; [apply (d_do_rel W), mkdirs_rel; auto|]. intros _ u Hu. apply (d_do_rel W), write_rel. auto.
    - intros _ u Hu. apply d_bind; [apply log_d; now rewrite Hu|]. intros _ w Hw. apply d_rel_refl.
  Qed.

  Lemma exec_d x s (W : loc -> Prop) : (forall l, own_file (i_base s) l -> W l) ->
    (forall l, i_written (i_base s) x = Some l -> W l) -> d_rel W s (i_exec wide dirorder x s).
  Proof.
    intros HW HX. destruct x as [o p|o p|v ids p|p|p|p| |]; simpl i_exec.
    - destruct (i_init s) eqn:Hi.
      + rewrite save_shape by auto. apply d_wrap. apply d_bind.
        * apply d_bind.
          -- apply (d_do_rel W), write_rel. apply HW. exists (ckpt_name (i_count s)). split; auto. apply reserved_ckpt.
          -- intros _ u Hu. apply d_bind; [now apply set_d|]. intros _ w Hw. apply save_info_d. apply HW.
             exists info_name. split; [apply reserved_info|]. congruence.
        * intros _ u Hu. apply d_bind; [apply log_d; now rewrite Hu|]. intros _ w Hw. apply d_rel_refl.
      + unfold incr_save_state, bind at 1, get. rewrite Hi. apply d_rel_refl.
    - destruct (i_init s) eqn:Hi.
      + rewrite save_index_shape by auto. apply user_d; auto.
      + unfold incr_save_index, bind at 1, get. rewrite Hi. apply d_rel_refl.
    - destruct (i_init s) eqn:Hi.
      + destruct (save_vectors_shape wide v ids p s Hi) as (c & js & ->). apply user_d; auto.
      + unfold incr_save_vectors, bind at 1, get. rewrite Hi. apply d_rel_refl.
    - rewrite load_state_same. apply d_rel_refl.
    - rewrite load_index_same. apply d_rel_refl.
    - rewrite load_vectors_same. apply d_rel_refl.
    - apply d_wrap. apply (d_get W (i_base s)); auto. intros u Hu. apply d_bind.
      { apply (d_do_rel W), mkdirs_rel. auto. }
      intros _ u1 Hu1. apply d_bind.
      { apply (d_get W (i_base u1)); auto. intros u2 Hu2.
        destruct (node_at (f_tree (i_fs u2)) (i_base u2 ++ [log_name])) as [x|] eqn:E; [apply d_rel_refl|].
        split; [|unfold i_do, zoom; now destruct (touch _ _) as [r fs]].
        unfold i_do, zoom. unfold touch, bind, get.
        destruct (walk (f_tree (i_fs u2)) [] (i_base u2 ++ [log_name])) as [l|] eqn:Ew; [|apply fs_rel_refl].
        unfold node_at in E. rewrite Ew in E.
        pose proof (put_file_rel l (CLog []) W (fun _ => True) (i_fs u2)) as HP.
        destruct (put l (File (CLog [])) (i_fs u2)) as [r fs]. apply HP; [congruence|].
        apply walk_norm in Ew. fold (norm (i_base u2 ++ [log_name])) in Ew. subst l. apply HW. exists log_name. split; [apply reserved_log|]. congruence. }
      intros _ u2 Hu2. apply d_bind.
      { apply (d_get W (i_base u2)); auto. intros u3 Hu3.
        assert (G : forall a b, d_rel W u3 (snd ((set_last a ;;; set_count b) u3))).
        { intros a b. apply d_bind; [now apply set_d|]. intros _ u4 Hu4. now apply set_d. }
        destruct (node_at _ _) as [[|[| | | |]]|]; apply G. }
      intros _ u3 Hu3. now apply set_d.
    - split; [apply fs_rel_refl|reflexivity].
  Qed.

  Lemma after_file es : forall s parts c, ~ own_file (i_base s) (norm parts) ->
    node_at (f_tree (i_fs s)) parts = Some (File c) ->
    Forall (fun e => iev_written (i_base s) e <> Some (norm parts)) es ->
    node_at (f_tree (i_fs (i_after es s))) parts = Some (File c) /\ i_base (i_after es s) = i_base s.
  Proof.
    induction es as [|e es IH]; intros s parts c HO E HF; [auto|].
    inversion HF as [|e' es' He Hes]; subst. simpl.
    set (W := fun l => own_file (i_base s) l \/ iev_written (i_base s) e = Some l).
    assert (HE : evolves W (fun _ => True) (f_tree (i_fs s)) (f_tree (i_fs (i_happen wide dirorder s e))) /\
                 i_base (i_happen wide dirorder s e) = i_base s).
    { destruct e as [x|iv|n x iv]; simpl in *.
      - destruct (exec_d x s W) as [[H1 _] H2]; unfold W; auto.
      - split; auto. apply evolves_refl.
      - destruct (exec_d x (i_with_fs (doomed n (i_fs s)) s) W) as [[H1 _] H2]; unfold W; auto. }
    destruct HE as [HE HB].
    destruct (IH (i_happen wide dirorder s e) parts c) as [I1 I2].
    - now rewrite HB.
    - eapply evolves_file; [exact HE|exact E|]. intros [H|H]; auto.
    - now rewrite HB.
    - split; [exact I1|]. now rewrite <- HB.
  Qed.

  Lemma user_Ok parts q c fine op js s b s1 : ~ own_file (i_base s) (norm q) ->
    (user_files parts q c fine ;;; log_operation op js ;;; ret true) s = (Ok b, s1) ->
    fine = true /\ node_at (f_tree (i_fs s1)) q = Some (File c) /\ i_base s1 = i_base s.
  Proof.
    intros HO E. apply bind_Ok_inv in E as ([] & s2 & E1 & E2).
    assert (HB : d_rel (fun _ => True) s s2).
    { replace s2 with (snd (user_files parts q c fine s)) by now rewrite E1.
      apply d_bind.
      - apply d_do_rel, mkdirs_rel. auto.
      - intros _ u Hu. apply d_do_rel, write_rel. auto. }
    apply bind_Ok_inv in E1 as (u & s3 & E3 & E4).
    unfold i_do, zoom in E4. destruct (write q c fine (i_fs s3)) as [r fs] eqn:Ew. injection E4 as -> <-.
    apply write_Ok in Ew as [Hf Hn]. split; auto.
    match type of E2 with _ ?u = _ => set (s2 := u) in * end. destruct HB as [_ HB].
    assert (HD : d_rel (own_file (i_base s)) s2 s1).
    { replace s1 with (snd ((log_operation op js ;;; ret true) s2)) by now rewrite E2.
      apply d_bind; [apply log_d; now rewrite HB|]. intros _ w Hw. apply d_rel_refl. }
    destruct HD as [[HE _] HB2]. split; [|congruence].
    eapply evolves_file; [exact HE|exact Hn|exact HO].
  Qed.

  (** After [save_index] returned, and whatever happens afterwards, crashes and restarts
      included, [load_index] returns the object for that path, as long as the path does not lead
      to the manager's own files and no later call wrote the same file. *)
  Theorem C89_index_read_back s o p s1 later :
    incr_save_index o p s = (Ok true, s1) -> ~ own_file (i_base s) (norm (full (i_base s) p)) ->
    Forall (fun e => iev_written (i_base s) e <> Some (norm (full (i_base s) p))) later ->
    i_init (i_after later s1) = true ->
    fst (incr_load_index p (i_after later s1)) = Ok (Some o).
  Proof.
    intros E HO HF Hi.
    assert (G : node_at (f_tree (i_fs s1)) (full (i_base s) p) = Some (File (CPickle o)) /\ i_base s1 = i_base s).
    { unfold incr_save_index, bind at 1, get in E. destruct (i_init s); [|discriminate]. cbn [negb] in E.
      cbv zeta in E. unfold write_pickle in E. rewrite user_shape in E. apply wrap_Ok_inv in E.
      apply user_Ok in E; [tauto|exact HO]. }
    destruct G as [G1 G2]. rewrite <- G2 in *.
    destruct (after_file later s1 _ _ HO G1 HF) as [H1 H2]. rewrite <- H2 in H1.
    unfold incr_load_index, bind at 1, get. rewrite Hi. cbn [negb]. rewrite H1. reflexivity.
  Qed.

  (** Likewise for vectors under a path ending in ".npz" and ids of one kind. *)
  Theorem C89_vectors_read_back s v ids p s1 later :
    incr_save_vectors wide v ids p s = (Ok true, s1) -> kept_ids ids ->
    npz_path (full (i_base s) p) = full (i_base s) p ->
    ~ own_file (i_base s) (norm (full (i_base s) p)) ->
    Forall (fun e => iev_written (i_base s) e <> Some (norm (full (i_base s) p))) later ->
    i_init (i_after later s1) = true ->
    fst (incr_load_vectors p (i_after later s1)) = Ok (Some (v, ids)).
  Proof.
    intros E HK Hnpz HO HF Hi.
    assert (G : node_at (f_tree (i_fs s1)) (full (i_base s) p) = Some (File (CNpz v (Some ids))) /\ i_base s1 = i_base s).
    { unfold incr_save_vectors, bind at 1, get in E. destruct (i_init s); [|discriminate]. cbn [negb] in E.
      cbv zeta in E. rewrite user_shape in E. apply wrap_Ok_inv in E. rewrite Hnpz, np_ids_kept in E by auto.
      apply user_Ok in E; [tauto|exact HO]. }
    destruct G as [G1 G2]. rewrite <- G2 in *.
    destruct (after_file later s1 _ _ HO G1 HF) as [H1 H2]. rewrite <- H2 in H1.
    unfold incr_load_vectors, bind at 1, get. rewrite Hi. cbn [negb]. rewrite H1. reflexivity.
  Qed.
End IncrData.

Example C89_index_example :
  let s := i_exec no_wide demo_order IInit idemo0 in
  fst (incr_save_index 7%Z (py "sub/x") s) = Ok true /\
  ~ own_file (i_base s) (norm (full (i_base s) (py "sub/x"))) /\
  Forall (fun e : iev (list Z) Z => iev_written (i_base s) e <> Some (norm (full (i_base s) (py "sub/x"))))
    [ICrash 1 (ISaveIndex 8%Z (py "y")) 100; IDo IInit; IDo (ISave 1%Z (py "p"))] /\
  i_init (i_after no_wide demo_order [ICrash 1 (ISaveIndex 8%Z (py "y")) 100; IDo IInit; IDo (ISave 1%Z (py "p"))]
            (snd (incr_save_index 7%Z (py "sub/x") s))) = true.
Proof.
  cbv zeta. split; [vm_compute; reflexivity|]. split.
  - intros (n & _ & E). assert (H : length (norm (full (i_base (i_exec no_wide demo_order IInit idemo0)) (py "sub/x"))) = 3)
      by (vm_compute; reflexivity). rewrite E in H.
    change (i_base (i_exec no_wide demo_order IInit idemo0)) with [py "d"] in H.
    assert (H2 : norm ([py "d"] ++ [n]) = step [py "d"] n) by reflexivity. rewrite H2 in H. unfold step in H.
    destruct (eqb n (py "..")); discriminate H.
  - split; [|vm_compute; reflexivity]. constructor; [vm_compute; discriminate|].
    constructor; [vm_compute; discriminate|]. constructor; [vm_compute; discriminate|constructor].
Qed.

Example C89_vectors_example :
  let s := i_exec no_wide demo_order IInit idemo0 in
  fst (incr_save_vectors no_wide [1%Z; 2%Z] [IInt 1; IInt 2] (py "v.npz") s) = Ok true /\
  kept_ids [IInt 1; IInt 2] /\ npz_path (full (i_base s) (py "v.npz")) = full (i_base s) (py "v.npz").
Proof.
  cbv zeta. split; [vm_compute; reflexivity|]. split; [|vm_compute; reflexivity].
  right. repeat constructor; eexists; split; try reflexivity; lia.
Qed.

Print Assumptions C89_index_read_back.
Print Assumptions C89_vectors_read_back.
