(** C116: the hybrid backend under threads.  Calls on any ids from any number of threads, with any
    interleaving of their steps, can be explained by some sequential order that respects real time;
    the statistics, which take no lock and read a cached count, cannot. *)

From Coq Require Import List Arith ZArith NArith Bool Lia Permutation.
From Verif Require Import PyBase BaseLemmas Payload StorageModel StorageSpec StorageRun StorageProofs
  StorageThms StepModel StepProofs ConcModel LockModel HybridSteps LockProofs Demo.
From Coq Require String.
Import (notations) Coq.Strings.String.
Import ListNotations.

Lemma bind_get_eq {S A} (k : S -> M S A) s : bind get k s = k s s.
Proof. reflexivity. Qed.

Section Hybrid.
  Context {V Mt : Type} `{Payload V Mt} `{Unicode}.
  Context (dirorder : list pystr -> list pystr).

  (** ** Run without interruption, the steps are the calls *)

  Lemma finish_disk_steps {X} (p : prog (disk V Mt) X) : forall s,
    finish (disk_steps p) s = on_disk (finish p) s.
  Proof.
    unfold on_disk, zoom. induction p as [r|f IH] using prog_induction; intros s; simpl.
    - now rewrite set_disk_id.
    - specialize (IH (h_disk s)). destruct (f (h_disk s)) as [p' d]. simpl in IH. rewrite IH. simpl.
      reflexivity.
  Qed.

  Lemma finish_evict s : finish evict_steps s = hybrid_evict s.
  Proof.
    unfold evict_steps, hybrid_evict. rewrite finish_bind, finish_atomic. unfold bind at 1.
    destruct (on_mem _ s) as [[l|e] s1]; [|reflexivity]. destruct l; [reflexivity|].
    rewrite finish_bind, finish_atomic. unfold bind.
    now destruct (on_mem _ s1) as [[b|e] s2].
  Qed.

  Lemma finish_cache id v m s : finish (cache_steps id v m) s = hybrid_cache id v m s.
  Proof.
    unfold cache_steps, hybrid_cache. rewrite finish_bind, finish_atomic. unfold bind.
    destruct (on_mem mem_get_stats s) as [[st|e] s1]; [|reflexivity]. unfold get, ret.
    destruct (_ <? h_limit s1)%Z; rewrite finish_bind.
    - cbn [finish]. rewrite finish_bind, finish_atomic.
      now destruct (on_mem _ s1) as [[b|e] s2].
    - rewrite finish_evict. destruct (hybrid_evict s1) as [[u|e] s2]; [|reflexivity].
      rewrite finish_bind, finish_atomic.
      now destruct (on_mem _ s2) as [[b|e] s3].
  Qed.

  Lemma zoom_ext {S T A} (g : S -> T) (p : T -> S -> S) (x y : M T A) s :
    (forall t, x t = y t) -> zoom g p x s = zoom g p y s.
  Proof. intros E. unfold zoom. now rewrite E. Qed.

  Definition pair_answer (x : result (sret V Mt) * hybrid V Mt) : sret V Mt * hybrid V Mt :=
    (answer (fst x), snd x).

  Lemma hybrid_steps_finish o s : o <> OReopen ->
    match hybrid_early o s with
    | Some r => (r, s)
    | None => pair_answer (finish (hybrid_body dirorder o) s)
    end = sc_step (hybrid_class dirorder) s o.
  Proof.
    intros Ho. unfold pair_answer. destruct o as [|id v m|id|id|id v m|limit| | |]; try congruence;
      cbn [hybrid_early sc_step hybrid_class sc_store sc_retrieve sc_delete sc_update sc_list sc_stats sc_close
           hybrid_body].
    - reflexivity.
    - destruct id as [|c id]; [reflexivity|]. unfold hybrid_store. set (i := c :: id) in *. clearbody i. clear c id.
      rewrite bind_get_eq. destruct (h_init s); [|reflexivity]. cbn [negb].
      rewrite finish_wrap. unfold wrap, bind. rewrite finish_bind, finish_disk_steps.
      replace (on_disk (finish (store_steps dirorder i v m)) s) with (on_disk (disk_store dirorder i v m) s)
        by (symmetry; apply zoom_ext; intros; apply finish_store).
      destruct (on_disk _ s) as [[b|e] s1]; [|reflexivity]. rewrite finish_bind.
      destruct b; [|reflexivity]. rewrite finish_cache. now destruct (hybrid_cache i v m s1) as [[u|e] s2].
    - unfold hybrid_retrieve. rewrite bind_get_eq. destruct (h_init s); [|reflexivity]. cbn [negb].
      rewrite finish_wrap. unfold wrap, bind. rewrite finish_bind, finish_atomic.
      destruct (on_mem _ s) as [[[x|]|e] s1]; try reflexivity.
      rewrite finish_bind, finish_atomic.
      destruct (on_disk _ s1) as [[[[v m]|]|e] s2]; try reflexivity.
      rewrite finish_bind, finish_cache. now destruct (hybrid_cache id v m s2) as [[u|e] s3].
    - unfold hybrid_delete. rewrite bind_get_eq. destruct (h_init s); [|reflexivity]. cbn [negb].
      rewrite finish_wrap. unfold wrap, bind. rewrite finish_bind, finish_atomic.
      destruct (on_mem _ s) as [[a|e] s1]; try reflexivity.
      rewrite finish_bind, finish_disk_steps.
      replace (on_disk (finish (delete_steps dirorder id)) s1) with (on_disk (disk_delete dirorder id) s1)
        by (symmetry; apply zoom_ext; intros; apply finish_delete).
      now destruct (on_disk _ s1) as [[b|e] s2].
    - unfold hybrid_update. rewrite bind_get_eq. destruct (h_init s); [|reflexivity]. cbn [negb].
      rewrite finish_wrap. unfold wrap, bind. rewrite finish_bind, finish_disk_steps.
      replace (on_disk (finish (update_steps id v m)) s) with (on_disk (disk_update id v m) s)
        by (symmetry; apply zoom_ext; intros; apply finish_update).
      destruct (on_disk _ s) as [[b|e] s1]; [|reflexivity]. rewrite finish_bind.
      destruct b; [|reflexivity]. rewrite finish_bind, finish_atomic.
      now destruct (on_mem _ s1) as [[u|e] s2].
    - unfold hybrid_list, bind, get. destruct (h_init s); [|reflexivity]. cbn [negb].
      rewrite finish_bind, finish_atomic. now destruct (on_disk _ s) as [[l|e] s1].
    - unfold hybrid_get_stats, bind, get. destruct (h_init s); [|reflexivity]. cbn [negb].
      rewrite finish_bind, finish_atomic.
      destruct (on_mem _ s) as [[a|e] s1]; [|reflexivity]. rewrite finish_bind, finish_atomic.
      destruct (on_disk _ s1) as [[[b|]|e] s2]; reflexivity.
    - reflexivity.
  Qed.

  (** ** What a method without the lock can see *)

  Definition dview (s s' : disk V Mt) : Prop :=
    dkeys (d_vectors s) = dkeys (d_vectors s') /\ d_init s = d_init s'.

  Definition view (s s' : hybrid V Mt) : Prop :=
    dview (h_disk s) (h_disk s') /\ h_init s = h_init s'.

  Definition vis (s m : hybrid V Mt) : Prop :=
    dview (h_disk s) (h_disk m) /\ (h_init s = false -> h_init m = false).

  Lemma dview_refl s : dview s s.  Proof. split; reflexivity. Qed.
  Lemma vis_refl s : vis s s.  Proof. split; [apply dview_refl|auto]. Qed.
  Lemma view_vis s s' m : view s s' -> vis s' m -> vis s m.
  Proof. intros [[? ?] ?] [[? ?] ?]. repeat split; try congruence. intros. apply H6. congruence. Qed.
  Lemma vis_view m s s' : view s s' -> vis s m -> vis s' m.
  Proof. intros [[? ?] ?] [[? ?] ?]. repeat split; try congruence. intros. apply H6. congruence. Qed.

  Lemma frame_disk {X} (p : prog (disk V Mt) X) : frame dview p -> frame view (disk_steps p).
  Proof.
    induction p as [r|f IH] using prog_induction; simpl; auto. intros Hp s. specialize (Hp (h_disk s)).
    specialize (IH (h_disk s)). destruct (f (h_disk s)) as [p' d]. simpl in IH. destruct Hp.
    split; auto. split; simpl; auto.
  Qed.

  Lemma once_disk {X} (p : prog (disk V Mt) X) : forall s, once dview p (h_disk s) -> once view (disk_steps p) s.
  Proof.
    induction p as [r|f IH] using prog_induction; simpl; auto. intros s.
    specialize (IH (h_disk s)). destruct (f (h_disk s)) as [p' d]. simpl in IH.
    intros [[Hr Ho]|Hf]; [left|right; now apply frame_disk].
    split; [split; simpl; auto|]. apply IH. exact Ho.
  Qed.

  Lemma frame_mem {A} (x : M (mem V Mt) A) : frame view (atomic (on_mem x)).
  Proof.
    apply frame_atomic. intros s. unfold on_mem, zoom. destruct (x (h_memory s)) as [r t]. simpl.
    split; [apply dview_refl|reflexivity].
  Qed.

  Lemma frame_check_open : frame dview (check_open (V := V) (Mt := Mt)).
  Proof. apply frame_atomic. intros s. unfold bind, get. destruct (negb (d_init s)); apply dview_refl. Qed.

  Lemma dkeys_dset_in {A} (k : pystr) (x : A) (d : dict pystr A) : dmem k d = true -> dkeys d = dkeys (dset k x d).
  Proof.
    unfold dkeys. induction d as [|[k' v'] d IH]; simpl; [discriminate|]. unfold dmem. simpl.
    destruct (eqb_spec k k'); simpl; [now subst|]. intros E. f_equal. apply IH. exact E.
  Qed.

  Lemma once_save k (v : V) : forall s, once dview (save_vector (Mt := Mt) k v) s.
  Proof.
    intros s. apply once_bind; [|apply once_atomic]. intros _. apply frame_atomic. intros s1. unfold modify. simpl.
    destruct (dmem _ (d_vectors s1)) eqn:E; [|apply dview_refl]. split; simpl; auto. now apply dkeys_dset_in.
  Qed.

  Lemma frame_drop_meta k : frame dview (drop_metadata (V := V) (Mt := Mt) k).
  Proof.
    apply frame_bind; [apply frame_atomic; intros; apply dview_refl|]. intros [|]; [|exact I].
    apply frame_atomic. intros s. unfold bind, get.
    destruct (dmem _ _); [|apply dview_refl]. split; reflexivity.
  Qed.

  Lemma frame_put_meta k m : frame dview (put_metadata (V := V) (Mt := Mt) k m).
  Proof.
    destruct m as [x|]; [|apply frame_drop_meta]. apply frame_bind; [apply frame_atomic; split; reflexivity|].
    intros _. destruct (picklable x); [|exact I]. apply frame_atomic. intros s. unfold modify. simpl.
    destruct (dmem _ _); [|apply dview_refl]. split; reflexivity.
  Qed.

  Lemma frame_recount : frame dview (recount (V := V) (Mt := Mt) dirorder).
  Proof. apply frame_atomic. split; reflexivity. Qed.

  Lemma once_store id v m : forall s, once dview (store_steps (V := V) (Mt := Mt) dirorder id v m) s.
  Proof.
    destruct id as [|c id]; [exact (fun _ => I)|]. unfold store_steps. apply once_after; [apply frame_check_open|].
    intros _ s. apply once_wrap, once_bind; [|apply once_save]. intros _.
    apply frame_bind; [apply frame_put_meta|]. intros _. apply frame_bind; [apply frame_recount|]. exact (fun _ => I).
  Qed.

  Lemma once_update id v m : forall s, once dview (update_steps (V := V) (Mt := Mt) id v m) s.
  Proof.
    unfold update_steps. apply once_after; [apply frame_check_open|].
    intros _ s. apply once_wrap, once_after; [apply frame_atomic; intros; apply dview_refl|].
    intros [|] s1; [|exact I]. apply once_bind; [|apply once_save]. intros _.
    apply frame_bind; [apply frame_put_meta|]. exact (fun _ => I).
  Qed.

  Lemma once_delete id : forall s, once dview (delete_steps (V := V) (Mt := Mt) dirorder id) s.
  Proof.
    unfold delete_steps. apply once_after; [apply frame_check_open|].
    intros _ s. apply once_wrap, once_after; [apply frame_atomic; intros; apply dview_refl|].
    intros b s1. apply once_bind.
    - intros _. apply frame_bind; [apply frame_drop_meta|]. intros _. destruct b; [|exact I].
      apply frame_bind; [apply frame_recount|]. exact (fun _ => I).
    - destruct b; [|exact I]. apply once_atomic.
  Qed.

  Lemma frame_cache id v m : frame view (cache_steps (V := V) (Mt := Mt) id v m).
  Proof.
    unfold cache_steps. apply frame_bind.
    - apply frame_atomic. intros s. unfold bind, on_mem, zoom, mem_get_stats, bind, get, ret.
      destruct (negb _); cbn; (split; [apply dview_refl|reflexivity]).
    - intros b. apply frame_bind.
      + destruct b; [exact I|]. unfold evict_steps. apply frame_bind; [apply frame_mem|].
        intros [|? ?]; [exact I|]. apply frame_bind; [apply frame_mem|exact (fun _ => I)].
      + intros _. apply frame_bind; [apply frame_mem|exact (fun _ => I)].
  Qed.

  Lemma body_once o : match o with OInit | OClose | OReopen => False | _ => True end ->
    forall s, once view (hybrid_body dirorder o) s.
  Proof.
    destruct o as [|id v m|id|id|id v m|limit| | |]; try tauto; intros _ s; unfold hybrid_body.
    - apply once_wrap, once_bind; [|apply once_disk, once_store]. intros b. apply frame_bind; [|exact (fun _ => I)].
      destruct b; [apply frame_cache|exact I].
    - apply once_wrap, once_frame. apply frame_bind; [apply frame_mem|]. intros [x|]; [exact I|].
      apply frame_bind.
      + apply frame_atomic. intros s1. unfold on_disk, zoom.
        assert (snd (disk_retrieve id (h_disk s1)) = h_disk s1) as E.
        { unfold disk_retrieve, bind, get. destruct (negb _); [reflexivity|]. unfold wrap.
          destruct (dget _ _) as [[?|]|]; try reflexivity. destruct (dget _ _) as [[?|]|]; reflexivity. }
        destruct (disk_retrieve id (h_disk s1)) as [r d]. simpl in *. subst. split; [apply dview_refl|reflexivity].
      + intros [[v m]|]; [|exact I]. apply frame_bind; [apply frame_cache|exact (fun _ => I)].
    - apply once_wrap, once_after; [apply frame_mem|]. intros a s1.
      apply once_bind; [exact (fun _ => I)|]. apply once_disk, once_delete.
    - apply once_wrap, once_bind; [|apply once_disk, once_update]. intros b. apply frame_bind; [|exact (fun _ => I)].
      destruct b; [|exact I]. apply frame_bind; [apply frame_mem|exact (fun _ => I)].
    - apply once_bind; [exact (fun _ => I)|apply once_atomic].
    - apply once_after; [apply frame_mem|]. intros a s1.
      apply once_bind; [exact (fun _ => I)|apply once_atomic].
  Qed.

  Lemma close_switches s : switches vis (hybrid_body dirorder OClose) s s.
  Proof.
    cbn. left. split; [split; [apply dview_refl|auto]|]. right. split; [|split; [apply vis_refl|exact I]].
    split; [apply dview_refl|reflexivity].
  Qed.

  (** ** The sequential meaning of each call *)

  Context (Hdir : forall l, Permutation (dirorder l) l).
  Context (I : pystr -> Prop) (HS : separated I).
  Let HC := @hybrid_class V Mt _ _ dirorder.
  Let O := hybrid_object (V := V) (Mt := Mt) dirorder.
  Let ans := sp_ans (V := V) (Mt := Mt) false None sanitize_id.
  Let next := sp_next (V := V) (Mt := Mt) true sanitize_id.

  (** Everything but [initialize], the statistics and a new process. *)
  Definition plain (o : sop V Mt) : Prop :=
    match o with OInit | OStats | OReopen => False | _ => True end.

  Definition Rc (a : sstate V Mt) (s : hybrid V Mt) : Prop :=
    Ahyb I a s /\ (s_open a = false -> m_init (h_memory s) = false).

  Definition good (o : sop V Mt) : Prop := op_ok o /\ op_id_in I o /\ plain o.

  Lemma Rc_flags a s : Rc a s ->
    if s_open a then h_init s = true
    else h_init s = false /\ d_init (h_disk s) = false /\ m_init (h_memory s) = false.
  Proof.
    intros [[_ A] Hm]. destruct (s_open a); [destruct A as [mr R]; apply (rh_init _ _ _ _ R)|]. intuition.
  Qed.

  (** A call that reaches a closed backend is refused and changes nothing. *)
  Lemma closed_body a s o : s_open a = false -> Rc a s -> good o -> gets_past O o -> o <> OClose ->
    finish (hybrid_body dirorder o) s = (Raise EStorage, s).
  Proof.
    intros Ho HR (_ & _ & Hp) [s0 He] Hc. pose proof (Rc_flags a s HR) as F. rewrite Ho in F.
    destruct F as (F1 & F2 & F3).
    destruct s as [[mv mm mc mu mi] [dv dm dc di] lim hi]. cbn in F1, F2, F3. subst.
    destruct o as [|[|c id] v m|id|id|id v m|limit| | |]; cbn in Hp, He; try tauto; try congruence; reflexivity.
  Qed.

  Lemma step_Rc a s o : Rc a s -> op_ok o -> op_id_in I o ->
    let (r, s') := sc_step HC s o in ans a o r /\ Rc (next a o) s'.
  Proof.
    intros HR Hok HI. pose proof HR as [HA Hm].
    pose proof (hybrid_step_refines dirorder Hdir I a s o HA Hok HI) as Hst. fold HC in Hst.
    assert (Hcl : s_open a = false -> match o with OInit | OClose | OReopen => False | _ => True end ->
                  snd (sc_step HC s o) = s).
    { intros Ho Hop. pose proof (Rc_flags a s HR) as F. rewrite Ho in F. destruct F as (F1 & F2 & F3).
      destruct s as [[mv mm mc mu mi] [dv dm dc di] lim hi]. cbn in F1, F2, F3. subst.
      destruct o as [|[|c id] v m|id|id|id v m|limit| | |]; cbn in Hop; try tauto; reflexivity. }
    destruct (sc_step HC s o) as [r s'] eqn:Es. destruct Hst as (Hans & HA' & _ & _).
    split; [exact (Hans HS)|]. split; [exact HA'|]. intros Hcl'.
    destruct (s_open a) eqn:Eo.
    - destruct a as [op recs]. cbn in Eo. subst op. unfold next in Hcl'.
      destruct o as [|[|c id] v m|id|id|id v m|limit| | |]; cbn in Hcl'; try congruence.
      + destruct (sp_find _ _); discriminate.
      + cbn in Es. injection Es as <- <-. reflexivity.
      + cbn in Es. injection Es as <- <-. reflexivity.
    - specialize (Hcl eq_refl).
      destruct o; try (cbn in Hcl; rewrite (Hcl Logic.I); exact (Hm eq_refl)).
      + discriminate.
      + cbn in Es. injection Es as <- <-. reflexivity.
      + cbn in Es. injection Es as <- <-. reflexivity.
  Qed.

  Lemma Rc_after ops : forall a s, Rc a s -> Forall op_ok ops -> Forall (op_id_in I) ops ->
    Rc (fold_left next ops a) (after HC s ops).
  Proof.
    unfold after. induction ops as [|o ops IH]; intros a s HR Ho Hi; simpl; auto.
    inversion Ho; subst. inversion Hi; subst. pose proof (step_Rc a s o HR H3 H5) as Hst.
    destruct (sc_step HC s o) as [r s']. destruct Hst as [_ HR'].
    specialize (IH _ s' HR' H4 H6). now destruct (sc_run HC s' ops).
  Qed.

  Lemma Rc_new limit : Rc (MkS false []) (hybrid_new limit [] []).
  Proof. split; [apply Ahyb_new|reflexivity]. Qed.

  (** ** The three conditions of the simulation *)

  Lemma hyb_early a m s o r : Rc a m -> good o -> vis s m -> o_early O o s = Some r ->
    ans a o r /\ Rc (next a o) m.
  Proof.
    intros HR (Hok & HI & Hp) [_ Hv] He. pose proof (Rc_flags a m HR) as F. destruct a as [op recs]. cbn in F.
    unfold ans, next. cbn in He.
    destruct o as [|[|c id] v mt|id|id|id v mt|limit| | |]; cbn in Hp, He; try tauto; try discriminate.
    { injection He as <-. split; [reflexivity|]. cbn. now destruct op. }
    all: destruct (h_init s) eqn:Eh; try discriminate; injection He as <-;
         (destruct op; [rewrite Hv in F by reflexivity; discriminate|]); split; [reflexivity|exact HR].
  Qed.

  Lemma body_steps o : good o -> gets_past O o -> exists f, hybrid_body dirorder o = Step f.
  Proof.
    intros (_ & _ & Hp) [s0 He].
    destruct o as [|[|c id] v m|id|id|id v m|limit| | |]; cbn in Hp, He; try tauto; try discriminate;
      (eexists; reflexivity).
  Qed.

  Lemma hyb_locked a m o : Rc a m -> good o -> gets_past O o -> o_locked O o = true ->
    switches vis (o_body O o) m m /\
    (exists f, o_body O o = Step f) /\
    let (r, m') := finish (o_body O o) m in ans a o (answer r) /\ Rc (next a o) m'.
  Proof.
    intros HR Hg Hgp El. change (o_body O o) with (hybrid_body dirorder o) in *.
    split; [|split; [now apply body_steps|]].
    - destruct o; try (destruct Hg as (_ & _ & []));
        try (apply once_switches with (Rel := view);
             [exact view_vis|exact vis_refl|apply vis_view|now apply body_once|apply vis_refl]).
      apply close_switches.
    - destruct (s_open a) eqn:Eo.
      + destruct Hg as (Hok & HI & Hp). pose proof (step_Rc a m o HR Hok HI) as Hst.
        pose proof (Rc_flags a m HR) as F. rewrite Eo in F.
        assert (Hno : o <> OReopen) by (destruct o; try discriminate; destruct Hp).
        pose proof (hybrid_steps_finish o m Hno) as Hf. fold HC in Hf.
        assert (hybrid_early o m = None) as E.
        { destruct Hgp as [s0 He]. cbn in He.
          destruct o as [|[|c id] v mt|id|id|id v mt|limit| | |]; cbn in He |- *; rewrite ?F; auto. }
        rewrite E in Hf. destruct (finish _ m) as [r m']. unfold pair_answer in Hf. cbn in Hf.
        rewrite <- Hf in Hst. exact Hst.
      + assert (o = OClose \/ o <> OClose) as [->|Hc] by (destruct o; auto; right; discriminate).
        * pose proof (step_Rc a m OClose HR Logic.I Logic.I) as Hst. cbn in Hst. exact Hst.
        * rewrite (closed_body a m o Eo HR Hg Hgp Hc).
          destruct a as [op recs]. cbn in Eo. subst op. unfold ans, next.
          destruct Hgp as [s0 He]. destruct Hg as (_ & _ & Hp).
          destruct o as [|[|c id] v mt|id|id|id v mt|limit| | |]; cbn in Hp, He; try tauto; try discriminate; try congruence;
            (split; [reflexivity|exact HR]).
  Qed.

  Lemma hyb_unlocked a m s o : Rc a m -> good o -> o_locked O o = false -> vis s m ->
    exists f r, o_body O o = Step f /\ f s = (Return r, s) /\ ans a o (answer r) /\ Rc (next a o) m.
  Proof.
    intros HR (Hok & HI & Hp) El [[Hk Hd] _].
    destruct o as [| | | | |limit| | |]; cbn in Hp; try tauto; try discriminate. clear El.
    assert (Hl : forall d : disk V Mt, d_init d = d_init (h_disk m) -> dkeys (d_vectors d) = dkeys (d_vectors (h_disk m)) ->
              disk_list dirorder limit d = (fst (disk_list dirorder limit (h_disk m)), d)).
    { intros d E1 E2. unfold disk_list, bind, get, glob_npy. rewrite E1, E2.
      destruct (negb _); [reflexivity|]. destruct limit; reflexivity. }
    destruct (disk_list dirorder limit (h_disk m)) as [rl d0] eqn:Em. cbn [fst] in Hl.
    eexists _, (match rl with Ok ids => Ok (RIds ids) | Raise e => Raise e end).
    split; [reflexivity|]. split.
    { cbv beta. unfold on_disk, zoom. rewrite (Hl (h_disk s) Hd Hk), set_disk_id. now destruct rl. }
    pose proof (Rc_flags a m HR) as F. destruct a as [op recs]. cbn in F. unfold ans, next.
    split; [|exact HR]. destruct op.
    - pose proof (step_Rc _ m (OList limit) HR Logic.I Logic.I) as Hst. unfold HC in Hst.
      cbn [sc_step hybrid_class sc_list] in Hst.
      unfold hybrid_list, bind, get in Hst. rewrite F in Hst. cbn [negb] in Hst. unfold on_disk, zoom in Hst.
      rewrite Em in Hst. destruct rl; exact (proj1 Hst).
    - destruct F as (F1 & F2 & F3). unfold disk_list, bind, get in Em. rewrite F2 in Em. cbn in Em.
      injection Em as <- _. reflexivity.
  Qed.

  Lemma hyb_explains s a todo sched : Rc a s -> (forall t, Forall good (todo t)) ->
    let x := lmoves O sched (lfresh s todo) in
    exists a' P', explains ans next a (fun _ => PFree) (fst x) a' P' /\
      (lc_lock (snd x) = None -> Rc a' (lc_state (snd x))).
  Proof.
    intros HR Ht x.
    destruct (lsim_explains ans next O good Rc vis vis_refl hyb_early hyb_locked hyb_unlocked sched
                (lfresh s todo) a (fun _ => PFree) s) as (a' & P' & m' & HL & HSm).
    { apply lsim_fresh; auto. apply vis_refl. }
    exists a', P'. split; [exact HL|]. fold x in HSm. intros Hk.
    destruct HSm as [Habs _ _ _ Hfree _]. rewrite (Hfree Hk). exact Habs.
  Qed.
End Hybrid.

(** C116, the steps and the methods agree: run without interruption, the test and the steps of a
    call are the call of the sequential model. *)
Theorem C116_steps_are_the_call {V Mt} `{Payload V Mt} `{Unicode} dirorder (o : sop V Mt) (s : hybrid V Mt) :
  o <> OReopen ->
  sc_step (hybrid_class dirorder) s o =
  match hybrid_early o s with
  | Some r => (r, s)
  | None => let (r, s') := finish (hybrid_body dirorder o) s in (answer r, s')
  end.
Proof.
  intros Ho. rewrite <- hybrid_steps_finish by exact Ho. destruct (hybrid_early o s); [reflexivity|].
  unfold pair_answer. now destruct (finish (hybrid_body dirorder o) s).
Qed.

(** C116: after any sequential calls, any number of threads call store, retrieve, delete, update,
    list and close in any interleaving of their steps; the history can be explained by instants at
    which the calls take effect as the sequential specification says, and when nobody holds the lock
    later calls find that specification's state.
    Missing: [initialize], [get_stats] (see the refutation below) and ids that share a file name. *)
Theorem C116_linearisable_partial {V Mt} `{Payload V Mt} `{Unicode} dirorder (I : pystr -> Prop) key limit
    (pre : list (sop V Mt)) (todo : nat -> list (sop V Mt)) (sched : list nat) :
  (forall l, Permutation (dirorder l) l) ->
  separated I -> (forall i, file_safe isalnum i (key i)) ->
  Forall op_ok pre -> Forall (op_id_in I) pre ->
  (forall t, Forall (fun o => op_ok o /\ op_id_in I o /\
                              match o with OInit | OStats | OReopen => False | _ => True end) (todo t)) ->
  let s := after (hybrid_class dirorder) (hybrid_new limit [] []) pre in
  let (h, c) := lmoves (hybrid_object dirorder) sched (lfresh s todo) in
  exists a' P',
    explains (sp_ans false None key) (sp_next true key)
             (fold_left (sp_next true key) pre (MkS false [])) (fun _ => PFree) h a' P' /\
    (lc_lock c = None -> forall ops, Forall op_ok ops -> Forall (op_id_in I) ops ->
       conforms true false None key a' ops (answers (hybrid_class dirorder) (lc_state c) ops)).
Proof.
  intros Hdir HS Hk Ho Hi Ht s.
  assert (Hkey : forall i, sanitize_id i = key i) by (intros i; symmetry; now apply file_safe_sanitize).
  assert (Hnx : forall (a : sstate V Mt) o, sp_next true sanitize_id a o = sp_next true key a o).
  { intros a o. destruct o; cbn; rewrite ?Hkey; reflexivity. }
  pose proof (Rc_after dirorder Hdir I HS pre _ _ (Rc_new I limit) Ho Hi) as HR. fold s in HR.
  destruct (hyb_explains dirorder Hdir I HS s _ todo sched HR Ht) as (a' & P' & HL & Hend).
  destruct (lmoves (hybrid_object dirorder) sched (lfresh s todo)) as [h c]. cbn [fst snd] in HL, Hend.
  assert (E : forall ops (a : sstate V Mt), fold_left (sp_next true sanitize_id) ops a = fold_left (sp_next true key) ops a).
  { induction ops as [|o ops IH]; intros a; cbn; auto. now rewrite Hnx, IH. }
  rewrite E in HL. exists a', P'. split.
  - apply (explains_ext (sp_ans false None sanitize_id) _ (sp_next true sanitize_id) _); auto.
    intros a o r. destruct o; cbn; rewrite <- ?Hkey; auto.
  - intros El ops Hok HI. destruct (Hend El) as [HA _].
    pose proof (hybrid_run_refines dirorder Hdir I ops a' (lc_state c) HA Hok HI) as Hr.
    unfold answers. destruct (sc_run (hybrid_class dirorder) (lc_state c) ops) as [rs s'].
    apply conforms_key_ext with (key := sanitize_id); [|tauto].
    rewrite Forall_forall. intros o _. destruct o; cbn; auto.
Qed.

Section Demo116.
  Open Scope Z_scope.
  Import ListNotations.
  Let ida := py "a".
  Let st : sop (list Z) Z := OStore (py "a") [1; 2] (Some 7).
  Let demo_state (todo : nat -> list (sop (list Z) Z)) :=
    lfresh (after (hybrid_class demo_order) (hybrid_new 5 [] []) [OInit]) todo.

  (** Three threads: a store overlapped by a listing that already sees the file and a close that
      waits for the lock; the retrieval after it is refused. *)
  Example C116_example :
    fst (lmoves (hybrid_object demo_order)
      ([1;1;1;1;1; 2;2;2;2;2; 3;3;3;3] ++ repeat 1 12 ++ repeat 3 8 ++ repeat 2 5)%nat
      (demo_state (fun t => match t with
                            | 1%nat => [st] | 2%nat => [OList None; ORetrieve ida] | 3%nat => [OClose] | _ => []
                            end))) =
    [Inv 1 st; Inv 2 (OList None); Res 2 (RIds [ida]); Inv 3 OClose; Res 1 (RBool true); Res 3 RUnit;
     Inv 2 (ORetrieve ida); Res 2 (RExn EStorage)].
  Proof. vm_compute. reflexivity. Qed.

  (** A listing answered [a], and then a count of nothing. *)
  Let h0 : list (event (V := list Z) (Mt := Z)) := [Res 2 (RStats (Some (0, None)))].
  Let h1 := Inv 2 OStats :: h0.
  Let h2 := Res 2 (RIds [ida]) :: h1.
  Let h3 := Inv 2 (OList None) :: h2.
  Let h4 := Inv 1 st :: h3.

  (** The store has taken effect. *)
  Let stored (a : sstate (list Z) Z) (P : nat -> phase (list Z) Z) : Prop :=
    s_recs a <> [] /\ exists r, P 1%nat = PAnswered r.
  Let maybe (a : sstate (list Z) Z) (P : nat -> phase (list Z) Z) : Prop :=
    stored a P \/ (s_recs a = [] /\ P 1%nat = PPending st).

  Let J (h : list (event (V := list Z) (Mt := Z))) a P : Prop :=
    s_open a = true /\ (forall t, t <> 1%nat -> t <> 2%nat -> P t = PFree) /\
    ((h = h4 /\ s_recs a = [] /\ P 1%nat = PFree /\ P 2%nat = PFree) \/
     (h = h3 /\ maybe a P /\ P 2%nat = PFree) \/
     (h = h2 /\ maybe a P /\ P 2%nat = PPending (OList None)) \/
     (h = h2 /\ stored a P /\ exists r, P 2%nat = PAnswered r) \/
     (h = h2 /\ maybe a P /\ exists r, P 2%nat = PAnswered r /\ r <> RIds [ida]) \/
     (h = h1 /\ stored a P /\ P 2%nat = PFree) \/
     (h = h0 /\ stored a P /\ P 2%nat = PPending OStats) \/
     (h = h0 /\ stored a P /\ exists r, P 2%nat = PAnswered r /\ r <> RStats (Some (0, None)))).

  Lemma stats_not_explained a P h a' P' :
    explains (sp_ans false None sanitize_id) (sp_next true sanitize_id) a P h a' P' -> J h a P -> False.
  Proof.
    induction 1 as [a P|a P t o h a' P' HP _ IH|a P t o r h a' P' HP Hans _ IH|a P t r h a' P' HP _ IH];
      intros (Ho & Hf & HJ).
    - unfold h4, h3, h2, h1, h0 in HJ. intuition discriminate.
    - apply IH. clear IH. split; [exact Ho|].
      destruct HJ as [(E & HJ)|[(E & HJ)|[(E & HJ)|[(E & HJ)|[(E & HJ)|[(E & HJ)|[(E & HJ)|(E & HJ)]]]]]]];
        try discriminate; injection E as -> -> ->;
        (split; [intros u Hu1 Hu2; unfold upd; destruct (Nat.eqb_spec u 1), (Nat.eqb_spec u 2); try congruence; auto|]).
      + right. left. split; [reflexivity|]. split; [right|]; tauto.
      + right. right. left. split; [reflexivity|]. split; [|reflexivity]. exact (proj1 HJ).
      + do 6 right. left. split; [reflexivity|]. split; [|reflexivity]. exact (proj1 HJ).
    - assert (t = 1%nat \/ t = 2%nat) as Ht.
      { destruct (Nat.eq_dec t 1); auto. destruct (Nat.eq_dec t 2); auto. rewrite Hf in HP by auto. discriminate. }
      destruct a as [op recs]. cbn in Ho. subst op.
      apply IH. clear IH.
      assert (Hfr : forall u, u <> 1%nat -> u <> 2%nat -> upd P t (PAnswered r) u = PFree).
      { intros u Hu1 Hu2. unfold upd. destruct (Nat.eqb_spec u t); [destruct Ht; congruence|auto]. }
      destruct Ht as [-> | ->].
      + (* the store takes effect *)
        assert (maybe (MkS true recs) P /\ P 1%nat = PPending o -> o = st /\ recs = []) as Hm.
        { intros [[(_ & r0 & E)|(E & E1)] E2]; [congruence|]. split; [congruence|exact E]. }
        assert (stored (MkS true recs) P -> False) as Hs by (intros (_ & r0 & E); congruence).
        assert (forall r0, stored (sp_next true sanitize_id (MkS true []) st) (upd P 1 (PAnswered r0))) as Hst.
        { intros r0. split; [discriminate|]. exists r0. reflexivity. }
        destruct HJ as [(E & HJ)|[(E & HJ)|[(E & HJ)|[(E & HJ)|[(E & HJ)|[(E & HJ)|[(E & HJ)|(E & HJ)]]]]]]];
          try (exfalso; tauto).
        * destruct HJ as (_ & E1 & _). congruence.
        * destruct HJ as [HJ E2]. destruct (Hm (conj HJ HP)) as [-> ->]. split; [reflexivity|]. split; [exact Hfr|].
          right. left. split; [exact E|]. split; [left; apply Hst|exact E2].
        * destruct HJ as [HJ E2]. destruct (Hm (conj HJ HP)) as [-> ->]. split; [reflexivity|]. split; [exact Hfr|].
          right. right. left. split; [exact E|]. split; [left; apply Hst|exact E2].
        * destruct HJ as [HJ (r0 & E2 & E3)]. destruct (Hm (conj HJ HP)) as [-> ->]. split; [reflexivity|]. split; [exact Hfr|].
          right. right. right. left. split; [exact E|]. split; [apply Hst|]. exists r0. exact E2.
      + (* the listing or the statistics take effect *)
        destruct HJ as [(E & HJ)|[(E & HJ)|[(E & HJ)|[(E & HJ)|[(E & HJ)|[(E & HJ)|[(E & HJ)|(E & HJ)]]]]]]].
        * exfalso. destruct HJ as (_ & _ & E1). congruence.
        * exfalso. destruct HJ as (_ & E1). congruence.
        * destruct HJ as [HJ E2]. rewrite HP in E2. injection E2 as ->. cbn in Hans.
          split; [reflexivity|]. split; [exact Hfr|].
          destruct HJ as [HJ|[HJ E1]].
          -- right. right. right. left. split; [exact E|]. split; [exact HJ|]. exists r. reflexivity.
          -- do 4 right. left. split; [exact E|]. split; [right; split; [exact HJ|exact E1]|]. exists r.
             split; [reflexivity|]. destruct Hans as (l & Hl & _ & ->). cbn in HJ. subst recs.
             apply Permutation_sym, Permutation_nil in Hl. subst l. discriminate.
        * exfalso. destruct HJ as (_ & r0 & E1). congruence.
        * exfalso. destruct HJ as (_ & r0 & E1 & _). congruence.
        * exfalso. destruct HJ as (_ & E1). congruence.
        * destruct HJ as [HJ E2]. rewrite HP in E2. injection E2 as ->. cbn in Hans.
          split; [reflexivity|]. split; [exact Hfr|]. do 7 right. split; [exact E|]. split; [exact HJ|].
          exists r. split; [reflexivity|]. subst r. destruct HJ as [HJ _]. cbn in HJ.
          destruct recs; [congruence|]. cbn [length]. intros E3. injection E3. lia.
        * exfalso. destruct HJ as (_ & r0 & E1 & _). congruence.
    - destruct HJ as [(E & HJ)|[(E & HJ)|[(E & HJ)|[(E & HJ)|[(E & HJ)|[(E & HJ)|[(E & HJ)|(E & HJ)]]]]]]];
        try discriminate; injection E as -> -> ->.
      + destruct HJ. congruence.
      + apply IH. split; [exact Ho|]. split.
        { intros u Hu1 Hu2. unfold upd. destruct (Nat.eqb_spec u 2); [congruence|auto]. }
        do 5 right. left. split; [reflexivity|]. split; [exact (proj1 HJ)|reflexivity].
      + destruct HJ as (_ & r0 & E1 & E2). congruence.
      + destruct HJ. congruence.
      + destruct HJ as (_ & r0 & E1 & E2). congruence.
  Qed.

  (** C116 fails with [get_stats] among the calls: it reports the count that the disk backend
      cached (disk.py:75), and takes no lock (hybrid.py:158-172), so that it can miss a vector that
      the listing before it, in the same thread, has shown. *)
  Theorem C116_stats_refuted :
    exists (limit : Z) (pre : list (sop (list Z) Z)) (todo : nat -> list (sop (list Z) Z)) (sched : list nat),
      separated (eq ida) /\ (forall i, file_safe isalnum i (sanitize_id i)) /\
      Forall op_ok pre /\ Forall (op_id_in (eq ida)) pre /\
      (forall t, Forall (fun o => op_ok o /\ op_id_in (eq ida) o /\
                                  match o with OInit | OReopen | OClose => False | _ => True end) (todo t)) /\
      forall a' P',
        ~ explains (sp_ans false None sanitize_id) (sp_next true sanitize_id)
            (fold_left (sp_next true sanitize_id) pre (MkS false [])) (fun _ => PFree)
            (fst (lmoves (hybrid_object demo_order) sched
                   (lfresh (after (hybrid_class demo_order) (hybrid_new limit [] []) pre) todo)))
            a' P'.
  Proof.
    exists 5, [OInit], (fun t => match t with 1%nat => [st] | 2%nat => [OList None; OStats] | _ => [] end),
      ([1;1;1;1;1] ++ repeat 2 11)%nat.
    split; [intros i j t <- <- _ _; reflexivity|].
    split; [apply sanitize_file_safe|].
    split; [repeat constructor|]. split; [repeat constructor|].
    split.
    { intros [|[|[|t]]]; repeat constructor. }
    intros a' P' HL.
    refine (stats_not_explained _ _ _ _ _ HL _).
    replace (fst _) with h4 by (vm_compute; reflexivity).
    split; [reflexivity|]. split; [reflexivity|]. left. repeat split.
  Qed.
End Demo116.

Print Assumptions C116_steps_are_the_call.
Print Assumptions C116_linearisable_partial.
Print Assumptions C116_stats_refuted.
