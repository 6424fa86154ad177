(** Lemmas about step programs and about the step-by-step disk backend. *)

From Coq Require Import List Arith ZArith NArith Lia Bool Permutation.
From Verif Require Import PyBase BaseLemmas Payload StorageModel StorageSpec StorageRun
  StorageProofs StorageThms StepModel.
Import ListNotations.

(** Induction over step programs (the automatic principle misses the nested occurrence). *)
Lemma prog_induction {S A} (P : prog S A -> Prop) :
  (forall r, P (Return r)) ->
  (forall f, (forall s, P (fst (f s))) -> P (Step f)) ->
  forall p, P p.
Proof.
  intros Hr Hs. fix IH 1. intros [r|f]; [apply Hr|]. apply Hs. intros s.
  destruct (f s) as [p' s']. simpl. apply IH.
Qed.

(** ** Programs whose steps all stay within a relation *)

Section Frame.
  Context {S : Type} (R : S -> S -> Prop).
  Context (Rrefl : forall s, R s s) (Rtrans : forall a b c, R a b -> R b c -> R a c).

  Fixpoint frame {A} (p : prog S A) : Prop :=
    match p with
    | Return _ => True
    | Step f => forall s, match f s with (p', s') => R s s' /\ frame p' end
    end.

  Lemma frame_bind {A B} (p : prog S A) (k : A -> prog S B) :
    frame p -> (forall a, frame (k a)) -> frame (pbind p k).
  Proof.
    intros Hp Hk. induction p as [[a|e]|f IH] using prog_induction; simpl in *; auto.
    intros s. specialize (Hp s). specialize (IH s). destruct (f s) as [p' s']. simpl in IH.
    destruct Hp as [HR Hp]. split; auto.
  Qed.

  Lemma frame_wrap {A} E (p : prog S A) : frame p -> frame (pwrap E p).
  Proof.
    intros Hp. induction p as [[a|e]|f IH] using prog_induction; simpl in *; auto.
    intros s. specialize (Hp s). specialize (IH s). destruct (f s) as [p' s']. simpl in IH.
    destruct Hp as [HR Hp]. split; auto.
  Qed.

  Lemma frame_atomic {A} (m : M S A) : (forall s, R s (snd (m s))) -> frame (atomic m).
  Proof.
    intros Hm s. specialize (Hm s). destruct (m s) as [r s']. simpl in *. auto.
  Qed.

  Lemma frame_run {A} (p : prog S A) : frame p -> forall n s, R s (run_for n p s).
  Proof.
    intros Hp n. revert p Hp. induction n as [|n IH]; intros p Hp s; simpl; auto.
    destruct p as [r|f]; auto. simpl in Hp. specialize (Hp s). destruct (f s) as [p' s'].
    destruct Hp as [HR Hp]. eauto.
  Qed.

  Lemma frame_interleave {A B} sched : forall (p : prog S A) (q : prog S B) s,
    frame p -> frame q -> R s (snd (interleave sched p q s)).
  Proof.
    induction sched as [|b sched IH]; intros p q s Hp Hq; simpl; auto.
    destruct b.
    - destruct p as [r|f]; auto. simpl in Hp. specialize (Hp s). destruct (f s) as [p' s'].
      destruct Hp as [HR Hp]. eauto.
    - destruct q as [r|f]; auto. simpl in Hq. specialize (Hq s). destruct (f s) as [q' s'].
      destruct Hq as [HR Hq]. eauto.
  Qed.
End Frame.

Lemma finish_bind {S A B} (p : prog S A) (k : A -> prog S B) s :
  finish (pbind p k) s =
  match finish p s with
  | (Ok a, s') => finish (k a) s'
  | (Raise e, s') => (Raise e, s')
  end.
Proof.
  revert s. induction p as [[a|e]|f IH] using prog_induction; intros s; simpl; auto.
  specialize (IH s). destruct (f s) as [p' s']. simpl in IH. auto.
Qed.

Lemma finish_wrap {S A} E (p : prog S A) s :
  finish (pwrap E p) s = wrap E (finish p) s.
Proof.
  unfold wrap. revert s. induction p as [[a|e]|f IH] using prog_induction; intros s; simpl; auto.
  specialize (IH s). destruct (f s) as [p' s']. simpl in IH. auto.
Qed.

Lemma finish_atomic {S A} (m : M S A) s : finish (atomic m) s = m s.
Proof. simpl. now destruct (m s). Qed.

Section DictMore.
  Context {K V : Type} `{EqDec K}.

  Lemma dset_dset (k : K) (x y : V) d : dset k x (dset k y d) = dset k x d.
  Proof.
    induction d as [|[k' v'] d IH]; simpl.
    - now rewrite eqb_refl.
    - destruct (eqb_spec k k'); simpl.
      + now rewrite eqb_refl.
      + rewrite (eqb_neq k k') by auto. now rewrite IH.
  Qed.

  Lemma dmem_dset_same (k : K) (x : V) d : dmem k (dset k x d) = true.
  Proof. unfold dmem. now rewrite dget_dset_same. Qed.

  Lemma ddel_absent (k : K) (d : dict K V) : dmem k d = false -> ddel k d = d.
  Proof. intros E. apply ddel_notin. apply dget_None. now apply dmem_false. Qed.
End DictMore.

(** ** The steps, uninterrupted, are the calls *)

Section DiskFinish.
  Context {V Mt : Type} `{Payload V Mt} `{Unicode}.
  Context (dirorder : list pystr -> list pystr).

  Lemma finish_save_vector k (v : V) (s : disk V Mt) :
    finish (save_vector k v) s = disk_write_vec k v s.
  Proof.
    unfold save_vector. rewrite finish_bind, finish_atomic. unfold modify.
    rewrite finish_atomic. unfold modify, disk_write_vec, set_vfiles. simpl.
    rewrite dmem_dset_same, dset_dset. reflexivity.
  Qed.

  Lemma finish_drop k (s : disk V Mt) :
    finish (drop_metadata k) s =
    (Ok tt, MkDisk (d_vectors s) (ddel (pkl_name k) (d_metadata s)) (d_count s) (d_init s)).
  Proof.
    unfold drop_metadata, has_metadata. rewrite finish_bind, finish_atomic.
    unfold bind, get, ret. destruct (dmem (pkl_name k) (d_metadata s)) eqn:E.
    - unfold unlink_metadata. rewrite finish_atomic. unfold bind, get. rewrite E. reflexivity.
    - simpl. rewrite ddel_absent by auto. now destruct s.
  Qed.

  Lemma finish_put_metadata k (m : option Mt) (s : disk V Mt) :
    finish (put_metadata k m) s = disk_write_meta k m s.
  Proof.
    destruct m as [m|]; simpl put_metadata.
    - unfold save_metadata. rewrite finish_bind, finish_atomic. unfold modify.
      unfold disk_write_meta, bind, modify. destruct (picklable m); [|reflexivity].
      rewrite finish_atomic. unfold set_mfiles. simpl. rewrite dmem_dset_same. reflexivity.
    - rewrite finish_drop. reflexivity.
  Qed.

  Lemma finish_store id (v : V) (m : option Mt) s :
    finish (store_steps dirorder id v m) s = disk_store dirorder id v m s.
  Proof.
    destruct id as [|c id]; [reflexivity|]. unfold store_steps, check_open.
    rewrite finish_bind, finish_atomic. unfold disk_store, bind at 1 2, get.
    destruct (negb (d_init s)); [reflexivity|]. unfold ret at 1. rewrite finish_wrap.
    unfold wrap, bind. rewrite finish_bind, finish_save_vector. unfold disk_write_vec, modify.
    rewrite finish_bind, finish_put_metadata.
    destruct (disk_write_meta _ _ _) as [[u|e] s']; [|reflexivity].
    rewrite finish_bind. unfold recount. rewrite finish_atomic. unfold disk_recount, modify.
    reflexivity.
  Qed.

  Lemma finish_update id (v : V) (m : option Mt) s :
    finish (update_steps id v m) s = disk_update id v m s.
  Proof.
    unfold update_steps, check_open.
    rewrite finish_bind, finish_atomic. unfold disk_update, bind at 1 2, get.
    destruct (negb (d_init s)); [reflexivity|]. unfold ret at 1. rewrite finish_wrap.
    unfold wrap, bind. rewrite finish_bind. unfold has_vector. rewrite finish_atomic.
    unfold bind, get, ret.
    destruct (dmem _ (d_vectors s)) eqn:E; [|reflexivity].
    rewrite finish_bind, finish_save_vector. unfold disk_write_vec, modify.
    rewrite finish_bind, finish_put_metadata. cbv beta iota delta [negb].
    destruct (disk_write_meta _ _ _) as [[u|e] s']; reflexivity.
  Qed.

  Lemma finish_delete id (s : disk V Mt) :
    finish (delete_steps dirorder id) s = disk_delete dirorder id s.
  Proof.
    unfold delete_steps, check_open.
    rewrite finish_bind, finish_atomic. unfold disk_delete, bind at 1 2, get.
    destruct (negb (d_init s)); [reflexivity|]. unfold ret at 1. rewrite finish_wrap.
    unfold wrap, bind. rewrite finish_bind. unfold has_vector. rewrite finish_atomic.
    unfold bind, get, ret, modify. rewrite finish_bind.
    destruct (dmem _ (d_vectors s)) eqn:E.
    - unfold unlink_vector. rewrite finish_atomic. unfold bind, get. rewrite E.
      unfold modify, set_vfiles. rewrite finish_bind, finish_drop. simpl.
      unfold disk_recount, modify. reflexivity.
    - change (finish (Return (Ok tt)) s) with (@Ok unit tt, s). cbv iota beta.
      rewrite finish_bind, finish_drop. simpl.
      rewrite (ddel_absent _ (d_vectors s)) by auto. reflexivity.
  Qed.
End DiskFinish.

(** ** Other names are not touched *)

Section Others.
  Context {V Mt : Type} `{Payload V Mt} `{Unicode}.
  Context (dirorder : list pystr -> list pystr).

  (** The files of every other name, and the flag, are as before. *)
  Definition others (k : pystr) (s s' : disk V Mt) : Prop :=
    d_init s' = d_init s /\
    forall k', k' <> k ->
      dget (npy_name k') (d_vectors s') = dget (npy_name k') (d_vectors s) /\
      dget (pkl_name k') (d_metadata s') = dget (pkl_name k') (d_metadata s).

  Lemma others_refl k s : others k s s.
  Proof. split; auto. Qed.

  Lemma others_trans k a b c : others k a b -> others k b c -> others k a c.
  Proof.
    intros [I1 H1] [I2 H2]. split; [congruence|]. intros k' Hk.
    destruct (H1 k' Hk), (H2 k' Hk). split; congruence.
  Qed.

  Lemma npy_other k k' : k' <> k -> npy_name k' <> npy_name k.
  Proof. intros Hk E. apply Hk. now apply app_inj_tail_py in E. Qed.

  Lemma pkl_other k k' : k' <> k -> pkl_name k' <> pkl_name k.
  Proof. intros Hk E. apply Hk. now apply app_inj_tail_py in E. Qed.

  Lemma others_v k f (s : disk V Mt) : 
    (forall k', k' <> k -> dget (npy_name k') f = dget (npy_name k') (d_vectors s)) ->
    others k s (set_vfiles f s).
  Proof. intros Hf. split; simpl; auto. Qed.

  Lemma others_m k f (s : disk V Mt) : 
    (forall k', k' <> k -> dget (pkl_name k') f = dget (pkl_name k') (d_metadata s)) ->
    others k s (set_mfiles f s).
  Proof. intros Hf. split; simpl; auto. Qed.

  Lemma frame_check k : frame (others k) (check_open (V := V) (Mt := Mt)).
  Proof.
    apply frame_atomic. intros s. unfold bind, get. destruct (negb (d_init s)); apply others_refl.
  Qed.

  Lemma frame_save_vector k (v : V) : frame (others k) (save_vector k v).
  Proof.
    unfold save_vector. apply frame_bind; [|intros _]; apply frame_atomic; intros s; simpl.
    - apply others_v. intros k' Hk. now rewrite dget_dset_other by now apply npy_other.
    - destruct (dmem _ _); [|apply others_refl].
      apply others_v. intros k' Hk. now rewrite dget_dset_other by now apply npy_other.
  Qed.

  Lemma frame_drop k : frame (others k) (drop_metadata (V := V) k).
  Proof.
    unfold drop_metadata, has_metadata. apply frame_bind.
    - apply frame_atomic. intros s. apply others_refl.
    - intros []; simpl; auto. apply frame_atomic. intros s. unfold bind, get.
      destruct (dmem _ _); [|apply others_refl]. simpl.
      apply others_m. intros k' Hk. now rewrite dget_ddel_other by now apply pkl_other.
  Qed.

  Lemma frame_put_metadata k (m : option Mt) : frame (others k) (put_metadata (V := V) k m).
  Proof.
    destruct m as [m|]; [|apply frame_drop]. simpl put_metadata. unfold save_metadata.
    apply frame_bind.
    - apply frame_atomic; intros s; simpl.
      apply others_m. intros k' Hk. now rewrite dget_dset_other by now apply pkl_other.
    - intros _. destruct (picklable m); simpl; auto. intros s.
      destruct (dmem _ _); [|split; [apply others_refl|exact I]]. split; [|exact I].
      apply others_m. intros k' Hk. now rewrite dget_dset_other by now apply pkl_other.
  Qed.

  Lemma frame_recount k : frame (others k) (recount (V := V) (Mt := Mt) dirorder).
  Proof. apply frame_atomic. intros s. split; auto. Qed.

  Lemma frame_store id (v : V) (m : option Mt) :
    frame (others (sanitize_id id)) (store_steps dirorder id v m).
  Proof.
    destruct id as [|c id]; [exact I|]. unfold store_steps.
    apply frame_bind; [apply frame_check|intros _]. apply frame_wrap.
    apply frame_bind; [apply frame_save_vector|intros _].
    apply frame_bind; [apply frame_put_metadata|intros _].
    apply frame_bind; [apply frame_recount|intros _]. exact I.
  Qed.

  Lemma frame_update id (v : V) (m : option Mt) :
    frame (others (sanitize_id id)) (update_steps id v m).
  Proof.
    unfold update_steps.
    apply frame_bind; [apply frame_check|intros _]. apply frame_wrap.
    apply frame_bind; [apply frame_atomic; intros s; apply others_refl|].
    intros []; [|exact I].
    apply frame_bind; [apply frame_save_vector|intros _].
    apply frame_bind; [apply frame_put_metadata|intros _]. exact I.
  Qed.

  Lemma frame_delete id :
    frame (others (sanitize_id id)) (delete_steps (V := V) (Mt := Mt) dirorder id).
  Proof.
    unfold delete_steps.
    apply frame_bind; [apply frame_check|intros _]. apply frame_wrap.
    apply frame_bind; [apply frame_atomic; intros s; apply others_refl|]. intros b.
    apply frame_bind.
    - destruct b; [|exact I]. apply frame_atomic. intros s. unfold bind, get.
      destruct (dmem _ _); [|apply others_refl]. simpl.
      apply others_v. intros k' Hk. now rewrite dget_ddel_other by now apply npy_other.
    - intros _. apply frame_bind; [apply frame_drop|intros _].
      destruct b; [|exact I]. apply frame_bind; [apply frame_recount|intros _]. exact I.
  Qed.
End Others.
