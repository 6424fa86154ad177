(** Lemmas about the file system: what a method may change, where a path leads. *)

From Coq Require Import String List Arith ZArith NArith Lia Bool.
From Coq Require Import ZifyBool ZifyNat.
From Verif Require Import PyBase PyMore Payload BaseLemmas FsModel PersistModel.
Import ListNotations.

Lemma wrap_Ok_inv {S A} e (m : M S A) s a s' : wrap e m s = (Ok a, s') -> m s = (Ok a, s').
Proof. unfold wrap. destruct (m s) as [[b|e'] u]; congruence. Qed.

Lemma bind_Ok_inv {S A B} (m : M S A) (f : A -> M S B) s b s' :
  bind m f s = (Ok b, s') -> exists a s1, m s = (Ok a, s1) /\ f a s1 = (Ok b, s').
Proof. unfold bind. destruct (m s) as [[a|e] s1]; eauto; discriminate. Qed.

(** Every run of [m] relates the state before to the state after. *)
Definition runs {S A} (R : S -> S -> Prop) (m : M S A) : Prop := forall s, R s (snd (m s)).

Section Runs.
  Context {S : Type} (R : S -> S -> Prop).
  Context (Rrefl : forall s, R s s) (Rtrans : forall a b c, R a b -> R b c -> R a c).

  Lemma runs_ret {A} (a : A) : runs R (ret a).
  Proof. intros s. apply Rrefl. Qed.
  Lemma runs_raise {A} e : runs R (raise e : M S A).
  Proof. intros s. apply Rrefl. Qed.
  Lemma runs_lift {A} (r : result A) : runs R (lift r).
  Proof. intros s. apply Rrefl. Qed.
  Lemma runs_modify f : (forall s, R s (f s)) -> runs R (modify f).
  Proof. intros Hf s. apply Hf. Qed.
  Lemma runs_bind {A B} (m : M S A) (f : A -> M S B) :
    runs R m -> (forall a, runs R (f a)) -> runs R (bind m f).
  Proof.
    intros Hm Hf s. unfold bind. specialize (Hm s). destruct (m s) as [[a|e] s']; simpl in *; auto.
    eapply Rtrans; [exact Hm|apply Hf].
  Qed.
  (** [s <- get ;; f s]: the continuation is run in the state it is given. *)
  Lemma runs_get {B} (f : S -> M S B) : (forall s, R s (snd (f s s))) -> runs R (bind get f).
  Proof. intros Hf s. apply Hf. Qed.
  Lemma runs_wrap {A} e (m : M S A) : runs R m -> runs R (wrap e m).
  Proof.
    intros Hm s. specialize (Hm s). unfold wrap. destruct (m s) as [[a|e'] s']; simpl in *; auto.
  Qed.
  Lemma runs_forM {A} (l : list A) f : (forall a, In a l -> runs R (f a)) -> runs R (forM l f).
  Proof.
    induction l as [|a l IH]; intros Hf; simpl; [apply runs_ret|].
    apply runs_bind; [apply Hf; now left|]. intros _. apply IH. intros b Hb. apply Hf. now right.
  Qed.
End Runs.

Section Fs.
  Context {V O : Type}.
  Notation tree := (dict loc (node V O)).
  Implicit Types (t u : tree).

  (** Where a path leads when every name on the way is a directory. *)
  Definition norm (parts : list pystr) : loc := fold_left step parts [].

  Lemma walk_norm t parts : forall cur l, walk t cur parts = Some l -> l = fold_left step parts cur.
  Proof.
    induction parts as [|c r IH]; simpl; intros cur l E; [congruence|].
    destruct (lookup t cur) as [[|]|]; try discriminate. eauto.
  Qed.

  Lemma lookup_dset l x t j : l <> [] ->
    lookup (dset l x t) j = if eqb j l then Some x else lookup t j.
  Proof.
    intros Hl. destruct j as [|c j]; simpl.
    - rewrite eqb_neq; auto.
    - apply dget_dset.
  Qed.

  (** What may happen to a tree: directories stay, files stay files and keep their contents
      outside [W], nothing new appears outside [W] and [C]. *)
  Definition evolves (W C : loc -> Prop) (t u : tree) : Prop :=
    (forall l, lookup t l = Some Dir -> lookup u l = Some Dir) /\
    (forall l c, lookup t l = Some (File c) ->
       exists c', lookup u l = Some (File c') /\ (~ W l -> c' = c)) /\
    (forall l, lookup t l = None -> ~ W l -> ~ C l -> lookup u l = None).

  Lemma evolves_refl W C t : evolves W C t t.
  Proof. repeat split; eauto. Qed.

  Lemma evolves_trans W C t u w : evolves W C t u -> evolves W C u w -> evolves W C t w.
  Proof.
    intros (A1 & A2 & A3) (B1 & B2 & B3). repeat split; auto.
    intros l c E. destruct (A2 l c E) as (c1 & E1 & F1). destruct (B2 l c1 E1) as (c2 & E2 & F2).
    exists c2. split; auto. intros Hw. rewrite (F2 Hw). auto.
  Qed.

  Lemma evolves_mono (W W' C C' : loc -> Prop) t u :
    (forall l, W l -> W' l) -> (forall l, C l -> C' l) -> evolves W C t u -> evolves W' C' t u.
  Proof.
    intros HW HC (A1 & A2 & A3). repeat split; auto.
    intros l c E. destruct (A2 l c E) as (c1 & E1 & F1). exists c1. split; auto.
  Qed.

  Lemma evolves_walk W C t u parts : evolves W C t u ->
    forall cur l, walk t cur parts = Some l -> walk u cur parts = Some l.
  Proof.
    intros (A1 & _). induction parts as [|c r IH]; simpl; intros cur l E; auto.
    destruct (lookup t cur) as [[|]|] eqn:El; try discriminate. rewrite (A1 _ El). auto.
  Qed.

  (** A file that is not written stays as it is. *)
  Lemma evolves_file W C t u parts c : evolves W C t u ->
    node_at t parts = Some (File c) -> ~ W (norm parts) -> node_at u parts = Some (File c).
  Proof.
    intros HE E HW. unfold node_at in *. destruct (walk t [] parts) as [l|] eqn:Ew; [|discriminate].
    rewrite (evolves_walk _ _ _ _ _ HE _ _ Ew). apply walk_norm in Ew as En.
    destruct HE as (_ & A2 & _). destruct (A2 l c E) as (c' & E' & F). rewrite E'.
    rewrite F; auto. unfold norm in HW. now rewrite <- En in HW.
  Qed.

  (** ** Methods *)

  Definition fs_rel (W C : loc -> Prop) (s s' : fsys V O) : Prop :=
    evolves W C (f_tree s) (f_tree s') /\ (f_dead s = true -> s' = s) /\
    (f_fuse s = None -> f_dead s = false -> f_fuse s' = None /\ f_dead s' = false).

  Lemma fs_rel_refl W C s : fs_rel W C s s.
  Proof. split; [apply evolves_refl|auto]. Qed.

  Lemma fs_rel_trans W C a b c : fs_rel W C a b -> fs_rel W C b c -> fs_rel W C a c.
  Proof.
    intros (A1 & A2 & A3) (B1 & B2 & B3). split; [eauto using evolves_trans|]. split.
    - intros Hd. rewrite <- (A2 Hd). apply B2. now rewrite (A2 Hd).
    - intros H1 H2. destruct (A3 H1 H2). auto.
  Qed.

  Lemma put_cases l (x : node V O) s :
    (fst (put l x s) = Ok tt /\ f_tree (snd (put l x s)) = dset l x (f_tree s) /\ f_dead s = false /\
     (f_fuse s = None -> f_fuse (snd (put l x s)) = None) /\ f_dead (snd (put l x s)) = false) \/
    (fst (put l x s) = Raise EOs /\ f_tree (snd (put l x s)) = f_tree s /\
     (f_dead s = true \/ f_fuse s = Some 0%nat) /\ f_dead (snd (put l x s)) = true /\
     (f_dead s = true -> snd (put l x s) = s)).
  Proof.
    unfold put, tick, bind, modify. destruct s as [t [[|n]|] [|]]; simpl;
      first [left; repeat split; auto; discriminate | left; repeat split; auto; fail
            | right; repeat split; auto; discriminate].
  Qed.

  Lemma put_alive l (x : node V O) s : f_fuse s = None -> f_dead s = false ->
    put l x s = (Ok tt, MkFs (dset l x (f_tree s)) None false).
  Proof. destruct s as [t f d]. simpl. intros -> ->. reflexivity. Qed.

  (** A new directory. *)
  Lemma put_dir_rel l (W C : loc -> Prop) s : lookup (f_tree s) l = None -> C l ->
    fs_rel W C s (snd (put l Dir s)).
  Proof.
    intros El Hc. assert (Hl : l <> []) by (intros ->; discriminate).
    destruct (put_cases l (Dir : node V O) s) as [(_ & E & Hd & F1 & F2)|(_ & E & Hd & F1 & F2)].
    - split; [|split; [congruence|auto]]. rewrite E. repeat split.
      + intros j. rewrite lookup_dset by auto. destruct (eqb_spec j l); auto.
      + intros j c Ej. exists c. rewrite lookup_dset by auto. destruct (eqb_spec j l); [congruence|auto].
      + intros j Ej HW HC. rewrite lookup_dset by auto. destruct (eqb_spec j l); [congruence|auto].
    - split; [rewrite E; apply evolves_refl|]. split; auto.
      intros H1 H2. destruct Hd; congruence.
  Qed.

  (** A file written. *)
  Lemma put_file_rel l c (W C : loc -> Prop) s : lookup (f_tree s) l <> Some Dir -> W l ->
    fs_rel W C s (snd (put l (File c) s)).
  Proof.
    intros El Hw. assert (Hl : l <> []) by (intros ->; apply El; reflexivity).
    destruct (put_cases l (File c : node V O) s) as [(_ & E & Hd & F1 & F2)|(_ & E & Hd & F1 & F2)].
    - split; [|split; [congruence|auto]]. rewrite E. repeat split.
      + intros j Ej. rewrite lookup_dset by auto. destruct (eqb_spec j l); [congruence|auto].
      + intros j d Ej. rewrite lookup_dset by auto. destruct (eqb_spec j l) as [->|]; eauto.
        exists c. split; auto. tauto.
      + intros j Ej HW HC. rewrite lookup_dset by auto. destruct (eqb_spec j l); [congruence|auto].
    - split; [rewrite E; apply evolves_refl|]. split; auto.
      intros H1 H2. destruct Hd; congruence.
  Qed.

  Lemma mkdir1_rel parts (W C : loc -> Prop) : C (norm parts) -> runs (fs_rel W C) (mkdir1 parts).
  Proof.
    intros Hc. apply runs_get. intros s.
    destruct (walk (f_tree s) [] parts) as [l|] eqn:Ew; [|apply fs_rel_refl].
    apply walk_norm in Ew. destruct (lookup (f_tree s) l) as [[|c]|] eqn:El; try apply fs_rel_refl.
    apply put_dir_rel; auto. now rewrite Ew.
  Qed.

  (** Every place on the way of a path. *)
  Definition on_way (parts : list pystr) (l : loc) : Prop :=
    exists k, k <= length parts /\ l = norm (firstn k parts).

  Lemma mkdirs_rel parts (W C : loc -> Prop) :
    (forall l, on_way parts l -> C l) -> runs (fs_rel W C) (mkdirs parts).
  Proof.
    intros Hc. apply runs_forM; [apply fs_rel_refl|apply fs_rel_trans|].
    intros a Ha. unfold prefixes in Ha. apply in_map_iff in Ha as (k & <- & Hk). apply in_seq in Hk.
    apply mkdir1_rel, Hc. exists (S k). split; [lia|auto].
  Qed.

  Lemma write_rel parts c fine (W C : loc -> Prop) :
    W (norm parts) -> runs (fs_rel W C) (write parts c fine).
  Proof.
    intros Hw. apply runs_get. intros s.
    destruct (walk (f_tree s) [] parts) as [l|] eqn:Ew; [|apply fs_rel_refl].
    apply walk_norm in Ew. subst l.
    set (l := fold_left step parts []) in *.
    assert (G : lookup (f_tree s) l <> Some Dir ->
      fs_rel W C s (snd ((put l (File CJunk) ;;; (if fine then put l (File c) else raise EType)) s))).
    { intros El. unfold bind.
      pose proof (put_file_rel l CJunk W C s El Hw) as R1.
      destruct (put_cases l (File CJunk : node V O) s) as [(E0 & E & _)|(E0 & _)];
        destruct (put l (File CJunk) s) as [r s1]; simpl in *; subst r; auto.
      destruct fine; auto. eapply fs_rel_trans; [exact R1|].
      apply put_file_rel; auto. rewrite E.
      assert (Hl : l <> []) by (intros E1; apply El; now rewrite E1).
      rewrite lookup_dset by auto. rewrite eqb_refl. discriminate. }
    destruct (lookup (f_tree s) l) as [[|d]|]; [apply fs_rel_refl| |]; apply G; discriminate.
  Qed.

  Lemma append_rel parts x (W C : loc -> Prop) :
    W (norm parts) -> runs (fs_rel W C) (append parts x).
  Proof.
    intros Hw. apply runs_get. intros s.
    destruct (walk (f_tree s) [] parts) as [l|] eqn:Ew; [|apply fs_rel_refl].
    apply walk_norm in Ew. subst l. fold (norm parts).
    destruct (lookup (f_tree s) (norm parts)) as [[|[| | | |]]|] eqn:El; try apply fs_rel_refl;
      apply put_file_rel; auto; congruence.
  Qed.

  (** A write that succeeds leaves the file with its contents. *)
  Lemma write_Ok parts c fine (s s' : fsys V O) : write parts c fine s = (Ok tt, s') ->
    fine = true /\ node_at (f_tree s') parts = Some (File c).
  Proof.
    unfold write, bind at 1, get. intros E.
    destruct (walk (f_tree s) [] parts) as [l|] eqn:Ew; [|discriminate].
    assert (G : lookup (f_tree s) l <> Some Dir ->
      (put l (File CJunk) ;;; (if fine then put l (File c) else raise EType)) s = (Ok tt, s') ->
      fine = true /\ node_at (f_tree s') parts = Some (File c)).
    { clear E. intros El E. unfold bind in E.
      assert (Hl : l <> []) by (intros ->; apply El; reflexivity).
      destruct (put_cases l (File CJunk : node V O) s) as [(E0 & E1 & _)|(E0 & _)];
        destruct (put l (File CJunk) s) as [r s1]; simpl in *; subst r; [|discriminate].
      destruct fine; [|discriminate]. split; auto.
      destruct (put_cases l (File c : node V O) s1) as [(E2 & E3 & _)|(E2 & _)];
        rewrite E in *; simpl in *; [|discriminate].
      assert (HE : evolves (eq l) (fun _ => False) (f_tree s) (f_tree s')).
      { rewrite E3, E1. repeat split.
        - intros j Ej. rewrite !lookup_dset by auto. destruct (eqb_spec j l); [congruence|auto].
        - intros j d Ej. rewrite !lookup_dset by auto. destruct (eqb_spec j l) as [->|]; eauto.
          exists c. split; auto. tauto.
        - intros j Ej HW HC. rewrite !lookup_dset by auto. destruct (eqb_spec j l); [congruence|auto]. }
      unfold node_at. rewrite (evolves_walk _ _ _ _ _ HE _ _ Ew), E3, lookup_dset, eqb_refl by auto.
      reflexivity. }
    destruct (lookup (f_tree s) l) as [[|d]|]; [discriminate| |]; apply G; auto; discriminate.
  Qed.
End Fs.
