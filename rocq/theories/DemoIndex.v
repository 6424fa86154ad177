(** Concrete integer vectors, sort routine and ids for the examples about indexes. *)

From Coq Require Import List Arith ZArith NArith Lia Bool Permutation Sorted.
From Verif Require Import PyBase BaseLemmas Payload StorageModel StorageSpec StorageRun StorageOk
  Num ClientModel DbSpec ClientRun FlatProofs Demo.
Import ListNotations.

(** Integers as scalars; the square root rounds down. *)
#[export] Instance num_Z : Num Z := {|
  nzero := 0%Z; none := 1%Z; nadd := Z.add; nsub := Z.sub; nmul := Z.mul; ndiv := Z.div;
  nsqrt := Z.sqrt; nleb := Z.leb; neqb := Z.eqb; nfinite := fun _ => true
|}.

#[export] Instance num_order_Z : NumOrder Z.
Proof.
  constructor; simpl; intros.
  - rewrite !Z.leb_le. lia.
  - rewrite Z.leb_le in *. lia.
Qed.

(** An [np.argsort] that keeps equal values in order. *)
Definition stable_argsort {F} `{Num F} (ds : list F) : list nat :=
  map fst (sort (fun a b => nleb (snd a) (snd b)) (enumerate ds)).

Lemma stable_argsort_ok {F} `{Num F} `{!NumOrder F} : argsort_ok stable_argsort.
Proof.
  intros ds. unfold stable_argsort, enumerate. split.
  - eapply perm_trans; [apply Permutation_map, sort_perm|].
    replace (map fst (combine (seq 0 (length ds)) ds)) with (seq 0 (length ds)); auto.
    generalize 0. induction ds as [|d ds IH]; intros k; simpl; f_equal; auto.
  - apply StronglySorted_map.
    set (l := combine (seq 0 (length ds)) ds).
    assert (StronglySorted (fun a b => nleb (snd a) (snd b) = true)
              (sort (fun a b => nleb (snd a) (snd b)) l)) as Hs.
    { apply sort_sorted with (P := fun _ => True).
      - split; intros; [apply nleb_total | eapply nleb_trans; eauto].
      - rewrite Forall_forall. auto. }
    assert (Forall (fun e => nth_error ds (fst e) = Some (snd e))
              (sort (fun a b => nleb (snd a) (snd b)) l)) as HF.
    { eapply Permutation_Forall; [symmetry; apply sort_perm|].
      rewrite Forall_forall. intros [i x] Hin. simpl.
      apply ClientProofs.combine_seq_In in Hin. now rewrite Nat.sub_0_r in Hin. }
    revert Hs HF. generalize (sort (fun a b => nleb (snd a) (snd b)) l). clear. intros L Hs.
    induction Hs as [|e L Hs IH Hf]; intros HF; [constructor|].
    inversion HF as [|? ? He HL]; subst. constructor; auto.
    rewrite Forall_forall in *. intros e' He' x y Hx Hy.
    rewrite He in Hx. injection Hx as <-. rewrite (HL e' He') in Hy. injection Hy as <-. auto.
Qed.

(** Ids "a", "a0", "a00", ... for a first character between 'a' and 'f'. *)
Definition demo_ids (c : N) (i : nat) : list N := c :: repeat 48%N i.

Lemma demo_ids_uuid c i : (97 <= c <= 102)%N -> uuid_like (demo_ids c i).
Proof.
  intros Hc. split; [discriminate|]. constructor; [auto|].
  rewrite Forall_forall. intros x Hx. apply repeat_spec in Hx. subst. left. lia.
Qed.

Lemma demo_ids_inj c i j : demo_ids c i = demo_ids c j -> i = j.
Proof.
  intros E. injection E as E. apply (f_equal (@length N)) in E. now rewrite !repeat_length in E.
Qed.

(** Discharge the side conditions of a concrete history. *)
Ltac fit_demo :=
  repeat match goal with
  | |- _ /\ _ => split
  | |- True => exact I
  | |- argsort_ok _ => exact stable_argsort_ok
  | |- all_fit _ _ _ _ _ _ => cbn [all_fit fits db_next]
  | |- fresh_ids _ _ _ => split
  | |- forall i j, i < _ -> j < _ -> demo_ids _ i = demo_ids _ j -> i = j =>
      intros ? ? _ _; apply demo_ids_inj
  | |- forall i, i < _ -> uuid_like (demo_ids _ i) /\ _ =>
      intros i Hi; split; [apply demo_ids_uuid; lia|]
  | |- _ -> _ => intro
  | |- Forall _ _ => constructor
  end.
