(** Invariants of methods: a predicate on the state kept by a method whether it returns or
    raises. *)

From Coq Require Import List.
From Verif Require Import PyBase.
Import ListNotations.

Definition keep {S A} (P : S -> Prop) (m : M S A) : Prop := forall s, P s -> P (snd (m s)).

Section Keep.
  Context {S : Type} (P : S -> Prop).

  Lemma keep_ret {A} (a : A) : keep P (ret a).
  Proof. intros s Hs. exact Hs. Qed.
  Lemma keep_raise {A} e : keep P (raise e : M S A).
  Proof. intros s Hs. exact Hs. Qed.
  Lemma keep_get : keep P get.
  Proof. intros s Hs. exact Hs. Qed.
  Lemma keep_lift {A} (r : result A) : keep P (lift r).
  Proof. intros s Hs. exact Hs. Qed.
  Lemma keep_modify f : (forall s, P s -> P (f s)) -> keep P (modify f).
  Proof. intros Hf s Hs. now apply Hf. Qed.
  Lemma keep_bind {A B} (m : M S A) (f : A -> M S B) :
    keep P m -> (forall a, keep P (f a)) -> keep P (bind m f).
  Proof.
    intros Hm Hf s Hs. unfold bind. specialize (Hm s Hs). destruct (m s) as [[a|e] s']; simpl in *; auto.
    now apply Hf.
  Qed.
  Lemma keep_wrap {A} e (m : M S A) : keep P m -> keep P (wrap e m).
  Proof.
    intros Hm s Hs. specialize (Hm s Hs). unfold wrap. destruct (m s) as [[a|e'] s']; simpl in *; auto.
  Qed.
  Lemma keep_catch {A} (m h : M S A) : keep P m -> keep P h -> keep P (catch m h).
  Proof.
    intros Hm Hh s Hs. specialize (Hm s Hs). unfold catch. destruct (m s) as [[a|e'] s']; simpl in *; auto.
  Qed.
  Lemma keep_forM {A} (l : list A) f : (forall a, In a l -> keep P (f a)) -> keep P (forM l f).
  Proof.
    induction l as [|a l IH]; intros Hf; simpl; [apply keep_ret|].
    apply keep_bind; [apply Hf; now left|]. intros _. apply IH. intros b Hb. apply Hf. now right.
  Qed.
  Lemma keep_mapM {A B} (l : list A) (f : A -> M S B) :
    (forall a, In a l -> keep P (f a)) -> keep P (mapM l f).
  Proof.
    induction l as [|a l IH]; intros Hf; simpl; [apply keep_ret|].
    apply keep_bind; [apply Hf; now left|]. intros b. apply keep_bind; [|intros; apply keep_ret].
    apply IH. intros c Hc. apply Hf. now right.
  Qed.
End Keep.

Lemma keep_zoom {S T A} (P : S -> Prop) (Q : T -> Prop) gt st (m : M T A) :
  (forall s, P s -> Q (gt s)) -> (forall s t, P s -> Q t -> P (st t s)) ->
  keep Q m -> keep P (zoom gt st m).
Proof.
  intros H1 H2 Hm s Hs. unfold zoom. specialize (Hm (gt s) (H1 s Hs)).
  destruct (m (gt s)) as [r t]. simpl in *. auto.
Qed.
