(** Property C167: decorating a function does not change what it does. *)

From Coq Require Import List ZArith Bool.
From Coq Require String.
Import (notations) Coq.Strings.String.
From Verif Require Import PyBase DecorModel.
Import ListNotations.
Open Scope Z_scope.

(** ** Specification *)

(** A program calls decorated functions one after the other, each call choosing the function by
    what it received so far; an exception ends it unless it is caught by the program. *)
Fixpoint calls_of {S A} (fs : list (S -> (A + xn) * S)) (s : S) : list (A + xn) * S :=
  match fs with
  | [] => ([], s)
  | f :: r => let (x, s1) := f s in let (xs, s2) := calls_of r s1 in (x :: xs, s2)
  end.

(** A function that does not raise [ImportError] itself. *)
Definition no_import {S A} (f : run S A) : Prop := forall s, fst (f s) <> inr XImport.

Definition is_memory (d : deco) : bool := match d with DMemory => true | _ => false end.

Section Facts.
  Context {S A : Type} (shows : line -> bool) (psutil : bool) (reading : nat -> Z)
          (shape_of : A -> option (list nat)).
  Hypothesis Hshows : forall l, shows l = true.

  (** A wrapper over [f]: the same result, the same change of the program; only lines added. *)
  Definition same_as (f : run S A) (g : run (around S) A) : Prop :=
    forall w, let (r, w') := g w in
      r = fst (f (a_st w)) /\ a_st w' = snd (f (a_st w)) /\ exists new, a_out w' = a_out w ++ new.

  Lemma same_body f : same_as f (body f).
  Proof.
    intros w. unfold body. destruct (f (a_st w)) as [r s] eqn:E. cbn.
    split; [reflexivity|]. split; [reflexivity|]. exists []. now rewrite app_nil_r.
  Qed.

  Lemma print_ok l (w : around S) :
    print shows l w = (inl tt, MkAround (a_st w) (a_out w ++ [l]) (a_reads w)).
  Proof. unfold print. now rewrite Hshows. Qed.

  Lemma same_timing name f g : same_as f g -> same_as f (timing shows reading name g).
  Proof.
    intros Hg w. unfold timing, seq, read.
    specialize (Hg (MkAround (a_st w) (a_out w) (Datatypes.S (a_reads w)))).
    destruct (g _) as [r w1]. cbn [a_st a_out] in Hg. destruct Hg as (E1 & E2 & new & E3).
    destruct r as [x|e].
    - rewrite print_ok. unfold give. cbn [a_st a_out]. repeat split; auto.
      exists (new ++ [LTook name (reading (a_reads w1) - reading (a_reads w))]). now rewrite E3, app_assoc.
    - repeat split; auto. now exists new.
  Qed.

  Lemma same_memory name f g : psutil = false \/ no_import f -> same_as f g ->
    same_as f (memory_usage shows psutil reading name g).
  Proof.
    intros Hi Hg w. unfold memory_usage. destruct psutil.
    - destruct Hi as [Hi|Hi]; [discriminate|]. unfold seq, read.
      specialize (Hg (MkAround (a_st w) (a_out w) (Datatypes.S (a_reads w)))).
      destruct (g _) as [r w1]. cbn [a_st a_out] in Hg. destruct Hg as (E1 & E2 & new & E3).
      destruct r as [x|e].
      + rewrite print_ok. unfold give. cbn [a_st a_out]. repeat split; auto.
        exists (new ++ [LMemory name (reading (a_reads w1) - reading (a_reads w))]). now rewrite E3, app_assoc.
      + assert (e <> XImport) by (intros ->; now apply (Hi (a_st w))).
        destruct e; [congruence| |]; repeat split; auto; now exists new.
    - unfold throw, seq. rewrite print_ok.
      specialize (Hg (MkAround (a_st w) (a_out w ++ [LNoPsutil]) (a_reads w))).
      destruct (g _) as [r w1]. cbn [a_st a_out] in Hg. destruct Hg as (E1 & E2 & new & E3).
      repeat split; auto. exists (LNoPsutil :: new). now rewrite E3, <- app_assoc.
  Qed.

  Lemma same_debug name n k f g : same_as f g -> same_as f (debug shows reading shape_of name n k g).
  Proof.
    intros Hg w. unfold debug, seq, read. rewrite !print_ok. cbn [a_st a_out a_reads].
    specialize (Hg (MkAround (a_st w) ((a_out w ++ [LCalling name]) ++ [LArgs n k]) (Datatypes.S (a_reads w)))).
    destruct (g _) as [r w1]. cbn [a_st a_out] in Hg. destruct Hg as (E1 & E2 & new & E3).
    destruct r as [x|e].
    - rewrite print_ok. cbn [a_st a_out a_reads]. unfold give.
      destruct (shape_of x); [rewrite print_ok|]; cbn [a_st a_out]; rewrite E3, <- !app_assoc;
        (split; [exact E1|split; [exact E2|eexists; reflexivity]]).
    - rewrite !print_ok. unfold throw. cbn [a_st a_out a_reads]. rewrite E3, <- !app_assoc.
      split; [exact E1|split; [exact E2|eexists; reflexivity]].
  Qed.

  Lemma same_decorated name ds f :
    psutil = false \/ no_import f \/ existsb is_memory ds = false ->
    same_as f (decorated shows psutil reading shape_of name ds (body f)).
  Proof.
    induction ds as [|d ds IH]; intros Hi; [apply same_body|].
    assert (IH' : same_as f (decorated shows psutil reading shape_of name ds (body f))).
    { apply IH. destruct Hi as [Hi|[Hi|Hi]]; auto. cbn in Hi. apply orb_false_iff in Hi as [_ Hi]. auto. }
    destruct d; cbn [decorated].
    - now apply same_timing.
    - apply same_memory; auto. destruct Hi as [Hi|[Hi|Hi]]; auto. discriminate.
    - now apply same_debug.
  Qed.
End Facts.

(** C167: a program calling decorated functions gets the results of the functions themselves and
    leaves the program in the same state, whatever the decorators, in any order and number, and
    whatever it printed before; what it printed stays.  Provided the terminal shows every line,
    and psutil is missing, no function raises [ImportError], or no memory decorator is used. *)
Theorem C167_histories_partial : forall (S A : Type) (shows : line -> bool) (psutil : bool) (reading : nat -> Z)
    (shape_of : A -> option (list nat)) (fs : list (pystr * list deco * run S A)) (w : around S),
  (forall l, shows l = true) ->
  (psutil = false \/ forall name ds f, In (name, ds, f) fs -> no_import f \/ existsb is_memory ds = false) ->
  let (rs, w') := calls_of (map (fun '(name, ds, f) => decorated shows psutil reading shape_of name ds (body f)) fs) w in
  (rs, a_st w') = calls_of (map snd fs) (a_st w) /\ exists new, a_out w' = a_out w ++ new.
Proof.
  intros S A shows psutil reading shape_of fs. induction fs as [|[[name ds] f] fs IH]; intros w Hs Hi; cbn [map calls_of snd].
  { split; [reflexivity|]. exists []. now rewrite app_nil_r. }
  assert (Hf : psutil = false \/ no_import f \/ existsb is_memory ds = false).
  { destruct Hi as [Hi|Hi]; auto. right. apply (Hi name ds f). now left. }
  pose proof (same_decorated shows psutil reading shape_of Hs name ds f Hf w) as Hd.
  destruct (decorated _ _ _ _ _ _ _ w) as [r w1]. destruct Hd as (E1 & E2 & new & E3).
  assert (Hi' : psutil = false \/ forall name ds f, In (name, ds, f) fs -> no_import f \/ existsb is_memory ds = false).
  { destruct Hi as [Hi|Hi]; auto. right. intros. apply (Hi name0 ds0 f0). now right. }
  specialize (IH w1 Hs Hi').
  match type of IH with (let (_, _) := ?c in _) => destruct c as [rs w2] end. destruct IH as [IH [new2 E4]].
  rewrite E2 in IH. destruct (f (a_st w)) as [r' s'] eqn:Ef. cbn [fst snd] in *.
  destruct (calls_of (map snd fs) s') as [rs' s2] eqn:Ec. injection IH as <- <-. subst r'.
  split; [reflexivity|]. exists (new ++ new2). now rewrite E4, E3, app_assoc.
Qed.

(** How often each line is printed: one call of a timed function that returns prints exactly one
    line, the time between the two readings; one that raises prints nothing. *)
Theorem C167_timing_prints : forall (S A : Type) (shows : line -> bool) (reading : nat -> Z)
    (name : pystr) (f : run S A) (w : around S),
  (forall l, shows l = true) ->
  let w' := snd (timing shows reading name (body f) w) in
  match fst (f (a_st w)) with
  | inl _ => a_out w' = a_out w ++ [LTook name (reading (1 + a_reads w)%nat - reading (a_reads w))]
  | inr _ => a_out w' = a_out w
  end.
Proof.
  intros S A shows reading name f w Hs. unfold timing, seq, read, body. cbn [a_st a_out a_reads].
  destruct (f (a_st w)) as [[x|e] s]; cbn [fst]; [|reflexivity].
  unfold print. rewrite Hs. reflexivity.
Qed.

(** A debugged call that raises reports the exception, then raises the same one. *)
Theorem C167_debug_prints : forall (S A : Type) (shows : line -> bool) (reading : nat -> Z)
    (shape_of : A -> option (list nat)) (name : pystr) (n k : nat) (f : run S A) (w : around S),
  (forall l, shows l = true) ->
  let w' := snd (debug shows reading shape_of name n k (body f) w) in
  let t := reading (1 + a_reads w)%nat - reading (a_reads w) in
  a_out w' = a_out w ++ [LCalling name; LArgs n k] ++
    match fst (f (a_st w)) with
    | inl x => LSuccess name t :: match shape_of x with Some sh => [LShape sh] | None => [] end
    | inr e => [LFailed name t; LError e]
    end.
Proof.
  intros S A shows reading shape_of name n k f w Hs. unfold debug, seq, read, body, print.
  rewrite !Hs. cbn [a_st a_out a_reads]. destruct (f (a_st w)) as [[x|e] s]; cbn [fst a_st a_out a_reads].
  - rewrite Hs. unfold give. destruct (shape_of x); [rewrite Hs|]; cbn [snd a_out a_reads]; rewrite <- !app_assoc; reflexivity.
  - rewrite !Hs. unfold throw. cbn [snd a_out a_reads]. rewrite <- !app_assoc. reflexivity.
Qed.

(** ** Refutations *)

(** A function that counts its calls and needs a module that is not installed. *)
Definition demo_needs : run Z Z := fun s => (inr XImport, s + 1).
(** A function that counts its calls. *)
Definition demo_count : run Z Z := fun s => (inl s, s + 1).
Definition demo_clock (n : nat) : Z := Z.of_nat n.

(** With psutil installed, a memory-decorated function that raises [ImportError] runs twice, and
    the program is told that psutil is not available. *)
Theorem C167_memory_refuted : exists (f : run Z Z) (w : around Z),
  let w' := snd (memory_usage (fun _ => true) true demo_clock (py "f") (body f) w) in
  a_st w' = snd (f (snd (f (a_st w)))) /\ a_st w' <> snd (f (a_st w)) /\ In LNoPsutil (a_out w').
Proof. exists demo_needs, (MkAround 0 [] 0%nat). vm_compute. repeat split; auto. discriminate. Qed.

(** Lines of the debug decorator that start with a pictogram. *)
Definition ascii_shows (l : line) : bool :=
  match l with LCalling _ | LSuccess _ _ | LFailed _ _ => false | _ => true end.

(** On a terminal without pictograms a debugged function is not called at all. *)
Theorem C167_debug_unshown : forall (S A : Type) shows reading (shape_of : A -> option (list nat)) name n k (f : run S A) w,
  shows (LCalling name) = false ->
  debug shows reading shape_of name n k (body f) w = (inr XEncode, w).
Proof. intros. unfold debug, seq, print. now rewrite H. Qed.

Theorem C167_debug_refuted : exists (f : run Z Z) (w : around Z),
  fst (f (a_st w)) = inl 0 /\
  debug ascii_shows demo_clock (fun _ => None) (py "f") 0 0 (body f) w = (inr XEncode, w).
Proof. exists demo_count, (MkAround 0 [] 0%nat). split; reflexivity. Qed.

(** ** Examples *)

Definition demo_program : list (pystr * list deco * run Z Z) :=
  [(py "f", [DDebug 1 0; DMemory; DTiming], demo_count); (py "g", [DTiming; DDebug 0 0], demo_needs);
   (py "h", [], demo_count)].

Example C167_histories_partial_ex :
  (forall name ds f, In (name, ds, f) demo_program -> no_import f \/ existsb is_memory ds = false) /\
  (let (rs, w') := calls_of (map (fun '(name, ds, f) =>
      decorated (fun _ => true) true demo_clock (fun x => Some [Z.to_nat x]) name ds (body f)) demo_program)
      (MkAround 5 [] 0%nat) in
   rs = [inl 5; inr XImport; inl 7] /\ a_st w' = 8 /\
   a_out w' = [LCalling (py "f"); LArgs 1 0; LTook (py "f") 1; LMemory (py "f") 3; LSuccess (py "f") 5; LShape [5%nat];
               LCalling (py "g"); LArgs 0 0; LFailed (py "g") 1; LError XImport]).
Proof.
  split; [|vm_compute; auto].
  intros name ds f [[= <- <- <-]|[[= <- <- <-]|[[= <- <- <-]|[]]]]; [left; intros s; discriminate|right; reflexivity|right; reflexivity].
Qed.

Example C167_timing_prints_ex :
  (forall l, (fun _ : line => true) l = true) /\
  a_out (snd (timing (fun _ => true) (fun n => Z.of_nat (n * n)) (py "f") (body demo_count) (MkAround 0 [LNoPsutil] 3%nat))) =
    [LNoPsutil; LTook (py "f") 7].
Proof. split; reflexivity. Qed.

Example C167_debug_prints_ex :
  (forall l, (fun _ : line => true) l = true) /\
  a_out (snd (debug (fun _ => true) demo_clock (fun _ => None) (py "f") 2 1 (body demo_needs) (MkAround 0 [] 3%nat))) =
    [LCalling (py "f"); LArgs 2 1; LFailed (py "f") 1; LError XImport].
Proof. split; reflexivity. Qed.

Example C167_debug_unshown_ex : ascii_shows (LCalling (py "f")) = false.
Proof. reflexivity. Qed.

Print Assumptions C167_histories_partial.
Print Assumptions C167_timing_prints.
Print Assumptions C167_debug_prints.
Print Assumptions C167_memory_refuted.
Print Assumptions C167_debug_unshown.
Print Assumptions C167_debug_refuted.
