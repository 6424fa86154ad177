(** More Python vocabulary: list comprehensions that may raise, indexing with negative indices,
    [str] of an integer and [int] of a string. *)

From Coq Require Import List Arith ZArith NArith Lia Bool.
From Coq Require Import ZifyBool ZifyNat ZifyN.
From Coq Require Decimal DecimalNat.
From Verif Require Import PyBase.
Import ListNotations.

#[export] Instance EqDec_bool : EqDec bool.
Proof. refine {| eqb := Bool.eqb |}. intros [] []; simpl; constructor; congruence. Defined.

(** [[f(x) for x in l]] where the call may raise. *)
Fixpoint rmap {A B} (f : A -> result B) (l : list A) : result (list B) :=
  match l with
  | [] => Ok []
  | x :: l' => rbind (f x) (fun y => rbind (rmap f l') (fun ys => Ok (y :: ys)))
  end.

Lemma rmap_Ok {A B} (f : A -> result B) (g : A -> B) l :
  (forall x, In x l -> f x = Ok (g x)) -> rmap f l = Ok (map g l).
Proof.
  induction l as [|a l IH]; intros Hf; simpl; auto.
  rewrite (Hf a) by (now left). simpl. rewrite IH; auto. intros x Hx. apply Hf. now right.
Qed.

Lemma rmap_nth {A B} (f : A -> result B) l : forall ys, rmap f l = Ok ys ->
  length ys = length l /\
  forall i x, nth_error l i = Some x -> exists y, nth_error ys i = Some y /\ f x = Ok y.
Proof.
  induction l as [|a l IH]; simpl; intros ys E.
  - injection E as <-. split; auto. intros [|i] x Hx; discriminate.
  - destruct (f a) as [y|] eqn:Ey; [|discriminate]. simpl in E.
    destruct (rmap f l) as [ys'|]; [|discriminate]. simpl in E. injection E as <-.
    destruct (IH ys' eq_refl) as [I1 I2]. split; [simpl; congruence|].
    intros [|i] x Hx; simpl in *; [injection Hx as <-; eauto|eauto].
Qed.

(** Position of the list item written [l[i]]: negative indices count from the end. *)
Definition py_pos (n : nat) (i : Z) : option nat :=
  if (0 <=? i)%Z && (i <? Z.of_nat n)%Z then Some (Z.to_nat i)
  else if (i <? 0)%Z && (- Z.of_nat n <=? i)%Z then Some (Z.to_nat (Z.of_nat n + i))
  else None.

(** [l[i]]. *)
Definition py_index {A} (l : list A) (i : Z) : result A :=
  match py_pos (length l) i with
  | Some j => match nth_error l j with Some x => Ok x | None => Raise EIndexRange end
  | None => Raise EIndexRange
  end.

(** A list with item [j] replaced. *)
Fixpoint set_nth {A} (j : nat) (a : A) (l : list A) : list A :=
  match l, j with
  | [], _ => []
  | _ :: l', O => a :: l'
  | x :: l', S j' => x :: set_nth j' a l'
  end.

(** [l[i] = a]. *)
Definition py_set_index {A} (l : list A) (i : Z) (a : A) : result (list A) :=
  match py_pos (length l) i with
  | Some j => Ok (set_nth j a l)
  | None => Raise EIndexRange
  end.

Lemma set_nth_length {A} (a : A) l : forall j, length (set_nth j a l) = length l.
Proof. induction l as [|x l IH]; intros [|j]; simpl; auto. Qed.

Lemma set_nth_app {A} (a b : A) l1 l2 : set_nth (length l1) a (l1 ++ b :: l2) = l1 ++ a :: l2.
Proof. induction l1 as [|x l1 IH]; simpl; auto. now rewrite IH. Qed.

Lemma nth_error_set_nth {A} (a : A) l : forall i j,
  nth_error (set_nth i a l) j =
  if Nat.eqb i j then match nth_error l j with Some _ => Some a | None => None end
  else nth_error l j.
Proof.
  induction l as [|x l IH]; intros [|i] [|j]; simpl; auto.
  now destruct (i =? j)%nat.
Qed.

Lemma set_nth_same {A} (a : A) l : forall i, nth_error l i = Some a -> set_nth i a l = l.
Proof.
  induction l as [|x l IH]; intros [|i] E; simpl in *; auto; try discriminate.
  - congruence.
  - now rewrite IH.
Qed.

Lemma map_set_nth {A B} (f : A -> B) a l : forall i, map f (set_nth i a l) = set_nth i (f a) (map f l).
Proof. induction l as [|x l IH]; intros [|i]; simpl; auto. now rewrite IH. Qed.

Lemma py_index_nat {A} (l : list A) i :
  py_index l (Z.of_nat i) = match nth_error l i with Some x => Ok x | None => Raise EIndexRange end.
Proof.
  unfold py_index, py_pos. destruct (Nat.lt_ge_cases i (length l)) as [Hi|Hi].
  - replace ((0 <=? Z.of_nat i)%Z && (Z.of_nat i <? Z.of_nat (length l))%Z) with true by lia.
    now rewrite Nat2Z.id.
  - replace ((0 <=? Z.of_nat i)%Z && (Z.of_nat i <? Z.of_nat (length l))%Z) with false by lia.
    replace ((Z.of_nat i <? 0)%Z && (- Z.of_nat (length l) <=? Z.of_nat i)%Z) with false by lia.
    now rewrite (proj2 (nth_error_None l i) Hi).
Qed.

Lemma py_set_index_nat {A} (l : list A) i a : i < length l ->
  py_set_index l (Z.of_nat i) a = Ok (set_nth i a l).
Proof.
  intros Hi. unfold py_set_index, py_pos.
  replace ((0 <=? Z.of_nat i)%Z && (Z.of_nat i <? Z.of_nat (length l))%Z) with true by lia.
  now rewrite Nat2Z.id.
Qed.

(** ** Decimal strings *)

(** The digits of a decimal number as characters. *)
Fixpoint digits (d : Decimal.uint) : pystr :=
  match d with
  | Decimal.Nil => []
  | Decimal.D0 d => 48 :: digits d
  | Decimal.D1 d => 49 :: digits d
  | Decimal.D2 d => 50 :: digits d
  | Decimal.D3 d => 51 :: digits d
  | Decimal.D4 d => 52 :: digits d
  | Decimal.D5 d => 53 :: digits d
  | Decimal.D6 d => 54 :: digits d
  | Decimal.D7 d => 55 :: digits d
  | Decimal.D8 d => 56 :: digits d
  | Decimal.D9 d => 57 :: digits d
  end%N.

(** [str(n)] for a natural number. *)
Definition str_nat (n : nat) : pystr := digits (Nat.to_uint n).

(** A character that is an ASCII digit. *)
Definition is_digit (c : N) : bool := ((48 <=? c) && (c <=? 57))%N.

(** Value of a string of digits with single underscores between digits, [acc] read so far and
    [after_digit] telling whether an underscore or the end may come now. *)
Fixpoint parse_digits (acc : N) (after_digit : bool) (s : pystr) : option N :=
  match s with
  | [] => if after_digit then Some acc else None
  | c :: s' =>
      if is_digit c then parse_digits (10 * acc + (c - 48)) true s'
      else if (c =? 95)%N && after_digit then parse_digits acc false s'
      else None
  end%N.

(** White space skipped by [int]; only the ASCII characters are modelled. *)
Definition is_space (c : N) : bool := ((9 <=? c) && (c <=? 13) || (c =? 32))%N.

Fixpoint lstrip (s : pystr) : pystr :=
  match s with
  | c :: s' => if is_space c then lstrip s' else s
  | [] => []
  end.

(** [int(s)] for a string; [None] is ValueError.  Decimal digits outside ASCII, which Python
    also accepts, are not modelled (they give [None]). *)
Definition py_int (s : pystr) : option Z :=
  let t := rev (lstrip (rev (lstrip s))) in
  match t with
  | 43%N :: u => option_map Z.of_N (parse_digits 0 false u)
  | 45%N :: u => option_map (fun n => - Z.of_N n)%Z (parse_digits 0 false u)
  | u => option_map Z.of_N (parse_digits 0 false u)
  end.

Lemma digits_all d : Forall (fun c => is_digit c = true) (digits d).
Proof. induction d; simpl; constructor; auto. Qed.

Lemma parse_of_uint d : forall acc b, (b = true \/ d <> Decimal.Nil) ->
  parse_digits (N.of_nat acc) b (digits d) = Some (N.of_nat (Nat.of_uint_acc d acc)).
Proof.
  assert (Hstep : forall acc k, (k < 10)%nat ->
    (10 * N.of_nat acc + (N.of_nat (48 + k) - 48))%N = N.of_nat (k + Nat.tail_mul 10 acc)).
  { intros acc k Hk. rewrite Nat.tail_mul_spec. lia. }
  induction d as [|d IH|d IH|d IH|d IH|d IH|d IH|d IH|d IH|d IH|d IH]; intros acc b Hb;
    [cbn; destruct Hb as [->|Hb]; congruence| | | | | | | | | | ];
    cbn [digits parse_digits is_digit N.leb N.compare Pos.compare Pos.compare_cont andb Nat.of_uint_acc].
  - rewrite <- (IH _ true) by auto. f_equal. exact (Hstep acc 0 ltac:(lia)).
  - rewrite <- (IH _ true) by auto. f_equal. exact (Hstep acc 1 ltac:(lia)).
  - rewrite <- (IH _ true) by auto. f_equal. exact (Hstep acc 2 ltac:(lia)).
  - rewrite <- (IH _ true) by auto. f_equal. exact (Hstep acc 3 ltac:(lia)).
  - rewrite <- (IH _ true) by auto. f_equal. exact (Hstep acc 4 ltac:(lia)).
  - rewrite <- (IH _ true) by auto. f_equal. exact (Hstep acc 5 ltac:(lia)).
  - rewrite <- (IH _ true) by auto. f_equal. exact (Hstep acc 6 ltac:(lia)).
  - rewrite <- (IH _ true) by auto. f_equal. exact (Hstep acc 7 ltac:(lia)).
  - rewrite <- (IH _ true) by auto. f_equal. exact (Hstep acc 8 ltac:(lia)).
  - rewrite <- (IH _ true) by auto. f_equal. exact (Hstep acc 9 ltac:(lia)).
Qed.

Lemma is_digit_space c : is_digit c = true -> is_space c = false.
Proof. unfold is_digit, is_space. lia. Qed.

Lemma lstrip_digits s : Forall (fun c => is_digit c = true) s -> lstrip s = s.
Proof.
  destruct 1 as [|c s Hc Hs]; simpl; auto. now rewrite is_digit_space.
Qed.

Lemma to_uint_nonnil n : Nat.to_uint n <> Decimal.Nil.
Proof.
  intros E. pose proof (DecimalNat.Unsigned.of_to n) as Ho. rewrite E in Ho. simpl in Ho.
  subst n. discriminate.
Qed.

Lemma py_int_str n : py_int (str_nat n) = Some (Z.of_nat n).
Proof.
  unfold py_int, str_nat. pose proof (digits_all (Nat.to_uint n)) as Hd.
  rewrite (lstrip_digits _ Hd). rewrite lstrip_digits by (now apply Forall_rev). rewrite rev_involutive.
  assert (Hp : parse_digits 0 false (digits (Nat.to_uint n)) = Some (N.of_nat n)).
  { rewrite (parse_of_uint _ 0 false) by (right; apply to_uint_nonnil).
    do 2 f_equal. exact (DecimalNat.Unsigned.of_to n). }
  destruct (digits (Nat.to_uint n)) as [|c s] eqn:E.
  - exfalso. destruct (Nat.to_uint n) eqn:E'; try discriminate.
  - inversion Hd as [|? ? Hc Hs]; subst. unfold is_digit in Hc.
    assert (c = 48 \/ c = 49 \/ c = 50 \/ c = 51 \/ c = 52 \/ c = 53 \/ c = 54 \/ c = 55 \/ c = 56 \/ c = 57)%N
      as Hcs by lia.
    assert (Hz : option_map Z.of_N (parse_digits 0 false (c :: s)) = Some (Z.of_nat n)).
    { rewrite Hp. simpl. f_equal. lia. }
    repeat destruct Hcs as [->|Hcs]; try subst c; exact Hz.
Qed.

Lemma str_nat_inj m n : str_nat m = str_nat n -> m = n.
Proof.
  intros E. pose proof (py_int_str m) as H1. rewrite E, py_int_str in H1. injection H1. lia.
Qed.
