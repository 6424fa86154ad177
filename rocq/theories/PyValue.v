(** Python values as the functions of this library that take "anything" see them: validators,
    configuration tables and the like. *)

From Coq Require Import List Arith ZArith NArith QArith Lia Bool.
From Verif Require Import PyBase PyMore.
Import ListNotations.
Open Scope nat_scope.

(** A [float]; the finite ones are rationals. *)
Inductive pyfloat : Type :=
| FFin (q : Q)
| FInf (negative : bool)
| FNan.

(** A NumPy data type: one for which [np.isnan] is defined, or another one (strings, objects,
    ...). *)
Inductive dtype : Type :=
| DNumeric (n : N)
| DOther (n : N).

#[export] Instance EqDec_dtype : EqDec dtype.
Proof.
  refine {| eqb := fun x y => match x, y with
                              | DNumeric a, DNumeric b => N.eqb a b
                              | DOther a, DOther b => N.eqb a b
                              | _, _ => false
                              end |}.
  intros [a|a] [b|b]; simpl; try (constructor; congruence).
  - destruct (N.eqb_spec a b); constructor; congruence.
  - destruct (N.eqb_spec a b); constructor; congruence.
Defined.

(** A NumPy array; the elements in C order.  Elements of a non-numeric array are represented by
    how they compare with 0. *)
Record ndarray : Type := MkArray {
  a_shape : list nat;
  a_dtype : dtype;
  a_data : list pyfloat
}.

(** The arrays that exist. *)
Definition array_wf (a : ndarray) : Prop :=
  length (a_data a) = fold_right Nat.mul 1 (a_shape a).

(** A Python value.  [PObj] is an object of any other class, NumPy scalars included. *)
Inductive pyval : Type :=
| PNone
| PBool (b : bool)
| PInt (z : Z)
| PFloat (f : pyfloat)
| PStr (s : pystr)
| PList (l : list pyval)
| PTuple (l : list pyval)
| PDict (d : list (pyval * pyval))
| PArray (a : ndarray)
| PObj (n : N).

(** The integer an [int] is; [bool] is a subclass of [int]. *)
Definition as_int (v : pyval) : option Z :=
  match v with
  | PInt z => Some z
  | PBool b => Some (if b then 1 else 0)%Z
  | _ => None
  end.

(** The number an [int] or [float] is. *)
Definition as_float (v : pyval) : option pyfloat :=
  match v with
  | PFloat f => Some f
  | _ => match as_int v with Some z => Some (FFin (inject_Z z)) | None => None end
  end.

(** [x < y] on numbers; Python compares exactly.  Comparisons with NaN are false. *)
Definition flt (x y : pyfloat) : bool :=
  match x, y with
  | FNan, _ | _, FNan => false
  | FFin p, FFin q => negb (Qle_bool q p)
  | FInf true, FInf true => false
  | FInf true, _ => true
  | _, FInf true => false
  | FInf false, _ => false
  | _, FInf false => true
  end.

(** [x == 0]; [np.isnan(x)]; [np.isinf(x)]. *)
Definition is_zero (x : pyfloat) : bool := match x with FFin q => Qeq_bool q 0 | _ => false end.
Definition is_nan (x : pyfloat) : bool := match x with FNan => true | _ => false end.
Definition is_inf (x : pyfloat) : bool := match x with FInf _ => true | _ => false end.

(** [x == y] and equal hashes, for strings and integers. *)
Definition key_eqb (x y : pyval) : bool :=
  match as_int x, as_int y with
  | Some a, Some b => (a =? b)%Z
  | None, None => match x, y with PStr s, PStr t => eqb s t | _, _ => false end
  | _, _ => false
  end.

(** [d[k]] of a dictionary, if the key is there. *)
Fixpoint pd_get (d : list (pyval * pyval)) (k : pyval) : option pyval :=
  match d with
  | [] => None
  | (k', v) :: d' => if key_eqb k k' then Some v else pd_get d' k
  end.

(** White space: [str.isspace] of one character, also what the regular expression [\s]
    matches. *)
Definition py_space (c : N) : bool :=
  ((9 <=? c) && (c <=? 13) || (28 <=? c) && (c <=? 32) || (c =? 133) || (c =? 160) ||
   (c =? 5760) || (8192 <=? c) && (c <=? 8202) || (c =? 8232) || (c =? 8233) || (c =? 8239) ||
   (c =? 8287) || (c =? 12288))%N.

Fixpoint drop_space (s : pystr) : pystr :=
  match s with
  | [] => []
  | c :: s' => if py_space c then drop_space s' else s
  end.

(** [s.strip()]. *)
Definition py_strip (s : pystr) : pystr := rev (drop_space (rev (drop_space s))).

Lemma drop_space_nil s : drop_space s = [] <-> forall c, In c s -> py_space c = true.
Proof.
  induction s as [|a s IH]; simpl; [tauto|].
  destruct (py_space a) eqn:E.
  - rewrite IH. split; intros H c; [intros [<-|Hc]; auto|auto].
  - split; [discriminate|]. intros H. rewrite (H a) in E by auto. discriminate.
Qed.

Lemma drop_space_split s : exists w, s = w ++ drop_space s /\ Forall (fun c => py_space c = true) w.
Proof.
  induction s as [|a s (w & E & F)]; [now exists []|]. simpl. destruct (py_space a) eqn:Ea.
  - exists (a :: w). simpl. split; [congruence|]. now constructor.
  - now exists [].
Qed.

Lemma py_strip_nil s : py_strip s = [] <-> forall c, In c s -> py_space c = true.
Proof.
  unfold py_strip. rewrite <- (drop_space_nil s). split.
  - intros H. apply (f_equal (@rev _)) in H. rewrite rev_involutive in H. simpl in H.
    pose proof (proj1 (drop_space_nil _) H) as H'. apply (proj2 (drop_space_nil s)). intros c Hc.
    destruct (drop_space_split s) as (w & E & F). rewrite E in Hc. apply in_app_iff in Hc as [Hc|Hc].
    + rewrite Forall_forall in F. auto.
    + apply H'. now apply -> in_rev.
  - intros ->. reflexivity.
Qed.
