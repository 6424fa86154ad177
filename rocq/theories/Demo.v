(** Concrete payloads for the examples beside the theorems: vectors are lists of integers,
    metadata are integers, of which the negative ones cannot be copied and 13 cannot be
    pickled. *)

From Coq Require Import List ZArith NArith Bool Permutation.
From Verif Require Import PyBase Payload.
Import ListNotations.

#[export] Instance demo_payload : Payload (list Z) Z := {|
  nbytes v := (4 * N.of_nat (length v))%N;
  strbytes m := 5%N;
  copyable m := (0 <=? m)%Z;
  picklable m := negb (Z.eqb m 13)
|}.

(** No letters outside ASCII. *)
#[export] Instance demo_unicode : Unicode := {| uni_alnum _ := false |}.

(** A directory order: newest file first. *)
Definition demo_order (l : list (list N)) : list (list N) := rev l.

Lemma demo_order_perm l : Permutation (demo_order l) l.
Proof. symmetry. apply Permutation_rev. Qed.
