(** C71, C87: the validators accept exactly what they describe. *)

From Coq Require Import String List Arith ZArith NArith QArith Lia Bool.
From Coq Require Import ZifyBool ZifyNat ZifyN.
From Verif Require Import PyBase PyMore PyValue ValidateModel.
Import ListNotations.
Open Scope nat_scope.

(** ** Contracts *)

(** True is returned exactly when [P] holds, and a ValidationError is raised otherwise. *)
Definition decides (r : result bool) (P : Prop) : Prop :=
  (r = Ok true /\ P) \/ (r = Raise EValidation /\ ~ P).

(** The integers among the values; True and False are 1 and 0. *)
Inductive int_value : pyval -> Z -> Prop :=
| iv_int z : int_value (PInt z) z
| iv_true : int_value (PBool true) 1
| iv_false : int_value (PBool false) 0.

(** A positive integer, at most [max_k] if that is given. *)
Definition k_contract (k : pyval) (max_k : option Z) : Prop :=
  exists z, int_value k z /\ (0 < z)%Z /\ forall m, max_k = Some m -> (z <= m)%Z.

(** An integer, or a string with a character that is not white space. *)
Definition id_contract (v : pyval) : Prop :=
  (exists z, int_value v z) \/ (exists s c, v = PStr s /\ In c s /\ py_space c = false).

(** Two ids that are equal for Python. *)
Inductive same_id : pyval -> pyval -> Prop :=
| si_int x y z : int_value x z -> int_value y z -> same_id x y
| si_str s : same_id (PStr s) (PStr s).

(** A non-empty list of ids, no two of which are equal. *)
Definition ids_contract (v : pyval) : Prop :=
  exists l, v = PList l /\ l <> [] /\ Forall id_contract l /\
            ForallOrdPairs (fun x y => ~ same_id x y) l.

Definition within (n : nat) (lo hi : option Z) : Prop :=
  (forall m, lo = Some m -> (m <= Z.of_nat n)%Z) /\ (forall m, hi = Some m -> (Z.of_nat n <= m)%Z).

Definition finite (x : pyfloat) : Prop := exists q, x = FFin q.
Definition zero (x : pyfloat) : Prop := exists q, x = FFin q /\ (q == 0)%Q.

(** A one-dimensional array of the right length and type, all elements finite, and not all zero
    unless that is allowed. *)
Definition vector_contract (v : pyval) lo hi (dt : option dtype) (allow_zero : bool) : Prop :=
  exists a n, v = PArray a /\ a_shape a = [n] /\ 0 < n /\ within n lo hi /\
    (forall d, dt = Some d -> a_dtype a = d) /\
    (allow_zero = false -> exists x, In x (a_data a) /\ ~ zero x) /\
    (forall x, In x (a_data a) -> finite x).

(** A two-dimensional array with rows and columns, likewise; no row may be all zero. *)
Definition vectors_contract (v : pyval) lo hi (dt : option dtype) (allow_zero : bool) : Prop :=
  exists a n d, v = PArray a /\ a_shape a = [n; d] /\ 0 < n /\ 0 < d /\ within d lo hi /\
    (forall t, dt = Some t -> a_dtype a = t) /\
    (allow_zero = false -> forall i, i < n -> exists j x,
       j < d /\ nth_error (a_data a) (i * d + j) = Some x /\ ~ zero x) /\
    (forall x, In x (a_data a) -> finite x).

(** A value of which every array has a type [np.isnan] knows and as many elements as its shape
    says. *)
Definition numeric (v : pyval) : Prop :=
  forall a, v = PArray a -> array_wf a /\ exists n, a_dtype a = DNumeric n.

(** One of the seven names. *)
Definition metric_contract (v : pyval) : Prop :=
  v = PStr (py "cosine") \/ v = PStr (py "euclidean") \/ v = PStr (py "dot_product") \/
  v = PStr (py "manhattan") \/ v = PStr (py "chebyshev") \/ v = PStr (py "hamming") \/
  v = PStr (py "jaccard").

(** What Python's json module writes. *)
Inductive json_value : pyval -> Prop :=
| jv_none : json_value PNone
| jv_bool b : json_value (PBool b)
| jv_int z : json_value (PInt z)
| jv_float f : json_value (PFloat f)
| jv_str s : json_value (PStr s)
| jv_list l : (forall x, In x l -> json_value x) -> json_value (PList l)
| jv_tuple l : (forall x, In x l -> json_value x) -> json_value (PTuple l)
| jv_dict d : (forall k v, In (k, v) d -> json_scalar k /\ json_value v) -> json_value (PDict d)
with json_scalar : pyval -> Prop :=
| js_none : json_scalar PNone
| js_bool b : json_scalar (PBool b)
| js_int z : json_scalar (PInt z)
| js_float f : json_scalar (PFloat f)
| js_str s : json_scalar (PStr s).

(** None, or a dictionary with string keys and values that json can write. *)
Definition metadata_contract (v : pyval) : Prop :=
  v = PNone \/
  exists d, v = PDict d /\ forall k x, In (k, x) d -> (exists s, k = PStr s) /\ json_value x.

(** ** Lemmas *)

Lemma refuse_decides b r P Q : (b = true -> ~ P) -> (b = false -> (P <-> Q) /\ decides r Q) ->
  decides (refuse b r) P.
Proof.
  intros H1 H2. unfold refuse. destruct b; [right; auto|].
  destruct (H2 eq_refl) as [E [[D1 D2]|[D1 D2]]]; [left|right]; split; auto; tauto.
Qed.

Lemma as_int_spec v z : as_int v = Some z <-> int_value v z.
Proof.
  split.
  - destruct v as [|[]| | | | | | | |]; simpl; intros [= <-]; constructor.
  - intros []; reflexivity.
Qed.

Lemma int_value_fun v z z' : int_value v z -> int_value v z' -> z = z'.
Proof. rewrite <- !as_int_spec. congruence. Qed.

Theorem C71_validate_k k max_k : decides (validate_k k max_k) (k_contract k max_k).
Proof.
  unfold validate_k. destruct (as_int k) as [z|] eqn:E.
  - apply as_int_spec in E. unfold refuse, decides, k_contract.
    destruct (Z.leb_spec z 0).
    + right. split; [reflexivity|]. intros (z' & Hz & Hp & _). rewrite (int_value_fun _ _ _ E Hz) in H. lia.
    + destruct max_k as [m|].
      * destruct (Z.ltb_spec m z).
        -- right. split; [reflexivity|]. intros (z' & Hz & _ & Hm). specialize (Hm m eq_refl).
           rewrite (int_value_fun _ _ _ E Hz) in H0. lia.
        -- left. split; auto. exists z. split; [auto|]. split; [auto|]. intros m' [= <-]. lia.
      * left. split; auto. exists z. split; [auto|]. split; [auto|]. discriminate.
  - right. split; [reflexivity|]. intros (z & Hz & _). apply as_int_spec in Hz. congruence.
Qed.

Theorem C71_validate_id v : decides (validate_id v) (id_contract v).
Proof.
  assert (G : forall w, match w with PStr _ => False | _ => True end ->
    decides (match as_int w with Some _ => Ok true | None => Raise EValidation end) (id_contract w)).
  { intros w Hw. destruct (as_int w) as [z|] eqn:E.
    - left. split; auto. left. exists z. now apply as_int_spec.
    - right. split; [reflexivity|]. intros [[z Hz]|(s & c & -> & _)]; [|exact Hw].
      apply as_int_spec in Hz. congruence. }
  destruct v as [| | | |s| | | | |]; try (apply G; exact I).
  unfold validate_id, refuse. destruct (Nat.eqb_spec (length (py_strip s)) 0) as [E|E].
  - right. split; auto. apply length_zero_iff_nil in E. pose proof (proj1 (py_strip_nil s) E) as E'.
    intros [[z Hz]|(s' & c & [= <-] & Hc & Hs)]; [inversion Hz|]. rewrite (E' c Hc) in Hs. discriminate.
  - left. split; auto. right. destruct (existsb (fun c => negb (py_space c)) s) eqn:Ex.
    + apply existsb_exists in Ex as (c & Hc & Hs). exists s, c. split; auto. split; auto.
      now apply negb_true_iff.
    + destruct E. apply length_zero_iff_nil. apply (proj2 (py_strip_nil s)). intros c Hc.
      destruct (py_space c) eqn:Ec; auto. assert (Hx : existsb (fun c => negb (py_space c)) s = true).
      { apply existsb_exists. exists c. now rewrite Ec. } congruence.
Qed.

Lemma check_ids_spec l : (check_ids l = Ok tt /\ Forall id_contract l) \/
  (check_ids l = Raise EValidation /\ ~ Forall id_contract l).
Proof.
  induction l as [|x l IH]; simpl; [left; auto|].
  destruct (C71_validate_id x) as [[-> Hx]|[-> Hx]].
  - destruct IH as [[-> H]|[-> H]]; [left; split; auto|right; split; auto].
    intros HF. now inversion HF.
  - right. split; [reflexivity|]. intros HF. now inversion HF.
Qed.

Lemma key_eqb_spec x y : id_contract x -> id_contract y -> (key_eqb x y = true <-> same_id x y).
Proof.
  intros Hx Hy. unfold key_eqb. split.
  - destruct (as_int x) as [a|] eqn:Ea, (as_int y) as [b|] eqn:Eb; try discriminate.
    + intros E. apply Z.eqb_eq in E. subst. apply as_int_spec in Ea, Eb. now apply si_int with b.
    + destruct x; try discriminate; destruct y; try discriminate. intros E.
      apply (proj1 (eqb_eq _ _)) in E. subst. constructor.
  - intros [x' y' z H1 H2|s].
    + apply as_int_spec in H1, H2. rewrite H1, H2. apply Z.eqb_refl.
    + simpl. apply eqb_refl.
Qed.

Lemma py_set_In x l : In x (py_set l) -> In x l.
Proof.
  induction l as [|a l IH]; simpl; auto. intros [->|H]; auto.
  apply filter_In in H as [H _]. auto.
Qed.

Lemma filter_le {A} (f : A -> bool) l : length (filter f l) <= length l.
Proof. induction l as [|a l IH]; simpl; auto. destruct (f a); simpl; lia. Qed.

Lemma py_set_le l : length (py_set l) <= length l.
Proof. induction l as [|a l IH]; simpl; auto. pose proof (filter_le (fun y => negb (key_eqb a y)) (py_set l)). lia. Qed.

Lemma filter_full {A} (f : A -> bool) l : length (filter f l) = length l -> forall x, In x l -> f x = true.
Proof.
  induction l as [|a l IH]; simpl; [contradiction|]. destruct (f a) eqn:E; simpl; intros H x Hx.
  - destruct Hx as [<-|Hx]; auto.
  - pose proof (filter_le f l). lia.
Qed.

Lemma filter_none {A} (f : A -> bool) l : (forall x, In x l -> f x = true) -> filter f l = l.
Proof.
  induction l as [|a l IH]; simpl; auto. intros H. rewrite (H a) by auto. f_equal. apply IH. auto.
Qed.

Lemma py_set_same l : length (py_set l) = length l -> py_set l = l.
Proof.
  induction l as [|a l IH]; simpl; auto. intros H.
  pose proof (filter_le (fun y => negb (key_eqb a y)) (py_set l)) as H1. pose proof (py_set_le l) as H2.
  assert (E : py_set l = l) by (apply IH; lia). rewrite E in *. f_equal.
  apply filter_none. apply filter_full. lia.
Qed.

Lemma py_set_nodup l : Forall id_contract l ->
  (length (py_set l) = length l <-> ForallOrdPairs (fun x y => ~ same_id x y) l).
Proof.
  induction l as [|a l IH]; intros HF; [split; [constructor|reflexivity]|].
  inversion HF as [|? ? Ha HF']; subst. rewrite Forall_forall in HF'. split.
  - intros H. pose proof (py_set_same _ H) as E. simpl in E. injection E as E.
    assert (EL : length (py_set l) = length l).
    { pose proof (py_set_le l). pose proof (filter_le (fun y => negb (key_eqb a y)) (py_set l)).
      rewrite E in H1. lia. }
    constructor.
    + rewrite Forall_forall. intros x Hx Hs. apply key_eqb_spec in Hs; auto.
      rewrite (py_set_same _ EL) in E. rewrite <- E in Hx. apply filter_In in Hx as [_ Hx].
      rewrite Hs in Hx. discriminate.
    + apply IH; auto. now rewrite Forall_forall.
  - intros H. inversion H as [|? ? H1 H2]; subst. rewrite Forall_forall in H1.
    assert (EL : length (py_set l) = length l) by (apply IH; auto; now rewrite Forall_forall).
    simpl. rewrite (py_set_same _ EL). f_equal. rewrite filter_none; auto.
    intros x Hx. apply negb_true_iff. destruct (key_eqb a x) eqn:E; auto.
    apply key_eqb_spec in E; auto. destruct (H1 x Hx E).
Qed.

Theorem C71_validate_ids v : decides (validate_ids v) (ids_contract v).
Proof.
  destruct v as [| | | | |l| | | |]; try (right; split; [reflexivity|]; intros (l' & E & _); discriminate).
  unfold validate_ids, refuse. destruct (Nat.eqb_spec (length l) 0) as [E|E].
  - right. split; [reflexivity|]. intros (l' & [= <-] & H & _). destruct l; [auto|discriminate].
  - destruct (check_ids_spec l) as [[-> HF]|[-> HF]]; simpl.
    + pose proof (py_set_nodup l HF) as HN. destruct (Nat.eqb_spec (length l) (length (py_set l))) as [E'|E'].
      * left. split; auto. exists l. split; auto. split; [intros ->; auto|]. split; auto. apply HN. auto.
      * right. split; [reflexivity|]. intros (l' & [= <-] & _ & _ & H). apply HN in H. auto.
    + right. split; [reflexivity|]. intros (l' & [= <-] & _ & H & _). auto.
Qed.

Theorem C71_validate_metric v : decides (validate_metric v) (metric_contract v).
Proof.
  destruct v as [| | | |s| | | | |];
    try (right; split; [reflexivity|]; unfold metric_contract; intuition discriminate).
  unfold validate_metric, refuse. destruct (memb s valid_metrics) eqn:E; simpl.
  - left. split; auto. apply memb_In in E. unfold valid_metrics in E. unfold metric_contract.
    destruct E as [<-|[<-|[<-|[<-|[<-|[<-|[<-|[]]]]]]]]; tauto.
  - right. split; [reflexivity|]. intros H.
    assert (Hin : In s valid_metrics).
    { unfold valid_metrics. destruct H as [H|[H|[H|[H|[H|[H|H]]]]]]; injection H as ->.
      - now left.
      - right; now left.
      - right; right; now left.
      - do 3 right; now left.
      - do 4 right; now left.
      - do 5 right; now left.
      - do 6 right; now left. }
    apply memb_In in Hin. congruence.
Qed.

(** Induction on values that knows about nested ones. *)
Fixpoint pyval_size (v : pyval) : nat :=
  match v with
  | PList l | PTuple l => S (fold_right (fun x n => pyval_size x + n) 0 l)
  | PDict d => S (fold_right (fun kv n => pyval_size (snd kv) + n) 0 d)
  | _ => 0
  end.

Lemma size_In x l : In x l -> pyval_size x <= fold_right (fun x n => pyval_size x + n) 0 l.
Proof. induction l as [|a l IH]; simpl; [contradiction|]. intros [->|H]; [lia|]. specialize (IH H). lia. Qed.

Lemma size_In_dict k v d : In (k, v) d -> pyval_size v <= fold_right (fun (kv : pyval * pyval) n => pyval_size (snd kv) + n) 0 d.
Proof. induction d as [|a d IH]; simpl; [contradiction|]. intros [->|H]; [simpl; lia|]. specialize (IH H). lia. Qed.

Lemma json_key_spec k : json_key k = true <-> json_scalar k.
Proof. split; [destruct k; simpl; try discriminate; constructor|intros []; reflexivity]. Qed.

Lemma json_ok_spec v : json_ok v = true <-> json_value v.
Proof.
  remember (pyval_size v) as n. assert (Hn : pyval_size v <= n) by lia. clear Heqn. revert v Hn.
  induction n as [n IH] using lt_wf_ind. intros v Hn.
  assert (HL : forall l, S (fold_right (fun x n => pyval_size x + n) 0 l) <= n ->
            (forallb json_ok l = true <-> forall x, In x l -> json_value x)).
  { intros l Hl. rewrite forallb_forall. split; intros H x Hx; pose proof (size_In x l Hx).
    - apply (IH (pyval_size x)); auto. lia.
    - apply (IH (pyval_size x)); auto. lia. }
  destruct v as [|b|z|f|s|l|l|d|a|m]; simpl in *; try (split; [constructor|reflexivity]).
  - rewrite HL by auto. split; [apply jv_list|now inversion 1].
  - rewrite HL by auto. split; [apply jv_tuple|now inversion 1].
  - rewrite forallb_forall. split.
    + intros H. constructor. intros k v Hkv. pose proof (size_In_dict k v d Hkv).
      specialize (H _ Hkv). simpl in H. apply andb_true_iff in H as [H1 H2].
      split; [now apply json_key_spec|]. apply (IH (pyval_size v)); auto. lia.
    + intros H [k v] Hkv. inversion H as [| | | | | | |d' Hd]; subst. destruct (Hd k v Hkv) as [H1 H2].
      pose proof (size_In_dict k v d Hkv). simpl. apply andb_true_iff.
      split; [now apply json_key_spec|]. apply (IH (pyval_size v)); auto. lia.
  - split; [discriminate|inversion 1].
  - split; [discriminate|inversion 1].
Qed.

Lemma check_items_spec d :
  (check_items d = Ok tt /\ forall k x, In (k, x) d -> (exists s, k = PStr s) /\ json_value x) \/
  (check_items d = Raise EValidation /\
   ~ forall k x, In (k, x) d -> (exists s, k = PStr s) /\ json_value x).
Proof.
  induction d as [|[k v] d IH]; simpl; [left; split; auto; contradiction|].
  assert (HB : ~ ((exists s, k = PStr s) /\ json_value v) ->
    ~ forall k0 x, (k, v) = (k0, x) \/ In (k0, x) d -> (exists s, k0 = PStr s) /\ json_value x).
  { intros Hn HA. apply Hn. apply HA. now left. }
  destruct k; try (right; split; [reflexivity|]; apply HB; intros [[s' E] _]; discriminate).
  unfold refuse. destruct (json_ok v) eqn:E; simpl.
  - apply json_ok_spec in E. destruct IH as [[-> H]|[-> H]].
    + left. split; auto. intros k x [[= <- <-]|Hk]; eauto.
    + right. split; [reflexivity|]. intros HA. apply H. intros k x Hk. apply HA. now right.
  - right. split; [reflexivity|]. apply HB. intros [_ Hj]. apply json_ok_spec in Hj. congruence.
Qed.

Theorem C71_validate_metadata v : decides (validate_metadata v) (metadata_contract v).
Proof.
  destruct v as [| | | | | | |d| |];
    try (right; split; [reflexivity|]; intros [E|(d & E & _)]; discriminate).
  - left. split; auto. now left.
  - unfold validate_metadata. destruct (check_items_spec d) as [[-> H]|[-> H]]; simpl.
    + left. split; auto. right. eauto.
    + right. split; [reflexivity|]. intros [E|(d' & [= <-] & H')]; [discriminate|auto].
Qed.

(** ** Vectors *)

Lemma is_zero_spec x : is_zero x = true <-> zero x.
Proof.
  unfold zero. destruct x as [q| |]; simpl.
  - rewrite Qeq_bool_iff. split; [intros; now exists q|intros (q' & [= <-] & E); auto].
  - split; [discriminate|intros (q & E & _); discriminate].
  - split; [discriminate|intros (q & E & _); discriminate].
Qed.

Lemma not_finite_spec l : existsb is_nan l || existsb is_inf l = false <-> forall x, In x l -> finite x.
Proof.
  rewrite orb_false_iff. split.
  - intros [H1 H2] x Hx. destruct x as [q|b|]; [now exists q| |].
    + assert (existsb is_inf l = true) by (apply existsb_exists; exists (FInf b); auto). congruence.
    + assert (existsb is_nan l = true) by (apply existsb_exists; exists FNan; auto). congruence.
  - intros H. split.
    + destruct (existsb is_nan l) eqn:E; auto. apply existsb_exists in E as (x & Hx & Hn).
      destruct (H x Hx) as [q ->]. discriminate.
    + destruct (existsb is_inf l) eqn:E; auto. apply existsb_exists in E as (x & Hx & Hn).
      destruct (H x Hx) as [q ->]. discriminate.
Qed.

Lemma bounds_spec n lo hi : below n lo = false /\ above n hi = false <-> within n lo hi.
Proof.
  unfold below, above, within. destruct lo as [a|], hi as [b|]; split; intros [H1 H2]; split; auto;
    try (intros m [= <-]); try discriminate;
    try (specialize (H1 _ eq_refl)); try (specialize (H2 _ eq_refl)); lia.
Qed.

Lemma dtype_spec a dt : wrong_dtype a dt = false <-> (forall d, dt = Some d -> a_dtype a = d).
Proof.
  unfold wrong_dtype. destruct dt as [d|]; [|split; [discriminate|auto]].
  rewrite negb_false_iff. split.
  - intros E d' [= <-]. now apply (proj1 (eqb_eq _ _)).
  - intros H. rewrite (H d eq_refl). apply eqb_refl.
Qed.

Lemma not_all_zero l : forallb is_zero l = false <-> exists x, In x l /\ ~ zero x.
Proof.
  split.
  - induction l as [|a l IH]; simpl; [discriminate|]. destruct (is_zero a) eqn:E; simpl.
    + intros H. destruct (IH H) as (x & Hx & Hz). eauto.
    + intros _. exists a. split; auto. intros Hz. apply is_zero_spec in Hz. congruence.
  - intros (x & Hx & Hz). destruct (forallb is_zero l) eqn:E; auto.
    rewrite forallb_forall in E. destruct Hz. apply is_zero_spec. auto.
Qed.

(** Exact for arrays of a numeric type; for others see [C71_vector_types_refuted]. *)
Theorem C71_validate_vector_partial v lo hi dt z : numeric v ->
  decides (validate_vector v lo hi dt z) (vector_contract v lo hi dt z).
Proof.
  intros HN. destruct v as [| | | | | | | |a|];
    try (right; split; [reflexivity|]; intros (a' & n' & E & _); discriminate).
  destruct (HN a eq_refl) as [_ [k Hk]]. unfold validate_vector.
  destruct (a_shape a) as [|n [|m sh]] eqn:Hs;
    try (right; split; [reflexivity|]; intros (a' & n' & [= <-] & E & _); congruence).
  assert (G : decides
    (refuse (n =? 0) (refuse (below n lo) (refuse (above n hi) (refuse (wrong_dtype a dt)
      (refuse (negb z && forallb is_zero (a_data a)) (rbind (not_finite a) (fun b => refuse b (Ok true))))))))
    (n <> 0 /\ below n lo = false /\ above n hi = false /\ wrong_dtype a dt = false /\
     negb z && forallb is_zero (a_data a) = false /\
     existsb is_nan (a_data a) || existsb is_inf (a_data a) = false)).
  { unfold not_finite. rewrite Hk. unfold refuse, decides.
    destruct (Nat.eqb_spec n 0); [right; split; [auto|tauto]|].
    destruct (below n lo); [right; split; [auto|intros H; decompose [and] H; discriminate]|].
    destruct (above n hi); [right; split; [auto|intros H; decompose [and] H; discriminate]|].
    destruct (wrong_dtype a dt); [right; split; [auto|intros H; decompose [and] H; discriminate]|].
    destruct (negb z && forallb is_zero (a_data a)); [right; split; [auto|intros H; decompose [and] H; discriminate]|].
    cbn [rbind]. destruct (existsb is_nan (a_data a) || existsb is_inf (a_data a));
      [right; split; [auto|intros H; decompose [and] H; discriminate]|].
    left. repeat (split; auto). }
  assert (E : vector_contract (PArray a) lo hi dt z <->
    (n <> 0 /\ below n lo = false /\ above n hi = false /\ wrong_dtype a dt = false /\
     negb z && forallb is_zero (a_data a) = false /\
     existsb is_nan (a_data a) || existsb is_inf (a_data a) = false)).
  { rewrite not_finite_spec, dtype_spec. split.
    - intros (a' & n' & [= <-] & Hs' & Hp & Hw & Hd & Hz & Hf). rewrite Hs in Hs'. injection Hs' as <-.
      apply bounds_spec in Hw as [Hw1 Hw2]. split; [lia|]. split; [auto|]. split; [auto|]. split; [auto|]. split; auto.
      destruct z; auto. simpl. apply not_all_zero. auto.
    - intros (Hp & Hw1 & Hw2 & Hd & Hz & Hf). exists a, n. split; auto. split; auto. split; [lia|].
      split; [apply bounds_spec; auto|]. split; auto. split; auto.
      intros ->. apply not_all_zero. exact Hz. }
  unfold decides in *. tauto.
Qed.

Lemma chunk_nth {A} n d (l : list A) : length l = n * d -> forall i r, nth_error (chunk n d l) i = Some r ->
  i < n /\ forall j, j < d -> nth_error r j = nth_error l (i * d + j).
Proof.
  revert l. induction n as [|n IH]; intros l Hl i r; [now destruct i|].
  destruct i as [|i]; simpl.
  - intros [= <-]. split; [lia|]. intros j Hj. rewrite <- (firstn_skipn d l) at 2.
    rewrite nth_error_app1; auto. rewrite firstn_length. simpl in Hl. lia.
  - intros E. destruct (IH (skipn d l)) with (i := i) (r := r) as [H1 H2]; auto.
    { rewrite skipn_length. simpl in Hl. lia. }
    split; [lia|]. intros j Hj. rewrite H2 by auto. rewrite <- (firstn_skipn d l) at 2.
    rewrite nth_error_app2; rewrite firstn_length; simpl in Hl; [|lia]. f_equal. lia.
Qed.

Lemma chunk_length {A} n d (l : list A) : length (chunk n d l) = n.
Proof. revert l. induction n as [|n IH]; intros l; simpl; auto. Qed.

Lemma chunk_rows {A} n d (l : list A) r : length l = n * d -> In r (chunk n d l) -> length r = d.
Proof.
  revert l. induction n as [|n IH]; intros l Hl; [contradiction|]. intros [<-|H].
  - rewrite firstn_length. simpl in Hl. lia.
  - apply (IH (skipn d l)); auto. rewrite skipn_length. simpl in Hl. lia.
Qed.

Lemma no_zero_row n d l : length l = n * d ->
  (existsb (forallb is_zero) (chunk n d l) = false <->
   forall i, i < n -> exists j x, j < d /\ nth_error l (i * d + j) = Some x /\ ~ zero x).
Proof.
  intros Hl. split.
  - intros H i Hi. destruct (nth_error (chunk n d l) i) as [r|] eqn:E.
    2:{ apply nth_error_None in E. rewrite chunk_length in E. lia. }
    destruct (chunk_nth n d l Hl i r E) as [_ HN].
    assert (Hr : forallb is_zero r = false).
    { destruct (forallb is_zero r) eqn:Ez; auto. rewrite <- H. symmetry. apply existsb_exists.
      exists r. split; auto. eapply nth_error_In; eauto. }
    apply not_all_zero in Hr as (x & Hx & Hz). apply In_nth_error in Hx as [j Hj].
    assert (Hjd : j < d). { rewrite <- (chunk_rows n d l r Hl) by (eapply nth_error_In; eauto).
      apply nth_error_Some. congruence. }
    exists j, x. rewrite <- HN by auto. auto.
  - intros H. destruct (existsb _ _) eqn:E; auto. apply existsb_exists in E as (r & Hr & Hz).
    apply In_nth_error in Hr as [i Hi]. destruct (chunk_nth n d l Hl i r Hi) as [Hin HN].
    destruct (H i Hin) as (j & x & Hj & Hx & Hx0). destruct Hx0. apply is_zero_spec.
    rewrite forallb_forall in Hz. apply Hz. apply nth_error_In with j. now rewrite HN.
Qed.

Theorem C71_validate_vectors_partial v lo hi dt z : numeric v ->
  decides (validate_vectors v lo hi dt z) (vectors_contract v lo hi dt z).
Proof.
  intros HN. destruct v as [| | | | | | | |a|];
    try (right; split; [reflexivity|]; intros (a' & n' & d' & E & _); discriminate).
  destruct (HN a eq_refl) as [Hwf [k Hk]]. unfold validate_vectors. unfold array_wf in Hwf.
  destruct (a_shape a) as [|n [|d [|m sh]]] eqn:Hs;
    try (right; split; [reflexivity|]; intros (a' & n' & d' & [= <-] & E & _); congruence).
  assert (Hl : length (a_data a) = n * d) by (rewrite Hwf; simpl; lia).
  assert (G : decides
    (refuse (n =? 0) (refuse (d =? 0) (refuse (below d lo) (refuse (above d hi) (refuse (wrong_dtype a dt)
      (refuse (negb z && existsb (forallb is_zero) (chunk n d (a_data a)))
        (rbind (not_finite a) (fun b => refuse b (Ok true)))))))))
    (n <> 0 /\ d <> 0 /\ below d lo = false /\ above d hi = false /\ wrong_dtype a dt = false /\
     negb z && existsb (forallb is_zero) (chunk n d (a_data a)) = false /\
     existsb is_nan (a_data a) || existsb is_inf (a_data a) = false)).
  { unfold not_finite. rewrite Hk. unfold refuse, decides.
    destruct (Nat.eqb_spec n 0); [right; split; [auto|tauto]|].
    destruct (Nat.eqb_spec d 0); [right; split; [auto|tauto]|].
    destruct (below d lo); [right; split; [auto|intros H; decompose [and] H; discriminate]|].
    destruct (above d hi); [right; split; [auto|intros H; decompose [and] H; discriminate]|].
    destruct (wrong_dtype a dt); [right; split; [auto|intros H; decompose [and] H; discriminate]|].
    destruct (negb z && existsb _ _); [right; split; [auto|intros H; decompose [and] H; discriminate]|].
    cbn [rbind]. destruct (existsb is_nan (a_data a) || existsb is_inf (a_data a));
      [right; split; [auto|intros H; decompose [and] H; discriminate]|].
    left. repeat (split; auto). }
  assert (E : vectors_contract (PArray a) lo hi dt z <->
    (n <> 0 /\ d <> 0 /\ below d lo = false /\ above d hi = false /\ wrong_dtype a dt = false /\
     negb z && existsb (forallb is_zero) (chunk n d (a_data a)) = false /\
     existsb is_nan (a_data a) || existsb is_inf (a_data a) = false)).
  { rewrite not_finite_spec, dtype_spec. split.
    - intros (a' & n' & d' & [= <-] & Hs' & Hp & Hp' & Hw & Hd & Hz & Hf). rewrite Hs in Hs'. injection Hs' as <- <-.
      apply bounds_spec in Hw as [Hw1 Hw2]. split; [lia|]. split; [lia|]. split; [auto|]. split; [auto|].
      split; [auto|]. split; auto. destruct z; auto. simpl. apply no_zero_row; auto.
    - intros (Hp & Hp' & Hw1 & Hw2 & Hd & Hz & Hf). exists a, n, d. split; auto. split; auto. split; [lia|]. split; [lia|].
      split; [apply bounds_spec; auto|]. split; auto. split; auto.
      intros ->. apply no_zero_row; auto. }
  unfold decides in *. tauto.
Qed.

(** An array of strings: the failure is a TypeError, not a validation error. *)
Theorem C71_vector_types_refuted :
  exists a, array_wf a /\ validate_vector (PArray a) None None None true = Raise EType /\
    exists b, array_wf b /\ validate_vectors (PArray b) None None None true = Raise EType.
Proof.
  exists (MkArray [1] (DOther 0) [FNan]). split; [reflexivity|]. split; [reflexivity|].
  exists (MkArray [1; 1] (DOther 0) [FNan]). split; reflexivity.
Qed.

(** ** C87: configurations *)

(** [k] is a key of the dictionary and [v] what it stands for.  Keys of a dictionary are
    pairwise different. *)
Definition entry (d : list (pyval * pyval)) (k : pystr) (v : pyval) : Prop := In (PStr k, v) d.
Definition dict_wf (d : list (pyval * pyval)) : Prop := NoDup (map fst d).

(** Numbers in exact order; NaN is in no range. *)
Inductive fle : pyfloat -> pyfloat -> Prop :=
| fle_fin p q : (p <= q)%Q -> fle (FFin p) (FFin q)
| fle_ninf x : x <> FNan -> fle (FInf true) x
| fle_pinf x : x <> FNan -> fle x (FInf false).

Definition is_number (v : pyval) (x : pyfloat) : Prop :=
  v = PFloat x \/ exists z, int_value v z /\ x = FFin (inject_Z z).

(** The classes of the values; [bool] is a subclass of [int]. *)
Inductive has_type : pyval -> pytype -> Prop :=
| ht_none : has_type PNone TNone
| ht_bool b : has_type (PBool b) TBool
| ht_int v z : int_value v z -> has_type v TInt
| ht_float x : has_type (PFloat x) TFloat
| ht_str s : has_type (PStr s) TStr
| ht_list l : has_type (PList l) TList
| ht_tuple l : has_type (PTuple l) TTuple
| ht_dict d : has_type (PDict d) TDict
| ht_array a : has_type (PArray a) TArray.

Definition config_contract (v : pyval) required allowed types (ranges : list (pystr * (pyval * pyval))) : Prop :=
  exists d, v = PDict d /\
    (forall k, In k required -> exists x, entry d k x) /\
    (forall ks, allowed = Some ks -> forall k x, In (k, x) d -> exists s, k = PStr s /\ In s ks) /\
    (forall k ts x, In (k, ts) types -> entry d k x -> exists t, In t ts /\ has_type x t) /\
    (forall k lo hi x n l h, In (k, (lo, hi)) ranges -> entry d k x -> is_number x n ->
       is_number lo l -> is_number hi h -> fle l n /\ fle n h).

(** Bounds given as numbers. *)
Definition ranges_ok (ranges : list (pystr * (pyval * pyval))) : Prop :=
  forall k lo hi, In (k, (lo, hi)) ranges -> exists l h, is_number lo l /\ is_number hi h /\ l <> FNan /\ h <> FNan.

(** No value is the float NaN. *)
Definition no_nan (v : pyval) : Prop := forall d k, v = PDict d -> ~ In (k, PFloat FNan) d.

Lemma as_float_spec v x : as_float v = Some x <-> is_number v x.
Proof.
  unfold is_number. split.
  - unfold as_float. destruct v; try (intros [= <-]; now left);
      match goal with |- match as_int ?u with _ => _ end = _ -> _ => destruct (as_int u) as [z0|] eqn:E end;
      try discriminate; intros [= <-]; right; exists z0; split; auto; now apply as_int_spec.
  - intros [->|(z & Hz & ->)]; [reflexivity|]. destruct Hz; reflexivity.
Qed.

Lemma isinstance_spec v t : isinstance v t = true <-> has_type v t.
Proof.
  split.
  - destruct v as [|b|z|x|w|l|l|d|a|o], t; simpl; try discriminate; intros _.
    + exact ht_none.
    + apply ht_bool.
    + apply (ht_int _ (if b then 1 else 0)%Z). destruct b; constructor.
    + apply (ht_int _ z). constructor.
    + apply ht_float.
    + apply ht_str.
    + apply ht_list.
    + apply ht_tuple.
    + apply ht_dict.
    + apply ht_array.
  - intros H. destruct H as [| | v z H| | | | | |]; try reflexivity. destruct H; reflexivity.
Qed.

Lemma key_eqb_str k v : key_eqb (PStr k) v = true <-> v = PStr k.
Proof.
  unfold key_eqb. simpl. destruct (as_int v) eqn:E.
  - split; [discriminate|]. intros ->. discriminate.
  - destruct v; try (split; discriminate).
    split; [intros H; apply (proj1 (eqb_eq _ _)) in H; congruence|intros [= ->]; apply eqb_refl].
Qed.

Lemma key_eqb_str_r k v : key_eqb v (PStr k) = true <-> v = PStr k.
Proof.
  unfold key_eqb. simpl. destruct (as_int v) eqn:E.
  - split; [discriminate|]. intros ->. discriminate.
  - destruct v; try (split; discriminate).
    split; [intros H; apply (proj1 (eqb_eq _ _)) in H; congruence|intros [= ->]; apply eqb_refl].
Qed.

Lemma pd_get_spec d k : dict_wf d -> forall v, pd_get d (PStr k) = Some v <-> entry d k v.
Proof.
  unfold entry, dict_wf. induction d as [|[k' v'] d IH]; simpl; intros HN v; [split; [discriminate|contradiction]|].
  inversion HN as [|? ? H1 H2]; subst. destruct (key_eqb (PStr k) k') eqn:E.
  - apply key_eqb_str in E. subst. split; [intros [= <-]; auto|].
    intros [[= <-]|H]; auto. destruct H1. apply in_map_iff. now exists (PStr k, v).
  - rewrite IH by auto. split; auto. intros [[= -> ->]|H]; auto.
    rewrite (proj2 (key_eqb_str k (PStr k)) eq_refl) in E. discriminate.
Qed.

Lemma pd_get_none d k : dict_wf d -> pd_get d (PStr k) = None -> forall v, ~ entry d k v.
Proof. intros HW E v Hv. apply pd_get_spec in Hv; auto. congruence. Qed.

Lemma check_types_spec d ts : dict_wf d ->
  (check_types d ts = Ok tt /\
   forall k tys x, In (k, tys) ts -> entry d k x -> exists t, In t tys /\ has_type x t) \/
  (check_types d ts = Raise EValidation /\
   ~ forall k tys x, In (k, tys) ts -> entry d k x -> exists t, In t tys /\ has_type x t).
Proof.
  intros HW. induction ts as [|[k tys] ts IH]; simpl; [left; split; auto; contradiction|].
  destruct (pd_get d (PStr k)) as [v|] eqn:E.
  - apply pd_get_spec in E as E'; auto. unfold refuse. destruct (existsb (isinstance v) tys) eqn:Ex; simpl.
    + destruct IH as [[-> H]|[-> H]].
      * left. split; auto. intros k0 tys0 x [[= <- <-]|Hin] He; [|eauto].
        apply pd_get_spec in He; auto. rewrite E in He. injection He as <-. apply existsb_exists in Ex as (t & Ht & Hi).
        exists t. split; [auto|now apply isinstance_spec].
      * right. split; [reflexivity|]. intros HA. apply H. intros k0 tys0 x Hin. apply HA. now right.
    + right. split; [reflexivity|]. intros HA. destruct (HA k tys v (or_introl eq_refl) E') as (t & Ht & Hi).
      apply isinstance_spec in Hi.
      assert (existsb (isinstance v) tys = true) by (apply existsb_exists; eauto). congruence.
  - pose proof (pd_get_none d k HW E) as HE. destruct IH as [[-> H]|[-> H]].
    + left. split; auto. intros k0 tys0 x [[= <- <-]|Hin] He; [destruct (HE _ He)|eauto].
    + right. split; [reflexivity|]. intros HA. apply H. intros k0 tys0 x Hin. apply HA. now right.
Qed.

Lemma flt_fle x y : x <> FNan -> y <> FNan -> (flt x y = false <-> fle y x).
Proof.
  intros Hx Hy. destruct x as [p|[]|], y as [q|[]|]; simpl; try congruence;
    try (split; [discriminate|inversion 1; congruence]); try (split; [intros _; constructor; congruence|reflexivity]).
  rewrite negb_false_iff, Qle_bool_iff. split; [now constructor|inversion 1; auto].
Qed.

Lemma number_fun v x y : is_number v x -> is_number v y -> x = y.
Proof. rewrite <- !as_float_spec. congruence. Qed.

Definition in_ranges d (rs : list (pystr * (pyval * pyval))) : Prop :=
  forall k lo hi x n l h, In (k, (lo, hi)) rs -> entry d k x -> is_number x n ->
    is_number lo l -> is_number hi h -> fle l n /\ fle n h.

Lemma check_ranges_spec d rs : dict_wf d -> ranges_ok rs -> (forall k, ~ In (k, PFloat FNan) d) ->
  (check_ranges d rs = Ok tt /\ in_ranges d rs) \/
  (check_ranges d rs = Raise EValidation /\ ~ in_ranges d rs).
Proof.
  intros HW HR HN. induction rs as [|[k [lo hi]] rs IH]; simpl; [left; split; auto; intros ? ? ? ? ? ? ? []|].
  assert (HR' : ranges_ok rs) by (intros k0 l0 h0 H; apply (HR k0); now right).
  specialize (IH HR').
  assert (HT : (forall x n l h, entry d k x -> is_number x n -> is_number lo l -> is_number hi h -> fle l n /\ fle n h) ->
     in_ranges d rs -> in_ranges d ((k, (lo, hi)) :: rs)).
  { intros H1 H2 k0 l0 h0 x n l h [[= <- <- <-]|Hin]; [apply H1|now apply (H2 k0 l0 h0)]. }
  assert (HT' : ~ in_ranges d rs -> ~ in_ranges d ((k, (lo, hi)) :: rs)).
  { intros Hn HA. apply Hn. intros k0 l0 h0 x n l h Hin. apply (HA k0 l0 h0). now right. }
  assert (HS : (forall x n, entry d k x -> is_number x n -> False) ->
     (check_ranges d rs = Ok tt /\ in_ranges d ((k, (lo, hi)) :: rs)) \/
     (check_ranges d rs = Raise EValidation /\ ~ in_ranges d ((k, (lo, hi)) :: rs))).
  { intros Hno. destruct IH as [[H1 H2]|[H1 H2]]; [left|right]; split; auto.
    apply HT; auto. intros x n l h He Hn. destruct (Hno x n He Hn). }
  destruct (pd_get d (PStr k)) as [v|] eqn:E.
  2:{ apply HS. intros x n He _. exact (pd_get_none d k HW E x He). }
  apply pd_get_spec in E as E'; auto.
  destruct (as_float v) as [x|] eqn:Ev.
  2:{ apply HS. intros y n He Hn. apply pd_get_spec in He; auto. rewrite E in He. injection He as <-.
      apply as_float_spec in Hn. congruence. }
  destruct (HR k lo hi (or_introl eq_refl)) as (l & h & Hl & Hh & Nl & Nh).
  apply as_float_spec in Hl as Hl', Hh as Hh', Ev as Ev'. unfold out_of_range. rewrite Hl'.
  assert (Nx : x <> FNan).
  { intros ->. destruct Ev' as [->|(z & _ & Hz)]; [|discriminate]. exact (HN _ E'). }
  assert (HB : ~ (fle l x /\ fle x h) -> ~ in_ranges d ((k, (lo, hi)) :: rs)).
  { intros Hb HA. apply Hb. eapply HA; eauto. now left. }
  destruct (flt x l) eqn:E1; cbn [rbind refuse].
  - right. split; [reflexivity|]. apply HB. intros [H _]. apply flt_fle in H; auto. congruence.
  - rewrite Hh'. cbn [rbind]. destruct (flt h x) eqn:E2; cbn [refuse].
    + right. split; [reflexivity|]. apply HB. intros [_ H]. apply flt_fle in H; auto. congruence.
    + apply flt_fle in E1, E2; auto. destruct IH as [[-> H]|[-> H]]; [left|right]; split; auto.
      apply HT; auto. intros y n l0 h0 He Hn Hl0 Hh0. apply pd_get_spec in He; auto.
      rewrite E in He. injection He as <-. rewrite (number_fun _ _ _ Hn Ev'), (number_fun _ _ _ Hl0 Hl), (number_fun _ _ _ Hh0 Hh). auto.
Qed.

(** Exact for configurations without NaN values and numeric bounds; NaN passes every range, see
    [C87_nan_refuted]. *)
Theorem C87_validate_config_partial v required allowed types ranges :
  (forall d, v = PDict d -> dict_wf d) -> ranges_ok ranges -> no_nan v ->
  decides (validate_config v required allowed types ranges)
          (config_contract v required allowed types ranges).
Proof.
  intros HW HR HN. destruct v as [| | | | | | |d| |];
    try (right; split; [reflexivity|]; intros (d & E & _); discriminate).
  specialize (HW d eq_refl). unfold validate_config, refuse.
  destruct (existsb _ required) eqn:E1.
  { right. split; [reflexivity|]. intros (d' & [= <-] & H & _). apply existsb_exists in E1 as (k & Hk & E1).
    destruct (H k Hk) as [x Hx]. apply pd_get_spec in Hx; auto. now rewrite Hx in E1. }
  assert (H1 : forall k, In k required -> exists x, entry d k x).
  { intros k Hk. destruct (pd_get d (PStr k)) as [x|] eqn:E; [exists x; now apply pd_get_spec|].
    assert (existsb (fun k => match pd_get d (PStr k) with None => true | Some _ => false end) required = true).
    { apply existsb_exists. exists k. now rewrite E. } congruence. }
  destruct (match allowed with Some ks => _ | None => _ end) eqn:E2.
  { right. split; [reflexivity|]. intros (d' & [= <-] & _ & H & _). destruct allowed as [ks|]; [|discriminate].
    apply existsb_exists in E2 as ([k x] & Hk & E2). destruct (H ks eq_refl k x Hk) as (s & -> & Hs).
    apply negb_true_iff in E2. assert (existsb (fun k => key_eqb (fst (PStr s, x)) (PStr k)) ks = true).
    { apply existsb_exists. exists s. split; auto. apply key_eqb_str_r. reflexivity. } congruence. }
  assert (H2 : forall ks, allowed = Some ks -> forall k x, In (k, x) d -> exists s, k = PStr s /\ In s ks).
  { intros ks -> k x Hk. destruct (existsb (fun s => key_eqb k (PStr s)) ks) eqn:E.
    - apply existsb_exists in E as (s & Hs & E). apply key_eqb_str_r in E. eauto.
    - assert (existsb (fun kv => negb (existsb (fun k => key_eqb (fst kv) (PStr k)) ks)) d = true).
      { apply existsb_exists. exists (k, x). split; auto. cbn [fst]. now rewrite E. } congruence. }
  destruct (check_types_spec d types HW) as [[-> H3]|[-> H3]]; cbn [rbind].
  2:{ right. split; [reflexivity|]. intros (d' & [= <-] & _ & _ & H & _). auto. }
  destruct (check_ranges_spec d ranges HW HR) as [[-> H4]|[-> H4]]; cbn [rbind].
  - intros k Hk. apply (HN d k eq_refl Hk).
  - left. split; auto. exists d. auto.
  - right. split; [reflexivity|]. intros (d' & [= <-] & _ & _ & _ & H). auto.
Qed.

(** NaN is accepted for any range. *)
Theorem C87_nan_refuted : exists v ranges, ranges_ok ranges /\
  validate_config v [] None [] ranges = Ok true /\ ~ config_contract v [] None [] ranges.
Proof.
  exists (PDict [(PStr (py "threshold"), PFloat FNan)]), [(py "threshold", (PInt 0, PInt 1))].
  split.
  - intros k lo hi [[= <- <- <-]|[]]. exists (FFin (inject_Z 0)), (FFin (inject_Z 1)).
    split; [right; exists 0%Z; split; [constructor|reflexivity]|].
    split; [right; exists 1%Z; split; [constructor|reflexivity]|]. split; discriminate.
  - split; [reflexivity|]. intros (d & [= <-] & _ & _ & _ & H).
    destruct (H (py "threshold") (PInt 0) (PInt 1) (PFloat FNan) FNan (FFin (inject_Z 0)) (FFin (inject_Z 1))) as [H1 _].
    + now left.
    + now left.
    + now left.
    + right. exists 0%Z. split; [constructor|reflexivity].
    + right. exists 1%Z. split; [constructor|reflexivity].
    + inversion H1.
Qed.

(** ** Examples *)

Example C71_validators_example :
  validate_k (PBool true) (Some 3%Z) = Ok true /\ validate_k (PInt 4) (Some 3%Z) = Raise EValidation /\
  validate_id (PStr (py " ")) = Raise EValidation /\ validate_ids (PList [PInt 1; PBool true]) = Raise EValidation /\
  validate_metadata (PDict [(PStr (py "a"), PList [PInt 1; PFloat FNan])]) = Ok true /\
  validate_metadata (PDict [(PStr (py "a"), PDict [(PTuple [], PInt 1)])]) = Raise EValidation.
Proof. repeat split. Qed.

Example C71_vectors_example :
  let a := PArray (MkArray [2; 2] (DNumeric 0) [FFin 1; FFin 0; FFin 0; FFin 0]) in
  numeric a /\ validate_vectors a (Some 1%Z) (Some 2%Z) None true = Ok true /\
  validate_vectors a None None None false = Raise EValidation /\
  let b := PArray (MkArray [2] (DNumeric 0) [FFin 1; FInf true]) in
  numeric b /\ validate_vector b None None None true = Raise EValidation.
Proof.
  cbv zeta. split; [intros a [= <-]; split; [reflexivity|exists 0%N; reflexivity]|]. split; [reflexivity|]. split; [reflexivity|].
  split; [intros a [= <-]; split; [reflexivity|exists 0%N; reflexivity]|]. reflexivity.
Qed.

Example C87_validate_config_example :
  let v := PDict [(PStr (py "m"), PInt 16); (PStr (py "metric"), PStr (py "cosine"))] in
  let rs := [(py "m", (PInt 1, PFloat (FInf false)))] in
  (forall d, v = PDict d -> dict_wf d) /\ ranges_ok rs /\ no_nan v /\
  validate_config v [py "m"] (Some [py "m"; py "metric"]) [(py "metric", [TStr])] rs = Ok true /\
  validate_config v [] None [] [(py "m", (PInt 17, PInt 20))] = Raise EValidation.
Proof.
  cbv zeta. split.
  { intros d [= <-]. unfold dict_wf. simpl. constructor; [|constructor; [auto|constructor]].
    intros [E|[]]. discriminate. }
  split.
  { intros k lo hi [[= <- <- <-]|[]]. exists (FFin (inject_Z 1)), (FInf false).
    split; [right; exists 1%Z; split; [constructor|reflexivity]|]. split; [now left|]. split; discriminate. }
  split; [intros d k [= <-] [E|[E|[]]]; discriminate|]. split; reflexivity.
Qed.

Print Assumptions C71_validate_k.
Print Assumptions C71_validate_id.
Print Assumptions C71_validate_ids.
Print Assumptions C71_validate_metric.
Print Assumptions C71_validate_metadata.
Print Assumptions C71_validate_vector_partial.
Print Assumptions C71_validate_vectors_partial.
Print Assumptions C71_vector_types_refuted.
Print Assumptions C87_validate_config_partial.
Print Assumptions C87_nan_refuted.
