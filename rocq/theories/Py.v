(** Python / numpy primitives used by the models: exceptions as values, list
    indexing with negative wrap-around, fancy indexing, ranges and rounding.
    Nothing in this file depends on the modelled project. *)
From Coq Require Import ZArith List Lia Bool.
Import ListNotations.
Local Open Scope Z_scope.

(** ** Exceptions as values *)
Inductive exn :=
| IndexError | TypeError | ValueError | ZeroDivisionError | NotImplementedError
| AttributeError | UnboundLocalError | AssertionError | KeyError.

Inductive res (A : Type) :=
| Ok (a : A)
| Raise (e : exn).
Arguments Ok {A} a.
Arguments Raise {A} e.

Definition bind {A B} (m : res A) (f : A -> res B) : res B :=
  match m with Ok a => f a | Raise e => Raise e end.

Notation "x <- e ;; f" := (bind e (fun x => f))
  (at level 61, e at next level, right associativity).
Notation "' p <- e ;; f" := (bind e (fun p => f))
  (at level 61, p pattern, e at next level, right associativity).

Definition is_ok {A} (m : res A) : bool :=
  match m with Ok _ => true | Raise _ => false end.

Fixpoint mapM {A B} (f : A -> res B) (l : list A) : res (list B) :=
  match l with
  | [] => Ok []
  | a :: l' => b <- f a ;; bs <- mapM f l' ;; Ok (b :: bs)
  end.

(** [for x in l: s = f(s, x)] where the body may raise. *)
Fixpoint foldM {A S} (f : S -> A -> res S) (l : list A) (s : S) : res S :=
  match l with
  | [] => Ok s
  | a :: l' => s' <- f s a ;; foldM f l' s'
  end.

(** ** Arrays *)
Definition zlen {A} (l : list A) : Z := Z.of_nat (length l).

(** [arange a b] = [np.arange(a, b)] on integers. *)
Definition arange (a b : Z) : list Z :=
  map (fun k => a + Z.of_nat k) (seq 0 (Z.to_nat (b - a))).

(** Position selected by the Python/numpy index [i] in an array of length [n]. *)
Definition pyidx (n i : Z) : option Z :=
  if (0 <=? i) && (i <? n) then Some i
  else if (- n <=? i) && (i <? 0) then Some (i + n)
  else None.

(** [a[i]] for an integer [i]. *)
Definition get {A} (l : list A) (i : Z) : res A :=
  match pyidx (zlen l) i with
  | Some k => match nth_error l (Z.to_nat k) with
              | Some a => Ok a
              | None => Raise IndexError
              end
  | None => Raise IndexError
  end.

(** [a[idx]] for an integer index array. *)
Definition take {A} (l : list A) (idx : list Z) : res (list A) := mapM (get l) idx.

Fixpoint upd {A} (l : list A) (k : nat) (v : A) : list A :=
  match l, k with
  | [], _ => []
  | _ :: l', O => v :: l'
  | a :: l', S k' => a :: upd l' k' v
  end.

(** [a[i] = v]. *)
Definition set {A} (l : list A) (i : Z) (v : A) : res (list A) :=
  match pyidx (zlen l) i with
  | Some k => Ok (upd l (Z.to_nat k) v)
  | None => Raise IndexError
  end.

(** [a[idx] = vs] for an integer index array [idx] and a value array of the same
    length; with repeated indices the last value wins. A single value is
    broadcast; any other length is a ValueError. *)
Fixpoint put_aux {A} (l : list A) (ivs : list (Z * A)) : res (list A) :=
  match ivs with
  | [] => Ok l
  | (i, v) :: ivs' => l' <- set l i v ;; put_aux l' ivs'
  end.

Definition put {A} (l : list A) (idx : list Z) (vs : list A) : res (list A) :=
  if Nat.eqb (length idx) (length vs) then put_aux l (combine idx vs)
  else match vs with
       | [v] => put_aux l (map (fun i => (i, v)) idx)
       | _ => Raise ValueError
       end.

(** Elementwise binary operation of 1-d arrays with numpy broadcasting. *)
Fixpoint zipw {A B D} (f : A -> B -> D) (a : list A) (b : list B) : list D :=
  match a, b with
  | x :: a', y :: b' => f x y :: zipw f a' b'
  | _, _ => []
  end.

Definition bcast {A B D} (f : A -> B -> D) (a : list A) (b : list B) : res (list D) :=
  if Nat.eqb (length a) (length b) then Ok (zipw f a b)
  else match a, b with
       | [x], _ => Ok (map (f x) b)
       | _, [y] => Ok (map (fun x => f x y) a)
       | _, _ => Raise ValueError
       end.

(** [a[:k]] for k >= 0. *)
Definition prefix {A} (l : list A) (k : Z) : list A := firstn (Z.to_nat k) l.

(** ** Rounding *)
(** [round(n / 2.0)] for an integer [n]: half to even. *)
Definition round_half (n : Z) : Z :=
  if Z.even n then n / 2
  else if Z.even (n / 2) then n / 2 else n / 2 + 1.

(** ** Numbers that carry their dtype (int or float) when used as an index *)
Inductive num := I (z : Z) | F (z : Z).   (* F: a float with an integral value *)
Definition nval (x : num) : Z := match x with I z => z | F z => z end.
Definition isfloat (x : num) : bool := match x with I _ => false | F _ => true end.

(** Python's builtin [min] over a list: the first minimal element is returned,
    with its own type. *)
Fixpoint pymin (x : num) (l : list num) : num :=
  match l with
  | [] => x
  | y :: l' => pymin (if nval y <? nval x then y else x) l'
  end.

(** ** Basic lemmas *)
Lemma zlen_nonneg {A} (l : list A) : 0 <= zlen l.
Proof. unfold zlen; lia. Qed.

Lemma arange_length a b : length (arange a b) = Z.to_nat (b - a).
Proof. unfold arange. now rewrite map_length, seq_length. Qed.

Lemma arange_zlen a b : zlen (arange a b) = Z.max 0 (b - a).
Proof. unfold zlen. rewrite arange_length. lia. Qed.

Lemma in_arange a b k : In k (arange a b) <-> a <= k < b.
Proof.
  unfold arange. rewrite in_map_iff. split.
  - intros [x [<- Hx]]. apply in_seq in Hx. lia.
  - intros H. exists (Z.to_nat (k - a)). split; [lia|]. apply in_seq. lia.
Qed.

Lemma NoDup_map_inj {A B} (f : A -> B) l :
  (forall x y, In x l -> In y l -> f x = f y -> x = y) -> NoDup l -> NoDup (map f l).
Proof.
  induction l as [|a l IH]; intros Hf Hn; cbn; [constructor|].
  inversion_clear Hn as [|? ? Hna Hnl]. constructor.
  - rewrite in_map_iff. intros [x [Hx Hi]].
    apply Hna. rewrite <- (Hf x a); auto; [right; auto|left; auto].
  - apply IH; auto. intros x y Hx Hy. apply Hf; right; auto.
Qed.

Lemma NoDup_arange a b : NoDup (arange a b).
Proof.
  unfold arange. apply NoDup_map_inj; [|apply seq_NoDup]. intros x y _ _ H. lia.
Qed.

Lemma arange_empty a b : b <= a -> arange a b = [].
Proof. intros H. unfold arange. replace (Z.to_nat (b - a)) with 0%nat by lia. reflexivity. Qed.

Lemma arange_cons a b : a < b -> arange a b = a :: arange (a + 1) b.
Proof.
  intros H. unfold arange.
  replace (Z.to_nat (b - a)) with (S (Z.to_nat (b - (a + 1)))) by lia.
  cbn [seq map]. f_equal; [lia|]. rewrite <- seq_shift, map_map.
  apply map_ext. intros k. lia.
Qed.

Lemma arange_snoc a b : a <= b -> arange a (b + 1) = arange a b ++ [b].
Proof.
  intros H. unfold arange.
  replace (Z.to_nat (b + 1 - a)) with (Z.to_nat (b - a) + 1)%nat by lia.
  rewrite seq_app, map_app. cbn. do 2 f_equal. lia.
Qed.

Lemma seq_shift_n s z m : map (fun k => (s + k)%nat) (seq z m) = seq (s + z) m.
Proof.
  revert z. induction m as [|m IH]; intros z; cbn; [reflexivity|].
  f_equal. rewrite IH. f_equal. lia.
Qed.

Lemma arange_app a b c : a <= b <= c -> arange a c = arange a b ++ arange b c.
Proof.
  intros H. unfold arange.
  replace (Z.to_nat (c - a)) with (Z.to_nat (b - a) + Z.to_nat (c - b))%nat by lia.
  rewrite seq_app, map_app. f_equal.
  rewrite Nat.add_0_l, <- (Nat.add_0_r (Z.to_nat (b - a))), <- seq_shift_n, map_map. apply map_ext. intros k. lia.
Qed.

Lemma arange_shift a b s : arange (a + s) (b + s) = map (fun k => k + s) (arange a b).
Proof.
  unfold arange. rewrite map_map. replace (b + s - (a + s)) with (b - a) by lia.
  apply map_ext. intros; lia.
Qed.

Lemma nth_error_arange a b k :
  (k < Z.to_nat (b - a))%nat -> nth_error (arange a b) k = Some (a + Z.of_nat k).
Proof.
  intros H. unfold arange. rewrite nth_error_map.
  rewrite (nth_error_nth' _ 0%nat) by (now rewrite seq_length).
  rewrite seq_nth by auto. reflexivity.
Qed.

Lemma mapM_ok {A B} (f : A -> res B) (g : A -> B) l :
  (forall a, In a l -> f a = Ok (g a)) -> mapM f l = Ok (map g l).
Proof.
  induction l as [|a l IH]; intros H; cbn; [reflexivity|].
  rewrite H by (left; auto). cbn. rewrite IH by (intros; apply H; right; auto). reflexivity.
Qed.

Lemma mapM_ext {A B} (f g : A -> res B) l :
  (forall a, In a l -> f a = g a) -> mapM f l = mapM g l.
Proof.
  induction l as [|a l IH]; intros H; cbn; [reflexivity|].
  rewrite H by (left; auto). destruct (g a); cbn; [|reflexivity].
  rewrite IH by (intros; apply H; right; auto). reflexivity.
Qed.

Lemma mapM_map {A B D} (f : B -> res D) (g : A -> B) l :
  mapM f (map g l) = mapM (fun a => f (g a)) l.
Proof. induction l as [|a l IH]; cbn; [reflexivity|]. now rewrite IH. Qed.

(** [mapM] raises [e] as soon as one element does, if that is the only
    exception any element can raise. *)
Lemma mapM_raise {A B} (f : A -> res B) l e :
  (forall a, In a l -> (exists b, f a = Ok b) \/ f a = Raise e) ->
  (exists a, In a l /\ f a = Raise e) ->
  mapM f l = Raise e.
Proof.
  induction l as [|a l IH]; intros H [x [Hx Hr]]; [destruct Hx|]. cbn.
  destruct (H a (or_introl eq_refl)) as [[b Hb]|Hb]; rewrite Hb; cbn; [|reflexivity].
  destruct Hx as [<-|Hx]; [congruence|].
  rewrite IH; [reflexivity|intros; apply H; right; auto|eauto].
Qed.

Lemma mapM_ok_inv {A B} (f : A -> res B) l bs :
  mapM f l = Ok bs -> length bs = length l /\
  forall k a, nth_error l k = Some a -> exists b, nth_error bs k = Some b /\ f a = Ok b.
Proof.
  revert bs. induction l as [|a l IH]; intros bs; cbn.
  - intros [= <-]. split; [reflexivity|]. intros [|k] a; cbn; discriminate.
  - destruct (f a) as [b|] eqn:E; cbn; [|discriminate].
    destruct (mapM f l) as [bs'|] eqn:E'; cbn; [|discriminate].
    intros [= <-]. destruct (IH bs' eq_refl) as [H1 H2]. split; [cbn; lia|].
    intros [|k] a'; cbn; [intros [= <-]; eauto|apply H2].
Qed.

Lemma pyidx_nonneg n i : 0 <= i < n -> pyidx n i = Some i.
Proof.
  intros H. unfold pyidx.
  rewrite (proj2 (Z.leb_le 0 i)), (proj2 (Z.ltb_lt i n)) by lia. reflexivity.
Qed.

Lemma pyidx_neg n i : - n <= i < 0 -> pyidx n i = Some (i + n).
Proof.
  intros H. unfold pyidx.
  rewrite (proj2 (Z.leb_gt 0 i)) by lia. cbn.
  rewrite (proj2 (Z.leb_le (-n) i)), (proj2 (Z.ltb_lt i 0)) by lia. reflexivity.
Qed.

Lemma pyidx_none n i : i < - n \/ n <= i -> 0 <= n -> pyidx n i = None.
Proof.
  intros H Hn. unfold pyidx.
  destruct (Z.leb_spec 0 i), (Z.ltb_spec i n), (Z.leb_spec (-n) i), (Z.ltb_spec i 0);
    cbn; auto; lia.
Qed.

Lemma pyidx_some n i k : pyidx n i = Some k -> 0 <= k < n.
Proof.
  unfold pyidx.
  destruct (Z.leb_spec 0 i), (Z.ltb_spec i n), (Z.leb_spec (-n) i), (Z.ltb_spec i 0);
    cbn; intros [= <-]; lia.
Qed.

Lemma get_ok {A} (d : A) l i : 0 <= i < zlen l -> get l i = Ok (nth (Z.to_nat i) l d).
Proof.
  intros H. unfold get. rewrite pyidx_nonneg by auto.
  rewrite (nth_error_nth' l d) by (unfold zlen in H; lia). reflexivity.
Qed.

Lemma get_neg {A} (d : A) l i :
  - zlen l <= i < 0 -> get l i = Ok (nth (Z.to_nat (i + zlen l)) l d).
Proof.
  intros H. unfold get. rewrite pyidx_neg by auto.
  rewrite (nth_error_nth' l d) by (unfold zlen in *; lia). reflexivity.
Qed.

Lemma get_raise {A} (l : list A) i : i < - zlen l \/ zlen l <= i -> get l i = Raise IndexError.
Proof. intros H. unfold get. rewrite pyidx_none; auto. apply zlen_nonneg. Qed.

Lemma get_cases {A} (l : list A) i : (exists a, get l i = Ok a) \/ get l i = Raise IndexError.
Proof.
  unfold get. destruct (pyidx (zlen l) i); [|auto].
  destruct (nth_error l (Z.to_nat z)); eauto.
Qed.

Lemma take_ok {A} (d : A) l idx :
  (forall i, In i idx -> 0 <= i < zlen l) ->
  take l idx = Ok (map (fun i => nth (Z.to_nat i) l d) idx).
Proof. intros H. apply mapM_ok. intros i Hi. apply get_ok. auto. Qed.

Lemma upd_length {A} (l : list A) k v : length (upd l k v) = length l.
Proof. revert k. induction l as [|a l IH]; intros [|k]; cbn; auto. Qed.

Lemma upd_zlen {A} (l : list A) k v : zlen (upd l k v) = zlen l.
Proof. unfold zlen. now rewrite upd_length. Qed.

Lemma nth_upd_eq {A} (l : list A) k v d : (k < length l)%nat -> nth k (upd l k v) d = v.
Proof. revert k. induction l as [|a l IH]; intros [|k] H; cbn in *; try lia; auto. apply IH. lia. Qed.

Lemma nth_upd_neq {A} (l : list A) k j v d : j <> k -> nth j (upd l k v) d = nth j l d.
Proof.
  revert k j. induction l as [|a l IH]; intros [|k] [|j] H; cbn; auto; congruence.
Qed.

Lemma set_ok {A} (l : list A) i v : 0 <= i < zlen l -> set l i v = Ok (upd l (Z.to_nat i) v).
Proof. intros H. unfold set. now rewrite pyidx_nonneg. Qed.

Lemma set_raise {A} (l : list A) i v :
  i < - zlen l \/ zlen l <= i -> set l i v = Raise IndexError.
Proof. intros H. unfold set. rewrite pyidx_none; auto. apply zlen_nonneg. Qed.

Lemma zipw_map {A B D E} (f : B -> D -> E) (g : A -> B) (h : A -> D) l :
  zipw f (map g l) (map h l) = map (fun a => f (g a) (h a)) l.
Proof. induction l as [|a l IH]; cbn; [reflexivity|]. now rewrite IH. Qed.

Lemma bcast_map {A B D E} (f : B -> D -> E) (g : A -> B) (h : A -> D) l :
  bcast f (map g l) (map h l) = Ok (map (fun a => f (g a) (h a)) l).
Proof.
  unfold bcast. rewrite !map_length, Nat.eqb_refl. now rewrite zipw_map.
Qed.

(** Pure sequential writes (all indices already in range). *)
Fixpoint puts {A} (l : list A) (ivs : list (Z * A)) : list A :=
  match ivs with
  | [] => l
  | (i, v) :: ivs' => puts (upd l (Z.to_nat i) v) ivs'
  end.

Lemma puts_length {A} (l : list A) ivs : length (puts l ivs) = length l.
Proof.
  revert l. induction ivs as [|[i v] ivs IH]; intros l; cbn; [reflexivity|].
  rewrite IH. apply upd_length.
Qed.

Lemma put_aux_ok {A} (l : list A) ivs :
  (forall i v, In (i, v) ivs -> 0 <= i < zlen l) -> put_aux l ivs = Ok (puts l ivs).
Proof.
  revert l. induction ivs as [|[i v] ivs IH]; intros l H; cbn; [reflexivity|].
  rewrite set_ok by (apply (H i v); left; auto). cbn. apply IH.
  intros i' v' Hi. rewrite upd_zlen. apply (H i' v'). right; auto.
Qed.

Lemma put_map_ok {A B} (l : list A) (ix : B -> Z) (g : B -> A) (ks : list B) :
  (forall k, In k ks -> 0 <= ix k < zlen l) ->
  put l (map ix ks) (map g ks) = Ok (puts l (map (fun k => (ix k, g k)) ks)).
Proof.
  intros H. unfold put. rewrite !map_length, Nat.eqb_refl.
  replace (combine (map ix ks) (map g ks)) with (map (fun k => (ix k, g k)) ks).
  - apply put_aux_ok. intros i v Hi. apply in_map_iff in Hi.
    destruct Hi as [k [[= <- <-] Hk]]. auto.
  - clear. induction ks as [|k ks IH]; cbn; [reflexivity|]. now rewrite IH.
Qed.

Lemma nth_puts_out {A} (l : list A) ivs j d :
  (0 <= j) -> (forall i v, In (i, v) ivs -> 0 <= i /\ i <> j) ->
  nth (Z.to_nat j) (puts l ivs) d = nth (Z.to_nat j) l d.
Proof.
  intros Hj. revert l. induction ivs as [|[i v] ivs IH]; intros l H; cbn; [reflexivity|].
  rewrite IH by (intros i' v' Hi; apply (H i' v'); right; auto).
  apply nth_upd_neq. destruct (H i v (or_introl eq_refl)). lia.
Qed.

Lemma nth_puts_in {A B} (l : list A) (ix : B -> Z) (g : B -> A) ks k d :
  (forall k, In k ks -> 0 <= ix k < zlen l) -> NoDup (map ix ks) -> In k ks ->
  nth (Z.to_nat (ix k)) (puts l (map (fun k => (ix k, g k)) ks)) d = g k.
Proof.
  revert l. induction ks as [|a ks IH]; intros l H Hn Hk; [destruct Hk|].
  cbn in Hn. inversion_clear Hn as [|? ? Hna Hn']. cbn.
  destruct Hk as [->|Hk].
  - rewrite nth_puts_out.
    + apply nth_upd_eq. specialize (H k (or_introl eq_refl)). unfold zlen in H. lia.
    + apply H; left; auto.
    + intros i v Hi. apply in_map_iff in Hi. destruct Hi as [x [[= <- <-] Hx]]. split.
      * apply H; right; auto.
      * intros E. apply Hna. rewrite <- E. now apply in_map.
  - apply IH; auto. intros x Hx. rewrite upd_zlen. apply H. right; auto.
Qed.

Lemma round_half_bounds n : n - 1 <= 2 * round_half n <= n + 1.
Proof.
  unfold round_half. destruct (Z.even n) eqn:E.
  - apply Zeven_bool_iff in E. apply Zeven_ex in E. destruct E as [m ->].
    rewrite (Z.mul_comm 2 m), Z.div_mul by lia. lia.
  - assert (O: Z.odd n = true) by (rewrite <- Z.negb_even, E; auto).
    apply Zodd_bool_iff in O. apply Zodd_ex in O. destruct O as [m ->].
    replace ((2 * m + 1) / 2) with m by (Z.to_euclidean_division_equations; lia).
    destruct (Z.even m); lia.
Qed.

Lemma round_half_even n : Z.even n = true -> 2 * round_half n = n.
Proof.
  intros E. unfold round_half. rewrite E.
  apply Zeven_bool_iff in E. apply Zeven_ex in E. destruct E as [m ->].
  rewrite (Z.mul_comm 2 m), Z.div_mul by lia. lia.
Qed.

(** The definition is rounding to the nearest integer, ties to even. *)
Lemma round_half_ties n : 2 * round_half n <> n -> Z.even (round_half n) = true.
Proof.
  intros H. unfold round_half in *. destruct (Z.even n) eqn:E.
  - exfalso. apply H. apply Zeven_bool_iff in E. apply Zeven_ex in E. destruct E as [m ->].
    rewrite (Z.mul_comm 2 m), Z.div_mul by lia. lia.
  - destruct (Z.even (n / 2)) eqn:E2; auto.
    rewrite Z.even_add, E2. reflexivity.
Qed.

Lemma pymin_spec x l : (forall y, In y (x :: l) -> nval (pymin x l) <= nval y) /\ In (pymin x l) (x :: l).
Proof.
  revert x. induction l as [|a l IH]; intros x; cbn [pymin].
  - split; [|left; auto]. intros y [<-|[]]. lia.
  - destruct (Z.ltb_spec (nval a) (nval x)).
    + destruct (IH a) as [H1 H2]. split.
      * intros y [<-|Hy]; [|auto]. specialize (H1 a (or_introl eq_refl)). lia.
      * right. auto.
    + destruct (IH x) as [H1 H2]. split.
      * intros y [<-|[<-|Hy]].
        -- apply H1. left; auto.
        -- specialize (H1 x (or_introl eq_refl)). lia.
        -- apply H1. right; auto.
      * destruct H2 as [H2|H2]; [left; auto|right; right; auto].
Qed.

Lemma list_nth_ext {A} (l l' : list A) :
  (forall k, nth_error l k = nth_error l' k) -> l = l'.
Proof.
  revert l'. induction l as [|a l IH]; intros [|b l'] H; auto.
  - specialize (H 0%nat). discriminate.
  - specialize (H 0%nat). discriminate.
  - f_equal.
    + specialize (H 0%nat). cbn in H. congruence.
    + apply IH. intros k. apply (H (S k)).
Qed.
