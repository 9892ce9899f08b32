(** Finite sums over lists, real and complex. *)
From Coq Require Import Reals ZArith List Lia Lra Permutation FunctionalExtensionality.
From Coquelicot Require Import Coquelicot.
From Verif Require Import Py Scalars.
Import ListNotations.

Definition csum {A} (l : list A) (f : A -> C) : C :=
  fold_right (fun a s => Cplus (f a) s) (RtoC 0) l.
Definition rsum {A} (l : list A) (f : A -> R) : R :=
  fold_right (fun a s => Rplus (f a) s) 0%R l.

Local Open Scope C_scope.

Lemma csum_nil {A} (f : A -> C) : csum [] f = 0.
Proof. reflexivity. Qed.
Lemma csum_cons {A} a l (f : A -> C) : csum (a :: l) f = f a + csum l f.
Proof. reflexivity. Qed.

Lemma csum_ext {A} l (f g : A -> C) : (forall a, In a l -> f a = g a) -> csum l f = csum l g.
Proof.
  induction l as [|a l IH]; intros H; cbn; [reflexivity|].
  rewrite H by (left; auto). f_equal. apply IH. intros; apply H; right; auto.
Qed.

Lemma csum_0 {A} l (f : A -> C) : (forall a, In a l -> f a = 0) -> csum l f = 0.
Proof.
  induction l as [|a l IH]; intros H; [reflexivity|].
  rewrite csum_cons. rewrite H by (left; auto). rewrite IH by (intros; apply H; right; auto). ring.
Qed.

Lemma csum_app {A} l1 l2 (f : A -> C) : csum (l1 ++ l2) f = csum l1 f + csum l2 f.
Proof. induction l1 as [|a l IH]; cbn [app]; [rewrite csum_nil; ring|]. rewrite !csum_cons, IH. ring. Qed.

Lemma csum_plus {A} l (f g : A -> C) : csum l (fun a => f a + g a) = csum l f + csum l g.
Proof. induction l as [|a l IH]; [rewrite ?csum_nil; ring|]. rewrite !csum_cons, IH. ring. Qed.

Lemma csum_minus {A} l (f g : A -> C) : csum l (fun a => f a - g a) = csum l f - csum l g.
Proof. induction l as [|a l IH]; [rewrite ?csum_nil; ring|]. rewrite !csum_cons, IH. ring. Qed.

Lemma csum_scal_l {A} l c (f : A -> C) : csum l (fun a => c * f a) = c * csum l f.
Proof. induction l as [|a l IH]; [rewrite ?csum_nil; ring|]. rewrite !csum_cons, IH. ring. Qed.

Lemma csum_scal_r {A} l c (f : A -> C) : csum l (fun a => f a * c) = csum l f * c.
Proof. induction l as [|a l IH]; [rewrite ?csum_nil; ring|]. rewrite !csum_cons, IH. ring. Qed.

Lemma csum_conj {A} l (f : A -> C) : Cconj (csum l f) = csum l (fun a => Cconj (f a)).
Proof.
  induction l as [|a l IH]; cbn.
  - unfold Cconj, RtoC; cbn. f_equal. ring.
  - rewrite Cconj_plus. f_equal. exact IH.
Qed.

Lemma csum_map {A B} (g : A -> B) l (f : B -> C) : csum (map g l) f = csum l (fun a => f (g a)).
Proof. induction l as [|a l IH]; cbn; [reflexivity|]. f_equal. exact IH. Qed.

Lemma csum_perm {A} l l' (f : A -> C) : Permutation l l' -> csum l f = csum l' f.
Proof.
  induction 1; rewrite ?csum_cons; auto.
  - f_equal. assumption.
  - ring.
  - congruence.
Qed.

Lemma csum_swap {A B} (l : list A) (l' : list B) f :
  csum l (fun a => csum l' (fun b => f a b)) = csum l' (fun b => csum l (fun a => f a b)).
Proof.
  induction l as [|a l IH]; cbn.
  - symmetry. apply csum_0. reflexivity.
  - fold (csum l (fun a => csum l' (fun b => f a b))). rewrite IH.
    rewrite <- csum_plus. apply csum_ext. intros. reflexivity.
Qed.

(** Sum of a function supported at one point of a duplicate free list. *)
Lemma csum_single {A} (l : list A) a (f : A -> C) :
  NoDup l -> In a l -> (forall b, In b l -> b <> a -> f b = 0) -> csum l f = f a.
Proof.
  induction l as [|b l IH]; intros Hn Hi Hz; [destruct Hi|].
  inversion_clear Hn as [|? ? Hb Hl]. rewrite csum_cons. destruct Hi as [->|Hi].
  - rewrite csum_0; [ring|]. intros c Hc. apply Hz; [right; auto|].
    intros ->. contradiction.
  - rewrite IH; auto; [|intros; apply Hz; auto; right; auto].
    rewrite Hz; [ring|left; auto|]. intros ->. contradiction.
Qed.

(** Restricting the support. *)
Lemma csum_filter {A} (p : A -> bool) l (f : A -> C) :
  csum (filter p l) f = csum l (fun a => if p a then f a else 0).
Proof.
  induction l as [|a l IH]; cbn [filter]; [reflexivity|]. rewrite csum_cons. destruct (p a).
  - rewrite csum_cons. f_equal. exact IH.
  - rewrite <- IH. ring.
Qed.

Lemma csum_const {A} (l : list A) c : csum l (fun _ => c) = RtoC (INR (length l)) * c.
Proof.
  induction l as [|a l IH]; [rewrite csum_nil; cbn [length INR]; ring|]. rewrite csum_cons, IH.
  cbn [length]. rewrite S_INR, RtoC_plus. ring.
Qed.

Lemma csum_mult {A B} (l : list A) (l' : list B) f g :
  csum l f * csum l' g = csum l (fun a => csum l' (fun b => f a * g b)).
Proof.
  rewrite <- csum_scal_r. apply csum_ext. intros a _. now rewrite csum_scal_l.
Qed.

(** Change of the index set along an injection that hits the support. *)
Lemma csum_incl (l l' : list Z) (f : Z -> C) :
  NoDup l -> NoDup l' -> incl l l' -> (forall x, In x l' -> ~ In x l -> f x = 0) ->
  csum l' f = csum l f.
Proof.
  intros Hn Hn' Hi Hz.
  transitivity (csum (filter (fun x => if in_dec Z.eq_dec x l then true else false) l') f).
  - rewrite csum_filter. apply csum_ext. intros x Hx. destruct (in_dec Z.eq_dec x l); auto.
  - apply csum_perm. apply NoDup_Permutation; [now apply NoDup_filter|auto|].
    intros x. rewrite filter_In. destruct (in_dec Z.eq_dec x l); split; try tauto; intuition.
    discriminate.
Qed.

Local Open Scope Z_scope.

Lemma csum_arange_shift a b s (f : Z -> C) :
  csum (arange (a + s) (b + s)) f = csum (arange a b) (fun k => f (k + s)).
Proof. rewrite arange_shift. apply csum_map. Qed.

Lemma perm_arange_rev a b :
  Permutation (map (fun k => a + b - 1 - k) (arange a b)) (arange a b).
Proof.
  apply NoDup_Permutation.
  - apply NoDup_map_inj; [intros; lia|apply NoDup_arange].
  - apply NoDup_arange.
  - intros x. rewrite in_map_iff, in_arange. split.
    + intros [y [<- Hy]]. apply in_arange in Hy. lia.
    + intros H. exists (a + b - 1 - x). rewrite in_arange. lia.
Qed.

Lemma csum_arange_rev a b (f : Z -> C) :
  csum (arange a b) f = csum (arange a b) (fun k => f (a + b - 1 - k)).
Proof.
  rewrite <- (csum_map (fun k => a + b - 1 - k) (arange a b) f).
  symmetry. apply csum_perm, perm_arange_rev.
Qed.

(** Symmetric ranges. *)
Lemma csum_arange_sym m (f : Z -> C) :
  csum (arange (- m) (m + 1)) f = csum (arange (- m) (m + 1)) (fun k => f (- k)).
Proof.
  rewrite csum_arange_rev. apply csum_ext. intros k _. f_equal. lia.
Qed.

(** Permuting residues: [f] is n-periodic, sum over any shifted period. *)
Lemma perm_mod_shift n s :
  0 < n -> Permutation (map (fun k => (k + s) mod n) (arange 0 n)) (arange 0 n).
Proof.
  intros Hn. apply NoDup_Permutation.
  - apply NoDup_map_inj; [|apply NoDup_arange]. intros x y Hx Hy H.
    apply in_arange in Hx, Hy.
    assert (E : (x + s - (y + s)) mod n = 0).
    { rewrite Zminus_mod, H, Z.sub_diag. apply Z.mod_0_l. lia. }
    replace (x + s - (y + s)) with (x - y) in E by lia.
    apply Z.mod_divide in E; [|lia]. destruct E as [q E].
    assert (q = 0) by nia. subst. lia.
  - apply NoDup_arange.
  - intros x. rewrite in_map_iff, in_arange. split.
    + intros [y [<- Hy]]. apply Z.mod_pos_bound. lia.
    + intros H. exists ((x - s) mod n). rewrite in_arange. split.
      * rewrite Z.add_mod_idemp_l by lia. replace (x - s + s) with x by lia. apply Z.mod_small. lia.
      * apply Z.mod_pos_bound. lia.
Qed.

Lemma csum_mod_shift n s (f : Z -> C) :
  0 < n -> csum (arange 0 n) (fun k => f ((k + s) mod n)) = csum (arange 0 n) f.
Proof.
  intros Hn. rewrite <- (csum_map (fun k => (k + s) mod n) _ f).
  apply csum_perm, perm_mod_shift; auto.
Qed.

Lemma perm_mod_opp n :
  0 < n -> Permutation (map (fun k => (- k) mod n) (arange 0 n)) (arange 0 n).
Proof.
  intros Hn. apply NoDup_Permutation.
  - apply NoDup_map_inj; [|apply NoDup_arange]. intros x y Hx Hy H.
    apply in_arange in Hx, Hy.
    assert (E : (- x - (- y)) mod n = 0).
    { rewrite Zminus_mod, H, Z.sub_diag. apply Z.mod_0_l. lia. }
    apply Z.mod_divide in E; [|lia]. destruct E as [q E].
    assert (q = 0) by nia. subst. lia.
  - apply NoDup_arange.
  - intros x. rewrite in_map_iff, in_arange. split.
    + intros [y [<- Hy]]. apply Z.mod_pos_bound. lia.
    + intros H. exists ((- x) mod n). rewrite in_arange. split.
      * rewrite <- (Z.mul_1_l ((-x) mod n)), <- Z.mul_opp_l.
        rewrite Z.mul_mod_idemp_r by lia. replace (-(1) * - x) with x by lia. apply Z.mod_small. lia.
      * apply Z.mod_pos_bound. lia.
Qed.

(** ** Real sums *)
Local Open Scope R_scope.

Lemma rsum_nil {A} (f : A -> R) : rsum [] f = 0.
Proof. reflexivity. Qed.
Lemma rsum_cons {A} a l (f : A -> R) : rsum (a :: l) f = f a + rsum l f.
Proof. reflexivity. Qed.

Lemma RtoC_rsum {A} l (f : A -> R) : RtoC (rsum l f) = csum l (fun a => RtoC (f a)).
Proof.
  induction l as [|a l IH]; cbn; [reflexivity|]. rewrite RtoC_plus. f_equal. exact IH.
Qed.

Lemma Re_csum {A} l (f : A -> C) : Re (csum l f) = rsum l (fun a => Re (f a)).
Proof. induction l as [|a l IH]; cbn; [reflexivity|]. f_equal. exact IH. Qed.
Lemma Im_csum {A} l (f : A -> C) : Im (csum l f) = rsum l (fun a => Im (f a)).
Proof. induction l as [|a l IH]; cbn; [reflexivity|]. f_equal. exact IH. Qed.

Lemma rsum_ext {A} l (f g : A -> R) : (forall a, In a l -> f a = g a) -> rsum l f = rsum l g.
Proof.
  induction l as [|a l IH]; intros H; cbn; [reflexivity|].
  rewrite H by (left; auto). f_equal. apply IH. intros; apply H; right; auto.
Qed.
Lemma rsum_0 {A} l (f : A -> R) : (forall a, In a l -> f a = 0) -> rsum l f = 0.
Proof.
  induction l as [|a l IH]; intros H; cbn; [reflexivity|].
  rewrite H by (left; auto). fold (rsum l f). rewrite IH by (intros; apply H; right; auto). ring.
Qed.
Lemma rsum_app {A} l1 l2 (f : A -> R) : rsum (l1 ++ l2) f = rsum l1 f + rsum l2 f.
Proof. induction l1 as [|a l IH]; cbn [app]; [rewrite rsum_nil; ring|]. rewrite !rsum_cons, IH. ring. Qed.
Lemma rsum_plus {A} l (f g : A -> R) : rsum l (fun a => f a + g a) = rsum l f + rsum l g.
Proof. induction l as [|a l IH]; [cbn; ring|]. rewrite !rsum_cons, IH. ring. Qed.
Lemma rsum_minus {A} l (f g : A -> R) : rsum l (fun a => f a - g a) = rsum l f - rsum l g.
Proof. induction l as [|a l IH]; [cbn; ring|]. rewrite !rsum_cons, IH. ring. Qed.
Lemma rsum_opp {A} l (f : A -> R) : rsum l (fun a => - f a) = - rsum l f.
Proof. induction l as [|a l IH]; [cbn; ring|]. rewrite !rsum_cons, IH. ring. Qed.
Lemma rsum_scal_l {A} l c (f : A -> R) : rsum l (fun a => c * f a) = c * rsum l f.
Proof. induction l as [|a l IH]; [cbn; ring|]. rewrite !rsum_cons, IH. ring. Qed.
Lemma rsum_scal_r {A} l c (f : A -> R) : rsum l (fun a => f a * c) = rsum l f * c.
Proof. induction l as [|a l IH]; [cbn; ring|]. rewrite !rsum_cons, IH. ring. Qed.
Lemma rsum_map {A B} (g : A -> B) l (f : B -> R) : rsum (map g l) f = rsum l (fun a => f (g a)).
Proof. induction l as [|a l IH]; cbn; [reflexivity|]. f_equal. exact IH. Qed.
Lemma rsum_perm {A} l l' (f : A -> R) : Permutation l l' -> rsum l f = rsum l' f.
Proof.
  induction 1; rewrite ?rsum_cons; auto.
  - f_equal. assumption.
  - ring.
  - congruence.
Qed.
Lemma rsum_swap {A B} (l : list A) (l' : list B) f :
  rsum l (fun a => rsum l' (fun b => f a b)) = rsum l' (fun b => rsum l (fun a => f a b)).
Proof.
  induction l as [|a l IH]; cbn.
  - symmetry. apply rsum_0. reflexivity.
  - fold (rsum l (fun a => rsum l' (fun b => f a b))). rewrite IH.
    rewrite <- rsum_plus. apply rsum_ext. intros. reflexivity.
Qed.
Lemma rsum_single {A} (l : list A) a (f : A -> R) :
  NoDup l -> In a l -> (forall b, In b l -> b <> a -> f b = 0) -> rsum l f = f a.
Proof.
  induction l as [|b l IH]; intros Hn Hi Hz; [destruct Hi|].
  inversion_clear Hn as [|? ? Hb Hl]. rewrite rsum_cons. destruct Hi as [->|Hi].
  - rewrite rsum_0; [ring|]. intros c Hc. apply Hz; [right; auto|].
    intros ->. contradiction.
  - rewrite IH; auto; [|intros; apply Hz; auto; right; auto].
    rewrite Hz; [ring|left; auto|]. intros ->. contradiction.
Qed.
Lemma rsum_const {A} (l : list A) c : rsum l (fun _ => c) = INR (length l) * c.
Proof.
  induction l as [|a l IH]; [cbn; ring|]. rewrite rsum_cons, IH.
  cbn [length]. rewrite S_INR. ring.
Qed.
Lemma rsum_le {A} l (f g : A -> R) : (forall a, In a l -> f a <= g a) -> rsum l f <= rsum l g.
Proof.
  induction l as [|a l IH]; intros H; [cbn; lra|]. rewrite !rsum_cons.
  apply Rplus_le_compat; [apply H; left; auto|apply IH; intros; apply H; right; auto].
Qed.
Lemma rsum_nonneg {A} l (f : A -> R) : (forall a, In a l -> 0 <= f a) -> 0 <= rsum l f.
Proof.
  intros H. rewrite <- (rsum_0 l (fun _ => 0)) by reflexivity. now apply rsum_le.
Qed.
Lemma rsum_nonneg_0 {A} l (f : A -> R) :
  (forall a, In a l -> 0 <= f a) -> rsum l f = 0 -> forall a, In a l -> f a = 0.
Proof.
  induction l as [|b l IH]; intros H H0 a Ha; [destruct Ha|].
  rewrite rsum_cons in H0.
  assert (0 <= f b) by (apply H; left; auto).
  assert (0 <= rsum l f) by (apply rsum_nonneg; intros; apply H; right; auto).
  destruct Ha as [<-|Ha]; [lra|]. apply IH; auto; [intros; apply H; right; auto|lra].
Qed.
Lemma rsum_pos {A} l (f : A -> R) :
  (forall a, In a l -> 0 <= f a) -> (exists a, In a l /\ f a <> 0) -> 0 < rsum l f.
Proof.
  intros H [a [Ha Hf]].
  destruct (Rle_lt_or_eq_dec 0 (rsum l f) (rsum_nonneg l f H)); auto.
  exfalso. apply Hf. apply (rsum_nonneg_0 l f H); auto.
Qed.
Lemma rsum_filter {A} (p : A -> bool) l (f : A -> R) :
  rsum (filter p l) f = rsum l (fun a => if p a then f a else 0).
Proof.
  induction l as [|a l IH]; cbn [filter]; [reflexivity|]. rewrite rsum_cons. destruct (p a).
  - rewrite rsum_cons. f_equal. exact IH.
  - rewrite <- IH. ring.
Qed.
Lemma rsum_mult {A B} (l : list A) (l' : list B) f g :
  rsum l f * rsum l' g = rsum l (fun a => rsum l' (fun b => f a * g b)).
Proof.
  rewrite <- rsum_scal_r. apply rsum_ext. intros a _. now rewrite rsum_scal_l.
Qed.
Lemma rsum_arange_shift a b s (f : Z -> R) :
  rsum (arange (a + s) (b + s)) f = rsum (arange a b) (fun k => f (k + s)%Z).
Proof. rewrite arange_shift. apply rsum_map. Qed.
Lemma rsum_arange_rev a b (f : Z -> R) :
  rsum (arange a b) f = rsum (arange a b) (fun k => f (a + b - 1 - k)%Z).
Proof.
  rewrite <- (rsum_map (fun k => a + b - 1 - k)%Z (arange a b) f).
  symmetry. apply rsum_perm, perm_arange_rev.
Qed.
Lemma rsum_incl (l l' : list Z) (f : Z -> R) :
  NoDup l -> NoDup l' -> incl l l' -> (forall x, In x l' -> ~ In x l -> f x = 0) ->
  rsum l' f = rsum l f.
Proof.
  intros Hn Hn' Hi Hz.
  apply RtoC_inj. rewrite !RtoC_rsum. apply csum_incl; auto.
  intros x Hx Hx'. rewrite Hz; auto.
Qed.

(** Cauchy-Schwarz inequality for complex sums. *)
Lemma Cmod_csum_le {A} l (f : A -> C) : (Cmod (csum l f) <= rsum l (fun a => Cmod (f a)))%R.
Proof.
  induction l as [|a l IH]; cbn.
  - rewrite Cmod_0. lra.
  - eapply Rle_trans; [apply Cmod_triangle|]. apply Rplus_le_compat_l. exact IH.
Qed.

Lemma rsum_cauchy {A} l (f g : A -> R) :
  (rsum l (fun a => f a * g a) ^ 2 <= rsum l (fun a => f a ^ 2) * rsum l (fun a => g a ^ 2))%R.
Proof.
  set (P := rsum l (fun a => f a ^ 2)). set (Q := rsum l (fun a => g a ^ 2)).
  set (S := rsum l (fun a => f a * g a)).
  assert (H : forall t, 0 <= P * t ^ 2 - 2 * S * t + Q).
  { intros t.
    replace (P * t ^ 2 - 2 * S * t + Q) with (rsum l (fun a => (t * f a - g a) ^ 2)).
    - apply rsum_nonneg. intros. apply pow2_ge_0.
    - unfold P, Q, S. clear. induction l as [|a l IH]; [cbn; ring|].
      rewrite !rsum_cons, IH. ring. }
  assert (HP : 0 <= P) by (apply rsum_nonneg; intros; apply pow2_ge_0).
  assert (HQ : 0 <= Q) by (apply rsum_nonneg; intros; apply pow2_ge_0).
  destruct (Req_dec P 0) as [E|E].
  - assert (S = 0).
    { destruct (Req_dec S 0) as [|ES]; auto. exfalso.
      specialize (H ((Q + 1) / (2 * S))). rewrite E in H.
      replace (0 * ((Q + 1) / (2 * S)) ^ 2 - 2 * S * ((Q + 1) / (2 * S)) + Q) with (-1) in H by (field; auto).
      lra. }
    rewrite H0, E. lra.
  - specialize (H (S / P)).
    replace (P * (S / P) ^ 2 - 2 * S * (S / P) + Q) with ((P * Q - S ^ 2) / P) in H by (field; auto).
    assert (0 < P) by lra.
    apply (Rmult_le_compat_r P) in H; [|lra]. rewrite Rmult_0_l in H.
    unfold Rdiv in H. rewrite Rmult_assoc, Rinv_l, Rmult_1_r in H by auto. lra.
Qed.

Lemma csum_cauchy {A} l (f g : A -> C) :
  (Cmod (csum l (fun a => Cmult (f a) (g a))) ^ 2 <=
   rsum l (fun a => Cmod (f a) ^ 2) * rsum l (fun a => Cmod (g a) ^ 2))%R.
Proof.
  eapply Rle_trans; [|apply rsum_cauchy].
  apply pow_incr. split; [apply Cmod_ge_0|].
  eapply Rle_trans; [apply Cmod_csum_le|]. apply Req_le.
  apply rsum_ext. intros. apply Cmod_mult.
Qed.
