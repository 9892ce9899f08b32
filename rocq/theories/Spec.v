(** Specification vocabulary, independent of the models: signals as functions on
    Z, windows centred at 0, and textbook transforms. *)
From Coq Require Import Reals ZArith List Lia Lra Bool.
From Coquelicot Require Import Coquelicot.
From Verif Require Import Py Scalars CSum DFT.
Import ListNotations.
Local Open Scope Z_scope.

(** A finite signal extended by zero. *)
Definition sigf (x : list C) (k : Z) : C :=
  if (0 <=? k) && (k <? zlen x) then cnth x k else RtoC 0.

(** A window of length 2h+1 (or 2h+2, whose last sample is ignored), centred. *)
Definition winf (w : list C) (t : Z) : C :=
  let h := (zlen w - 1) / 2 in
  if (- h <=? t) && (t <=? h) then cnth w (h + t) else RtoC 0.

(** Short-time Fourier transform of [x] around time [c] with [n] bins:
    sum_k x[k] conj(w[k-c]) exp(-2 i pi f (k-c) / n). *)
Definition STFT (x : list C) (w : list C) (n f c : Z) : C :=
  csum (arange 0 (zlen x))
       (fun k => sigf x k * Cconj (winf w (k - c)) * root n (- (f * (k - c))))%C.

(** Energy of a signal. *)
Definition energy (x : list C) : R := rsum x (fun z => Cmod z ^ 2)%R.

(** Pointwise combination of signals. *)
Definition lincomb (a b : C) (x y : list C) : list C :=
  zipw (fun u v => a * u + b * v)%C x y.
Definition scale (c : C) (x : list C) : list C := map (fun u => c * u)%C x.

(** [x] multiplied by exp(2 i pi m k / n). *)
Definition modulate (n m : Z) (x : list C) : list C :=
  map (fun k => cnth x k * root n (m * k))%C (arange 0 (zlen x)).

(** [x] delayed by [s] samples (zeros are prepended). *)
Definition delay (s : Z) (x : list C) : list C := repeat (RtoC 0) (Z.to_nat s) ++ x.

Lemma sigf_in x k : 0 <= k < zlen x -> sigf x k = cnth x k.
Proof. intros. unfold sigf. now rewrite (proj2 (Z.leb_le 0 k)), (proj2 (Z.ltb_lt k (zlen x))) by lia. Qed.
Lemma sigf_out x k : k < 0 \/ zlen x <= k -> sigf x k = RtoC 0.
Proof.
  intros. unfold sigf. destruct (Z.leb_spec 0 k), (Z.ltb_spec k (zlen x)); auto; lia.
Qed.
Lemma winf_in w t : - ((zlen w - 1) / 2) <= t <= (zlen w - 1) / 2 ->
  winf w t = cnth w ((zlen w - 1) / 2 + t).
Proof. intros. unfold winf. now rewrite !(proj2 (Z.leb_le _ _)) by lia. Qed.
Lemma winf_out w t : t < - ((zlen w - 1) / 2) \/ (zlen w - 1) / 2 < t -> winf w t = RtoC 0.
Proof.
  intros. unfold winf. destruct (Z.leb_spec (- ((zlen w - 1) / 2)) t), (Z.leb_spec t ((zlen w - 1) / 2)); auto; lia.
Qed.

Lemma cnth_map_arange (g : Z -> C) a b k :
  0 <= k < b - a -> cnth (map g (arange a b)) k = g (a + k).
Proof. apply nth_map_arange. Qed.

Lemma list_as_map (x : list C) : x = map (cnth x) (arange 0 (zlen x)).
Proof.
  apply list_nth_ext. intros k.
  destruct (Nat.lt_ge_cases k (length x)) as [H|H].
  - rewrite nth_error_map, nth_error_arange by (unfold zlen; lia). cbn.
    unfold cnth. rewrite Nat2Z.id. now apply nth_error_nth'.
  - rewrite !(proj2 (nth_error_None _ _)); auto. rewrite map_length, arange_length. unfold zlen. lia.
Qed.

Lemma zlen_map {A B} (f : A -> B) l : zlen (map f l) = zlen l.
Proof. unfold zlen. now rewrite map_length. Qed.

Lemma zlen_map_arange {B} (f : Z -> B) a b : a <= b -> zlen (map f (arange a b)) = b - a.
Proof. intros. rewrite zlen_map, arange_zlen. lia. Qed.

Lemma modulate_zlen n m x : zlen (modulate n m x) = zlen x.
Proof. unfold modulate. rewrite zlen_map_arange; generalize (zlen_nonneg x); lia. Qed.

Lemma modulate_nth n m x k : 0 <= k < zlen x -> cnth (modulate n m x) k = (cnth x k * root n (m * k))%C.
Proof. intros. unfold modulate. rewrite cnth_map_arange by lia. now rewrite Z.add_0_l. Qed.

Lemma scale_zlen c x : zlen (scale c x) = zlen x.
Proof. apply zlen_map. Qed.
Lemma scale_nth c x k : 0 <= k < zlen x -> cnth (scale c x) k = (c * cnth x k)%C.
Proof.
  intros H. unfold cnth, scale. rewrite (nth_indep _ _ (c * RtoC 0)%C) by (rewrite map_length; unfold zlen in H; lia).
  now rewrite (map_nth (fun u => c * u)%C).
Qed.

Lemma zipw_length {A B D} (f : A -> B -> D) a b : length a = length b -> length (zipw f a b) = length a.
Proof. revert b. induction a as [|x a IH]; intros [|y b]; cbn; intros H; auto; try discriminate. Qed.

Lemma lincomb_zlen a b x y : zlen x = zlen y -> zlen (lincomb a b x y) = zlen x.
Proof. unfold zlen, lincomb. intros. rewrite zipw_length; lia. Qed.

Lemma lincomb_nth a b x y k : zlen x = zlen y -> 0 <= k < zlen x ->
  cnth (lincomb a b x y) k = (a * cnth x k + b * cnth y k)%C.
Proof.
  unfold zlen, cnth, lincomb. intros E H. assert (E' : length x = length y) by lia.
  assert (H' : (Z.to_nat k < length x)%nat) by lia. revert E' H'. generalize (Z.to_nat k). clear.
  revert y. induction x as [|u x IH]; intros [|v y] [|k]; cbn; intros; try lia; auto.
  apply IH; lia.
Qed.

Lemma delay_zlen s x : 0 <= s -> zlen (delay s x) = s + zlen x.
Proof. intros. unfold zlen, delay. rewrite app_length, repeat_length. lia. Qed.
Lemma delay_lo s x k : 0 <= k < s -> cnth (delay s x) k = RtoC 0.
Proof.
  intros. unfold cnth, delay. rewrite app_nth1 by (rewrite repeat_length; lia).
  apply nth_repeat.
Qed.
Lemma delay_hi s x k : 0 <= s <= k -> cnth (delay s x) k = cnth x (k - s).
Proof.
  intros. unfold cnth, delay. rewrite app_nth2; rewrite repeat_length; [|lia]. f_equal. lia.
Qed.

Lemma energy_nth x : energy x = rsum (arange 0 (zlen x)) (fun k => Cmod (cnth x k) ^ 2)%R.
Proof. unfold energy. rewrite (list_as_map x) at 1. now rewrite rsum_map. Qed.

Lemma energy_nonneg x : (0 <= energy x)%R.
Proof. apply rsum_nonneg. intros. apply pow2_ge_0. Qed.

(** Evaluate concrete ranges in examples. *)
Ltac eval_arange :=
  repeat match goal with
  | |- context [arange ?a ?b] => let v := eval vm_compute in (arange a b) in change (arange a b) with v
  end.

(** Evaluate entries of literal lists. *)
Ltac eval_cnth :=
  repeat match goal with
  | |- context [cnth ?l ?k] =>
    let m := eval vm_compute in (Z.to_nat k) in
    let v := eval cbn [nth] in (nth m l (RtoC 0)) in change (cnth l k) with v
  end.

(** Discrete Wigner-Ville distribution of the zero-extended signal:
    sum_tau x[t+tau] conj(x[t-tau]) exp(-2 i pi f tau / n). *)
Definition WV (x : list C) (n f t : Z) : C :=
  csum (arange (- zlen x) (zlen x + 1))
       (fun tau => sigf x (t + tau) * Cconj (sigf x (t - tau)) * root n (- (f * tau)))%C.

(** Discrete-time Fourier transform at the frequency k/(2n). *)
Definition DTFT (x : list C) (n k : Z) : C :=
  csum (arange 0 (zlen x)) (fun a => cnth x a * root (2 * n) (- (k * a)))%C.

(** Inner product restricted to the indices of parity [p]. *)
Definition inner_par (p : bool) (x y : list C) : C :=
  csum (arange 0 (zlen x)) (fun a => if Bool.eqb (Z.even a) p then (cnth x a * Cconj (cnth y a))%C else RtoC 0).

(** Pseudo Wigner-Ville: the lag window [w] weights the sum. *)
Definition PWV (x w : list C) (n f t : Z) : C :=
  csum (arange (- zlen x) (zlen x + 1))
       (fun tau => winf w tau * (sigf x (t + tau) * Cconj (sigf x (t - tau))) * root n (- (f * tau)))%C.

(** A centred window cut to the lags |t| <= m. *)
Definition wincut (m : Z) (w : list C) (t : Z) : C :=
  if (- m <=? t) && (t <=? m) then winf w t else RtoC 0.

(** Windowed spectrum around sample [c] for a window given as a function on lags. *)
Definition STFTw (x : list C) (v : Z -> C) (n f c : Z) : C :=
  csum (arange 0 (zlen x)) (fun k => cnth x k * Cconj (v (k - c)%Z) * root n (- (f * (k - c))))%C.
(** Energy of the part of the window that meets the signal, centred at [c]. *)
Definition wenergy (x : list C) (v : Z -> C) (c : Z) : R :=
  rsum (arange 0 (zlen x)) (fun k => Cmod (v (k - c)%Z) ^ 2)%R.
(** Weighted energy of the signal around [c]. *)
Definition xwenergy (x : list C) (v : Z -> C) (c : Z) : R :=
  rsum (arange 0 (zlen x)) (fun k => Cmod (cnth x k) ^ 2 * Cmod (v (k - c)%Z) ^ 2)%R.

(** Local time average with window [g] around [c] of the lag product
    x[s+tau] conj(x[s-tau]), over the samples s where both factors exist. *)
Definition lagmass (x : list C) (g : Z -> C) (c tau : Z) : C :=
  csum (arange tau (zlen x - tau)) (fun s => g (c - s)%Z).
Definition lagavg (x : list C) (g : Z -> C) (c tau : Z) : C :=
  (csum (arange (Z.abs tau) (zlen x - Z.abs tau))
        (fun s => g (c - s)%Z * cnth x (s + tau)%Z * Cconj (cnth x (s - tau)%Z)) /
   lagmass x g c (Z.abs tau))%C.
