(** C112 for windows of any length. *)
From Coq Require Import Reals ZArith List Lia Lra Bool.
From Coquelicot Require Import Coquelicot.
From Verif Require Import Py Scalars CSum DFT Spec M_base M_stft M_cohen M_amb P_base P_stft P_wvd P_pwvd P_spec T_stft T_wvd T_pwvd T_dual T_long T_long2.
Import ListNotations.
Local Open Scope Z_scope.

(** Where the Wigner-Ville distribution with n bins exists, the pseudo Wigner-Ville
    distribution is its smoothing by the part of the window with lags below round(n/2). *)
Lemma c112_any_window : forall x ts n w o m tx ow f t, 2 <= n -> w <> [] ->
  pwvd x (Some ts) (Some n) (Some w) = Ok (o, m) -> wvd x (Some tx) (Some n) = Ok ow -> 0 <= f < n -> 0 <= t < ts_len ts -> t < zlen x ->
  let v := middle w (Z.min (round_half n - 1) ((zlen w - 1) / 2)) in
  let smooth := (csum (arange 0 n) (fun g => at2 (r_tfr ow) g t * wtransform v n (f - g)) / RtoC (IZR n))%C in
  at2 m f t = RtoC (Re smooth) /\ ((forall k, winf w (- k) = Cconj (winf w k)) -> at2 m f t = smooth).
Proof.
  intros x ts n w o m tx ow f t Hn Hw H HW Hf Ht Htx v smooth.
  set (q := Z.min (round_half n - 1) ((zlen w - 1) / 2)) in v. assert (RB := round_half_bounds n).
  assert (ZW : 1 <= zlen w) by (destruct w; [congruence|unfold zlen; cbn [length]; lia]).
  assert (L0 : 0 <= (zlen w - 1) / 2) by (apply Z.div_pos; lia).
  assert (Hq : 0 <= q <= (zlen w - 1) / 2) by lia.
  assert (ZV : zlen v = 2 * q + 1) by now apply middle_zlen.
  assert (SV : (zlen v - 1) / 2 < round_half n) by (rewrite ZV; replace ((2 * q + 1 - 1) / 2) with q by (Z.to_euclidean_division_equations; lia); lia).
  assert (NV : v <> []) by (intros E; rewrite E in ZV; change (@zlen C []) with 0 in ZV; clear -ZV Hq; lia).
  assert (N2 : zlen x <= 2 * round_half n).
  { destruct (wvd_ret x tx n ow ltac:(lia) HW) as [HT _]. destruct (c21_wvd_outcome x tx n ltac:(lia) HT) as [[_ E]|[B _]]; [congruence|]. specialize (B (round_half n + 1)). lia. }
  destruct (c28_pwvd_short_window_total x ts n v ltac:(lia) SV) as (o' & m' & H').
  assert (SW : forall k, winf v k = wincut q w k) by (intros k; apply winf_middle; lia).
  assert (E : at2 m f t = at2 m' f t).
  { rewrite (c28_any_window x ts n w o m f t), (c28_any_window x ts n v o' m' f t) by (auto; lia). do 2 f_equal. unfold PWVw. apply csum_ext. intros tau _.
    set (M := Z.min t (zlen x - 1 - t)). destruct (Z_le_gt_dec (Z.abs tau) M) as [Q|Q].
    - f_equal. f_equal. unfold longlag, pmax, maxlag1. rewrite SW. fold M. rewrite ZV. replace ((2 * q + 1 - 1) / 2) with q by (Z.to_euclidean_division_equations; lia). unfold wincut.
      destruct (Z.leb_spec (Z.abs tau) (Z.min M (Z.min ((zlen w - 1) / 2) (round_half n)))), (Z.leb_spec (tau + n) (Z.min M (Z.min ((zlen w - 1) / 2) (round_half n)))), (Z.leb_spec (Z.abs tau) (Z.min M (Z.min q (round_half n)))), (Z.leb_spec (tau + n) (Z.min M (Z.min q (round_half n)))),
        (Z.leb_spec (- q) tau), (Z.leb_spec tau q); cbn [andb negb]; try reflexivity; try lia.
    - assert (D : (t + tau < 0 \/ zlen x <= t + tau) \/ (t - tau < 0 \/ zlen x <= t - tau)) by lia.
      destruct D as [D|D]; rewrite (sigf_out x _ D), ?Cconj_R; ring. }
  destruct (c112_smoothing x ts n v o' m' tx ow f t Hn NV SV H' HW Hf Ht Htx) as [A B]. rewrite E. split; [exact A|].
  intros HH. apply B. intros k. rewrite !SW. unfold wincut. destruct (Z.leb_spec (- q) (- k)), (Z.leb_spec (- k) q), (Z.leb_spec (- q) k), (Z.leb_spec k q); cbn [andb]; try lia; rewrite ?Cconj_R; auto.
Qed.

