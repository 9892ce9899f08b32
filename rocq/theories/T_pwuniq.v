(** C167: what PseudoWignerVilleDistribution keeps of the signal. *)
From Coq Require Import Reals ZArith List Lia Lra Bool.
From Coquelicot Require Import Coquelicot.
From Flocq Require Import Core.
From Verif Require Import Py Scalars CSum DFT Spec M_base M_stft M_cohen M_amb P_base P_stft P_wvd P_pwvd T_stft T_wvd T_pwvd T_amb T_dual.
Import ListNotations.
Local Open Scope Z_scope.

(** The products under the window can be read off column t. *)
Lemma c167_products : forall x ts n w o m t tau, 1 <= n -> (zlen w - 1) / 2 < round_half n -> (forall k, winf w (- k) = Cconj (winf w k)) -> pwvd x (Some ts) (Some n) (Some w) = Ok (o, m) -> 0 <= t < ts_len ts -> Z.abs tau <= (zlen w - 1) / 2 -> 0 <= t + tau < zlen x -> 0 <= t - tau < zlen x ->
  csum (arange 0 n) (fun f => at2 m f t * root n (f * tau))%C = (RtoC (IZR n) * (winf w tau * (cnth x (t + tau) * Cconj (cnth x (t - tau)))))%C.
Proof.
  intros x ts n w o m t tau Hn Hw HS H Ht Hl H1 H2. assert (HB := round_half_bounds n).
  rewrite (csum_ext _ _ (fun f => csum (arange (- zlen x) (zlen x + 1)) (fun s => winf w s * (sigf x (t + s) * Cconj (sigf x (t - s))) * root n (f * (tau - s)))%C)).
  2:{ intros f If. apply in_arange in If. rewrite (proj2 (c28_pwvd_closed_form x ts n w o m f t Hn Hw H If Ht) HS). unfold PWV. rewrite <- csum_scal_r. apply csum_ext. intros s _. rewrite <- Cmult_assoc, <- root_plus. do 2 f_equal. ring. }
  rewrite csum_swap. rewrite (csum_single (arange (- zlen x) (zlen x + 1)) tau).
  - rewrite csum_scal_l, root_orth by lia. rewrite Z.sub_diag, Z.mod_0_l by lia. change (0 =? 0) with true. cbv iota. rewrite !sigf_in by lia. ring.
  - apply NoDup_arange.
  - apply in_arange. lia.
  - intros s _ NE. rewrite csum_scal_l, root_orth by lia. destruct (Z_le_dec (Z.abs s) ((zlen w - 1) / 2)) as [B|B]; [|rewrite winf_out by lia; ring].
    destruct (Z.eqb_spec ((tau - s) mod n) 0) as [E|_]; [|ring]. exfalso. apply Z.mod_divide in E; [|lia]. destruct E as [q E]. assert (Z.abs (tau - s) < n) by lia. assert (q = 0 \/ 1 <= Z.abs q) as [-> |Q] by lia; [lia|]. nia.
Qed.
Lemma pw_product x y ts n w ox oy mx my t tau : 1 <= n -> zlen x = zlen y -> (zlen w - 1) / 2 < round_half n -> (forall k, winf w (- k) = Cconj (winf w k)) -> pwvd x (Some ts) (Some n) (Some w) = Ok (ox, mx) -> pwvd y (Some ts) (Some n) (Some w) = Ok (oy, my) -> 0 <= t < ts_len ts -> (forall f, 0 <= f < n -> at2 mx f t = at2 my f t) ->
  winf w tau <> RtoC 0 -> 0 <= t + tau < zlen x -> 0 <= t - tau < zlen x -> (cnth x (t + tau) * Cconj (cnth x (t - tau)) = cnth y (t + tau) * Cconj (cnth y (t - tau)))%C.
Proof.
  intros Hn L Hw HS HX HY Ht E W H1 H2. assert (B : Z.abs tau <= (zlen w - 1) / 2) by (destruct (Z_le_dec (Z.abs tau) ((zlen w - 1) / 2)) as [B|B]; [exact B|exfalso; apply W, winf_out; lia]).
  assert (P := c167_products x ts n w ox mx t tau Hn Hw HS HX Ht B H1 H2). assert (Q := c167_products y ts n w oy my t tau Hn Hw HS HY Ht B ltac:(lia) ltac:(lia)). rewrite (csum_ext _ _ (fun f => at2 my f t * root n (f * tau))%C) in P by (intros f If; apply in_arange in If; now rewrite E). rewrite P in Q. assert (N0 : RtoC (IZR n) <> RtoC 0) by (intros Z0; apply RtoC_inj in Z0; apply eq_IZR in Z0; lia).
  transitivity (RtoC (IZR n) * (winf w tau * (cnth x (t + tau) * Cconj (cnth x (t - tau)))) / RtoC (IZR n) / winf w tau)%C; [field; split; assumption|]. rewrite Q. field. split; assumption.
Qed.
(** Any signal, a window that vanishes at no lag that fits: one phase for the even samples, one for the odd. *)
Lemma c167_covered : forall x y ts n w ox oy mx my, 1 <= n -> zlen x = zlen y -> (zlen w - 1) / 2 < round_half n -> (forall k, winf w (- k) = Cconj (winf w k)) -> ts_len ts = zlen x -> pwvd x (Some ts) (Some n) (Some w) = Ok (ox, mx) -> pwvd y (Some ts) (Some n) (Some w) = Ok (oy, my) ->
  (forall k, 2 * Z.abs k < zlen x -> winf w k <> RtoC 0) -> (forall f t, 0 <= f < n -> 0 <= t < zlen x -> at2 mx f t = at2 my f t) ->
  exists u v, Cmod u = 1%R /\ Cmod v = 1%R /\ forall k, 0 <= k < zlen x -> cnth y k = ((if Z.even k then u else v) * cnth x k)%C.
Proof.
  intros x y ts n w ox oy mx my Hn L Hw HS LT HX HY W E.
  assert (P : forall p a b, 0 <= a < zlen x -> 0 <= b < zlen x -> Z.even a = p -> Z.even b = p -> (cnth x a * Cconj (cnth x b) = cnth y a * Cconj (cnth y b))%C).
  { intros p a b Ha Hb Ea Eb. assert (EV : Z.even (a + b) = true /\ Z.even (a - b) = true) by (rewrite Z.even_add, Z.even_sub, Ea, Eb; destruct p; split; reflexivity). destruct EV as [E1 E2]. apply Z.even_spec in E1. apply Z.even_spec in E2. destruct E1 as (t & Et), E2 as (tau & Eu). replace a with (t + tau) in * by lia. replace b with (t - tau) in * by lia.
    apply (pw_product x y ts n w ox oy mx my t tau); auto; [lia|intros f Hf; apply E; lia|apply W; lia]. }
  destruct (phase_of x y true L (P true)) as (u & U & EU). destruct (phase_of x y false L (P false)) as (v & V & EV). exists u, v. split; [exact U|]. split; [exact V|]. intros k Hk. destruct (Z.even k) eqn:EK; auto.
Qed.
(** No zero samples, lags 0 and 1 under the window. *)
Lemma c167_unique : forall x y ts n w ox oy mx my, 1 <= n -> zlen x = zlen y -> (zlen w - 1) / 2 < round_half n -> (forall k, winf w (- k) = Cconj (winf w k)) -> ts_len ts = zlen x -> pwvd x (Some ts) (Some n) (Some w) = Ok (ox, mx) -> pwvd y (Some ts) (Some n) (Some w) = Ok (oy, my) ->
  winf w 0 <> RtoC 0 -> winf w 1 <> RtoC 0 -> (forall k, 0 <= k < zlen x -> cnth x k <> RtoC 0) -> (forall f t, 0 <= f < n -> 0 <= t < zlen x -> at2 mx f t = at2 my f t) ->
  exists u v, Cmod u = 1%R /\ Cmod v = 1%R /\ forall k, 0 <= k < zlen x -> cnth y k = ((if Z.even k then u else v) * cnth x k)%C.
Proof.
  intros x y ts n w ox oy mx my Hn L Hw HS LT HX HY W0 W1 NZ E.
  assert (S0 : forall t, 0 <= t < zlen x -> (cnth x t * Cconj (cnth x t) = cnth y t * Cconj (cnth y t))%C). { intros t Ht. assert (Q := pw_product x y ts n w ox oy mx my t 0 Hn L Hw HS HX HY ltac:(lia) ltac:(intros f Hf; apply E; lia) W0). replace (t + 0) with t in Q by ring. replace (t - 0) with t in Q by ring. apply Q; lia. }
  assert (S1 : forall k, 0 <= k -> k + 2 < zlen x -> (cnth x (k + 2) * Cconj (cnth x k) = cnth y (k + 2) * Cconj (cnth y k))%C). { intros k K0 K2. assert (Q := pw_product x y ts n w ox oy mx my (k + 1) 1 Hn L Hw HS HX HY ltac:(lia) ltac:(intros f Hf; apply E; lia) W1). replace (k + 1 + 1) with (k + 2) in Q by ring. replace (k + 1 - 1) with k in Q by ring. apply Q; lia. }
  assert (G : forall b, 0 <= b -> exists u, Cmod u = 1%R /\ forall j, 0 <= j -> b + 2 * j < zlen x -> cnth y (b + 2 * j) = (u * cnth x (b + 2 * j))%C).
  { intros b B0. destruct (Z_lt_le_dec b (zlen x)) as [B|B]; [|exists (RtoC 1); split; [apply Cmod_1|intros; lia]]. assert (XB := NZ b ltac:(lia)). exists (cnth y b / cnth x b)%C.
    assert (U : Cmod (cnth y b / cnth x b)%C = 1%R). { assert (Q := S0 b ltac:(lia)). rewrite <- !Cmod2_conj in Q. apply RtoC_inj in Q. assert (PA : (0 < Cmod (cnth x b))%R) by now apply Cmod_gt_0. assert (PB := Cmod_ge_0 (cnth y b)). assert (Q' : Cmod (cnth x b) = Cmod (cnth y b)) by nra. rewrite Cmod_div by exact XB. rewrite <- Q'. field. lra. }
    split; [exact U|]. set (u := (cnth y b / cnth x b)%C) in *. assert (YB : cnth y b = (u * cnth x b)%C) by (unfold u; field; exact XB). clearbody u. assert (UU : (u * Cconj u = RtoC 1)%C) by (rewrite <- Cmod2_conj, U; f_equal; ring).
    intros j J0. pattern j. apply natlike_ind; [| |exact J0].
    - intros _. replace (b + 2 * 0) with b by ring. exact YB.
    - intros i I0 IH HI. specialize (IH ltac:(lia)). replace (b + 2 * Z.succ i) with (b + 2 * i + 2) in * by lia. assert (S := S1 (b + 2 * i) ltac:(lia) ltac:(lia)). rewrite IH, Cconj_mult in S. assert (CN : Cconj (cnth x (b + 2 * i)) <> RtoC 0) by (intros Z0; apply (NZ (b + 2 * i) ltac:(lia)); apply (f_equal Cconj) in Z0; rewrite Cconj_invol, Cconj_R in Z0; exact Z0).
      assert (V : (cnth x (b + 2 * i + 2) = cnth y (b + 2 * i + 2) * Cconj u)%C) by (transitivity (cnth x (b + 2 * i + 2) * Cconj (cnth x (b + 2 * i)) / Cconj (cnth x (b + 2 * i)))%C; [field; exact CN|rewrite S; field; exact CN]). rewrite V. transitivity (cnth y (b + 2 * i + 2) * (u * Cconj u))%C; [rewrite UU; ring|ring]. }
  destruct (G 0 ltac:(lia)) as (u & U & EU). destruct (G 1 ltac:(lia)) as (v & V & EV). exists u, v. split; [exact U|]. split; [exact V|]. intros k Hk. destruct (Z.even k) eqn:EK.
  - apply Z.even_spec in EK. destruct EK as (j & ->). exact (EU j ltac:(lia) ltac:(lia)).
  - assert (O : Z.odd k = true) by (rewrite <- Z.negb_even, EK; reflexivity). apply Z.odd_spec in O. destruct O as (j & ->). replace (2 * j + 1) with (1 + 2 * j) by ring. exact (EV j ltac:(lia) ltac:(lia)).
Qed.
(** And two phases are never seen. *)
Lemma c167_converse : forall x y ts n w ox oy mx my u v f t, 1 <= n -> zlen x = zlen y -> (zlen w - 1) / 2 < round_half n -> pwvd x (Some ts) (Some n) (Some w) = Ok (ox, mx) -> pwvd y (Some ts) (Some n) (Some w) = Ok (oy, my) -> Cmod u = 1%R -> Cmod v = 1%R -> (forall k, 0 <= k < zlen x -> cnth y k = ((if Z.even k then u else v) * cnth x k)%C) -> 0 <= f < n -> 0 <= t < ts_len ts -> at2 mx f t = at2 my f t.
Proof.
  intros x y ts n w ox oy mx my u v f t Hn L Hw HX HY U V E Hf Ht. rewrite (proj1 (c28_pwvd_closed_form x ts n w ox mx f t Hn Hw HX Hf Ht)), (proj1 (c28_pwvd_closed_form y ts n w oy my f t Hn Hw HY Hf Ht)). do 2 f_equal. unfold PWV. rewrite <- L. apply csum_ext. intros s _. f_equal. f_equal.
  assert (IN : forall k, (0 <= k < zlen x) \/ (k < 0 \/ zlen x <= k)) by (intros; lia). destruct (IN (t + s)) as [A|A]; [|rewrite (sigf_out x (t + s) A), (sigf_out y (t + s)) by (rewrite <- L; exact A); ring]. destruct (IN (t - s)) as [B|B]; [|rewrite (sigf_out x (t - s) B), (sigf_out y (t - s)) by (rewrite <- L; exact B); rewrite Cconj_R; ring].
  rewrite (sigf_in x (t + s)), (sigf_in x (t - s)), (sigf_in y (t + s)), (sigf_in y (t - s)) by lia. rewrite (E _ A), (E _ B). replace (Z.even (t - s)) with (Z.even (t + s)) by (rewrite Z.even_add, Z.even_sub; reflexivity). set (z := if Z.even (t + s) then u else v). assert (ZU : (z * Cconj z = RtoC 1)%C) by (rewrite <- Cmod2_conj; unfold z; destruct (Z.even (t + s)); [rewrite U|rewrite V]; f_equal; ring). rewrite Cconj_mult. transitivity (z * Cconj z * (cnth x (t + s) * Cconj (cnth x (t - s))))%C; [rewrite ZU; ring|ring].
Qed.
(** All arguments left out. *)
Lemma default_win n : 8 <= n -> let w := map RtoC (make_window n) in (zlen w - 1) / 2 < round_half n /\ (forall k, winf w (- k) = Cconj (winf w k)) /\ winf w 0 <> RtoC 0 /\ winf w 1 <> RtoC 0.
Proof.
  intros Hn w. destruct (c08_default_window n ltac:(lia)) as (O & B & R & S & _). assert (LW : zlen w = zlen (make_window n)) by (unfold w; apply zlen_map). assert (H := round_half_bounds n). apply Z.odd_spec in O. destruct O as (q & O). assert (Q : (zlen w - 1) / 2 = q) by (rewrite LW, O; Z.to_euclidean_division_equations; lia). assert (Q1 : 1 <= q) by (Z.to_euclidean_division_equations; lia).
  assert (V : forall i, cnth w i = RtoC (rnth (make_window n) i)) by (intros i; unfold w, cnth, rnth; apply (map_nth RtoC (make_window n) 0%R)).
  split; [rewrite Q; Z.to_euclidean_division_equations; lia|]. split.
  - intros k. destruct (Z_le_dec (Z.abs k) q) as [K|K].
    + rewrite !winf_in by (rewrite ?Q; lia). rewrite Q, !V, Cconj_R. f_equal. rewrite (S (q + - k)) by lia. f_equal. lia.
    + rewrite !winf_out by (rewrite ?Q; lia). now rewrite Cconj_R.
  - split; (rewrite winf_in by (rewrite ?Q; lia); rewrite Q, V; intros E; apply RtoC_inj in E); [assert (X := R (q + 0) ltac:(lia))|assert (X := R (q + 1) ltac:(lia))]; lra.
Qed.
Lemma c167_default : forall x y ox oy mx my, 8 <= zlen x -> zlen x = zlen y -> pwvd x None None None = Ok (ox, mx) -> pwvd y None None None = Ok (oy, my) -> (forall k, 0 <= k < zlen x -> cnth x k <> RtoC 0) -> (forall f t, 0 <= f < zlen x -> 0 <= t < zlen x -> at2 mx f t = at2 my f t) ->
  exists u v, Cmod u = 1%R /\ Cmod v = 1%R /\ forall k, 0 <= k < zlen x -> cnth y k = ((if Z.even k then u else v) * cnth x k)%C.
Proof.
  intros x y ox oy mx my N8 L HX HY NZ E. destruct (default_win (zlen x) N8) as (B & S & W0 & W1).
  assert (D : forall z, zlen z = zlen x -> pwvd z None None None = pwvd z (Some (TsI (arange 0 (zlen x)))) (Some (zlen x)) (Some (map RtoC (make_window (zlen x))))) by (intros z LZ; unfold pwvd, base_init; now rewrite LZ). rewrite D in HX by reflexivity. rewrite D in HY by now symmetry.
  apply (c167_unique x y (TsI (arange 0 (zlen x))) (zlen x) (map RtoC (make_window (zlen x))) ox oy mx my); auto; [lia|]. cbn [ts_len]. rewrite arange_zlen. lia.
Qed.
Lemma re_below z : (Rabs (Re z) <= Cmod z)%R.
Proof. apply Rle_trans with (2 := Rmax_Cmod z). apply Rmax_l. Qed.
(** Signals that are close have distributions that are close. *)
Lemma c167_stable : forall x y ts n w ox oy mx my f t (D M : R), 1 <= n -> zlen x = zlen y -> (zlen w - 1) / 2 < round_half n -> pwvd x (Some ts) (Some n) (Some w) = Ok (ox, mx) -> pwvd y (Some ts) (Some n) (Some w) = Ok (oy, my) -> 0 <= f < n -> 0 <= t < ts_len ts ->
  (0 <= D)%R -> (0 <= M)%R -> (forall k, 0 <= k < zlen x -> (Cmod (cnth x k - cnth y k)%C <= D)%R) -> (forall k, 0 <= k < zlen x -> (Cmod (cnth x k) <= M)%R /\ (Cmod (cnth y k) <= M)%R) ->
  (Cmod (at2 mx f t - at2 my f t)%C <= 2 * M * D * rsum (arange (- zlen x) (zlen x + 1)) (fun k => Cmod (winf w k)))%R.
Proof.
  intros x y ts n w ox oy mx my f t D M Hn L Hw HX HY Hf Ht D0 M0 HD HM. rewrite (proj1 (c28_pwvd_closed_form x ts n w ox mx f t Hn Hw HX Hf Ht)), (proj1 (c28_pwvd_closed_form y ts n w oy my f t Hn Hw HY Hf Ht)). rewrite <- RtoC_minus, Cmod_R. assert (RM : forall p q, (Re p - Re q)%R = Re (p - q)%C) by (intros [] []; cbn; ring). rewrite RM.
  apply Rle_trans with (1 := re_below _). unfold PWV. rewrite <- L. rewrite <- csum_minus. apply Rle_trans with (1 := Cmod_csum_le _ _). rewrite <- rsum_scal_l. apply rsum_le. intros s _.
  assert (SD : forall k, (Cmod (sigf x k - sigf y k)%C <= D)%R /\ (Cmod (sigf x k) <= M)%R /\ (Cmod (sigf y k) <= M)%R).
  { intros k. assert (IN : (0 <= k < zlen x) \/ (k < 0 \/ zlen x <= k)) by lia. destruct IN as [A|A]; [rewrite !sigf_in by lia; auto|rewrite (sigf_out x k A), (sigf_out y k) by (rewrite <- L; exact A)]. replace (RtoC 0 - RtoC 0)%C with (RtoC 0) by ring. rewrite Cmod_0. auto. }
  destruct (SD (t + s)) as (A1 & A2 & A3). destruct (SD (t - s)) as (B1 & B2 & B3). set (a := sigf x (t + s)) in *. set (b := sigf x (t - s)) in *. set (c := sigf y (t + s)) in *. set (d := sigf y (t - s)) in *.
  replace (winf w s * (a * Cconj b) * root n (- (f * s)) - winf w s * (c * Cconj d) * root n (- (f * s)))%C with (winf w s * (a * Cconj (b - d) + (a - c) * Cconj d) * root n (- (f * s)))%C by (rewrite Cconj_minus; ring).
  rewrite !Cmod_mult. unfold root. rewrite Cmod_cis, Rmult_1_r. assert (W := Cmod_ge_0 (winf w s)). rewrite (Rmult_comm (2 * M * D)). apply Rmult_le_compat_l; [exact W|]. apply Rle_trans with (1 := Cmod_triangle _ _). rewrite !Cmod_mult, !Cmod_conj.
  assert (Q1 : (Cmod a * Cmod (b - d)%C <= M * D)%R) by (apply Rmult_le_compat; auto; apply Cmod_ge_0). assert (Q2 : (Cmod (a - c)%C * Cmod d <= D * M)%R) by (apply Rmult_le_compat; auto; apply Cmod_ge_0). lra.
Qed.
(** [1, 1] and [1, -1] share every entry, though no one phase turns one into the other. *)
Example c167_example : exists ox mx oy my, pwvd [RtoC 1; RtoC 1] (Some (TsI [0; 1])) (Some 4) (Some [RtoC 1; RtoC 1; RtoC 1]) = Ok (ox, mx) /\ pwvd [RtoC 1; RtoC (-1)] (Some (TsI [0; 1])) (Some 4) (Some [RtoC 1; RtoC 1; RtoC 1]) = Ok (oy, my) /\ (forall f t, 0 <= f < 4 -> 0 <= t < 2 -> at2 mx f t = at2 my f t) /\ ~ exists u, forall k, 0 <= k < 2 -> cnth [RtoC 1; RtoC (-1)] k = (u * cnth [RtoC 1; RtoC 1] k)%C.
Proof.
  set (x := [RtoC 1; RtoC 1]). set (y := [RtoC 1; RtoC (-1)]). set (w := [RtoC 1; RtoC 1; RtoC 1]). set (ts := TsI [0; 1]). assert (Hw : (zlen w - 1) / 2 < round_half 4) by (apply Z.ltb_lt; reflexivity).
  destruct (c28_pwvd_short_window_total x ts 4 w ltac:(lia) Hw) as (ox & mx & HX). destruct (c28_pwvd_short_window_total y ts 4 w ltac:(lia) Hw) as (oy & my & HY). exists ox, mx, oy, my. split; [exact HX|]. split; [exact HY|]. split.
  - intros f t Hf Ht. apply (c167_converse x y ts 4 w ox oy mx my (RtoC 1) (RtoC (-1))); auto; [lia|apply Cmod_1|rewrite Cmod_R, Rabs_left by lra; ring|]. change (zlen x) with 2. intros k Hk. assert (k = 0 \/ k = 1) as [-> | ->] by lia; [change (cnth y 0) with (RtoC 1); change (cnth x 0) with (RtoC 1); change (Z.even 0) with true|change (cnth y 1) with (RtoC (-1)); change (cnth x 1) with (RtoC 1); change (Z.even 1) with false]; cbv iota; ring.
  - intros (u & U). assert (A := U 0 ltac:(lia)). assert (B := U 1 ltac:(lia)). change (cnth y 0) with (RtoC 1) in A. change (cnth x 0) with (RtoC 1) in A. change (cnth y 1) with (RtoC (-1)) in B. change (cnth x 1) with (RtoC 1) in B. rewrite <- A in B. apply RtoC_inj in B. lra.
Qed.
