(** C169: what narrow_band keeps of the signal. *)
From Coq Require Import Reals ZArith List Lia Lra Bool.
From Coquelicot Require Import Coquelicot.
From Verif Require Import Py Scalars CSum DFT Spec M_base M_stft M_cohen M_amb P_base P_stft P_wvd P_pwvd T_wvd T_pwvd T_amb T_dual.
Import ListNotations.
Local Open Scope Z_scope.

Lemma nb_value x lag n naf lag' xi : 1 <= n -> narrow_band x (Some lag) (Some n) = Ok (naf, lag', xi) -> (forall tau, In tau lag -> ~ (2 * Z.abs tau < zlen x /\ n < zlen x - Z.abs tau)) /\ forall r c, 0 <= r < n -> 0 <= c < zlen lag -> at2 naf r c = AF x n (r - n / 2) (nth (Z.to_nat c) lag 0).
Proof. intros Hn H. destruct (c33_outcome x lag n Hn) as [[_ E]|[B (naf' & xi' & E & _ & _ & _ & _ & V)]]; [congruence|]. assert (naf' = naf) by congruence. subst naf'. split; [exact B|exact V]. Qed.
(** The inverse transform of the column of lag tau gives the products at that lag, whatever the number of bins with which the call returns. *)
Lemma c169_products : forall x lag n naf lag' xi c tau t, 1 <= n -> narrow_band x (Some lag) (Some n) = Ok (naf, lag', xi) -> 0 <= c < zlen lag -> nth (Z.to_nat c) lag 0 = tau -> Z.abs tau <= t < zlen x - Z.abs tau ->
  csum (arange 0 n) (fun r => at2 naf r c * root n ((r - n / 2) * t))%C = (RtoC (IZR n) * (cnth x (t + tau) * Cconj (cnth x (t - tau))))%C.
Proof.
  intros x lag n naf lag' xi c tau t Hn H Hc E Ht. destruct (nb_value x lag n naf lag' xi Hn H) as [B V]. assert (IT : In tau lag) by (rewrite <- E; apply nth_In; unfold zlen in Hc; lia). specialize (B tau IT).
  rewrite (csum_ext _ _ (fun r => csum (arange 0 (zlen x)) (fun s => sigf x (s + tau) * Cconj (sigf x (s - tau)) * root n (- (n / 2 * (t - s))) * root n (r * (t - s)))%C)).
  2:{ intros r Ir. apply in_arange in Ir. rewrite (V r c Ir Hc), E. unfold AF. rewrite <- csum_scal_r. apply csum_ext. intros s _. rewrite <- !Cmult_assoc, <- !root_plus. do 3 f_equal. ring. }
  rewrite csum_swap. rewrite (csum_single (arange 0 (zlen x)) t).
  - rewrite csum_scal_l, root_orth by lia. rewrite Z.sub_diag, Z.mod_0_l by lia. change (0 =? 0) with true. cbv iota. rewrite Z.mul_0_r. change (- 0) with 0. rewrite root_0, !sigf_in by lia. ring.
  - apply NoDup_arange.
  - apply in_arange. lia.
  - intros s Is NE. apply in_arange in Is. rewrite csum_scal_l, root_orth by lia. destruct (Z.eqb_spec ((t - s) mod n) 0) as [M|_]; [|ring].
    assert (D : (Z.abs tau <= s < zlen x - Z.abs tau) \/ (s + tau < 0 \/ zlen x <= s + tau) \/ (s - tau < 0 \/ zlen x <= s - tau)) by lia. destruct D as [D|[D|D]].
    + exfalso. apply Z.mod_divide in M; [|lia]. destruct M as [q M]. assert (q = 0 \/ 1 <= Z.abs q) as [-> |Q] by lia; [lia|]. assert (Z.abs (t - s) < n) by lia. nia.
    + rewrite (sigf_out x (s + tau) D). ring.
    + rewrite (sigf_out x (s - tau) D), Cconj_R. ring.
Qed.
Lemma nb_product x y lag n nx ny lx ly xi xi' tau t : 1 <= n -> zlen x = zlen y -> narrow_band x (Some lag) (Some n) = Ok (nx, lx, xi) -> narrow_band y (Some lag) (Some n) = Ok (ny, ly, xi') -> In tau lag -> (forall r c, 0 <= r < n -> 0 <= c < zlen lag -> at2 nx r c = at2 ny r c) ->
  0 <= t + tau < zlen x -> 0 <= t - tau < zlen x -> (cnth x (t + tau) * Cconj (cnth x (t - tau)) = cnth y (t + tau) * Cconj (cnth y (t - tau)))%C.
Proof.
  intros Hn L HX HY I E H1 H2. destruct (In_nth lag tau 0 I) as (c & Hc & EC). assert (C0 : 0 <= Z.of_nat c < zlen lag) by (unfold zlen; lia). rewrite <- (Nat2Z.id c) in EC.
  assert (P := c169_products x lag n nx lx xi (Z.of_nat c) tau t Hn HX C0 EC ltac:(lia)). assert (Q := c169_products y lag n ny ly xi' (Z.of_nat c) tau t Hn HY C0 EC ltac:(lia)). rewrite (csum_ext _ _ (fun r => at2 ny r (Z.of_nat c) * root n ((r - n / 2) * t))%C) in P by (intros r Ir; apply in_arange in Ir; now rewrite E). rewrite P in Q.
  assert (N0 : RtoC (IZR n) <> RtoC 0) by (intros Z0; apply RtoC_inj in Z0; apply eq_IZR in Z0; lia). transitivity (RtoC (IZR n) * (cnth x (t + tau) * Cconj (cnth x (t - tau))) / RtoC (IZR n))%C; [field; exact N0|]. rewrite Q. field. exact N0.
Qed.
(** Every lag that fits, any signal. *)
Lemma c169_unique : forall x y lag n nx ny lx ly xi xi', 1 <= n -> zlen x = zlen y -> narrow_band x (Some lag) (Some n) = Ok (nx, lx, xi) -> narrow_band y (Some lag) (Some n) = Ok (ny, ly, xi') -> (forall tau, 2 * Z.abs tau < zlen x -> In tau lag) -> (forall r c, 0 <= r < n -> 0 <= c < zlen lag -> at2 nx r c = at2 ny r c) ->
  exists u v, Cmod u = 1%R /\ Cmod v = 1%R /\ forall k, 0 <= k < zlen x -> cnth y k = ((if Z.even k then u else v) * cnth x k)%C.
Proof.
  intros x y lag n nx ny lx ly xi xi' Hn L HX HY A E.
  assert (P : forall p a b, 0 <= a < zlen x -> 0 <= b < zlen x -> Z.even a = p -> Z.even b = p -> (cnth x a * Cconj (cnth x b) = cnth y a * Cconj (cnth y b))%C).
  { intros p a b Ha Hb Ea Eb. assert (EV : Z.even (a + b) = true /\ Z.even (a - b) = true) by (rewrite Z.even_add, Z.even_sub, Ea, Eb; destruct p; split; reflexivity). destruct EV as [E1 E2]. apply Z.even_spec in E1. apply Z.even_spec in E2. destruct E1 as (t & Et), E2 as (tau & Eu). replace a with (t + tau) in * by lia. replace b with (t - tau) in * by lia.
    apply (nb_product x y lag n nx ny lx ly xi xi' tau t); auto. apply A. lia. }
  destruct (phase_of x y true L (P true)) as (u & U & EU). destruct (phase_of x y false L (P false)) as (v & V & EV). exists u, v. split; [exact U|]. split; [exact V|]. intros k Hk. destruct (Z.even k) eqn:EK; auto.
Qed.
(** Lag and number of bins left out. *)
Lemma c169_default : forall x y nx ny lx ly xi xi', 1 <= zlen x -> zlen x = zlen y -> narrow_band x None None = Ok (nx, lx, xi) -> narrow_band y None None = Ok (ny, ly, xi') -> (forall r c, 0 <= r < zlen x -> 0 <= c < zlen lx -> at2 nx r c = at2 ny r c) ->
  exists u v, Cmod u = 1%R /\ Cmod v = 1%R /\ forall k, 0 <= k < zlen x -> cnth y k = ((if Z.even k then u else v) * cnth x k)%C.
Proof.
  intros x y nx ny lx ly xi xi' N1 L HX HY E. destruct (c33_default x) as [DX A]. destruct (c33_default y) as [DY _]. rewrite DX in HX. rewrite DY, <- L in HY. assert (LX : lx = nb_lags (zlen x)) by (destruct (c33_outcome x (nb_lags (zlen x)) (zlen x) N1) as [[_ Q]|[_ (a & b & Q & _)]]; congruence). subst lx.
  apply (c169_unique x y (nb_lags (zlen x)) (zlen x) nx ny (nb_lags (zlen x)) ly xi xi'); auto. intros tau T. now apply A.
Qed.
(** Lags 0 and 1 alone, no zero samples. *)
Lemma c169_two_lags : forall x y lag n nx ny lx ly xi xi', 1 <= n -> zlen x = zlen y -> narrow_band x (Some lag) (Some n) = Ok (nx, lx, xi) -> narrow_band y (Some lag) (Some n) = Ok (ny, ly, xi') -> In 0 lag -> In 1 lag -> (forall k, 0 <= k < zlen x -> cnth x k <> RtoC 0) -> (forall r c, 0 <= r < n -> 0 <= c < zlen lag -> at2 nx r c = at2 ny r c) ->
  exists u v, Cmod u = 1%R /\ Cmod v = 1%R /\ forall k, 0 <= k < zlen x -> cnth y k = ((if Z.even k then u else v) * cnth x k)%C.
Proof.
  intros x y lag n nx ny lx ly xi xi' Hn L HX HY L0 L1 NZ E.
  assert (S0 : forall t, 0 <= t < zlen x -> (cnth x t * Cconj (cnth x t) = cnth y t * Cconj (cnth y t))%C). { intros t Ht. assert (Q := nb_product x y lag n nx ny lx ly xi xi' 0 t Hn L HX HY L0 E). replace (t + 0) with t in Q by ring. replace (t - 0) with t in Q by ring. apply Q; lia. }
  assert (S1 : forall k, 0 <= k -> k + 2 < zlen x -> (cnth x (k + 2) * Cconj (cnth x k) = cnth y (k + 2) * Cconj (cnth y k))%C). { intros k K0 K2. assert (Q := nb_product x y lag n nx ny lx ly xi xi' 1 (k + 1) Hn L HX HY L1 E). replace (k + 1 + 1) with (k + 2) in Q by ring. replace (k + 1 - 1) with k in Q by ring. apply Q; lia. }
  assert (G : forall b, 0 <= b -> exists u, Cmod u = 1%R /\ forall j, 0 <= j -> b + 2 * j < zlen x -> cnth y (b + 2 * j) = (u * cnth x (b + 2 * j))%C).
  { intros b B0. destruct (Z_lt_le_dec b (zlen x)) as [B|B]; [|exists (RtoC 1); split; [apply Cmod_1|intros; lia]]. assert (XB := NZ b ltac:(lia)). exists (cnth y b / cnth x b)%C.
    assert (U : Cmod (cnth y b / cnth x b)%C = 1%R). { assert (Q := S0 b ltac:(lia)). rewrite <- !Cmod2_conj in Q. apply RtoC_inj in Q. assert (PA : (0 < Cmod (cnth x b))%R) by now apply Cmod_gt_0. assert (PB := Cmod_ge_0 (cnth y b)). assert (Q' : Cmod (cnth x b) = Cmod (cnth y b)) by nra. rewrite Cmod_div by exact XB. rewrite <- Q'. field. lra. }
    split; [exact U|]. set (u := (cnth y b / cnth x b)%C) in *. assert (YB : cnth y b = (u * cnth x b)%C) by (unfold u; field; exact XB). clearbody u. assert (UU : (u * Cconj u = RtoC 1)%C) by (rewrite <- Cmod2_conj, U; f_equal; ring).
    intros j J0. pattern j. apply natlike_ind; [| |exact J0].
    - intros _. replace (b + 2 * 0) with b by ring. exact YB.
    - intros i I0 IH HI. specialize (IH ltac:(lia)). replace (b + 2 * Z.succ i) with (b + 2 * i + 2) in * by lia. assert (S := S1 (b + 2 * i) ltac:(lia) ltac:(lia)). rewrite IH, Cconj_mult in S. assert (CN : Cconj (cnth x (b + 2 * i)) <> RtoC 0) by (intros Z0; apply (NZ (b + 2 * i) ltac:(lia)); apply (f_equal Cconj) in Z0; rewrite Cconj_invol, Cconj_R in Z0; exact Z0).
      assert (V : (cnth x (b + 2 * i + 2) = cnth y (b + 2 * i + 2) * Cconj u)%C) by (transitivity (cnth x (b + 2 * i + 2) * Cconj (cnth x (b + 2 * i)) / Cconj (cnth x (b + 2 * i)))%C; [field; exact CN|rewrite S; field; exact CN]). rewrite V. transitivity (cnth y (b + 2 * i + 2) * (u * Cconj u))%C; [rewrite UU; ring|ring]. }
  destruct (G 0 ltac:(lia)) as (u & U & EU). destruct (G 1 ltac:(lia)) as (v & V & EV). exists u, v. split; [exact U|]. split; [exact V|]. intros k Hk. destruct (Z.even k) eqn:EK.
  - apply Z.even_spec in EK. destruct EK as (j & ->). exact (EU j ltac:(lia) ltac:(lia)).
  - assert (O : Z.odd k = true) by (rewrite <- Z.negb_even, EK; reflexivity). apply Z.odd_spec in O. destruct O as (j & ->). replace (2 * j + 1) with (1 + 2 * j) by ring. exact (EV j ltac:(lia) ltac:(lia)).
Qed.
(** And two phases are never seen. *)
Lemma c169_converse : forall x y lag n nx ny lx ly xi xi' u v r c, 1 <= n -> zlen x = zlen y -> narrow_band x (Some lag) (Some n) = Ok (nx, lx, xi) -> narrow_band y (Some lag) (Some n) = Ok (ny, ly, xi') -> Cmod u = 1%R -> Cmod v = 1%R -> (forall k, 0 <= k < zlen x -> cnth y k = ((if Z.even k then u else v) * cnth x k)%C) -> 0 <= r < n -> 0 <= c < zlen lag -> at2 nx r c = at2 ny r c.
Proof.
  intros x y lag n nx ny lx ly xi xi' u v r c Hn L HX HY U V E Hr Hc. rewrite (proj2 (nb_value x lag n nx lx xi Hn HX) r c Hr Hc), (proj2 (nb_value y lag n ny ly xi' Hn HY) r c Hr Hc). set (s := nth (Z.to_nat c) lag 0). clearbody s. unfold AF. rewrite <- L. apply csum_ext. intros t _. f_equal.
  assert (IN : forall k, (0 <= k < zlen x) \/ (k < 0 \/ zlen x <= k)) by (intros; lia). destruct (IN (t + s)) as [A|A]; [|rewrite (sigf_out x (t + s) A), (sigf_out y (t + s)) by (rewrite <- L; exact A); ring]. destruct (IN (t - s)) as [B|B]; [|rewrite (sigf_out x (t - s) B), (sigf_out y (t - s)) by (rewrite <- L; exact B); rewrite Cconj_R; ring].
  rewrite (sigf_in x (t + s)), (sigf_in x (t - s)), (sigf_in y (t + s)), (sigf_in y (t - s)) by lia. rewrite (E _ A), (E _ B). replace (Z.even (t - s)) with (Z.even (t + s)) by (rewrite Z.even_add, Z.even_sub; reflexivity). set (z := if Z.even (t + s) then u else v). assert (ZU : (z * Cconj z = RtoC 1)%C) by (rewrite <- Cmod2_conj; unfold z; destruct (Z.even (t + s)); [rewrite U|rewrite V]; f_equal; ring). rewrite Cconj_mult. transitivity (z * Cconj z * (cnth x (t + s) * Cconj (cnth x (t - s))))%C; [rewrite ZU; ring|ring].
Qed.
(** [1, 1, 1] and [1, -1, 1] have the same ambiguity function. *)
Example c169_example : exists nx ny l xi, narrow_band [RtoC 1; RtoC 1; RtoC 1] (Some [-1; 0; 1]) (Some 3) = Ok (nx, l, xi) /\ narrow_band [RtoC 1; RtoC (-1); RtoC 1] (Some [-1; 0; 1]) (Some 3) = Ok (ny, l, xi) /\ forall r c, 0 <= r < 3 -> 0 <= c < 3 -> at2 nx r c = at2 ny r c.
Proof.
  set (x := [RtoC 1; RtoC 1; RtoC 1]). set (y := [RtoC 1; RtoC (-1); RtoC 1]). set (lag := [-1; 0; 1]).
  destruct (c33_total x lag 3 ltac:(lia) ltac:(change (zlen x) with 3; lia)) as [[[nx lx] xi] HX]. destruct (c33_total y lag 3 ltac:(lia) ltac:(change (zlen y) with 3; lia)) as [[[ny ly] xi'] HY].
  assert (F : forall (z : list C) a b d, narrow_band z (Some lag) (Some 3) = Ok (a, b, d) -> b = lag /\ d = nb_xi 3). { intros z a b d H. unfold narrow_band in H. change (3 <? 0) with false in H. change (3 =? 0) with false in H. cbv iota in H. destruct (mapM (nb_col z 3) lag) as [k|]; [|discriminate]. cbn [bind] in H. destruct (mapM (fun c => take (fft c) (nb_rows 3)) k) as [k'|]; [|discriminate]. cbn [bind] in H. split; congruence. }
  destruct (F x nx lx xi HX) as [-> ->]. destruct (F y ny ly xi' HY) as [-> ->]. exists nx, ny, lag, (nb_xi 3). split; [exact HX|]. split; [exact HY|]. intros r c Hr Hc.
  apply (c169_converse x y lag 3 nx ny lag lag (nb_xi 3) (nb_xi 3) (RtoC 1) (RtoC (-1))); auto; [lia|apply Cmod_1|rewrite Cmod_R, Rabs_left by lra; ring|]. change (zlen x) with 3. intros k Hk. assert (k = 0 \/ k = 1 \/ k = 2) as [-> |[-> | ->]] by lia; [change (cnth y 0) with (RtoC 1); change (cnth x 0) with (RtoC 1); change (Z.even 0) with true|change (cnth y 1) with (RtoC (-1)); change (cnth x 1) with (RtoC 1); change (Z.even 1) with false|change (cnth y 2) with (RtoC 1); change (cnth x 2) with (RtoC 1); change (Z.even 2) with true]; cbv iota; ring.
Qed.
