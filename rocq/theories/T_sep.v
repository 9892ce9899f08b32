(** C106: components further apart than the window do not interfere. *)
From Coq Require Import Reals ZArith List Lia Lra Bool.
From Coquelicot Require Import Coquelicot.
From Flocq Require Import Core.
From Verif Require Import Py Scalars CSum DFT Spec M_base M_stft M_cohen P_base P_stft P_spec P_wvd P_pwvd T_stft T_spec T_wvd T_pwvd.
Import ListNotations.
Local Open Scope Z_scope.

(** Every non-zero sample of x is more than d samples away from every non-zero sample of y. *)
Definition apart (d : Z) (x y : list C) : Prop :=
  forall i j, 0 <= i < zlen x -> 0 <= j < zlen y -> cnth x i <> RtoC 0 -> cnth y j <> RtoC 0 -> d < Z.abs (i - j).
Lemma apart_sigf d x y i j : apart d x y -> Z.abs (i - j) <= d -> (sigf x i = RtoC 0 \/ sigf y j = RtoC 0).
Proof.
  intros H D. destruct (Z_lt_dec i 0) as [|I0]; [left; apply sigf_out; lia|]. destruct (Z_le_dec (zlen x) i) as [|I1]; [left; apply sigf_out; lia|]. destruct (Z_lt_dec j 0) as [|J0]; [right; apply sigf_out; lia|]. destruct (Z_le_dec (zlen y) j) as [|J1]; [right; apply sigf_out; lia|].
  rewrite !sigf_in by lia. destruct (Ceq_dec (cnth x i) (RtoC 0)) as [|A]; [left; auto|]. destruct (Ceq_dec (cnth y j) (RtoC 0)) as [|B]; [right; auto|]. specialize (H i j ltac:(lia) ltac:(lia) A B). lia.
Qed.
Lemma window_sees_one d x y c : apart (2 * d) x y -> (forall k, Z.abs (k - c) <= d -> sigf x k = RtoC 0) \/ (forall k, Z.abs (k - c) <= d -> sigf y k = RtoC 0).
Proof.
  intros H. destruct (existsb (fun k => if Ceq_dec (sigf x k) (RtoC 0) then false else true) (arange (c - d) (c + d + 1))) eqn:E.
  - right. apply existsb_exists in E. destruct E as (i & Hi & E). apply in_arange in Hi. destruct (Ceq_dec (sigf x i) (RtoC 0)) as [|N]; [discriminate|]. intros k Hk. destruct (apart_sigf _ _ _ i k H ltac:(lia)); [tauto|auto].
  - left. intros k Hk. destruct (Ceq_dec (sigf x k) (RtoC 0)) as [|N]; [auto|]. exfalso. assert (T : existsb (fun k => if Ceq_dec (sigf x k) (RtoC 0) then false else true) (arange (c - d) (c + d + 1)) = true); [|congruence]. apply existsb_exists. exists k. split; [apply in_arange; lia|]. destruct (Ceq_dec (sigf x k) (RtoC 0)); [tauto|reflexivity].
Qed.
Lemma STFTw_zero x v n f c d : (forall t, d < Z.abs t -> v t = RtoC 0) -> (forall k, Z.abs (k - c) <= d -> sigf x k = RtoC 0) -> STFTw x v n f c = RtoC 0.
Proof.
  intros Hv Hx. unfold STFTw. apply csum_0. intros k Hk. apply in_arange in Hk. destruct (Z_le_dec (Z.abs (k - c)) d) as [D|D]; [rewrite <- sigf_in, Hx by lia; ring|rewrite Hv by lia; rewrite Cconj_R; ring].
Qed.
Lemma STFTw_lincomb a b x y v n f c : zlen x = zlen y -> STFTw (lincomb a b x y) v n f c = (a * STFTw x v n f c + b * STFTw y v n f c)%C.
Proof.
  intros E. unfold STFTw. rewrite lincomb_zlen by auto. rewrite <- E, <- !csum_scal_l, <- csum_plus. apply csum_ext. intros k Hk. apply in_arange in Hk. rewrite lincomb_nth by lia. ring.
Qed.
Lemma wincut_out m w t : m < Z.abs t -> wincut m w t = RtoC 0.
Proof. intros H. unfold wincut. destruct (Z.leb_spec (- m) t), (Z.leb_spec t m); cbn [andb]; auto; lia. Qed.
Lemma Cmod_0_mult a : Cmod (a * RtoC 0)%C = 0%R.
Proof. rewrite Cmult_0_r. apply Cmod_0. Qed.
Lemma quad_split x y a b v n f c d : zlen x = zlen y -> apart (2 * d) x y -> (forall t, d < Z.abs t -> v t = RtoC 0) ->
  (Cmod (STFTw (lincomb a b x y) v n f c) ^ 2 = Cmod a ^ 2 * Cmod (STFTw x v n f c) ^ 2 + Cmod b ^ 2 * Cmod (STFTw y v n f c) ^ 2)%R.
Proof.
  intros E HA Hv. rewrite STFTw_lincomb by auto. destruct (window_sees_one d x y c HA) as [Z|Z]; rewrite (STFTw_zero _ v n f c d Hv Z).
  - rewrite Cmult_0_r, Cplus_0_l, Cmod_mult, Cmod_0. ring.
  - rewrite Cmult_0_r, Cplus_0_r, Cmod_mult, Cmod_0. ring.
Qed.
(** Short-time Fourier transform: squared moduli add. *)
Lemma c106_stft : forall x y a b ts n w o o1 o2 f c, zlen x = zlen y -> 1 <= n -> 2 * ((zlen w - 1) / 2) < n -> apart (2 * ((zlen w - 1) / 2)) x y ->
  stft x (Some ts) (Some n) (Some w) = Ok o1 -> stft y (Some ts) (Some n) (Some w) = Ok o2 -> stft (lincomb a b x y) (Some ts) (Some n) (Some w) = Ok o -> 0 <= f < n -> 0 <= c < ts_len ts ->
  (Cmod (at2 (r_tfr o) f c) ^ 2 = Cmod a ^ 2 * Cmod (at2 (r_tfr o1) f c) ^ 2 + Cmod b ^ 2 * Cmod (at2 (r_tfr o2) f c) ^ 2)%R.
Proof.
  intros x y a b ts n w o o1 o2 f c E Hn Hw HA H1 H2 H Hf Hc.
  assert (S : forall z oz, stft z (Some ts) (Some n) (Some w) = Ok oz -> at2 (r_tfr oz) f c = STFTw z (winf w) n f (c - 1)).
  { intros z oz Hz. destruct (c11_stft_closed_form z ts n w f c Hn Hw Hf Hc) as (o' & Ho & V). assert (o' = oz) by congruence. subst o'. rewrite V. unfold STFT, STFTw. apply csum_ext. intros k Hk. apply in_arange in Hk. now rewrite sigf_in by lia. }
  rewrite (S _ _ H1), (S _ _ H2), (S _ _ H). apply (quad_split x y a b (winf w) n f (c - 1) ((zlen w - 1) / 2)); auto. intros t Ht. apply winf_out. lia.
Qed.
(** Spectrogram: every call returns, NaN columns coincide, the entries add. *)
Lemma c106_spectrogram : forall x y a b l n w, zlen x = zlen y -> 1 <= n -> apart (2 * maxlag w n) x y ->
  exists m1 m2 m, spectrogram x (Some (TsI l)) (Some n) (Some w) = Ok m1 /\ spectrogram y (Some (TsI l)) (Some n) (Some w) = Ok m2 /\ spectrogram (lincomb a b x y) (Some (TsI l)) (Some n) (Some w) = Ok m /\
  forall i, (nth_error m i = Some None <-> nth_error m1 i = Some None) /\ (nth_error m i = Some None <-> nth_error m2 i = Some None) /\
  forall col1 col2 col, nth_error m1 i = Some (Some col1) -> nth_error m2 i = Some (Some col2) -> nth_error m i = Some (Some col) ->
  forall f, 0 <= f < n -> rnth col f = (Cmod a ^ 2 * rnth col1 f + Cmod b ^ 2 * rnth col2 f)%R.
Proof.
  intros x y a b l n w E Hn HA. exists (map (spec_out x w n) l), (map (spec_out y w n) l), (map (spec_out (lincomb a b x y) w n) l).
  split; [apply spectrogram_ok; lia|]. split; [apply spectrogram_ok; lia|]. split; [apply spectrogram_ok; lia|]. assert (EL : zlen (lincomb a b x y) = zlen x) by (now apply lincomb_zlen).
  intros i. rewrite !nth_error_map. destruct (nth_error l i) as [ti|]; cbn [option_map]; [|split; [split; discriminate|split; [split; discriminate|discriminate]]].
  assert (W1 : wenergy y (wincut (maxlag w n) w) (ti - 1) = wenergy x (wincut (maxlag w n) w) (ti - 1)) by (unfold wenergy; now rewrite E).
  assert (W2 : wenergy (lincomb a b x y) (wincut (maxlag w n) w) (ti - 1) = wenergy x (wincut (maxlag w n) w) (ti - 1)) by (unfold wenergy; now rewrite EL).
  assert (A0 := spec_out_none x w n ti). assert (A1 := spec_out_none y w n ti). assert (A2 := spec_out_none (lincomb a b x y) w n ti). rewrite W1, <- E in A1. rewrite W2, EL in A2.
  split; [split; intros [= H]; f_equal; [apply A0, A2|apply A2, A0]; auto|]. split; [split; intros [= H]; f_equal; [apply A1, A2|apply A2, A1]; auto|].
  intros col1 col2 col [= H1] [= H2] [= H] f Hf. destruct (Req_dec (wenergy x (wincut (maxlag w n) w) (ti - 1)) 0) as [Z|Z].
  - rewrite (spec_out_empty_0 x w n ti col1 f), (spec_out_empty_0 y w n ti col2 f), (spec_out_empty_0 (lincomb a b x y) w n ti col f); auto; try lia; try congruence. ring.
  - assert (B1 := spec_entry x w n ti col1 f ltac:(lia) Hf H1). assert (B2 := spec_entry y w n ti col2 f ltac:(lia) Hf H2). assert (B := spec_entry (lincomb a b x y) w n ti col f ltac:(lia) Hf H).
    change (spec_m w n) with (maxlag w n) in *. rewrite W1 in B2. rewrite W2 in B. apply (Rmult_eq_reg_r (wenergy x (wincut (maxlag w n) w) (ti - 1))); [|exact Z]. rewrite B, Rmult_plus_distr_r, !Rmult_assoc, B1, B2.
    apply (quad_split x y a b (wincut (maxlag w n) w) n f (ti - 1) (maxlag w n)); auto. intros t Ht. apply wincut_out. exact Ht.
Qed.
(** Pseudo Wigner-Ville: no interference. *)
Lemma PWV_apart x y a b w n f t : zlen x = zlen y -> apart (2 * ((zlen w - 1) / 2)) x y -> PWV (lincomb a b x y) w n f t = (RtoC (Cmod a ^ 2) * PWV x w n f t + RtoC (Cmod b ^ 2) * PWV y w n f t)%C.
Proof.
  intros E HA. unfold PWV. rewrite lincomb_zlen by auto. rewrite <- E, <- !csum_scal_l, <- csum_plus. apply csum_ext. intros tau _. rewrite !sigf_lincomb by auto.
  destruct (Z_le_dec (Z.abs tau) ((zlen w - 1) / 2)) as [D|D]; [|rewrite winf_out by lia; ring].
  rewrite !Cconj_plus, !Cconj_mult, !Cmod2_conj.
  assert (P : (sigf x (t + tau) * Cconj (sigf y (t - tau)) = RtoC 0)%C) by (destruct (apart_sigf _ _ _ (t + tau) (t - tau) HA ltac:(lia)) as [-> | ->]; [ring|rewrite Cconj_R; ring]).
  assert (Q : (sigf y (t + tau) * Cconj (sigf x (t - tau)) = RtoC 0)%C) by (destruct (apart_sigf _ _ _ (t - tau) (t + tau) HA ltac:(lia)) as [-> | ->]; [rewrite Cconj_R; ring|ring]).
  transitivity (winf w tau * (a * Cconj a * (sigf x (t + tau) * Cconj (sigf x (t - tau))) + b * Cconj b * (sigf y (t + tau) * Cconj (sigf y (t - tau))) + a * Cconj b * (sigf x (t + tau) * Cconj (sigf y (t - tau))) + b * Cconj a * (sigf y (t + tau) * Cconj (sigf x (t - tau)))) * root n (- (f * tau)))%C; [ring|]. rewrite P, Q. ring.
Qed.
Lemma c106_pseudo : forall x y a b ts n w o m o1 m1 o2 m2 f t, zlen x = zlen y -> 1 <= n -> (zlen w - 1) / 2 < round_half n -> apart (2 * ((zlen w - 1) / 2)) x y ->
  pwvd x (Some ts) (Some n) (Some w) = Ok (o1, m1) -> pwvd y (Some ts) (Some n) (Some w) = Ok (o2, m2) -> pwvd (lincomb a b x y) (Some ts) (Some n) (Some w) = Ok (o, m) -> 0 <= f < n -> 0 <= t < ts_len ts ->
  at2 m f t = (RtoC (Cmod a ^ 2) * at2 m1 f t + RtoC (Cmod b ^ 2) * at2 m2 f t)%C.
Proof.
  intros x y a b ts n w o m o1 m1 o2 m2 f t E Hn Hw HA H1 H2 H Hf Ht.
  rewrite (proj1 (c28_pwvd_closed_form _ _ _ _ _ _ f t Hn Hw H1 Hf Ht)), (proj1 (c28_pwvd_closed_form _ _ _ _ _ _ f t Hn Hw H2 Hf Ht)), (proj1 (c28_pwvd_closed_form _ _ _ _ _ _ f t Hn Hw H Hf Ht)).
  rewrite PWV_apart by auto. rewrite <- !RtoC_mult, <- RtoC_plus. f_equal. unfold Re, Cplus, Cmult, RtoC. cbn [fst snd]. ring.
Qed.
(** The Wigner-Ville distribution does interfere at any distance: two impulses 2d samples
    apart give 2 cos(2 pi f d / n) half way between them, where each alone gives 0. *)
Definition impulse (n k : Z) : list C := map (fun j => if j =? k then RtoC 1 else RtoC 0) (arange 0 n).
Lemma impulse_zlen n k : 0 <= n -> zlen (impulse n k) = n.
Proof. intros H. unfold impulse. rewrite zlen_map, arange_zlen. lia. Qed.
Lemma impulse_sigf n k j : 0 <= k < n -> sigf (impulse n k) j = if j =? k then RtoC 1 else RtoC 0.
Proof.
  intros Hk. destruct (Z_lt_dec j 0) as [|]; [rewrite sigf_out by lia; destruct (Z.eqb_spec j k); [lia|reflexivity]|]. destruct (Z_le_dec n j) as [|]; [rewrite sigf_out by (rewrite impulse_zlen; lia); destruct (Z.eqb_spec j k); [lia|reflexivity]|].
  rewrite sigf_in by (rewrite impulse_zlen; lia). unfold impulse. rewrite cnth_map_arange by lia. now rewrite Z.add_0_l.
Qed.
Lemma c106_wigner : forall n i d f o o1 o2, 0 <= i -> 1 <= d -> i + 2 * d < n -> 0 <= f < n ->
  wvd (impulse n i) None None = Ok o1 -> wvd (impulse n (i + 2 * d)) None None = Ok o2 -> wvd (lincomb (RtoC 1) (RtoC 1) (impulse n i) (impulse n (i + 2 * d))) None None = Ok o ->
  at2 (r_tfr o1) f (i + d) = RtoC 0 /\ at2 (r_tfr o2) f (i + d) = RtoC 0 /\ at2 (r_tfr o) f (i + d) = RtoC (2 * cos (2 * PI * IZR (f * d) / IZR n)).
Proof.
  intros n i d f o o1 o2 Hi Hd Hn Hf H1 H2 H. set (x := impulse n i) in *. set (y := impulse n (i + 2 * d)) in *. set (z := lincomb (RtoC 1) (RtoC 1) x y) in *.
  assert (LX : zlen x = n) by (apply impulse_zlen; lia). assert (LY : zlen y = n) by (apply impulse_zlen; lia). assert (LZ : zlen z = n) by (unfold z; rewrite lincomb_zlen; lia).
  assert (SX : forall j, sigf x j = if j =? i then RtoC 1 else RtoC 0) by (intros; apply impulse_sigf; lia). assert (SY : forall j, sigf y j = if j =? i + 2 * d then RtoC 1 else RtoC 0) by (intros; apply impulse_sigf; lia).
  assert (W : forall s os, zlen s = n -> wvd s None None = Ok os -> at2 (r_tfr os) f (i + d) = WV s n f (i + d)).
  { intros s os L Hs. change (wvd s None None) with (wvd s (Some (TsI (arange 0 (zlen s)))) (Some (zlen s))) in Hs. rewrite L in Hs. apply (wvd_entry s _ n os f (i + d) ltac:(lia) Hs Hf). lia. }
  rewrite (W x o1 LX H1), (W y o2 LY H2), (W z o LZ H). unfold WV. rewrite LX, LY, LZ.
  split; [|split].
  - apply csum_0. intros tau _. rewrite !SX. destruct (Z.eqb_spec (i + d + tau) i), (Z.eqb_spec (i + d - tau) i); try lia; rewrite ?Cconj_R; ring.
  - apply csum_0. intros tau _. rewrite !SY. destruct (Z.eqb_spec (i + d + tau) (i + 2 * d)), (Z.eqb_spec (i + d - tau) (i + 2 * d)); try lia; rewrite ?Cconj_R; ring.
  - rewrite (csum_incl [- d; d]); [|constructor; [cbn; lia|constructor; [cbn; tauto|constructor]]|apply NoDup_arange| |].
    + rewrite !csum_cons, csum_nil. unfold z. rewrite !sigf_lincomb by lia. rewrite !SX, !SY.
      replace (i + d + - d) with i by lia. replace (i + d - - d) with (i + 2 * d) by lia. replace (i + d + d) with (i + 2 * d) by lia. replace (i + d - d) with i by lia. rewrite !Z.eqb_refl. rewrite (proj2 (Z.eqb_neq i (i + 2 * d))), (proj2 (Z.eqb_neq (i + 2 * d) i)) by lia.
      rewrite !Cmult_1_l, !Cplus_0_l, !Cplus_0_r, !Cconj_R, !Cmult_1_l. replace (- (f * - d)) with (f * d) by ring. unfold root, cis. apply injective_projections; cbn [fst snd Cplus RtoC]; rewrite opp_IZR; replace (2 * PI * - IZR (f * d) / IZR n)%R with (- (2 * PI * IZR (f * d) / IZR n))%R by (unfold Rdiv; ring); rewrite ?cos_neg, ?sin_neg; ring.
    + intros t [<-|[<-|[]]]; apply in_arange; lia.
    + intros t _ NT. unfold z. rewrite !sigf_lincomb by lia. rewrite !SX, !SY. assert (t <> d /\ t <> - d) by (split; intros ->; apply NT; cbn; auto). destruct (Z.eqb_spec (i + d + t) i), (Z.eqb_spec (i + d + t) (i + 2 * d)), (Z.eqb_spec (i + d - t) i), (Z.eqb_spec (i + d - t) (i + 2 * d)); try lia; rewrite ?Cmult_0_r, ?Cplus_0_r, ?Cplus_0_l, ?Cconj_R; ring.
Qed.
(** Impulses 4 apart, rectangular window of 3: at bin 0 half way, the Wigner-Ville
    distribution has 2, the pseudo Wigner-Ville distribution 0. *)
Example c106_example : exists o o' m, let z := lincomb (RtoC 1) (RtoC 1) (impulse 8 1) (impulse 8 5) in
  wvd z None None = Ok o /\ pwvd z (Some (TsI (arange 0 8))) (Some 8) (Some (repeat (RtoC 1) 3)) = Ok (o', m) /\ at2 (r_tfr o) 0 3 = RtoC 2 /\ at2 m 0 3 = RtoC 0.
Proof.
  set (z := lincomb (RtoC 1) (RtoC 1) (impulse 8 1) (impulse 8 5)). assert (LZ : zlen z = 8) by reflexivity. assert (RH : round_half 8 = 4) by reflexivity.
  assert (OK : forall s : list C, zlen s = 8 -> exists os, wvd s None None = Ok os). { intros s L. destruct (c21_wvd_default s) as [_ W]; [intros ->; discriminate L|]. apply W. rewrite L. intros [Q _]. vm_compute in Q. discriminate. }
  destruct (OK z LZ) as (o & HO). destruct (OK (impulse 8 1) eq_refl) as (o1 & H1). destruct (OK (impulse 8 5) eq_refl) as (o2 & H2).
  assert (PW : forall s : list C, exists os ms, pwvd s (Some (TsI (arange 0 8))) (Some 8) (Some (repeat (RtoC 1) 3)) = Ok (os, ms)) by (intros s; apply c28_pwvd_short_window_total; [lia|reflexivity]).
  destruct (PW z) as (o' & m & HP). destruct (PW (impulse 8 1)) as (p1 & m1 & P1). destruct (PW (impulse 8 5)) as (p2 & m2 & P2). exists o, o', m. split; [exact HO|]. split; [exact HP|].
  destruct (c106_wigner 8 1 2 0 o o1 o2 ltac:(lia) ltac:(lia) ltac:(lia) ltac:(lia) H1 H2 HO) as (_ & _ & E). change (1 + 2) with 3 in E. split; [rewrite E; f_equal; cbn; replace (2 * PI * 0 / 8)%R with 0%R by field; rewrite cos_0; ring|].
  assert (IM : forall k s ms os, 0 <= k < 8 -> s = impulse 8 k -> Z.abs (3 - k) = 2 -> pwvd s (Some (TsI (arange 0 8))) (Some 8) (Some (repeat (RtoC 1) 3)) = Ok (os, ms) -> at2 ms 0 3 = RtoC 0).
  { intros k s ms os Hk -> K Q. rewrite (proj1 (c28_pwvd_closed_form (impulse 8 k) (TsI (arange 0 8)) 8 (repeat (RtoC 1) 3) os ms 0 3 ltac:(lia) ltac:(reflexivity) Q ltac:(lia) ltac:(change (0 <= 3 < 8); lia))). unfold PWV. rewrite csum_0; [reflexivity|]. intros tau _. rewrite !impulse_sigf by auto. destruct (Z.eqb_spec (3 + tau) k), (Z.eqb_spec (3 - tau) k); try lia; rewrite ?Cconj_R; ring. }
  rewrite (c106_pseudo (impulse 8 1) (impulse 8 5) (RtoC 1) (RtoC 1) (TsI (arange 0 8)) 8 (repeat (RtoC 1) 3) o' m p1 m1 p2 m2 0 3 eq_refl ltac:(lia) ltac:(reflexivity)); auto; [|intros i j Hi Hj A B|lia|change (0 <= 3 < 8); lia].
  - rewrite (IM 1 _ m1 p1 ltac:(lia) eq_refl eq_refl P1), (IM 5 _ m2 p2 ltac:(lia) eq_refl eq_refl P2). ring.
  - change (2 * ((zlen (repeat (RtoC 1) 3) - 1) / 2)) with 2. rewrite <- sigf_in in A by auto. rewrite <- sigf_in in B by auto. rewrite impulse_sigf in A by lia. rewrite impulse_sigf in B by lia. destruct (Z.eqb_spec i 1); [|tauto]. destruct (Z.eqb_spec j 5); [|tauto]. lia.
Qed.
