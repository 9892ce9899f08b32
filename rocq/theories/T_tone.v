(** C103: the short-time Fourier transform of a tone; time and frequency resolution. *)
From Coq Require Import Reals ZArith List Lia Lra Bool.
From Coquelicot Require Import Coquelicot.
From Flocq Require Import Core.
From Verif Require Import Py Scalars CSum DFT Spec M_base M_stft M_cohen M_dom M_gen1 P_base P_stft P_wvd T_stft T_dom T_gen1 Dirichlet Kernel.
Import ListNotations.
Local Open Scope Z_scope.

Lemma map_Some_inj {A} (a b : list A) : map Some a = map Some b -> a = b.
Proof. revert b. induction a as [|x a IH]; intros [|y b] H; cbn in H; try discriminate; [reflexivity|]. injection H as -> H. f_equal. auto. Qed.
Lemma tone_values N f0 c0 y law : 0 <= c0 < N -> fmconst N f0 (Some (IZR c0)) = Ok (map Some y, law) -> (Rabs f0 <= 1 / 2)%R /\ zlen y = N /\ forall k, 0 <= k < N -> cnth y k = cis (2 * PI * f0 * IZR (k - c0)).
Proof.
  intros Hc H. destruct (Rlt_dec (1 / 2) (Rabs f0)) as [Q|Q].
  - exfalso. unfold fmconst in H. destruct (Z.leb_spec N 0); [discriminate|]. destruct (Rlt_dec _ _); [discriminate|lra].
  - destruct (c54_tone N f0 c0 Hc) as (y' & E & L & V & _); [lra|]. rewrite E in H. injection H as EY _. apply map_Some_inj in EY. subst y'. split; [lra|]. auto.
Qed.
Lemma stft_at x ts n w o f c : 1 <= n -> 2 * ((zlen w - 1) / 2) < n -> 0 <= f < n -> 0 <= c < ts_len ts -> stft x (Some ts) (Some n) (Some w) = Ok o -> at2 (r_tfr o) f c = STFT x w n f (c - 1).
Proof. intros Hn Hw Hf Hc H. destruct (c11_stft_closed_form x ts n w f c Hn Hw Hf Hc) as (o' & E & V). congruence. Qed.
Lemma Cmod_csum {A} (l : list A) g : (Cmod (csum l g) <= rsum l (fun a => Cmod (g a)))%R.
Proof. induction l as [|a l IH]; [rewrite csum_nil, rsum_nil, Cmod_0; lra|]. rewrite csum_cons, rsum_cons. apply Rle_trans with (1 := Cmod_triangle _ _). lra. Qed.

(** Weight of the window at the samples of an N-sample signal, centred at c. *)
Definition window_weight (w : list C) (N c : Z) : R := rsum (arange 0 N) (fun k => Cmod (winf w (k - c))).
(** No entry exceeds the weight of the window; with a non-negative window it is
    reached in the row of the tone's frequency. *)
Lemma c103_bound : forall N f0 c0 y law ts n w o f c, 0 <= c0 < N -> fmconst N f0 (Some (IZR c0)) = Ok (map Some y, law) -> 1 <= n -> 2 * ((zlen w - 1) / 2) < n ->
  stft y (Some ts) (Some n) (Some w) = Ok o -> 0 <= f < n -> 0 <= c < ts_len ts ->
  (Cmod (at2 (r_tfr o) f c) <= window_weight w N (c - 1))%R /\
  ((forall t, winf w t = RtoC (Cmod (winf w t))) -> (exists q, f0 = IZR f / IZR n + IZR q)%R -> Cmod (at2 (r_tfr o) f c) = window_weight w N (c - 1)).
Proof.
  intros N f0 c0 y law ts n w o f c Hc0 HF Hn Hw HO Hf Hc. destruct (tone_values _ _ _ _ _ Hc0 HF) as (_ & L & V). rewrite (stft_at y ts n w o f c) by auto. unfold STFT, window_weight. rewrite L. split.
  - apply Rle_trans with (1 := Cmod_csum _ _). apply rsum_le. intros k Hk. apply in_arange in Hk. rewrite sigf_in, V by lia. unfold root. rewrite !Cmod_mult, !Cmod_cis, Cmod_conj. lra.
  - intros HP [q E]. set (s := c - 1). set (S := rsum (arange 0 N) (fun k => Cmod (winf w (k - s)))).
    rewrite (csum_ext _ _ (fun k => cis (2 * PI * f0 * IZR (s - c0)) * RtoC (Cmod (winf w (k - s))))%C).
    + rewrite csum_scal_l, Cmod_mult, Cmod_cis. replace (csum (arange 0 N) (fun k => RtoC (Cmod (winf w (k - s))))) with (RtoC S).
      * rewrite Cmod_R, Rabs_pos_eq; [ring|]. apply rsum_nonneg. intros k _. apply Cmod_ge_0.
      * unfold S. generalize (arange 0 N). intros l. induction l as [|a l IH]; [reflexivity|]. now rewrite rsum_cons, csum_cons, RtoC_plus, IH.
    + intros k Hk. apply in_arange in Hk. rewrite sigf_in, V by lia. rewrite HP at 1. rewrite Cconj_R. unfold root.
      transitivity (RtoC (Cmod (winf w (k - s))) * (cis (2 * PI * f0 * IZR (k - c0)) * cis (2 * PI * IZR (- (f * (k - s))) / IZR n)))%C; [ring|]. rewrite <- cis_plus. rewrite Cmult_comm. f_equal.
      replace (2 * PI * f0 * IZR (k - c0) + 2 * PI * IZR (- (f * (k - s))) / IZR n)%R with (2 * PI * f0 * IZR (s - c0) + 2 * PI * IZR (q * (k - s)))%R.
      * rewrite cis_plus, cis_2PI_k. ring.
      * rewrite E, opp_IZR, !mult_IZR, !minus_IZR. field. apply not_0_IZR. lia.
Qed.
(** Samples of an N-sample signal at distance at most h of c. *)
Definition overlap (N c h : Z) : Z := Z.min (N - 1) (c + h) - Z.max 0 (c - h) + 1.
Lemma winf_ones h t : 0 <= h -> winf (repeat (RtoC 1) (Z.to_nat (2 * h + 1))) t = if (- h <=? t) && (t <=? h) then RtoC 1 else RtoC 0.
Proof.
  intros Hh. unfold winf. replace (zlen (repeat (RtoC 1) (Z.to_nat (2 * h + 1)))) with (2 * h + 1) by (unfold zlen; rewrite repeat_length; lia). replace ((2 * h + 1 - 1) / 2) with h by (Z.to_euclidean_division_equations; lia).
  destruct ((- h <=? t) && (t <=? h)) eqn:B; [|reflexivity]. apply andb_prop in B. destruct B as [B1 B2]. apply Z.leb_le in B1, B2. unfold cnth. rewrite nth_indep with (d' := RtoC 1) by (rewrite repeat_length; lia). apply nth_repeat.
Qed.
(** Rectangular window: the modulus is that of a geometric sum over the overlap. *)
Lemma c103_rectangle : forall N f0 c0 y law ts n h o f c, 0 <= c0 < N -> fmconst N f0 (Some (IZR c0)) = Ok (map Some y, law) -> 0 <= h -> 2 * h + 1 <= n ->
  stft y (Some ts) (Some n) (Some (repeat (RtoC 1) (Z.to_nat (2 * h + 1)))) = Ok o -> 0 <= f < n -> 0 <= c < ts_len ts -> 0 <= overlap N (c - 1) h ->
  Cmod (at2 (r_tfr o) f c) = Cmod (tone_sum (overlap N (c - 1) h) (f0 - IZR f / IZR n)).
Proof.
  intros N f0 c0 y law ts n h o f c Hc0 HF Hh Hn HO Hf Hc HL. destruct (tone_values _ _ _ _ _ Hc0 HF) as (_ & L & V). set (w := repeat (RtoC 1) (Z.to_nat (2 * h + 1))) in *.
  assert (LW : (zlen w - 1) / 2 = h) by (unfold w, zlen; rewrite repeat_length; Z.to_euclidean_division_equations; lia).
  rewrite (stft_at y ts n w o f c) by (auto; lia). unfold STFT. rewrite L. set (s := c - 1) in *. set (a := Z.max 0 (s - h)). set (M := overlap N s h) in *.
  assert (EM : arange a (a + M) = arange (0 + a) (M + a)) by (f_equal; lia).
  rewrite (csum_incl (arange a (a + M))); [|apply NoDup_arange|apply NoDup_arange| |].
  - rewrite EM, arange_shift, csum_map. unfold tone_sum. set (d := (f0 - IZR f / IZR n)%R). rewrite (csum_ext _ _ (fun j => cis (2 * PI * (f0 * IZR (a - c0) - IZR f / IZR n * IZR (a - s))) * cis (2 * PI * (IZR j * d)))%C); [rewrite csum_scal_l, Cmod_mult, Cmod_cis; ring|].
    intros j Hj. apply in_arange in Hj. unfold overlap in M. rewrite sigf_in, V by lia. unfold w. rewrite winf_ones by auto. rewrite (proj2 (Z.leb_le _ _)), (proj2 (Z.leb_le _ _)) by lia. cbn [andb]. rewrite Cconj_R, Cmult_1_r. unfold root. rewrite <- !cis_plus. f_equal. unfold d. rewrite opp_IZR, mult_IZR, !minus_IZR, !plus_IZR. field. apply not_0_IZR. lia.
  - intros u Hu. apply in_arange in Hu. apply in_arange. unfold overlap in M. lia.
  - intros u Hu NU. rewrite in_arange in NU. apply in_arange in Hu. unfold overlap in M. unfold w. rewrite winf_ones by auto. replace ((- h <=? u - s) && (u - s <=? h)) with false; [rewrite Cconj_R; ring|]. symmetry. apply andb_false_iff. destruct (Z_lt_dec (u - s) (- h)); [left; apply Z.leb_gt; lia|right; apply Z.leb_gt; lia].
Qed.
(** So, with two or more samples under the window, the largest rows of a column are
    exactly those nearest to the frequency of the tone; they are within half a bin. *)
Lemma c103_nearest : forall N f0 c0 y law ts n h o f c, 0 <= c0 < N -> fmconst N f0 (Some (IZR c0)) = Ok (map Some y, law) -> 0 <= h -> 2 * h + 1 <= n ->
  stft y (Some ts) (Some n) (Some (repeat (RtoC 1) (Z.to_nat (2 * h + 1)))) = Ok o -> 0 <= f < n -> 0 <= c < ts_len ts -> 2 <= overlap N (c - 1) h ->
  ((forall g, 0 <= g < n -> (Cmod (at2 (r_tfr o) g c) <= Cmod (at2 (r_tfr o) f c))%R) <->
   (forall g, 0 <= g < n -> (dist_int (f0 - IZR f / IZR n) <= dist_int (f0 - IZR g / IZR n))%R)) /\
  ((forall g, 0 <= g < n -> (Cmod (at2 (r_tfr o) g c) <= Cmod (at2 (r_tfr o) f c))%R) -> exists q, (Rabs (f0 - (IZR f / IZR n + IZR q)) <= 1 / (2 * IZR n))%R).
Proof.
  intros N f0 c0 y law ts n h o f c Hc0 HF Hh Hn HO Hf Hc HL.
  assert (E : (forall g, 0 <= g < n -> (Cmod (at2 (r_tfr o) g c) <= Cmod (at2 (r_tfr o) f c))%R) <-> (forall g, 0 <= g < n -> (dist_int (f0 - IZR f / IZR n) <= dist_int (f0 - IZR g / IZR n))%R)).
  { rewrite <- (tone_rows (overlap N (c - 1) h)) by (auto; unfold overlap in *; lia). split; intros H g Hg; specialize (H g Hg); rewrite !(c103_rectangle N f0 c0 y law ts n h o _ c Hc0 HF Hh Hn HO) in * by (auto; lia); exact H. }
  split; [exact E|]. intros H. apply nearest_half; [lia|]. now apply E.
Qed.
(** Window [1]: column c shows |x[c-1]| in every row, whatever the signal. *)
Lemma c103_instant : forall x ts n o f c, 1 <= n -> stft x (Some ts) (Some n) (Some [RtoC 1]) = Ok o -> 0 <= f < n -> 0 <= c < ts_len ts ->
  Cmod (at2 (r_tfr o) f c) = Cmod (sigf x (c - 1)).
Proof.
  intros x ts n o f c Hn HO Hf Hc. rewrite (stft_at x ts n [RtoC 1] o f c) by (auto; cbn; lia). unfold STFT. set (s := c - 1).
  assert (W : forall t, winf [RtoC 1] t = if t =? 0 then RtoC 1 else RtoC 0). { intros t. change [RtoC 1] with (repeat (RtoC 1) (Z.to_nat (2 * 0 + 1))). rewrite winf_ones by lia. destruct (Z.eqb_spec t 0) as [->|]; [reflexivity|]. destruct (Z.leb_spec (- 0) t); destruct (Z.leb_spec t 0); cbn [andb]; try reflexivity. lia. }
  destruct (Z_lt_dec s 0) as [A|A]; [|destruct (Z_le_dec (zlen x) s) as [B|B]].
  - rewrite sigf_out by auto. rewrite csum_0; [reflexivity|]. intros k Hk. apply in_arange in Hk. rewrite W, (proj2 (Z.eqb_neq _ _)) by lia. rewrite Cconj_R. ring.
  - rewrite sigf_out by auto. rewrite csum_0; [reflexivity|]. intros k Hk. apply in_arange in Hk. rewrite W, (proj2 (Z.eqb_neq _ _)) by lia. rewrite Cconj_R. ring.
  - rewrite (csum_single _ s).
    + rewrite W, Z.sub_diag, Z.eqb_refl, Cconj_R, Z.mul_0_r. change (- 0) with 0. rewrite root_0. now rewrite !Cmult_1_r.
    + apply NoDup_arange.
    + apply in_arange. lia.
    + intros k _ NE. rewrite W, (proj2 (Z.eqb_neq _ _)) by lia. rewrite Cconj_R. ring.
Qed.
(** Tone at 3/8, four samples, rectangular window of three, four bins: in column 2
    rows 1 (1/4) and 2 (1/2) are equally near; both are largest. *)
Example c103_example : exists y law o, fmconst 4 (3 / 8) (Some 0%R) = Ok (map Some y, law) /\ stft y None None (Some [RtoC 1; RtoC 1; RtoC 1]) = Ok o /\
  forall g, 0 <= g < 4 -> (Cmod (at2 (r_tfr o) g 2) <= Cmod (at2 (r_tfr o) 1 2))%R.
Proof.
  destruct (c54_tone 4 (3 / 8) 0 ltac:(lia)) as (y & HF & L & _); [rewrite Rabs_pos_eq; lra|]. destruct (c09_stft_total y (TsI (arange 0 4)) 4 [RtoC 1; RtoC 1; RtoC 1] ltac:(lia)) as [o [HO _]].
  exists y, (map (fun _ => (3 / 8)%R) (arange 0 4)), o. split; [exact HF|]. split. { rewrite <- HO. rewrite <- L. reflexivity. }
  apply (proj2 (proj1 (c103_nearest 4 (3 / 8) 0 y (map (fun _ => (3 / 8)%R) (arange 0 4)) (TsI (arange 0 4)) 4 1 o 1 2 ltac:(lia) HF ltac:(lia) ltac:(lia) HO ltac:(lia) ltac:(change (0 <= 2 < 4); lia) ltac:(unfold overlap; lia)))).
  intros g Hg. apply Rle_trans with (1 / 8)%R; [apply Rle_trans with (1 := dist_int_le _ 0); rewrite Rabs_pos_eq; lra|].
  destruct (dist_int_spec (3 / 8 - IZR g / 4)) as ([P1 P2] & q & EQ). set (D := dist_int (3 / 8 - IZR g / 4)) in *. apply Rnot_lt_le. intros C.
  assert (G : g = 0 \/ g = 1 \/ g = 2 \/ g = 3) by lia. assert (K : (-1 < IZR q < 1)%R) by (destruct G as [-> | [-> | [-> | ->]]]; destruct EQ; lra). assert (q = 0) by (destruct K as [K1 K2]; apply lt_IZR in K1; apply lt_IZR in K2; lia). subst q. destruct G as [-> | [-> | [-> | ->]]]; destruct EQ; lra.
Qed.
