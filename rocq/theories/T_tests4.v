(** C132, concluded: the tests marked as known failures, and the concrete cases. *)
From Coq Require Import Reals ZArith List Lia Lra Bool.
From Coquelicot Require Import Coquelicot.
From Flocq Require Import Core.
From Verif Require Import Py Scalars CSum DFT Spec M_base M_utils M_putils M_stft M_cohen M_dom M_gen1 M_gen3 P_base P_stft P_wvd T_wvd T_stft T_spec T_putils T_gen1 T_tests T_tests3.
Import ListNotations.
Local Open Scope Z_scope.

(** *** test_linear.py, test_stft_conjugation (skipped there as a known failure) *)
Lemma stft2 (x : list C) : zlen x = 2 -> exists o, stft x None (Some 2) (Some [RtoC 1]) = Ok o /\ at2 (r_tfr o) 0 1 = cnth x 0.
Proof.
  intros L. assert (W : 2 * ((zlen [RtoC 1] - 1) / 2) < 2) by (cbn; lia).
  destruct (c11_stft_closed_form x (TsI (arange 0 2)) 2 [RtoC 1] 0 1 ltac:(lia) W ltac:(lia) ltac:(cbn [ts_len]; rewrite arange_zlen; lia)) as [o [H V]].
  exists o. split; [rewrite <- H; rewrite <- L; reflexivity|]. rewrite V. unfold STFT. rewrite L. change (arange 0 2) with [0; 1]. rewrite !csum_cons, csum_nil. unfold winf. cbn [andb Z.leb]. change ((zlen [RtoC 1] - 1) / 2) with 0.
  change (0 - (1 - 1)) with 0. change (1 - (1 - 1)) with 1. cbn. change (Z.to_nat (0 + 0)) with 0%nat. rewrite sigf_in by lia. unfold cnth at 2. cbn [Z.to_nat nth Z.add]. rewrite ?Z.mul_0_r, ?Z.mul_0_l, root_0, !Cconj_R. change (nth 0 x (RtoC 0)) with (cnth x 0). ring.
Qed.
Lemma c132_conjugation_refuted : exists x o o', zlen x = 2 /\ stft (map Cconj x) None (Some 2) (Some [RtoC 1]) = Ok o /\ stft (rev x) None (Some 2) (Some [RtoC 1]) = Ok o' /\
  at2 (r_tfr o) 0 1 <> Cconj (at2 (r_tfr o') 0 1).
Proof.
  destruct (stft2 (map Cconj [RtoC 1; RtoC 0]) eq_refl) as (o & H & V). destruct (stft2 (rev [RtoC 1; RtoC 0]) eq_refl) as (o' & H' & V').
  exists [RtoC 1; RtoC 0], o, o'. split; [reflexivity|]. split; [exact H|]. split; [exact H'|]. rewrite V, V'. unfold cnth. cbn [map rev app Z.to_nat nth]. rewrite !Cconj_R. intros E. apply RtoC_inj in E. lra.
Qed.
(** *** test_linear.py, test_stft_translation (skipped there as a known failure): rolling the signal does not multiply the transform by a phase. *)
Lemma c132_translation_refuted : exists x o o', zlen x = 2 /\ stft x None (Some 2) (Some [RtoC 1]) = Ok o /\ stft (roll 1 x) None (Some 2) (Some [RtoC 1]) = Ok o' /\
  at2 (r_tfr o') 0 1 <> (cis (- (2 * PI * 1 * 0)) * at2 (r_tfr o) 0 1)%C.
Proof.
  destruct (stft2 [RtoC 1; RtoC 0] eq_refl) as (o & H & V). destruct (stft2 (roll 1 [RtoC 1; RtoC 0]) eq_refl) as (o' & H' & V').
  exists [RtoC 1; RtoC 0], o, o'. split; [reflexivity|]. split; [exact H|]. split; [exact H'|]. rewrite V, V'. rewrite roll_at by (cbn; lia). change ((0 - 1) mod zlen [RtoC 1; RtoC 0]) with 1. unfold cnth. cbn [Z.to_nat nth Pos.to_nat Pos.iter_op].
  replace (- (2 * PI * 1 * 0))%R with 0%R by ring. rewrite cis_0. intros E. change (Pos.to_nat 1) with 1%nat in E. cbn [nth] in E. rewrite Cmult_1_l in E. apply RtoC_inj in E. lra.
Qed.

(** The test's mexhat(0.5): seven samples, one maximum at 3, minima at 2 and 4. *)
Example c132_mexhat_example : exists y, mexhat (1 / 2) = Ok y /\ zlen y = 7 /\
  (forall j, 1 <= j < 6 -> ((rnth y (j - 1) < rnth y j)%R /\ (rnth y (j + 1) < rnth y j)%R <-> j = 3)) /\
  (forall j, 1 <= j < 6 -> ((rnth y j < rnth y (j - 1))%R /\ (rnth y j < rnth y (j + 1))%R <-> j = 2 \/ j = 4)).
Proof.
  destruct (c132_mexhat_extrema (1 / 2)) as (y & E & L & MX & MN); [lra|]. assert (C3 : Zceil (3 / 2 / (1 / 2)) = 3) by (apply Zceil_imp; change (IZR (3 - 1)) with 2%R; lra). rewrite C3 in *.
  exists y. split; [exact E|]. split; [exact L|]. split; [exact MX|]. apply MN. assert (Q := PI2_3_2). nra.
Qed.
(** The energy test with the default window, for every signal of constant modulus and at least 8 bins. *)
Lemma c132_energy_default : forall x n A, 8 <= n -> (forall k, 0 <= k < zlen x -> Cmod (cnth x k) = A) ->
  exists m, spectrogram x None (Some n) None = Ok m /\ zlen m = zlen x /\ rsum m mass = (IZR n * energy x)%R.
Proof.
  intros x n A Hn HA. destruct (c17_spectrogram_default_window x (arange 0 (zlen x)) n ltac:(lia)) as (m & E & L & S). assert (NX := zlen_nonneg x).
  exists m. split; [exact E|]. split; [rewrite L, arange_zlen; lia|]. apply (c132_spectrogram_energy x n (map RtoC (make_window n)) m A); auto.
  - lia.
  - assert (R : 4 <= round_half n) by (unfold round_half; destruct (Z.even n), (Z.even (n / 2)); Z.to_euclidean_division_equations; lia).
    assert (W : 3 <= default_winlen n). { unfold default_winlen. cbv zeta. Z.to_euclidean_division_equations; lia. }
    assert (1 <= (default_winlen n - 1) / 2) by (apply Z.div_le_lower_bound; lia). unfold maxlag, make_window. rewrite zlen_map, hamming_zlen by lia. lia.
  - intros c Hc. destruct (S c Hc) as (col & -> & _). discriminate.
Qed.
(** The chirp of the test: the spectrogram of fmlin sums to 64 times its length. *)
Example c132_energy_example : exists y law m, fmlin 128 (1 / 10) (4 / 10) None = Ok (y, law) /\ spectrogram y None (Some 64) None = Ok m /\ rsum m mass = (64 * 128)%R.
Proof.
  destruct (c55_default 128 (1 / 10) (4 / 10) ltac:(lia)) as [B ED].
  destruct (c55_chirp 128 (1 / 10) (4 / 10) (Some (IZR (half_round 128)))) as (y & law & E & L & _ & _ & _ & _ & M & _); [lia|rewrite Rabs_right; lra|rewrite Rabs_right; lra|cbn [centre_of]; rewrite trunc_IZR; lia|].
  destruct (c132_energy_default y 64 1 ltac:(lia)) as (m & EM & _ & S); [rewrite L; exact M|].
  exists y, law, m. split; [rewrite ED; exact E|]. split; [exact EM|]. rewrite S. rewrite energy_nth, L. rewrite (rsum_ext _ _ (fun _ => 1%R)) by (intros k Hk; apply in_arange in Hk; rewrite M by lia; ring). rewrite rsum_const, arange_length. change (Z.to_nat (128 - 0)) with 128%nat. rewrite INR_IZR_INZ. change (Z.of_nat 128) with 128. ring.
Qed.
