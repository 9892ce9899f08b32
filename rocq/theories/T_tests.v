(** C132: what the assertions of the library's own tests come to for all parameters
    (tftb/processing/tests, tftb/generators/tests). *)
From Coq Require Import Reals ZArith List Lia Lra Bool.
From Coquelicot Require Import Coquelicot.
From Verif Require Import Py Scalars CSum DFT Spec M_base M_utils M_putils M_stft M_cohen M_amb M_dom M_gen1 M_gen2
  P_base P_stft P_spec P_wvd T_wvd T_stft T_spec T_pwvd T_amb T_dom T_putils T_utils T_gen1 T_gen2 T_gallery M_gallery T_dual.
Import ListNotations.
Local Open Scope Z_scope.

(** *** test_cohen.py: time invariance of the spectrogram (np.roll) *)
(** A column is a function of the samples under its window alone. *)
Lemma spec_local x y w n t u : 0 < n -> let h := maxlag w n in
  h <= t - 1 -> t + h <= zlen x -> h <= u - 1 -> u + h <= zlen y -> (forall k, - h <= k <= h -> cnth x (t - 1 + k) = cnth y (u - 1 + k)) ->
  spec_out x w n t = spec_out y w n u.
Proof.
  intros Hn h H1 H2 H3 H4 HE. change (maxlag w n) with (spec_m w n) in *.
  assert (T : spec_taus (zlen x) w n t = arange (- h) (h + 1)) by (unfold spec_taus; fold h; f_equal; lia).
  assert (U : spec_taus (zlen y) w n u = arange (- h) (h + 1)) by (unfold spec_taus; fold h; f_equal; lia).
  assert (N : spec_nrm x w n t = spec_nrm y w n u) by (unfold spec_nrm; rewrite T, U; reflexivity).
  unfold spec_out. rewrite T, U, N. destruct (arange (- h) (h + 1)) as [|a l] eqn:EA; [reflexivity|]. rewrite <- EA.
  destruct (Req_EM_T (spec_nrm y w n u) 0); [reflexivity|]. do 3 f_equal. unfold scatter. f_equal. apply map_ext_in. intros k Hk. apply in_arange in Hk. f_equal.
  unfold spec_val. rewrite N. replace (t + k - 1) with (t - 1 + k) by lia. replace (u + k - 1) with (u - 1 + k) by lia. rewrite HE by lia. reflexivity.
Qed.
Lemma c132_spectrogram_local : forall x y l l' n w m m' i j t u, 1 <= n ->
  spectrogram x (Some (TsI l)) (Some n) (Some w) = Ok m -> spectrogram y (Some (TsI l')) (Some n) (Some w) = Ok m' ->
  nth_error l i = Some t -> nth_error l' j = Some u -> let h := maxlag w n in
  h <= t - 1 -> t + h <= zlen x -> h <= u - 1 -> u + h <= zlen y -> (forall k, - h <= k <= h -> cnth x (t - 1 + k) = cnth y (u - 1 + k)) ->
  nth_error m i = nth_error m' j.
Proof.
  intros x y l l' n w m m' i j t u Hn E E' Hi Hj h H1 H2 H3 H4 HE. rewrite spectrogram_ok in E, E' by lia.
  assert (M : m = map (spec_out x w n) l) by congruence. assert (M' : m' = map (spec_out y w n) l') by congruence. subst m m'.
  rewrite !nth_error_map, Hi, Hj. cbn. f_equal. apply spec_local; auto. lia.
Qed.

(** [np.roll(x, s)]. *)
Definition roll (s : Z) (x : list C) : list C := map (fun k => cnth x ((k - s) mod zlen x)) (arange 0 (zlen x)).
Lemma roll_zlen s x : zlen (roll s x) = zlen x.
Proof. unfold roll. assert (H := zlen_nonneg x). rewrite zlen_map_arange; lia. Qed.
Lemma roll_at s x k : 0 <= k < zlen x -> cnth (roll s x) k = cnth x ((k - s) mod zlen x).
Proof. intros H. unfold roll, cnth at 1. rewrite (nth_indep _ _ (cnth x ((0 - s) mod zlen x))) by (rewrite map_length; assert (L := arange_zlen 0 (zlen x)); unfold zlen in L at 1; lia). rewrite (map_nth (fun k => cnth x ((k - s) mod zlen x))). do 3 f_equal. rewrite nth_arange by lia. lia. Qed.

(** The columns of the rolled signal are the rolled columns, wherever the window fits on both sides. *)
Lemma c132_spectrogram_roll : forall x n w s mx my t u, 1 <= n ->
  spectrogram x None (Some n) (Some w) = Ok mx -> spectrogram (roll s x) None (Some n) (Some w) = Ok my ->
  u = (t + s) mod zlen x -> let h := maxlag w n in
  h <= t - 1 -> t + h <= zlen x -> h <= u - 1 -> u + h <= zlen x -> 0 <= t < zlen x ->
  nth_error my (Z.to_nat u) = nth_error mx (Z.to_nat t).
Proof.
  intros x n w s mx my t u Hn E E' HU h H1 H2 H3 H4 H5. assert (B := Z.mod_pos_bound (t + s) (zlen x) ltac:(lia)). rewrite <- HU in B.
  change (spectrogram x None (Some n) (Some w)) with (spectrogram x (Some (TsI (arange 0 (zlen x)))) (Some n) (Some w)) in E.
  change (spectrogram (roll s x) None (Some n) (Some w)) with (spectrogram (roll s x) (Some (TsI (arange 0 (zlen (roll s x))))) (Some n) (Some w)) in E'. rewrite roll_zlen in E'.
  assert (NE : forall k, 0 <= k < zlen x -> nth_error (arange 0 (zlen x)) (Z.to_nat k) = Some k) by (intros k Hk; rewrite nth_error_arange by lia; f_equal; lia).
  apply (c132_spectrogram_local (roll s x) x _ _ n w my mx _ _ u t Hn E' E); auto; rewrite ?roll_zlen; auto.
  intros k Hk. fold h in Hk. rewrite roll_at by lia. f_equal.
  assert (Q := Z.div_mod (t + s) (zlen x) ltac:(lia)). rewrite <- HU in Q.
  replace (u - 1 + k - s) with (t - 1 + k + (- ((t + s) / zlen x)) * zlen x) by lia. rewrite Z.mod_add by lia. apply Z.mod_small. lia.
Qed.

(** *** test_cohen.py: energy conservation of the spectrogram *)
Definition mass (c : option (list R)) : R := match c with Some col => rsum col (fun v => v) | None => 0%R end.
Lemma c132_spectrogram_energy : forall x n w m A, 1 <= n -> spectrogram x None (Some n) (Some w) = Ok m -> 1 <= maxlag w n ->
  (forall c, In c m -> c <> None) -> (forall k, 0 <= k < zlen x -> Cmod (cnth x k) = A) -> rsum m mass = (IZR n * energy x)%R.
Proof.
  intros x n w m A Hn E HL HS HA. change (spectrogram x None (Some n) (Some w)) with (spectrogram x (Some (TsI (arange 0 (zlen x)))) (Some n) (Some w)) in E.
  assert (M := E). rewrite spectrogram_ok in M by lia. assert (MM : m = map (spec_out x w n) (arange 0 (zlen x))) by congruence. clear M.
  assert (NX := zlen_nonneg x).
  assert (COL : forall t, In t (arange 0 (zlen x)) -> mass (spec_out x w n t) = (IZR n * A ^ 2)%R).
  { intros t Ht. destruct (spec_out x w n t) as [col|] eqn:EO; [|exfalso; apply (HS None); auto; rewrite MM; apply in_map_iff; exists t; auto]. apply in_arange in Ht.
    assert (B := c18_spectrogram_mean_bounds x (arange 0 (zlen x)) n w m (Z.to_nat t) t col (A ^ 2) (A ^ 2) Hn E).
    assert (N1 : nth_error (arange 0 (zlen x)) (Z.to_nat t) = Some t) by (rewrite nth_error_arange by lia; f_equal; lia).
    assert (N2 : nth_error m (Z.to_nat t) = Some (Some col)) by (rewrite MM, nth_error_map, N1; cbn; now rewrite EO).
    specialize (B N1 N2). assert (B' : (A ^ 2 <= rsum (arange 0 n) (rnth col) / IZR n <= A ^ 2)%R).
    { apply B; [exists (Z.max 0 (t - 1)); lia|]. intros k Hk _. rewrite HA by auto. lra. }
    destruct (spec_out_shape x w n t col ltac:(lia) EO) as [LC _]. cbn [mass].
    rewrite rsum_nth, LC. assert (0 < IZR n)%R by (apply IZR_lt; lia).
    assert (Q : (rsum (arange 0 n) (rnth col) / IZR n = A ^ 2)%R) by lra. rewrite <- Q. field. lra. }
  rewrite MM, rsum_map, (rsum_ext _ _ _ COL), rsum_const, energy_nth.
  rewrite (rsum_ext _ _ (fun _ => A ^ 2)%R) by (intros k Hk; apply in_arange in Hk; rewrite HA by lia; reflexivity). rewrite rsum_const. ring.
Qed.
