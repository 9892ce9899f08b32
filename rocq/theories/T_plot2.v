(** C94: at which height of the picture a row is drawn.  C97: the spectrum
    drawn beside it. *)
From Coq Require Import Reals ZArith List Lia Lra Bool.
From Coquelicot Require Import Coquelicot.
From Verif Require Import Py Scalars CSum DFT Spec M_base P_base M_utils M_putils M_post M_stft M_cohen M_state M_gen1 M_gen2 M_aff M_plot T_gen1 T_putils T_state T_post T_plot.
Import ListNotations.
Local Open Scope Z_scope.

(** The height at which row k of the matrix appears: the centre of its pixels,
    or its ordinate in a contour plot. *)
Definition placed (a : artist) (k : Z) (y : R) : Prop :=
  match a with
  | Image _ _ f0 f1 m => 0 <= k < zlen m /\ y = (f0 + (IZR k + 1 / 2) * ((f1 - f0) / IZR (zlen m)))%R
  | Contour _ ys _ _ => 0 <= k < zlen ys /\ y = rnth ys k
  | _ => False
  end.

Definition least (l : list R) (m : R) : Prop := In m l /\ forall v, In v l -> (m <= v)%R.
Definition greatest (l : list R) (m : R) : Prop := In m l /\ forall v, In v l -> (v <= m)%R.
Lemma rmin_list_spec l m : rmin_list l = Ok m -> least l m.
Proof.
  destruct l as [|a l]; [discriminate|]. cbn [rmin_list]. intros H. assert (m = fold_left Rmin l a) as -> by congruence. clear H. unfold least. revert a.
  induction l as [|b l IH]; intros a; cbn [fold_left]; [split; [now left|]; intros v [->|[]]; lra|].
  destruct (IH (Rmin a b)) as [I1 I2]. split.
  - destruct I1 as [I1|I1]; [|right; now right]. rewrite <- I1. unfold Rmin. destruct (Rle_dec a b); [now left|right; now left].
  - intros v Hv. assert (M := I2 _ (or_introl eq_refl)). destruct Hv as [->|[->|Hv]]; [apply Rle_trans with (1 := M), Rmin_l|apply Rle_trans with (1 := M), Rmin_r|apply I2; now right].
Qed.
Lemma rmax_list_spec' l m : rmax_list l = Ok m -> greatest l m.
Proof.
  destruct l as [|a l]; [discriminate|]. cbn [rmax_list]. intros H. assert (m = fold_left Rmax l a) as -> by congruence. clear H. unfold greatest. revert a.
  induction l as [|b l IH]; intros a; cbn [fold_left]; [split; [now left|]; intros v [->|[]]; lra|].
  destruct (IH (Rmax a b)) as [I1 I2]. split.
  - destruct I1 as [I1|I1]; [|right; now right]. rewrite <- I1. unfold Rmax. destruct (Rle_dec a b); [right; now left|now left].
  - intros v Hv. assert (M := I2 _ (or_introl eq_refl)). destruct Hv as [->|[->|Hv]]; [apply Rle_trans with (2 := M), Rmax_l|apply Rle_trans with (2 := M), Rmax_r|apply I2; now right].
Qed.
Lemma rmin_is l m : least l m -> rmin_list l = Ok m.
Proof.
  intros [I L]. destruct (rmin_ok l) as [m' E]; [intros ->; destruct I|]. rewrite E. f_equal. apply rmin_list_spec in E. destruct E as [I' L']. specialize (L _ I'). specialize (L' _ I). lra.
Qed.
Lemma rmax_is l m : greatest l m -> rmax_list l = Ok m.
Proof.
  intros [I L]. destruct (rmax_ok l) as [m' E]; [intros ->; destruct I|]. rewrite E. f_equal. apply rmax_list_spec' in E. destruct E as [I' L']. specialize (L _ I'). specialize (L' _ I). lra.
Qed.
Lemma least_nth l k : 0 <= k < zlen l -> (forall j, 0 <= j < zlen l -> (rnth l k <= rnth l j)%R) -> least l (rnth l k).
Proof.
  intros Hk H. split; [apply nth_In; unfold zlen in Hk; lia|]. intros v Hv. apply (In_nth _ _ 0%R) in Hv. destruct Hv as (j & Hj & <-). specialize (H (Z.of_nat j) ltac:(unfold zlen; lia)). unfold rnth in *. now rewrite Nat2Z.id in H.
Qed.
Lemma greatest_nth l k : 0 <= k < zlen l -> (forall j, 0 <= j < zlen l -> (rnth l j <= rnth l k)%R) -> greatest l (rnth l k).
Proof.
  intros Hk H. split; [apply nth_In; unfold zlen in Hk; lia|]. intros v Hv. apply (In_nth _ _ 0%R) in Hv. destruct Hv as (j & Hj & <-). specialize (H (Z.of_nat j) ltac:(unfold zlen; lia)). unfold rnth in *. now rewrite Nat2Z.id in H.
Qed.

(** An image without a given extent, in both layouts. *)
Lemma image_at tf th ext v t0 t1 f0 f1 : v_affine v = None -> 1 <= zlen (v_sig v) -> v_ts v <> [] ->
  match ext with Some e => e = (t0, t1, f0, f1) | None => least (v_ts v) t0 /\ greatest (v_ts v) t1 /\ least (v_freqs v) f0 /\ greatest (v_freqs v) f1 end ->
  exists rest, base_plot (defaults Kcmap tf th ext) v = Ok (Image t0 t1 f0 f1 (v_tfr v) :: rest).
Proof.
  intros A HN HT E. unfold base_plot. cbn [defaults o_extent o_kind o_tf].
  assert (X : match ext with Some e => Ok e | None => a <- rmin_list (v_ts v) ;; b <- rmax_list (v_ts v) ;; c <- rmin_list (v_freqs v) ;; d <- rmax_list (v_freqs v) ;; Ok (a, b, c, d) end = Ok (t0, t1, f0, f1)).
  { destruct ext as [e|]; [now rewrite E|]. destruct E as (E1 & E2 & E3 & E4). now rewrite (rmin_is _ _ E1), (rmax_is _ _ E2), (rmin_is _ _ E3), (rmax_is _ _ E4). }
  rewrite X. cbn [bind]. destruct tf; [|eauto]. unfold plot_tfr. cbn [defaults o_kind bind]. rewrite spectrum_ok by auto. cbn [bind app]. eauto.
Qed.

(** ** C94 *)
Lemma freqs_least_first n : 2 <= n -> least (prefix (base_freqs n) (n / 2)) 0 /\ greatest (prefix (base_freqs n) (n / 2)) (IZR (n / 2 - 1) / IZR n).
Proof.
  intros Hn. destruct (freqs_first n _ Hn eq_refl) as [L V]. set (h := n / 2) in *. assert (Hh : 1 <= h) by (unfold h; Z.to_euclidean_division_equations; lia). assert (Pn : (0 < / IZR n)%R) by (apply Rinv_0_lt_compat, IZR_lt; lia).
  split.
  - replace 0%R with (rnth (prefix (base_freqs n) h) 0) by (rewrite V by lia; unfold Rdiv; ring). apply least_nth; rewrite L; [lia|]. intros j Hj. rewrite !V by lia. unfold Rdiv. apply Rmult_le_compat_r; [lra|]. apply IZR_le. lia.
  - rewrite <- V by lia. apply greatest_nth; rewrite L; [lia|]. intros j Hj. rewrite !V by lia. unfold Rdiv. apply Rmult_le_compat_r; [lra|]. apply IZR_le. lia.
Qed.
Lemma wvd_freqs_ends n : 1 <= n -> least (wvd_freqs n) 0 /\ greatest (wvd_freqs n) (IZR (n - 1) / (2 * IZR n)).
Proof.
  intros Hn. assert (Pn : (0 < / IZR n)%R) by (apply Rinv_0_lt_compat, IZR_lt; lia). assert (Nn : IZR n <> 0%R) by (apply not_0_IZR; lia).
  assert (L : zlen (wvd_freqs n) = n) by (unfold wvd_freqs; rewrite zlen_map_arange by lia; lia).
  assert (V : forall k, 0 <= k < n -> rnth (wvd_freqs n) k = (IZR k * (/ 2 * / IZR n))%R) by (intros k Hk; unfold wvd_freqs; rewrite rnth_map_arange by lia; rewrite Z.add_0_l; unfold Rdiv; lra).
  assert (P2 : (0 <= / 2 * / IZR n)%R) by lra. split.
  - replace 0%R with (rnth (wvd_freqs n) 0) by (rewrite V by lia; ring). apply least_nth; rewrite L; [lia|]. intros j Hj. rewrite !V by lia. apply Rmult_le_compat_r; [lra|]. apply IZR_le. lia.
  - replace (IZR (n - 1) / (2 * IZR n))%R with (rnth (wvd_freqs n) (n - 1)) by (rewrite V by lia; field; auto). apply greatest_nth; rewrite L; [lia|]. intros j Hj. rewrite !V by lia. apply Rmult_le_compat_r; [lra|]. apply IZR_le. lia.
Qed.
Lemma base_freqs_ends n : 2 <= n -> least (base_freqs n) (- IZR (n / 2) / IZR n) /\ greatest (base_freqs n) (IZR (n / 2 - 1) / IZR n).
Proof.
  intros Hn. set (h := n / 2). assert (Hh : 1 <= h) by (unfold h; Z.to_euclidean_division_equations; lia). assert (Pn : (0 < / IZR n)%R) by (apply Rinv_0_lt_compat, IZR_lt; lia).
  assert (B : zlen (base_freqs n) = 2 * h /\ (forall k, 0 <= k < h -> rnth (base_freqs n) k = (IZR k / IZR n)%R) /\ (forall k, h <= k < 2 * h -> rnth (base_freqs n) k = (IZR (k - 2 * h) / IZR n)%R)).
  { destruct (Z.eq_dec (n mod 2) 0) as [E|E].
    - destruct (base_freqs_even n ltac:(lia) E) as (L & A & B). replace n with (2 * h) in L at 2 by (unfold h; Z.to_euclidean_division_equations; lia). split; auto. split; auto. intros k Hk. replace (k - 2 * h) with (k - n) by (unfold h; Z.to_euclidean_division_equations; lia). apply B. unfold h in Hk. Z.to_euclidean_division_equations; lia.
    - destruct (base_freqs_odd n ltac:(lia)) as (L & A & B); [Z.to_euclidean_division_equations; lia|]. assert (n - 1 = 2 * h) as E1 by (unfold h; Z.to_euclidean_division_equations; lia). rewrite E1 in *. auto. }
  destruct B as (L & A & B). split.
  - rewrite <- opp_IZR. replace (- h) with (h - 2 * h) by lia. rewrite <- B by lia. apply least_nth; rewrite L; [lia|]. intros j Hj. rewrite (B h) by lia. destruct (Z_lt_dec j h); [rewrite A by lia|rewrite B by lia]; unfold Rdiv; (apply Rmult_le_compat_r; [lra|]); apply IZR_le; lia.
  - rewrite <- A by lia. apply greatest_nth; rewrite L; [lia|]. intros j Hj. rewrite (A (h - 1)) by lia. destruct (Z_lt_dec j h); [rewrite A by lia|rewrite B by lia]; unfold Rdiv; (apply Rmult_le_compat_r; [lra|]); apply IZR_le; lia.
Qed.
Lemma ts_ends ts : 1 <= ts_len ts -> exists a b, least (ts_vals ts) a /\ greatest (ts_vals ts) b.
Proof.
  intros H. assert (N : ts_vals ts <> []) by (apply ne_zlen; rewrite ts_vals_len; lia). destruct (rmin_ok _ N) as [a A]. destruct (rmax_ok _ N) as [b B]. exists a, b. split; [now apply rmin_list_spec|now apply rmax_list_spec'].
Qed.

(** STFT, image: row k holds frequency k/n and is drawn at
    k/n + (h - 1 - 2k)/(2nh), h = n//2: less than half a bin away. *)
Lemma c94_stft : forall tf th o n t, shaped (r_tfr o) n t -> r_n o = n -> ts_len (r_ts o) = t -> r_freqs o = base_freqs n -> 2 <= n -> 1 <= t -> 1 <= zlen (r_sig o) ->
  exists a rest, stft_picture Kcmap tf th o = Ok (a :: rest) /\
    forall k y, placed a k y <-> 0 <= k < n / 2 /\ y = (IZR k / IZR n + IZR (n / 2 - 1 - 2 * k) / (2 * IZR n * IZR (n / 2)))%R.
Proof.
  intros tf th o n t S EN LT FR Hn Ht HN. unfold stft_picture, stft_plot. rewrite EN, FR. cbv zeta. assert (H2 : 1 <= n / 2 <= n) by (Z.to_euclidean_division_equations; lia).
  destruct (threshold_ok th _ _ _ (proj1 H2) Ht (shaped_sq _ _ _ (shaped_first (n / 2) _ n t ltac:(lia) S))) as (tfr' & E & S'). rewrite E. cbn [bind]. set (o1 := with_tfr _ _ _ _).
  destruct (view_shape o1 (n / 2) t ltac:(lia) Ht S') as [V1 V2]. destruct (ts_ends (r_ts o) ltac:(lia)) as (a & b & A & B). destruct (freqs_least_first n Hn) as [F0 F1].
  destruct (image_at tf th None (rep_view o1) a b 0 (IZR (n / 2 - 1) / IZR n)) as [rest P]; auto; [apply ne_zlen; change (v_ts (rep_view o1)) with (ts_vals (r_ts o)); rewrite ts_vals_len; lia|].
  rewrite P. eexists _, _. split; [reflexivity|]. intros k y. cbn [placed]. rewrite V1. assert (NZ : IZR n <> 0%R) by (apply not_0_IZR; lia). assert (NH : IZR (n / 2) <> 0%R) by (apply not_0_IZR; lia).
  assert (Q : (0 + (IZR k + 1 / 2) * ((IZR (n / 2 - 1) / IZR n - 0) / IZR (n / 2)) = IZR k / IZR n + IZR (n / 2 - 1 - 2 * k) / (2 * IZR n * IZR (n / 2)))%R) by (rewrite !minus_IZR, mult_IZR; field; auto). rewrite Q. reflexivity.
Qed.
(** Wigner-Ville, image: row k holds k/(2n), drawn less than half a bin away. *)
Lemma c94_wvd : forall tf sq th o n t, shaped (r_tfr o) n t -> ts_len (r_ts o) = t -> r_freqs o = wvd_freqs n -> 1 <= n -> 1 <= t -> 1 <= zlen (r_sig o) ->
  exists a rest, wvd_picture Kcmap tf sq th o = Ok (a :: rest) /\
    forall k y, placed a k y <-> 0 <= k < n /\ y = (IZR k / (2 * IZR n) + IZR (n - 1 - 2 * k) / (4 * IZR n * IZR n))%R.
Proof.
  intros tf sq th o n t S LT FR Hn Ht HN. unfold wvd_picture, wvd_plot.
  destruct (threshold_ok th (if sq then sqmod_tfr (r_tfr o) else abs_tfr (r_tfr o)) n t Hn Ht) as (tfr' & E & S'). { destruct sq; [now apply shaped_sq|now apply shaped_abs]. }
  rewrite E, FR. cbn [bind]. set (o1 := with_tfr _ _ _ _).
  destruct (view_shape o1 n t ltac:(lia) Ht S') as [V1 V2]. destruct (ts_ends (r_ts o) ltac:(lia)) as (a & b & A & B). destruct (wvd_freqs_ends n Hn) as [F0 F1].
  destruct (image_at tf th None (rep_view o1) a b 0 (IZR (n - 1) / (2 * IZR n))) as [rest P]; auto; [apply ne_zlen; change (v_ts (rep_view o1)) with (ts_vals (r_ts o)); rewrite ts_vals_len; lia|].
  rewrite P. eexists _, _. split; [reflexivity|]. intros k y. cbn [placed]. rewrite V1. assert (NZ : IZR n <> 0%R) by (apply not_0_IZR; lia).
  assert (Q : (0 + (IZR k + 1 / 2) * ((IZR (n - 1) / (2 * IZR n) - 0) / IZR n) = IZR k / (2 * IZR n) + IZR (n - 1 - 2 * k) / (4 * IZR n * IZR n))%R) by (rewrite !minus_IZR, mult_IZR; field; auto). rewrite Q. reflexivity.
Qed.
(** The pseudo Wigner-Ville class keeps the frequencies of base.py: the rows, of
    frequency k/(2n), are spread over [-1/2, 1/2] and every one is drawn too low. *)
Lemma c94_pseudo_refuted : forall tf sq th o n t, shaped (r_tfr o) n t -> ts_len (r_ts o) = t -> r_freqs o = base_freqs n -> 2 <= n -> 1 <= t -> 1 <= zlen (r_sig o) ->
  exists a rest, wvd_picture Kcmap tf sq th o = Ok (a :: rest) /\
    (forall k y, placed a k y <-> 0 <= k < n /\ y = (- IZR (n / 2) / IZR n + (IZR k + 1 / 2) * IZR (2 * (n / 2) - 1) / (IZR n * IZR n))%R) /\
    (forall k y, placed a k y -> (y < IZR k / (2 * IZR n))%R) /\
    (forall y, placed a 0 y -> (y < - (1 / 4))%R).
Proof.
  intros tf sq th o n t S LT FR Hn Ht HN. unfold wvd_picture, wvd_plot.
  destruct (threshold_ok th (if sq then sqmod_tfr (r_tfr o) else abs_tfr (r_tfr o)) n t ltac:(lia) Ht) as (tfr' & E & S'). { destruct sq; [now apply shaped_sq|now apply shaped_abs]. }
  rewrite E, FR. cbn [bind]. set (o1 := with_tfr _ _ _ _).
  destruct (view_shape o1 n t ltac:(lia) Ht S') as [V1 V2]. destruct (ts_ends (r_ts o) ltac:(lia)) as (a & b & A & B). destruct (base_freqs_ends n Hn) as [F0 F1].
  destruct (image_at tf th None (rep_view o1) a b (- IZR (n / 2) / IZR n) (IZR (n / 2 - 1) / IZR n)) as [rest P]; auto; [apply ne_zlen; change (v_ts (rep_view o1)) with (ts_vals (r_ts o)); rewrite ts_vals_len; lia|].
  rewrite P. eexists _, _. split; [reflexivity|]. assert (NZ : IZR n <> 0%R) by (apply not_0_IZR; lia).
  set (im := Image _ _ _ _ _).
  assert (W : forall k y, placed im k y <-> 0 <= k < n /\ y = (- IZR (n / 2) / IZR n + (IZR k + 1 / 2) * IZR (2 * (n / 2) - 1) / (IZR n * IZR n))%R).
  { intros k y. unfold im. cbn [placed]. rewrite V1. assert (Q : (- IZR (n / 2) / IZR n + (IZR k + 1 / 2) * ((IZR (n / 2 - 1) / IZR n - - IZR (n / 2) / IZR n) / IZR n) = - IZR (n / 2) / IZR n + (IZR k + 1 / 2) * IZR (2 * (n / 2) - 1) / (IZR n * IZR n))%R) by (rewrite !minus_IZR, mult_IZR; field; auto). rewrite Q. reflexivity. }
  split; [exact W|].
  assert (Hp : 2 * (n / 2) <= n <= 2 * (n / 2) + 1) by (Z.to_euclidean_division_equations; lia). set (p := n / 2) in *. clearbody p. clear - W Hn Hp NZ.
  assert (Pn : (0 < IZR n)%R) by (apply IZR_lt; lia). assert (Pi : (0 < / (IZR n * IZR n))%R) by (apply Rinv_0_lt_compat, Rmult_lt_0_compat; lra).
  split.
  - intros k y H. apply W in H. destruct H as [Hk ->]. apply Rminus_gt_0_lt.
    replace (IZR k / (2 * IZR n) - (- IZR p / IZR n + (IZR k + 1 / 2) * IZR (2 * p - 1) / (IZR n * IZR n)))%R with ((IZR (k * n + 2 * p * n - (2 * k + 1) * (2 * p - 1)) / 2) * / (IZR n * IZR n))%R by (rewrite !minus_IZR, !plus_IZR, !mult_IZR, minus_IZR, plus_IZR, !mult_IZR; field; auto).
    apply Rmult_lt_0_compat; [|exact Pi]. assert (Z1 : 0 < k * n + 2 * p * n - (2 * k + 1) * (2 * p - 1)) by (assert (n = 2 * p \/ n = 2 * p + 1) as [-> | ->] by lia; nia). apply IZR_lt in Z1. lra.
  - intros y H. apply W in H. destruct H as [_ ->]. apply Rminus_gt_0_lt.
    replace (- (1 / 4) - (- IZR p / IZR n + (0 + 1 / 2) * IZR (2 * p - 1) / (IZR n * IZR n)))%R with ((IZR (4 * p * n - n * n - 4 * p + 2) / 4) * / (IZR n * IZR n))%R by (rewrite plus_IZR, !minus_IZR, !mult_IZR; field; auto).
    apply Rmult_lt_0_compat; [|exact Pi]. assert (Z1 : 0 < 4 * p * n - n * n - 4 * p + 2) by (assert (n = 2 * p \/ n = 2 * p + 1) as [-> | ->] by lia; nia). apply IZR_lt in Z1. lra.
Qed.
(** Margenau-Hill, image: h = n//2 rows over [0, 1/2]. *)
Lemma c94_mh : forall tf th o n t, shaped (r_tfr o) n t -> ts_len (r_ts o) = t -> 2 <= n -> 1 <= t -> 1 <= zlen (r_sig o) ->
  exists a rest, mh_picture Kcmap tf th o = Ok (a :: rest) /\
    forall k y, placed a k y <-> 0 <= k < n / 2 /\ y = ((2 * IZR k + 1) / (4 * IZR (n / 2)))%R.
Proof.
  intros tf th o n t S LT Hn Ht HN. unfold mh_picture, mh_plot.
  assert (RW : match r_tfr o with c :: _ => zlen c | [] => r_n o end = n). { destruct S as [L S]. destruct (r_tfr o) as [|c l]; [unfold zlen in L; cbn in L; lia|]. apply S. now left. } rewrite RW. cbv zeta.
  assert (H2 : 1 <= n / 2 <= n) by (Z.to_euclidean_division_equations; lia).
  destruct (threshold_ok th _ _ _ (proj1 H2) Ht (shaped_sq _ _ _ (shaped_first (n / 2) _ n t ltac:(lia) S))) as (tfr' & E & S'). rewrite E. cbn [bind]. set (o1 := with_tfr _ _ _ _).
  assert (TV : ts_vals (r_ts o) <> []) by (apply ne_zlen; rewrite ts_vals_len; lia). destruct (rmax_ok _ TV) as [hi ->]. cbn [bind].
  destruct (view_shape o1 (n / 2) t ltac:(lia) Ht S') as [V1 V2].
  destruct (image_at tf (5 / 100) (Some (0, hi, 0, 1 / 2)%R) (rep_view o1) 0 hi 0 (1 / 2)) as [rest P]; auto.
  rewrite P. eexists _, _. split; [reflexivity|]. intros k y. cbn [placed]. rewrite V1. assert (NH : IZR (n / 2) <> 0%R) by (apply not_0_IZR; lia).
  assert (Q : (0 + (IZR k + 1 / 2) * ((1 / 2 - 0) / IZR (n / 2)) = (2 * IZR k + 1) / (4 * IZR (n / 2)))%R) by (field; auto). rewrite Q. reflexivity.
Qed.
(** Contours are drawn over [0, 1/2]: row k of m at k/(2(m - 1)). *)
Lemma axis_nth a b n k : 2 <= n -> 0 <= k < n -> rnth (axis a b n) k = (a + IZR k * ((b - a) / IZR (n - 1)))%R.
Proof. intros Hn Hk. unfold axis, M_post.linspace. destruct (Z.eqb_spec n 1); [lia|]. rewrite rnth_map_arange by lia. now rewrite Z.add_0_l. Qed.
Lemma contour_at tf th ext v p : v_affine v = None -> base_plot (defaults Kcontour tf th ext) v = Ok p ->
  exists a rest, p = a :: rest /\ 2 <= zlen (v_tfr v) /\ (tf = true -> zlen (v_tfr v) = zlen (v_sig v)) /\
    forall k y, placed a k y <-> 0 <= k < zlen (v_tfr v) /\ y = (IZR k / (2 * IZR (zlen (v_tfr v) - 1)))%R.
Proof.
  intros A H. unfold base_plot in H. destruct (match o_extent _ with Some _ => _ | None => _ end) as [e|]; [|discriminate]. cbn [bind] in H. change (o_tf (defaults Kcontour tf th ext)) with tf in H. change (o_kind (defaults Kcontour tf th ext)) with Kcontour in H.
  assert (K : forall m, 2 <= m -> forall x mm k y, placed (Contour x (axis 0 (1 / 2) m) mm None) k y <-> 0 <= k < m /\ y = (IZR k / (2 * IZR (m - 1)))%R).
  { intros m Hm x mm k y. cbn [placed]. rewrite axis_len by lia. assert (Nm : IZR (m - 1) <> 0%R) by (apply not_0_IZR; lia). split; intros [Hk ->]; (split; [exact Hk|]); rewrite axis_nth by lia; field; auto. }
  destruct tf.
  - unfold plot_tfr in H. cbn [defaults o_kind o_contour_x o_contour_y o_levels] in H. rewrite A in H. destruct (contour _ _ _ _) as [a|] eqn:C; [|discriminate]. cbn [bind] in H. destruct (plot_spectrum _ _); [|discriminate]. cbn [bind app] in H. okeq H.
    rewrite contour_none, axis_len in C by (unfold zlen; lia). match type of C with (if ?b then _ else _) = _ => destruct b eqn:B end; [|discriminate]. okeq C.
    apply andb_prop in B. destruct B as [B1 B2]. apply andb_prop in B1, B2. destruct B1 as [B1 _]. destruct B2 as [B2 _]. apply Z.eqb_eq in B1. apply Z.leb_le in B2.
    eexists _, _. split; [reflexivity|]. rewrite B1. split; [lia|]. split; [auto|]. now apply K.
  - destruct (contour _ _ _ _) as [a|] eqn:C; [|discriminate]. cbn [bind] in H. okeq H.
    rewrite contour_none, axis_len in C by (unfold zlen; lia). match type of C with (if ?b then _ else _) = _ => destruct b eqn:B end; [|discriminate]. okeq C.
    apply andb_prop in B. destruct B as [_ B2]. apply andb_prop in B2. destruct B2 as [B2 _]. apply Z.leb_le in B2.
    eexists _, _. split; [reflexivity|]. split; [lia|]. split; [discriminate|]. now apply K.
Qed.
Lemma c94_contour : forall tf th o n t p, shaped (r_tfr o) n t -> ts_len (r_ts o) = t -> 1 <= n -> 1 <= t ->
  ((exists sq, wvd_picture Kcontour tf sq th o = Ok p) ->
     exists a rest, p = a :: rest /\ 2 <= n /\ (tf = true -> n = zlen (r_sig o)) /\ forall k y, placed a k y <-> 0 <= k < n /\ y = (IZR k / (2 * IZR (n - 1)))%R) /\
  (r_n o = n -> stft_picture Kcontour tf th o = Ok p \/ mh_picture Kcontour tf th o = Ok p ->
     exists a rest, p = a :: rest /\ 2 <= n / 2 /\ (tf = true -> n / 2 = zlen (r_sig o)) /\ forall k y, placed a k y <-> 0 <= k < n / 2 /\ y = (IZR k / (2 * IZR (n / 2 - 1)))%R).
Proof.
  intros tf th o n t p S LT Hn Ht. assert (H2 : 0 <= n / 2 <= n) by (Z.to_euclidean_division_equations; lia). split.
  - intros [sq H]. unfold wvd_picture, wvd_plot in H. destruct (threshold_ok th (if sq then sqmod_tfr (r_tfr o) else abs_tfr (r_tfr o)) n t Hn Ht) as (tfr' & E & S'). { destruct sq; [now apply shaped_sq|now apply shaped_abs]. }
    rewrite E in H. cbn [bind] in H. set (o1 := with_tfr _ _ _ _) in *. destruct (view_shape o1 n t ltac:(lia) Ht S') as [V1 V2]. apply contour_at in H; [|reflexivity]. rewrite V1 in H. exact H.
  - intros EN H. assert (SH := shaped_sq _ _ _ (shaped_first (n / 2) _ n t H2 S)).
    assert (RW : match r_tfr o with c :: _ => zlen c | [] => r_n o end = n). { destruct S as [L S]. destruct (r_tfr o) as [|c l]; [unfold zlen in L; cbn in L; lia|]. apply S. now left. }
    destruct (Z.eq_dec (n / 2) 0) as [Z0|Z0].
    + rewrite Z0 in SH. destruct H as [H|H]; [unfold stft_picture, stft_plot in H; rewrite EN, Z0 in H|unfold mh_picture, mh_plot in H; rewrite RW in H; cbv zeta in H; rewrite Z0 in H]; rewrite (threshold_raise th _ _ _ (or_introl eq_refl) SH) in H; discriminate.
    + destruct (threshold_ok th _ (n / 2) _ ltac:(lia) Ht SH) as (tfr' & E & S').
      destruct H as [H|H]; [unfold stft_picture, stft_plot in H; rewrite EN in H|unfold mh_picture, mh_plot in H; rewrite RW in H]; cbv zeta in H; rewrite E in H; cbn [bind] in H; set (o1 := with_tfr _ _ _ _) in *; destruct (view_shape o1 (n / 2) t ltac:(lia) Ht S') as [V1 V2].
      * apply contour_at in H; [|reflexivity]. rewrite V1 in H. exact H.
      * strip H. apply contour_at in H; [|reflexivity]. rewrite V1 in H. exact H.
Qed.
(** What this means against the frequency of the row (k/n for the STFT, k/(2n)
    for Wigner-Ville): the images are right to within half a bin; contours are
    stretched, the top row, of frequency 1/2 - 1/(2n) or less, being drawn at 1/2. *)
Lemma c94_images : forall tf sq th o n t, shaped (r_tfr o) n t -> ts_len (r_ts o) = t -> 2 <= n -> 1 <= t -> 1 <= zlen (r_sig o) ->
  (r_n o = n -> r_freqs o = base_freqs n -> exists a rest, stft_picture Kcmap tf th o = Ok (a :: rest) /\ forall k y, placed a k y -> (Rabs (y - IZR k / IZR n) < 1 / (2 * IZR n))%R) /\
  (r_freqs o = wvd_freqs n -> exists a rest, wvd_picture Kcmap tf sq th o = Ok (a :: rest) /\ forall k y, placed a k y -> (Rabs (y - IZR k / (2 * IZR n)) < 1 / (4 * IZR n))%R).
Proof.
  intros tf sq th o n t S LT Hn Ht HN. assert (H2 : 1 <= n / 2) by (Z.to_euclidean_division_equations; lia).
  assert (K : forall h k c, 1 <= h -> 0 <= k < h -> (0 < c)%R -> (Rabs (IZR (h - 1 - 2 * k) / (c * IZR h)) < 1 / c)%R).
  { intros h k c Hh Hk Hc. assert (Ph : (0 < IZR h)%R) by (apply IZR_lt; lia). unfold Rdiv. rewrite Rabs_mult, (Rabs_right (/ (c * IZR h))) by (apply Rle_ge, Rlt_le, Rinv_0_lt_compat, Rmult_lt_0_compat; lra).
    rewrite <- abs_IZR. apply Rmult_lt_reg_r with (c * IZR h)%R; [apply Rmult_lt_0_compat; lra|]. rewrite Rmult_assoc, Rinv_l by (apply Rgt_not_eq, Rmult_lt_0_compat; lra). replace (1 * / c * (c * IZR h))%R with (IZR h) by (field; lra). rewrite Rmult_1_r. apply IZR_lt. lia. }
  split.
  - intros EN FR. destruct (c94_stft tf th o n t S EN LT FR Hn Ht HN) as (a & rest & P & W). exists a, rest. split; [exact P|]. intros k y H. apply W in H. destruct H as [Hk ->].
    replace (IZR k / IZR n + IZR (n / 2 - 1 - 2 * k) / (2 * IZR n * IZR (n / 2)) - IZR k / IZR n)%R with (IZR (n / 2 - 1 - 2 * k) / (2 * IZR n * IZR (n / 2)))%R by ring. apply K; try lia. assert (0 < IZR n)%R by (apply IZR_lt; lia). lra.
  - intros FR. destruct (c94_wvd tf sq th o n t S LT FR ltac:(lia) Ht HN) as (a & rest & P & W). exists a, rest. split; [exact P|]. intros k y H. apply W in H. destruct H as [Hk ->].
    replace (IZR k / (2 * IZR n) + IZR (n - 1 - 2 * k) / (4 * IZR n * IZR n) - IZR k / (2 * IZR n))%R with (IZR (n - 1 - 2 * k) / (4 * IZR n * IZR n))%R by ring. apply K; try lia. assert (0 < IZR n)%R by (apply IZR_lt; lia). lra.
Qed.
Lemma c94_stretched_refuted : forall tf th o n t p, shaped (r_tfr o) n t -> ts_len (r_ts o) = t -> 1 <= n -> 1 <= t ->
  ((exists sq, wvd_picture Kcontour tf sq th o = Ok p) ->
     exists a rest, p = a :: rest /\ placed a (n - 1) (1 / 2) /\ forall k y, placed a k y -> (y - IZR k / (2 * IZR n) = IZR k / (2 * IZR n * IZR (n - 1)))%R) /\
  (r_n o = n -> stft_picture Kcontour tf th o = Ok p ->
     exists a rest, p = a :: rest /\ placed a (n / 2 - 1) (1 / 2) /\ forall k y, placed a k y -> (y - IZR k / IZR n = IZR (k * (n - 2 * (n / 2) + 2)) / (2 * IZR n * IZR (n / 2 - 1)))%R).
Proof.
  intros tf th o n t p S LT Hn Ht. destruct (c94_contour tf th o n t p S LT Hn Ht) as [A B]. split.
  - intros H. destruct (A H) as (a & rest & E & H2 & _ & W). exists a, rest. split; [exact E|]. assert (N1 : IZR (n - 1) <> 0%R) by (apply not_0_IZR; lia). assert (N0 : IZR n <> 0%R) by (apply not_0_IZR; lia). split.
    + apply W. split; [lia|]. field. auto.
    + intros k y P. apply W in P. destruct P as [_ ->]. rewrite minus_IZR in *. field. auto.
  - intros EN H. destruct (B EN (or_introl H)) as (a & rest & E & H2 & _ & W). exists a, rest. split; [exact E|]. assert (N1 : IZR (n / 2 - 1) <> 0%R) by (apply not_0_IZR; lia). assert (N0 : IZR n <> 0%R) by (apply not_0_IZR; lia). split.
    + apply W. split; [lia|]. field. auto.
    + intros k y P. apply W in P. destruct P as [_ ->]. rewrite mult_IZR, plus_IZR, !minus_IZR, mult_IZR in *. field. auto.
Qed.

(** ** C97.  The line drawn beside the picture. *)
Lemma rnth_rev (l : list R) k : 0 <= k < zlen l -> rnth (rev l) k = rnth l (zlen l - 1 - k).
Proof. intros H. unfold rnth, zlen in *. rewrite rev_nth by lia. f_equal. lia. Qed.
Lemma rnth_prefix (l : list R) m k : 0 <= k < m -> rnth (prefix l m) k = rnth l k.
Proof. intros H. unfold rnth, prefix. apply T_putils.nth_prefix. lia. Qed.
Lemma rnth_shift (l : list R) k : 0 <= k < zlen l -> rnth (fftshift l) k = rnth l ((k + (zlen l + 1) / 2) mod zlen l).
Proof.
  intros H. unfold fftshift. set (n := zlen l) in *. set (h := (n + 1) / 2). assert (B : 0 <= h <= n) by (unfold h; Z.to_euclidean_division_equations; lia).
  assert (LS : length (skipn (Z.to_nat h) l) = Z.to_nat (n - h)) by (rewrite skipn_length; unfold n, zlen in *; lia). unfold rnth. destruct (Z_lt_dec k (n - h)).
  - rewrite app_nth1 by lia. rewrite Z.mod_small by lia. rewrite <- (firstn_skipn (Z.to_nat h) l) at 2. rewrite app_nth2; [|rewrite firstn_length; unfold n, zlen in *; lia]. f_equal. rewrite firstn_length. unfold n, zlen in *. lia.
  - rewrite app_nth2 by lia. rewrite LS. replace ((k + h) mod n) with (k + h - n) by (rewrite <- (Z.mod_add (k + h) (-1) n) by lia; rewrite Z.mod_small; lia).
    change (firstn (Z.to_nat h) l) with (prefix l h). rewrite (T_putils.nth_prefix l _ _ 0%R) by lia. f_equal. lia.
Qed.
(** |X(f/n)|^2, X(f) = sum_k x[k] exp(-2 pi i f k), over the first n samples. *)
Definition power (x : list C) (n f : Z) : R :=
  (Cmod (csum (arange 0 n) (fun k => cnth x k * cis (2 * PI * IZR (- (f * k)) / IZR n))%C) ^ 2)%R.
(** Relative height of ordinate y in the drawing of the line: base.py 128-131 and
    139-140 give the axis [0, len - 1], turned over, or [ys[0], ys[-1]]. *)
Definition side_height (affine : bool) (ys : list R) (y : R) : R :=
  let top := IZR (zlen ys - 1) in
  if affine then ((y - rnth ys 0) / (rnth ys (zlen ys - 1) - rnth ys 0))%R else ((top - y) / top)%R.
Lemma rnth_map_C (f : C -> R) (l : list C) k : 0 <= k < zlen l -> rnth (map f l) k = f (cnth l k).
Proof. intros H. unfold rnth, cnth, zlen in *. rewrite (nth_indep _ _ (f (RtoC 0))) by (rewrite map_length; lia). now rewrite map_nth. Qed.
Lemma power_fft x k : 0 <= k < zlen x -> rnth (map (fun z => Cmod z ^ 2)%R (fft x)) k = power x (zlen x) k.
Proof. intros H. rewrite rnth_map_C by (rewrite fft_zlen; exact H). rewrite fft_nth by exact H. reflexivity. Qed.
Definition side_line (x : list C) (xs ys : list R) : Prop :=
  let N := zlen x in
  zlen xs = N / 2 /\ zlen ys = N / 2 /\ forall i, 0 <= i < N / 2 -> rnth xs i = power x N ((N - 1) / 2 - i) /\ rnth ys i = IZR i.
Lemma side_ok v : v_affine v = None -> 1 <= zlen (v_sig v) -> side_line (v_sig v) (prefix (rev (spectrum_of v)) (zlen (v_sig v) / 2)) (map IZR (arange 0 (zlen (v_sig v) / 2))).
Proof.
  intros A H. unfold side_line. cbv zeta. set (N := zlen (v_sig v)) in *. assert (Q : zlen (spectrum_of v) = N) by (unfold spectrum_of; rewrite A, fftshift_zlen, zlen_map; apply fft_zlen). assert (N2 : 0 <= N / 2 <= N) by (Z.to_euclidean_division_equations; lia).
  split. { unfold prefix, zlen in *. rewrite firstn_length, rev_length. lia. } split; [rewrite zlen_map_arange by lia; lia|]. intros i Hi. split; [|rewrite rnth_map_arange by lia; now rewrite Z.add_0_l].
  rewrite rnth_prefix by lia. rewrite rnth_rev by lia. rewrite Q. unfold spectrum_of. rewrite A. assert (L : zlen (map (fun z => (Cmod z ^ 2)%R) (fft (v_sig v))) = N) by (rewrite zlen_map; apply fft_zlen). rewrite rnth_shift by lia. rewrite L.
  replace ((N - 1 - i + (N + 1) / 2) mod N) with ((N - 1) / 2 - i). { apply power_fft. fold N. Z.to_euclidean_division_equations; lia. }
  rewrite <- (Z.mod_small ((N - 1) / 2 - i) N) by (Z.to_euclidean_division_equations; lia). rewrite <- (Z.mod_add ((N - 1) / 2 - i) 1 N) by lia. f_equal. Z.to_euclidean_division_equations; lia.
Qed.
Lemma base_side k th ext v p : v_affine v = None -> 1 <= zlen (v_sig v) -> base_plot (defaults k true th ext) v = Ok p ->
  exists main xs ys, p = main ++ [Line (map IZR (arange 0 (zlen (v_sig v)))) (map Re (v_sig v)); Line xs ys] /\ side_line (v_sig v) xs ys.
Proof.
  intros A HN H. unfold base_plot in H. destruct (match o_extent _ with Some _ => _ | None => _ end) as [e|]; [|discriminate]. cbn [bind] in H. change (o_tf (defaults k true th ext)) with true in H. cbv iota in H. destruct (plot_tfr _ _ _) as [main|]; [|discriminate]. cbn [bind] in H. rewrite spectrum_ok in H by auto. cbn [bind] in H. okeq H.
  eexists _, _, _. split; [reflexivity|]. now apply side_ok.
Qed.
(** STFT, Spectrogram and Cohen class: sample i is the power at bin (N-1)//2 - i. *)
Lemma c97_spectrum : forall k th sq o p, 1 <= zlen (r_sig o) ->
  stft_picture k true th o = Ok p \/ spec_picture k true th o = Ok p \/ mh_picture k true th o = Ok p \/ wvd_picture k true sq th o = Ok p ->
  exists main xs ys, p = main ++ [Line (map IZR (arange 0 (zlen (r_sig o)))) (map Re (r_sig o)); Line xs ys] /\ side_line (r_sig o) xs ys.
Proof.
  intros k th sq o p HN H. destruct H as [H|[H|[H|H]]].
  - unfold stft_picture, stft_plot in H. cbv zeta in H. destruct (threshold _ _); [|discriminate]. cbn [bind] in H. apply base_side in H; auto.
  - unfold spec_picture, spec_plot in H. cbv zeta in H. destruct (amax _); [|discriminate]. cbn [bind fst] in H. apply base_side in H; auto.
  - unfold mh_picture, mh_plot in H. cbv zeta in H. destruct (threshold _ _); [|discriminate]. cbn [bind] in H. destruct (rmax_list _); [|discriminate]. cbn [bind] in H. apply base_side in H; auto.
  - unfold wvd_picture, wvd_plot in H. cbv zeta in H. destruct (threshold _ _); [|discriminate]. cbn [bind] in H. apply base_side in H; auto.
Qed.
(** Its height grows with the frequency; bin 0 is in it (at the bottom) exactly
    when N is even. *)
Lemma c97_upright : forall x xs ys, 4 <= zlen x -> side_line x xs ys -> let N := zlen x in
  (forall f, 0 <= f < (N - 1) / 2 + 1 -> (f = 0 -> N mod 2 = 0) -> exists i, 0 <= i < N / 2 /\ rnth xs i = power x N f /\
     side_height false ys (rnth ys i) = (IZR (f - N mod 2) / IZR (N / 2 - 1))%R) /\
  (forall i, 0 <= i < N / 2 -> exists f, N mod 2 <= f <= (N - 1) / 2 /\ rnth xs i = power x N f).
Proof.
  intros x xs ys HN (L1 & L2 & V) N. fold N in HN, L1, L2, V. split.
  - intros f Hf H0. exists ((N - 1) / 2 - f). assert (B : 0 <= (N - 1) / 2 - f < N / 2) by (Z.to_euclidean_division_equations; lia). split; [exact B|]. destruct (V _ B) as [-> ->]. split; [f_equal; lia|].
    unfold side_height. rewrite L2. rewrite <- minus_IZR. f_equal. f_equal. Z.to_euclidean_division_equations; lia.
  - intros i Hi. exists ((N - 1) / 2 - i). split; [Z.to_euclidean_division_equations; lia|]. apply V. exact Hi.
Qed.
(** Two bins: the second row, of frequency 1/4, is drawn at 3/16 by the
    Wigner-Ville image, at 1/2 by the contours. *)
Example c94_example : let x := [RtoC 1; RtoC 2] in let o := mkrep x (TsI [0; 1]) 2 [] (wvd_freqs 2) [x; x] true in
  (exists a rest, wvd_picture Kcmap false false 0 o = Ok (a :: rest) /\ placed a 1 (3 / 16)) /\
  (exists a rest, wvd_picture Kcontour false false 0 o = Ok (a :: rest) /\ placed a 1 (1 / 2)).
Proof.
  intros x o. assert (S : shaped (r_tfr o) 2 2) by (split; [reflexivity|]; intros c [<-|[<-|[]]]; reflexivity). split.
  - destruct (c94_wvd false false 0 o 2 2 S eq_refl eq_refl ltac:(lia) ltac:(lia) ltac:(discriminate)) as (a & rest & P & W). exists a, rest. split; [exact P|]. apply W. split; [lia|]. change (2 - 1 - 2 * 1) with (-1). lra.
  - assert (FN : r_freqs o <> []) by discriminate. assert (D := c93_wvd Kcontour false false 0 o 2 2 S eq_refl ltac:(lia) ltac:(lia) ltac:(discriminate) FN). cbn in D. destruct D as [p D].
    destruct (proj1 (c94_contour false 0 o 2 2 p S eq_refl ltac:(lia) ltac:(lia)) (ex_intro _ false D)) as (a & rest & -> & _ & _ & W). exists a, rest. split; [exact D|]. apply W. split; [lia|]. change (2 - 1) with 1. lra.
Qed.
(** Two samples: the side line is the single point |x0 + x1|^2; three samples: the
    mean value is left out. *)
Example c97_example : forall a b c : R, (forall xs ys, side_line [RtoC a; RtoC b] xs ys -> xs = [((a + b) ^ 2)%R] /\ ys = [0%R]) /\
  (forall xs ys, side_line [RtoC a; RtoC b; RtoC c] xs ys -> xs = [power [RtoC a; RtoC b; RtoC c] 3 1]).
Proof.
  intros a b c. split; intros xs ys (L1 & L2 & V).
  - change (zlen [RtoC a; RtoC b]) with 2 in *. change (2 / 2) with 1 in *. destruct (V 0 ltac:(lia)) as [E1 E2]. destruct xs as [|u [|]]; [discriminate| |unfold zlen in L1; cbn [length] in L1; lia]. destruct ys as [|w [|]]; [discriminate| |unfold zlen in L2; cbn [length] in L2; lia].
    unfold rnth in E1, E2. cbn [Z.to_nat nth] in E1, E2. rewrite E1, E2. split; [|reflexivity]. f_equal. unfold power. change ((2 - 1) / 2 - 0) with 0. rewrite (arange_cons 0 2), (arange_cons (0 + 1) 2), (arange_empty (0 + 1 + 1)) by lia. rewrite !csum_cons, csum_nil. rewrite !Z.mul_0_l. change (- 0) with 0. replace (2 * PI * 0 / 2)%R with 0%R by (unfold Rdiv; ring). rewrite cis_0.
    change (cnth [RtoC a; RtoC b] 0) with (RtoC a). change (cnth [RtoC a; RtoC b] (0 + 1)) with (RtoC b). replace (RtoC a * RtoC 1 + (RtoC b * RtoC 1 + RtoC 0))%C with (RtoC (a + b)) by (apply injective_projections; cbn; ring). rewrite Cmod_R. apply pow2_abs.
  - change (zlen [RtoC a; RtoC b; RtoC c]) with 3 in *. change (3 / 2) with 1 in *. destruct (V 0 ltac:(lia)) as [E1 _]. destruct xs as [|u [|]]; [discriminate| |unfold zlen in L1; cbn [length] in L1; lia]. unfold rnth in E1. cbn [Z.to_nat nth] in E1. rewrite E1. reflexivity.
Qed.
