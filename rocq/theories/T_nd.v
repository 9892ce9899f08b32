(** Arrays of more than one dimension (C124). *)
From Coq Require Import Reals ZArith List Lia Lra Bool.
From Coquelicot Require Import Coquelicot.
From Verif Require Import Py Scalars CSum DFT P_base Spec M_base M_putils M_dom M_amb M_aff M_wb M_gen2 M_nd T_dom T_gen1.
Import ListNotations.
Local Open Scope Z_scope.

(** A signal as an array of shape (1, n) and as one of shape (n, 1). *)
Definition as_row {T} (x : list T) : ndarr T := N2 (zlen x) [x].
Definition as_column {T} (x : list T) : ndarr T := N2 1 (map (fun v => [v]) x).

Lemma concat_singles {T} (x : list T) : concat (map (fun v => [v]) x) = x.
Proof. induction x; cbn; [reflexivity|now rewrite IHx]. Qed.
Lemma ravel_row {T} (x : list T) : ravel (as_row x) = x.
Proof. cbn. apply app_nil_r. Qed.
Lemma ravel_column {T} (x : list T) : ravel (as_column x) = x.
Proof. apply concat_singles. Qed.
Lemma has1_column {T} (x : list T) : has1 (as_column x) = true.
Proof. unfold has1, as_column. apply orb_true_r. Qed.
Lemma flat_row {T} (x : list T) : flat (as_row x) = Ok x.
Proof. unfold flat. change (ndim (as_row x) =? 1) with false. change (has1 (as_row x)) with true. now rewrite ravel_row. Qed.
Lemma flat_column {T} (x : list T) : flat (as_column x) = Ok x.
Proof.
  unfold flat. change (ndim (as_column x) =? 1) with false. rewrite has1_column. now rewrite ravel_column.
Qed.

(** A row or a column is treated as the signal it holds. *)
Lemma c124_row_column : forall x,
  (locfreq_nd (as_row x) = locfreq x /\ locfreq_nd (as_column x) = locfreq x) /\
  (forall ang, inst_freq_nd ang (as_row x) None = inst_freq ang x None /\ inst_freq_nd ang (as_column x) None = inst_freq ang x None) /\
  (forall ang t, inst_freq_nd ang (as_row x) (Some (as_row t)) = inst_freq ang x (Some t) /\ inst_freq_nd ang (as_column x) (Some (as_column t)) = inst_freq ang x (Some t)) /\
  (forall f, group_delay_nd (as_row x) f = group_delay x f /\ group_delay_nd (as_column x) f = group_delay x f) /\
  (forall a b N, wide_band_nd (as_row x) a b N = wide_band x a b N /\ wide_band_nd (as_column x) a b N = wide_band x a b N) /\
  (forall B (init : list C -> res B), base_nd init (as_row x) = init x /\ base_nd init (as_column x) = init x).
Proof.
  intros x. unfold locfreq_nd, inst_freq_nd, group_delay_nd, base_nd. rewrite !flat_row, !flat_column. cbn [bind]. repeat split.
  - rewrite !flat_row. reflexivity.
  - rewrite !flat_column. reflexivity.
  - unfold wide_band_nd. change (has1 (as_row x)) with true. now rewrite ravel_row.
  - unfold wide_band_nd. rewrite has1_column. now rewrite ravel_column.
  - now rewrite ravel_row.
  - now rewrite ravel_column.
Qed.

(** A matrix without a dimension of length 1: the same array gives a different
    outcome in almost every module. *)
Lemma c124_matrix : forall c (rows : list (list C)), zlen rows <> 1 -> c <> 1 ->
  locfreq_nd (N2 c rows) = Raise TypeError /\
  (forall ang t, inst_freq_nd ang (N2 c rows) t = Raise TypeError) /\
  (forall f, group_delay_nd (N2 c rows) f = Raise TypeError) /\
  (forall a b N, wide_band_nd (N2 c rows) a b N = Raise ValueError) /\
  (forall y r, sigmerge_nd (N2 c rows) y r = Raise AssertionError) /\
  (forall B (init : list C -> res B), affine_nd init (N2 c rows) = Raise IndexError) /\
  (forall B (init : list C -> res B), base_nd init (N2 c rows) = init (concat rows)).
Proof.
  intros c rows H1 H2.
  assert (E : has1 (N2 c rows) = false) by (cbn [has1]; destruct (Z.eqb_spec (zlen rows) 1), (Z.eqb_spec c 1); tauto || reflexivity).
  assert (F : flat (N2 c rows) = Raise TypeError) by (unfold flat; rewrite E; reflexivity).
  unfold locfreq_nd, inst_freq_nd, group_delay_nd, wide_band_nd. rewrite F, E. repeat split.
Qed.
(** Times that are a matrix. *)
Lemma c124_times : forall ang x c (rows : list (list Z)), zlen rows <> 1 -> c <> 1 -> inst_freq_nd ang (N1 x) (Some (N2 c rows)) = Raise TypeError.
Proof.
  intros ang x c rows H1 H2.
  assert (E : has1 (N2 c rows) = false) by (cbn [has1]; destruct (Z.eqb_spec (zlen rows) 1), (Z.eqb_spec c 1); tauto || reflexivity).
  unfold inst_freq_nd, flat. rewrite E. reflexivity.
Qed.

(** sigmerge accepts no row and no column, in either argument; the affine
    constructors no two-dimensional array at all, but they flatten any array of
    three dimensions or more. *)
Lemma c124_sigmerge : forall a b r,
  (ndim a = 1 /\ ndim b = 1 -> sigmerge_nd a b r = sigmerge (ravel a) (ravel b) r) /\
  (ndim a <> 1 \/ ndim b <> 1 -> sigmerge_nd a b r = Raise AssertionError).
Proof.
  intros a b r. unfold sigmerge_nd. destruct (Z.eqb_spec (ndim a) 1), (Z.eqb_spec (ndim b) 1); cbn [negb]; split; intros; tauto || reflexivity.
Qed.
Lemma c124_affine : forall B (init : list C -> res B),
  (forall x, affine_nd init (N1 x) = init x) /\
  (forall x, affine_nd init (as_row x) = Raise IndexError /\ affine_nd init (as_column x) = Raise IndexError) /\
  (forall s x, 3 <= zlen s -> affine_nd init (NN s x) = init x).
Proof.
  intros B init. repeat split. intros s x H. unfold affine_nd. cbn [ndim ravel]. destruct (Z.eqb_spec (zlen s) 2); [lia|reflexivity].
Qed.

(** narrow_band with its default lags: of the two-dimensional arrays, only the
    one holding a single sample is accepted. *)
Lemma c124_narrow_band : forall c (rows : list (list C)), 1 <= zlen rows ->
  narrow_band_2d c rows = if (zlen rows =? 1) && (c =? 1) then narrow_band (concat rows) None None else Raise ValueError.
Proof.
  intros c rows H. unfold narrow_band_2d. set (n := zlen rows) in *.
  assert (Z0 : In 0 (nb_lags n)).
  { unfold nb_lags. assert (D := Z_div_mod_eq_full n 2). assert (M := Z.mod_pos_bound n 2). assert (D' := Z_div_mod_eq_full (n - 1) 2). assert (M' := Z.mod_pos_bound (n - 1) 2).
    assert (D'' := Z_div_mod_eq_full (n + 1) 2). assert (M'' := Z.mod_pos_bound (n + 1) 2).
    destruct (Z.eqb_spec (n mod 2) 0); apply in_arange; lia. }
  destruct (Z.eqb_spec n 1) as [E|E].
  - rewrite E. change (nb_lags 1) with [0]. cbn [forallb]. change (1 - 2 * Z.abs 0 =? 1) with true. rewrite andb_true_r. reflexivity.
  - rewrite andb_false_l. destruct (forallb _ _) eqn:F; [|reflexivity].
    rewrite forallb_forall in F. specialize (F 0 Z0). cbn beta in F. apply andb_prop in F. destruct F as [F _]. apply Z.eqb_eq in F. cbn in F. lia.
Qed.

(** ** loctime *)
Lemma rsum_concat (l : list (list R)) f : rsum (concat l) f = rsum l (fun row => rsum row f).
Proof. induction l; cbn [concat]; [reflexivity|]. rewrite rsum_app, rsum_cons, IHl. reflexivity. Qed.
Lemma zlen_concat_const {T} (l : list (list T)) k : (forall row, In row l -> zlen row = k) -> zlen (concat l) = k * zlen l.
Proof.
  intros H. induction l; [unfold zlen; cbn; lia|]. cbn [concat]. rewrite zlen_app, IHl, (H a) by (intuition (auto with datatypes)).
  replace (zlen (a :: l)) with (zlen l + 1) by (unfold zlen; cbn [length]; lia). lia.
Qed.
Lemma sum_index n : 0 <= n -> rsum (arange 0 n) IZR = (IZR n * (IZR n - 1) / 2)%R.
Proof.
  intros H. pattern n. apply natlike_ind; [|intros m Hm IH|exact H].
  - change (arange 0 0) with (@nil Z). rewrite rsum_nil. field.
  - unfold Z.succ. rewrite arange_snoc by lia. rewrite rsum_app, rsum_cons, rsum_nil, IH, plus_IZR. field.
Qed.
Lemma sum_index2 n : 0 <= n -> rsum (arange 0 n) (fun k => IZR k ^ 2)%R = (IZR n * (IZR n - 1) * (2 * IZR n - 1) / 6)%R.
Proof.
  intros H. pattern n. apply natlike_ind; [|intros m Hm IH|exact H].
  - change (arange 0 0) with (@nil Z). rewrite rsum_nil. field.
  - unfold Z.succ. rewrite arange_snoc by lia. rewrite rsum_app, rsum_cons, rsum_nil, IH, plus_IZR. field.
Qed.
Lemma sum_index_dev n : 0 <= n -> rsum (arange 0 n) (fun k => (IZR k - (IZR n - 1) / 2) ^ 2)%R = (IZR n * (IZR n ^ 2 - 1) / 12)%R.
Proof.
  intros H. rewrite (rsum_ext _ _ (fun k => IZR k ^ 2 + (- (IZR n - 1) * IZR k + ((IZR n - 1) / 2) ^ 2))%R) by (intros; field).
  rewrite rsum_plus, rsum_plus, rsum_scal_l, sum_index2, sum_index, rsum_const by auto. rewrite arange_length, INR_IZR_INZ.
  replace (Z.of_nat (Z.to_nat (n - 0))) with n by lia. field.
Qed.

Lemma bcast2_col op t q : bcast2 op t 1 (map (fun v => [v]) q) = Ok (map (fun v => map (fun a => op a v) t) q).
Proof.
  unfold bcast2. destruct (Z.eqb_spec 1 (zlen t)) as [E|E].
  - rewrite map_map. do 2 f_equal. destruct t as [|a [|b t]]; unfold zlen in E; cbn in E; try lia. reflexivity.
  - change (1 =? 1) with true. rewrite map_map. reflexivity.
Qed.
Lemma mean_products (t q : list R) : t <> [] -> q <> [] ->
  rmean (concat (map (fun v => map (fun a => a * v)%R t) q)) = (rmean t * rmean q)%R.
Proof.
  intros Ht Hq. unfold rmean. rewrite rsum_concat, rsum_map. rewrite (zlen_concat_const _ (zlen t)).
  2:{ intros row Hr. apply in_map_iff in Hr. destruct Hr as (v & <- & _). apply zlen_map. }
  rewrite zlen_map. rewrite (rsum_ext _ _ (fun v => rsum t (fun v => v) * v)%R) by (intros; rewrite rsum_map, rsum_scal_r; reflexivity).
  rewrite rsum_scal_l, mult_IZR. field. split; apply not_0_IZR; destruct t, q; unfold zlen; cbn [length]; congruence || lia.
Qed.
Lemma powers_mean (x : list C) : rmean (map (fun z => Cmod (z * z)%C) x) = (energy x / IZR (zlen x))%R.
Proof. unfold rmean. rewrite rsum_map, zlen_map. unfold energy. f_equal. apply rsum_ext. intros z _. rewrite Cmod_mult. ring. Qed.
Lemma mean_zero_energy (x : list C) : (energy x / IZR (zlen x))%R = 0%R <-> energy x = 0%R.
Proof.
  split; [|intros ->; unfold Rdiv; ring]. intros H. destruct (Z.eq_dec (zlen x) 0) as [E|E]; [apply energy_0_len; exact E|].
  apply not_0_IZR in E. replace (energy x) with (energy x / IZR (zlen x) * IZR (zlen x))%R by (field; exact E). rewrite H. ring.
Qed.
Lemma zlen_0 {T} (x : list T) : zlen x = 0 -> x = [].
Proof. destruct x; [reflexivity|unfold zlen; cbn [length]; lia]. Qed.

(** A column of n samples: the same two numbers whatever the signal. *)
Lemma c124_loctime_column : forall x, loctime_nd (as_column x) =
  Ok (if Req_EM_T (energy x) 0 then None else Some ((IZR (zlen x) - 1) / 2, 2 * sqrt (PI * ((IZR (zlen x) ^ 2 - 1) / 12)))%R).
Proof.
  intros x. cbn [loctime_nd as_column]. unfold loctime_2d. rewrite !map_map. cbn [map].
  rewrite <- (map_map (fun z => Cmod (z * z)%C) (fun v => [v])), concat_singles, powers_mean, zlen_map.
  set (m := (energy x / IZR (zlen x))%R). set (n := zlen x) in *.
  rewrite <- (map_map (fun z : C => (Cmod (z * z)%C / m)%R) (fun v => [v])), bcast2_col. cbn [bind]. rewrite bcast2_col. cbn [bind].
  destruct (Req_EM_T m 0) as [E|E].
  { apply mean_zero_energy in E. destruct (Req_EM_T (energy x) 0); [reflexivity|tauto]. }
  assert (E' : energy x <> 0%R) by (intros Q; apply E, mean_zero_energy; exact Q).
  destruct (Req_EM_T (energy x) 0) as [Q|_]; [tauto|].
  assert (Hn : 0 < n). { assert (H := zlen_nonneg x). destruct (Z.eq_dec n 0) as [Q|Q]; [exfalso; apply E', energy_0_len; exact Q|lia]. }
  assert (Rn : IZR n <> 0%R) by (apply not_0_IZR; lia).
  set (q := map (fun z : C => (Cmod (z * z)%C / m)%R) x). set (t := map IZR (arange 0 n)).
  assert (Hq : q <> []). { unfold q. destruct x; [unfold n, zlen in Hn; cbn in Hn; lia|discriminate]. }
  assert (Ht : t <> []). { unfold t. rewrite arange_cons by lia. discriminate. }
  assert (Q1 : rmean q = 1%R).
  { unfold q. rewrite <- (map_map (fun z => Cmod (z * z)%C) (fun v => v / m)%R). unfold rmean. rewrite rsum_map, zlen_map, zlen_map. unfold Rdiv at 2. rewrite rsum_scal_r.
    assert (P := powers_mean x). unfold rmean in P. rewrite zlen_map in P. fold n in P. fold n. unfold m. rewrite <- P. rewrite rsum_map in *.
    field. split; [exact Rn|]. intros Z0. rewrite Z0 in P. apply E. unfold m. rewrite <- P. unfold Rdiv. ring. }
  assert (T1 : rmean t = ((IZR n - 1) / 2)%R).
  { unfold rmean, t. rewrite rsum_map, zlen_map, arange_zlen, sum_index by lia. replace (Z.max 0 (n - 0)) with n by lia. field. exact Rn. }
  rewrite mean_products, Q1, T1, Rmult_1_r by assumption.
  rewrite mean_products, Q1, Rmult_1_r; [|unfold t; rewrite arange_cons by lia; discriminate|assumption].
  rewrite (zlen_concat_const _ n).
  2:{ intros row Hr. apply in_map_iff in Hr. destruct Hr as (v & <- & _). unfold t. rewrite !zlen_map, arange_zlen. lia. }
  replace (zlen (map _ q)) with n by (rewrite zlen_map; unfold q; rewrite zlen_map; reflexivity).
  destruct (Z.eqb_spec (n * n) 0); [nia|]. do 5 f_equal.
  unfold rmean, t. rewrite map_map, rsum_map, zlen_map, arange_zlen, sum_index_dev by lia. replace (Z.max 0 (n - 0)) with n by lia. field. exact Rn.
Qed.

(** A row: 0 and 0 whatever the signal. *)
Lemma c124_loctime_row : forall x, loctime_nd (as_row x) = Ok (if Req_EM_T (energy x) 0 then None else Some (0, 0)%R).
Proof.
  intros x. cbn [loctime_nd as_row]. unfold loctime_2d. cbn [map concat]. rewrite app_nil_r, powers_mean. set (m := (energy x / IZR (zlen x))%R).
  change (zlen [x]) with 1. change (arange 0 1) with [0]. cbn [map].
  set (q := map (fun v => v / m)%R (map (fun z => Cmod (z * z)%C) x)).
  assert (B : forall v, bcast2 Rmult [v] (zlen x) [q] = Ok [map (Rmult v) q]).
  { intros v. unfold bcast2. change (zlen [v]) with 1. destruct (Z.eqb_spec (zlen x) 1) as [E|E].
    - unfold q. destruct x as [|a [|b x]]; unfold zlen in E; cbn in E; try lia. reflexivity.
    - reflexivity. }
  rewrite B. cbn [bind concat]. rewrite app_nil_r.
  assert (Z0 : forall l, rmean (map (Rmult 0) l) = 0%R).
  { intros l. unfold rmean. rewrite rsum_map, rsum_0 by (intros; ring). unfold Rdiv. ring. }
  rewrite Z0, B. cbn [bind concat]. rewrite app_nil_r. replace ((0 - 0) ^ 2)%R with 0%R by ring. rewrite Z0.
  destruct (Req_EM_T m 0) as [E|E].
  { apply mean_zero_energy in E. destruct (Req_EM_T (energy x) 0); [reflexivity|tauto]. }
  assert (E' : energy x <> 0%R) by (intros Q; apply E, mean_zero_energy; exact Q). destruct (Req_EM_T (energy x) 0) as [Q|_]; [tauto|].
  unfold q. rewrite !zlen_map. destruct (Z.eqb_spec (zlen x) 0) as [Q|_]; [exfalso; apply E', energy_0_len; exact Q|].
  rewrite Rmult_0_r, sqrt_0, Rmult_0_r. reflexivity.
Qed.

(** A matrix that is not square has no outcome but an exception. *)
Lemma c124_loctime_rectangle : forall c rows, c <> zlen rows -> c <> 1 -> zlen rows <> 1 -> loctime_nd (N2 c rows) = Raise ValueError.
Proof.
  intros c rows H1 H2 H3. cbn [loctime_nd]. unfold loctime_2d, bcast2. rewrite zlen_map, arange_zlen.
  replace (Z.max 0 (zlen rows - 0)) with (zlen rows) by (assert (H := zlen_nonneg rows); lia).
  destruct (Z.eqb_spec c (zlen rows)); [tauto|]. destruct (Z.eqb_spec c 1); [tauto|]. destruct (Z.eqb_spec (zlen rows) 1); [tauto|]. reflexivity.
Qed.

Lemma rl_map (l : list R) : l = map (rnth l) (arange 0 (zlen l)).
Proof.
  apply (nth_ext _ _ 0%R 0%R).
  - rewrite map_length. assert (Q := arange_zlen 0 (zlen l)). unfold zlen in *. lia.
  - intros k Hk. change (nth k (map (rnth l) (arange 0 (zlen l))) 0%R) with (nth k (map (rnth l) (arange 0 (zlen l))) 0%R). rewrite <- (Nat2Z.id k) at 2. change (nth (Z.to_nat (Z.of_nat k)) (map (rnth l) (arange 0 (zlen l))) 0%R) with (rnth (map (rnth l) (arange 0 (zlen l))) (Z.of_nat k)).
    rewrite rnth_map_arange by (unfold zlen; lia). rewrite Z.add_0_l. unfold rnth. now rewrite Nat2Z.id.
Qed.
Lemma zip_mean op (t : list R) (rows : list (list R)) n : zlen t = n -> zlen rows = n -> (forall row, In row rows -> zlen row = n) ->
  rmean (concat (map (zipw op t) rows)) = (rsum (arange 0 n) (fun j => rsum rows (fun row => op (rnth t j) (rnth row j))) / IZR (n * n))%R /\
  zlen (concat (map (zipw op t) rows)) = n * n.
Proof.
  intros Ht Hr Hc.
  assert (Z : forall row, In row rows -> zipw op t row = map (fun j => op (rnth t j) (rnth row j)) (arange 0 n)).
  { intros row H. rewrite (rl_map t) at 1. rewrite (rl_map row) at 1. rewrite (Hc row H), Ht. apply zipw_map. }
  assert (L : zlen (concat (map (zipw op t) rows)) = n * n).
  { rewrite (zlen_concat_const _ n), zlen_map; [lia|]. intros row H. apply in_map_iff in H. destruct H as (v & <- & H). rewrite Z, zlen_map, arange_zlen by auto.
    assert (Q := zlen_nonneg t). lia. }
  split; [|exact L]. unfold rmean. rewrite L. f_equal. rewrite rsum_concat, rsum_map, <- rsum_swap. apply rsum_ext. intros row H. rewrite Z by auto. apply rsum_map.
Qed.

(** A square matrix: the centre and the spread of the energy of its columns. *)
Definition col_energy (rows : list (list C)) (j : Z) : R := rsum rows (fun row => Cmod (cnth row j) ^ 2)%R.
Lemma c124_loctime_square : forall n rows, 1 <= n -> zlen rows = n -> (forall row, In row rows -> zlen row = n) ->
  let E := rsum (arange 0 n) (col_energy rows) in
  let tm := (rsum (arange 0 n) (fun j => IZR j * col_energy rows j) / E)%R in
  loctime_nd (N2 n rows) = Ok (if Req_EM_T E 0 then None else
    Some (tm, 2 * sqrt (PI * (rsum (arange 0 n) (fun j => (IZR j - tm) ^ 2 * col_energy rows j) / E)))%R).
Proof.
  intros n rows Hn Hr Hc E tm. cbn [loctime_nd]. unfold loctime_2d. rewrite Hr.
  assert (Rn : IZR n <> 0%R) by (apply not_0_IZR; lia).
  assert (M : rmean (concat (map (map (fun z => Cmod (z * z)%C)) rows)) = (E / IZR (n * n))%R).
  { unfold rmean. rewrite rsum_concat, rsum_map, (zlen_concat_const _ n), zlen_map, Hr.
    - f_equal. unfold E, col_energy. rewrite <- rsum_swap. apply rsum_ext. intros row H. rewrite rsum_map, (list_as_map row), rsum_map, <- list_as_map, (Hc row H).
      apply rsum_ext. intros j _. rewrite Cmod_mult. ring.
    - intros row H. apply in_map_iff in H. destruct H as (v & <- & H). rewrite zlen_map. auto. }
  rewrite M. set (m := (E / IZR (n * n))%R). set (q := map (map (fun v => v / m)%R) (map (map (fun z => Cmod (z * z)%C)) rows)).
  assert (Lq : zlen q = n) by (unfold q; rewrite !zlen_map; exact Hr).
  assert (Cq : forall row, In row q -> zlen row = n).
  { intros row H. unfold q in H. rewrite map_map in H. apply in_map_iff in H. destruct H as (v & <- & H). rewrite !zlen_map. auto. }
  assert (B : forall g : Z -> R, bcast2 Rmult (map g (arange 0 n)) n q = Ok (map (zipw Rmult (map g (arange 0 n))) q)).
  { intros g. unfold bcast2. rewrite zlen_map, arange_zlen. replace (Z.max 0 (n - 0)) with n by lia. now rewrite Z.eqb_refl. }
  assert (S : forall g : Z -> R, m <> 0%R -> rmean (concat (map (zipw Rmult (map g (arange 0 n))) q)) = (rsum (arange 0 n) (fun j => g j * col_energy rows j) / E)%R).
  { intros g Hm. destruct (zip_mean Rmult (map g (arange 0 n)) q n) as [-> _]; auto; [rewrite zlen_map, arange_zlen; lia|].
    rewrite (rsum_ext _ _ (fun j => g j * col_energy rows j * / m)%R).
    - rewrite rsum_scal_r. unfold m. rewrite mult_IZR. field. split; [|exact Rn]. intros Q. apply Hm. unfold m. rewrite Q. unfold Rdiv. ring.
    - intros j Hj. apply in_arange in Hj. unfold q. rewrite map_map, rsum_map. unfold col_energy. rewrite Rmult_assoc, <- rsum_scal_r, <- rsum_scal_l.
      apply rsum_ext. intros row H. assert (J : rnth (map g (arange 0 n)) j = g j) by (rewrite rnth_map_arange by lia; f_equal; lia). rewrite J. f_equal.
      rewrite map_map, (list_as_map row), map_map, (Hc row H), rnth_map_arange by lia. rewrite Z.add_0_l, Cmod_mult. replace (cnth (map _ _) j) with (cnth row j).
      + unfold Rdiv. ring.
      + rewrite <- (Hc row H), <- list_as_map. reflexivity. }
  rewrite B. cbn [bind]. rewrite map_map, B. cbn [bind].
  destruct (Req_EM_T m 0) as [Q|Q].
  { assert (Z0 : E = 0%R) by (replace E with (m * IZR (n * n))%R by (unfold m; rewrite mult_IZR; field; exact Rn); rewrite Q; ring).
    destruct (Req_EM_T E 0); [reflexivity|tauto]. }
  destruct (Req_EM_T E 0) as [Z0|_]; [exfalso; apply Q; unfold m; rewrite Z0; unfold Rdiv; ring|].
  destruct (zip_mean Rmult (map IZR (arange 0 n)) q n) as [_ ->]; auto; [rewrite zlen_map, arange_zlen; lia|].
  destruct (Z.eqb_spec (n * n) 0); [nia|]. rewrite (S IZR Q). fold tm. rewrite (S (fun k => (IZR k - tm) ^ 2)%R Q). reflexivity.
Qed.

(** Three dimensions or more. *)
Lemma c124_loctime_deep : forall s x, loctime_nd (NN s x) = if existsb (Z.eqb 1) s then loctime x else Raise TypeError.
Proof. reflexivity. Qed.

(** So the location in time of a signal depends on whether it is a vector, a row or a column. *)
Lemma c124_loctime_refuted : exists x, loctime_nd (N1 x) = Ok (Some (2, 0)%R) /\ loctime_nd (as_row x) = Ok (Some (0, 0)%R) /\
  loctime_nd (as_column x) = Ok (Some (1, 2 * sqrt (PI * (2 / 3)))%R) /\ loctime_nd (NN [1; 3; 1] x) = loctime_nd (N1 x).
Proof.
  exists [RtoC 0; RtoC 0; RtoC 1].
  assert (E : energy [RtoC 0; RtoC 0; RtoC 1] = 1%R).
  { unfold energy. rewrite !rsum_cons, rsum_nil, !Cmod_R, !Rabs_R0, Rabs_R1. ring. }
  assert (P : forall g : Z -> R, rsum (arange 0 3) (fun k => g k * Cmod (cnth [RtoC 0; RtoC 0; RtoC 1] k) ^ 2)%R = g 2%Z).
  { intros g. change (arange 0 3) with [0; 1; 2]. rewrite !rsum_cons, rsum_nil. unfold cnth. change (Z.to_nat 0) with 0%nat. change (Z.to_nat 1) with 1%nat. change (Z.to_nat 2) with 2%nat. cbn [nth].
    rewrite !Cmod_R, !Rabs_R0, Rabs_R1. ring. }
  assert (T : tcentre [RtoC 0; RtoC 0; RtoC 1] = 2%R) by (unfold tcentre; change (zlen _) with 3; rewrite P, E; field).
  split; [|split; [|split]].
  - cbn [loctime_nd]. rewrite c49_formula, E. destruct (Req_EM_T 1 0); [lra|]. unfold tspread. change (zlen _) with 3. rewrite T, P, E.
    replace ((2 - 2) ^ 2 / 1)%R with 0%R by field. rewrite Rmult_0_r, sqrt_0, Rmult_0_r. reflexivity.
  - rewrite c124_loctime_row, E. destruct (Req_EM_T 1 0); [lra|]. reflexivity.
  - rewrite c124_loctime_column, E. destruct (Req_EM_T 1 0); [lra|]. change (zlen _) with 3. do 4 f_equal; [field|]. f_equal. f_equal. field.
  - reflexivity.
Qed.

(** A 2 by 2 matrix in every function. *)
Example c124_example : forall a b c d, let m := N2 2 [[a; b]; [c; d]] in
  locfreq_nd m = Raise TypeError /\ wide_band_nd m None None None = Raise ValueError /\ sigmerge_nd m (N1 [a]) 0 = Raise AssertionError /\
  narrow_band_2d 2 [[a; b]; [c; d]] = Raise ValueError /\ affine_nd (fun x => Ok x) m = Raise IndexError /\ base_nd (fun x => Ok x) m = Ok [a; b; c; d] /\
  loctime_nd (N2 2 [[RtoC 1; RtoC 0]; [RtoC 0; RtoC 1]]) = Ok (Some (1 / 2, 2 * sqrt (PI * (1 / 4)))%R).
Proof.
  intros a b c d m. split; [|split; [|split; [|split; [|split; [|split]]]]]; try reflexivity.
  rewrite c124_loctime_square; [|lia|reflexivity|intros row [<-|[<-|[]]]; reflexivity]. change (arange 0 2) with [0; 1].
  assert (C0 : col_energy [[RtoC 1; RtoC 0]; [RtoC 0; RtoC 1]] 0 = 1%R). { unfold col_energy. rewrite !rsum_cons, rsum_nil. unfold cnth. cbn [nth Z.to_nat]. rewrite !Cmod_R, Rabs_R0, Rabs_R1. ring. }
  assert (C1 : col_energy [[RtoC 1; RtoC 0]; [RtoC 0; RtoC 1]] 1 = 1%R). { unfold col_energy. rewrite !rsum_cons, rsum_nil. unfold cnth. change (Z.to_nat 1) with 1%nat. cbn [nth]. rewrite !Cmod_R, Rabs_R0, Rabs_R1. ring. }
  rewrite !rsum_cons, !rsum_nil, C0, C1. destruct (Req_EM_T _ 0); [lra|]. do 4 f_equal; [ring|ring|]. f_equal. f_equal. field.
Qed.
