(** C92: reassigned.morlet_scalogram. *)
From Coq Require Import Reals ZArith List Lia Lra Bool.
From Coquelicot Require Import Coquelicot.
From Flocq Require Import Core.
From Verif Require Import Py Scalars CSum DFT Spec M_base P_base M_reas M_mor T_utils T_reas T_reas2.
Import ListNotations.
Local Open Scope Z_scope.

(** ** Specification *)
(** Reach of the analysing function, its length and its samples. *)
Definition reach (n : Z) (tbp : R) : Z := Zceil (tbp * IZR n * sqrt (2 * ln 1000)).
Definition hlen (n : Z) (tbp : R) : Z := reach n tbp + round_half n + 1.
Definition wave (n : Z) (tbp : R) (k : Z) : C := (RtoC (exp (- (IZR k / (IZR n * tbp)) ^ 2 / 2)) * cis (- (2 * PI * IZR k / IZR n)))%C.
(** Row m: [w] is the wave for positive, its conjugate for negative
    frequencies; the first term of the first sum takes the last sample of the
    wave and x[t - 1], which the second sum takes again. *)
Definition coef (w : Z -> C) (n : Z) (tbp : R) (x : list C) (m t : Z) : C :=
  let N := zlen x in let c := Zceil (IZR (reach n tbp) / IZR m) in
  (csum (arange 0 (Z.min c (N - t) + 1)) (fun s => w ((m * s - 1) mod hlen n tbp) * cnth x ((t + s - 1) mod N)) +
   csum (arange 1 (Z.min c (t - 1) + 1)) (fun s => Cconj (w (s * m)%Z) * cnth x (t - s)%Z))%C.
(** Row round(n/2). *)
Definition coef_mid (w : Z -> C) (n : Z) (tbp : R) (x : list C) (m t : Z) : C :=
  let N := zlen x in let c := Zceil (IZR (reach n tbp) / IZR m) in
  (csum (arange 0 (Z.min c (N - t) + 1)) (fun s => w ((m * (s - 1)) mod hlen n tbp) * cnth x ((t + (s - 1)) mod N)) +
   csum (arange 1 (Z.min c (t - 1) + 1)) (fun s => Cconj (w ((s - 1) * m)%Z) * cnth x (t - (s - 1))%Z))%C.
Definition energy (n : Z) (tbp : R) (x : list C) (t j : Z) : R :=
  (if (1 <=? j) && (j <? n / 2) then IZR j / (tbp * IZR n) * Cmod (coef (wave n tbp) n tbp x j t) ^ 2
   else if (1 <=? n - j) && (n - j <? n / 2) then IZR (n - j) / (tbp * IZR n) * Cmod (coef (fun k => Cconj (wave n tbp k)) n tbp x (n - j) t) ^ 2
   else if j =? round_half n then IZR j / (tbp * IZR n) * Cmod (coef_mid (wave n tbp) n tbp x j t) ^ 2
   else 0)%R.

(** ** Indices *)
Lemma reach_pos n tbp : 1 <= n -> (0 < tbp)%R -> 1 <= reach n tbp.
Proof.
  intros Hn Ht. assert (NP : (0 < IZR n)%R) by (apply IZR_lt; lia). assert (LP : (0 < ln 1000)%R) by (rewrite <- ln_1; apply ln_increasing; lra).
  assert (P : (0 < tbp * IZR n * sqrt (2 * ln 1000))%R) by (apply Rmult_lt_0_compat; [apply Rmult_lt_0_compat; lra|apply sqrt_lt_R0; lra]). unfold reach. assert (U := Zceil_ub (tbp * IZR n * sqrt (2 * ln 1000))). apply le_IZR. destruct (Z_le_gt_dec (Zceil (tbp * IZR n * sqrt (2 * ln 1000))) 0) as [G|G]; [apply IZR_le in G; lra|apply IZR_le; lia].
Qed.
Lemma mor_M_eq n tbp : mor_M n tbp = reach n tbp.
Proof. unfold mor_M, reach. replace (1 / (1 / 1000))%R with 1000%R by lra. reflexivity. Qed.
Lemma ceil_bound M m s : 1 <= m -> s <= Zceil (IZR M / IZR m) -> m * s <= M + m - 1.
Proof.
  intros Hm Hs. assert (MP : (0 < IZR m)%R) by (apply IZR_lt; lia). assert (L := Zceil_lb (IZR M / IZR m)). apply IZR_le in Hs. assert (Q : (IZR s < IZR M / IZR m + 1)%R) by lra. apply (Rmult_lt_compat_l (IZR m)) in Q; [|exact MP]. replace (IZR m * (IZR M / IZR m + 1))%R with (IZR M + IZR m)%R in Q by (field; lra). rewrite <- mult_IZR, <- plus_IZR in Q. apply lt_IZR in Q. lia.
Qed.
Lemma ceil_pos M m : 1 <= M -> 1 <= m -> 1 <= Zceil (IZR M / IZR m).
Proof.
  intros HM Hm. assert (P : (0 < IZR M / IZR m)%R) by (apply Rdiv_lt_0_compat; apply IZR_lt; lia). assert (U := Zceil_ub (IZR M / IZR m)). apply le_IZR. destruct (Z_le_gt_dec (Zceil (IZR M / IZR m)) 0) as [G|G]; [apply IZR_le in G; lra|apply IZR_le; lia].
Qed.
Lemma get_mod {A} (d : A) l i : - zlen l <= i < zlen l -> get l i = Ok (nth (Z.to_nat (i mod zlen l)) l d).
Proof.
  intros H. destruct (Z_lt_le_dec i 0) as [L|L].
  - rewrite (get_neg d) by lia. do 3 f_equal. replace (i mod zlen l) with (i + zlen l); [reflexivity|]. rewrite <- (Z.mod_small (i + zlen l) (zlen l)) by lia. rewrite <- (Z_mod_plus_full i 1). f_equal. lia.
  - rewrite (get_ok d) by lia. do 3 f_equal. symmetry. apply Z.mod_small. lia.
Qed.
Lemma dot_ok h x fh fx taus : (forall t, In t taus -> - zlen h <= fh t < zlen h) -> (forall t, In t taus -> - zlen x <= fx t < zlen x) ->
  mor_dot h x fh fx taus = Ok (csum taus (fun t => cnth h (fh t mod zlen h) * cnth x (fx t mod zlen x))%C).
Proof.
  intros Hh Hx. unfold mor_dot, take. rewrite !mapM_map. rewrite (mapM_ok _ (fun t => cnth h (fh t mod zlen h))) by (intros t Ht; apply get_mod; auto). cbn [bind]. rewrite (mapM_ok _ (fun t => cnth x (fx t mod zlen x))) by (intros t Ht; apply get_mod; auto). cbn [bind]. rewrite zipw_map, csum_map. reflexivity.
Qed.
Lemma dot_raise h x fh fx taus : (forall t, In t taus -> - zlen h <= fh t < zlen h) -> (exists t, In t taus /\ (fx t < - zlen x \/ zlen x <= fx t)) ->
  mor_dot h x fh fx taus = Raise IndexError.
Proof.
  intros Hh (t & Ht & Hx). unfold mor_dot, take. rewrite !mapM_map. rewrite (mapM_ok _ (fun t => cnth h (fh t mod zlen h))) by (intros; apply get_mod; auto). cbn [bind]. rewrite (mapM_raise _ _ IndexError); [reflexivity|intros a _; apply get_cases|]. exists t. split; [exact Ht|now apply get_raise].
Qed.
(** The two kinds of rows: indices in range. *)
Definition inside (N t : Z) : Prop := 1 - N <= t <= N.
Lemma row_ok (w : Z -> C) x h g n tbp m t : 1 <= zlen x -> 1 <= n -> (0 < tbp)%R -> 1 <= m <= round_half n -> inside (zlen x) t ->
  h = map w (arange 0 (hlen n tbp)) -> g = map (fun k => Cconj (w k)) (arange 0 (hlen n tbp)) ->
  mor_row x h g (reach n tbp) m t = Ok (coef w n tbp x m t).
Proof.
  intros HN Hn Ht Hm HI -> ->. unfold inside in HI. assert (RP := reach_pos n tbp Hn Ht). set (h := map w _). set (g := map _ (arange 0 (hlen n tbp))). assert (Lh : zlen h = hlen n tbp) by (unfold h; rewrite zlen_map_arange; unfold hlen; lia). assert (Lg : zlen g = hlen n tbp) by (unfold g; rewrite zlen_map_arange; unfold hlen; lia).
  unfold mor_row. rewrite dot_ok.
  2:{ intros s Hs. unfold mor_pos in Hs. apply in_arange in Hs. assert (B := ceil_bound (reach n tbp) m s ltac:(lia) ltac:(lia)). rewrite Lh. unfold hlen. nia. }
  2:{ intros s Hs. unfold mor_pos in Hs. apply in_arange in Hs. lia. }
  cbn [bind]. rewrite Lh. unfold mor_pos. assert (E1 : csum (arange 0 (Z.min (Zceil (IZR (reach n tbp) / IZR m)) (zlen x - t) + 1)) (fun s => cnth h ((m * s - 1) mod hlen n tbp) * cnth x ((t + s - 1) mod zlen x))%C = csum (arange 0 (Z.min (Zceil (IZR (reach n tbp) / IZR m)) (zlen x - t) + 1)) (fun s => w ((m * s - 1) mod hlen n tbp) * cnth x ((t + s - 1) mod zlen x))%C).
  { apply csum_ext. intros s _. f_equal. unfold h. assert (0 <= (m * s - 1) mod hlen n tbp < hlen n tbp) by (apply Z.mod_pos_bound; unfold hlen; lia). rewrite cnth_map_arange by lia. now rewrite Z.add_0_l. }
  rewrite E1. unfold coef. cbv zeta. unfold mor_neg. set (T := arange 1 _). assert (ET : match T with [] => Ok (RtoC 0) | a :: l => mor_dot g x (fun s => s * m) (fun s => t - s) (a :: l) end = Ok (csum T (fun s => Cconj (w (s * m)%Z) * cnth x (t - s)%Z)%C)).
  { assert (D : mor_dot g x (fun s => s * m) (fun s => t - s) T = Ok (csum T (fun s => Cconj (w (s * m)%Z) * cnth x (t - s)%Z)%C)).
    { rewrite dot_ok.
      - f_equal. apply csum_ext. intros s Hs. unfold T in Hs. apply in_arange in Hs. assert (B := ceil_bound (reach n tbp) m s ltac:(lia) ltac:(lia)). rewrite !Z.mod_small by (rewrite ?Lg; unfold hlen; nia). f_equal. unfold g. rewrite cnth_map_arange by (unfold hlen; nia). now rewrite Z.add_0_l.
      - intros s Hs. unfold T in Hs. apply in_arange in Hs. assert (B := ceil_bound (reach n tbp) m s ltac:(lia) ltac:(lia)). rewrite Lg. unfold hlen. nia.
      - intros s Hs. unfold T in Hs. apply in_arange in Hs. lia. }
    destruct T; [reflexivity|exact D]. }
  rewrite ET. reflexivity.
Qed.
Lemma mid_ok (w : Z -> C) x h g n tbp m t : 1 <= zlen x -> 1 <= n -> (0 < tbp)%R -> 1 <= m <= round_half n -> inside (zlen x) t -> (t < 2 \/ t < zlen x) ->
  h = map w (arange 0 (hlen n tbp)) -> g = map (fun k => Cconj (w k)) (arange 0 (hlen n tbp)) ->
  mor_mid x h g (reach n tbp) m t = Ok (coef_mid w n tbp x m t).
Proof.
  intros HN Hn Ht Hm HI HT -> ->. unfold inside in HI. assert (RP := reach_pos n tbp Hn Ht). set (h := map w _). set (g := map _ (arange 0 (hlen n tbp))). assert (Lh : zlen h = hlen n tbp) by (unfold h; rewrite zlen_map_arange; unfold hlen; lia). assert (Lg : zlen g = hlen n tbp) by (unfold g; rewrite zlen_map_arange; unfold hlen; lia).
  unfold mor_mid. rewrite dot_ok.
  2:{ intros s Hs. apply in_map_iff in Hs. destruct Hs as (s' & <- & Hs). unfold mor_pos in Hs. apply in_arange in Hs. assert (B := ceil_bound (reach n tbp) m s' ltac:(lia) ltac:(lia)). rewrite Lh. unfold hlen. nia. }
  2:{ intros s Hs. apply in_map_iff in Hs. destruct Hs as (s' & <- & Hs). unfold mor_pos in Hs. apply in_arange in Hs. lia. }
  cbn [bind]. rewrite Lh, csum_map. unfold mor_pos. assert (E1 : csum (arange 0 (Z.min (Zceil (IZR (reach n tbp) / IZR m)) (zlen x - t) + 1)) (fun s => cnth h ((m * (s - 1)) mod hlen n tbp) * cnth x ((t + (s - 1)) mod zlen x))%C = csum (arange 0 (Z.min (Zceil (IZR (reach n tbp) / IZR m)) (zlen x - t) + 1)) (fun s => w ((m * (s - 1)) mod hlen n tbp) * cnth x ((t + (s - 1)) mod zlen x))%C).
  { apply csum_ext. intros s _. f_equal. unfold h. assert (0 <= (m * (s - 1)) mod hlen n tbp < hlen n tbp) by (apply Z.mod_pos_bound; unfold hlen; lia). rewrite cnth_map_arange by lia. now rewrite Z.add_0_l. }
  rewrite E1. unfold coef_mid. cbv zeta. unfold mor_neg. set (T := arange 1 _). assert (ET : match map (fun s => s - 1) T with [] => Ok (RtoC 0) | a :: l => mor_dot g x (fun s => s * m) (fun s => t - s) (a :: l) end = Ok (csum T (fun s => Cconj (w ((s - 1) * m)%Z) * cnth x (t - (s - 1))%Z)%C)).
  { assert (D : mor_dot g x (fun s => s * m) (fun s => t - s) (map (fun s => s - 1) T) = Ok (csum T (fun s => Cconj (w ((s - 1) * m)%Z) * cnth x (t - (s - 1))%Z)%C)).
    { rewrite dot_ok.
      - f_equal. rewrite csum_map. apply csum_ext. intros s Hs. unfold T in Hs. apply in_arange in Hs. assert (B := ceil_bound (reach n tbp) m s ltac:(lia) ltac:(lia)). rewrite !Z.mod_small by (rewrite ?Lg; unfold hlen; nia). f_equal. unfold g. rewrite cnth_map_arange by (unfold hlen; nia). now rewrite Z.add_0_l.
      - intros s Hs. apply in_map_iff in Hs. destruct Hs as (s' & <- & Hs). unfold T in Hs. apply in_arange in Hs. assert (B := ceil_bound (reach n tbp) m s' ltac:(lia) ltac:(lia)). rewrite Lg. unfold hlen. nia.
      - intros s Hs. apply in_map_iff in Hs. destruct Hs as (s' & <- & Hs). unfold T in Hs. apply in_arange in Hs. lia. }
    destruct T; [reflexivity|exact D]. }
  rewrite ET. reflexivity.
Qed.
Definition allowed (N t : Z) : Prop := 1 - N <= t /\ (t < 2 \/ t < N).
Lemma allowed_inside N t : 1 <= N -> allowed N t -> inside N t.
Proof. unfold allowed, inside. lia. Qed.
Lemma dot_cases h x fh fx taus : (forall t, In t taus -> - zlen h <= fh t < zlen h) -> (exists v, mor_dot h x fh fx taus = Ok v) \/ mor_dot h x fh fx taus = Raise IndexError.
Proof.
  intros Hh. destruct (Forall_Exists_dec (fun t => - zlen x <= fx t < zlen x) (fun t => ltac:(destruct (Z_le_dec (- zlen x) (fx t)); [destruct (Z_lt_dec (fx t) (zlen x)); [left; lia|right; lia]|right; lia])) taus) as [F|F].
  - left. rewrite dot_ok; [eauto|exact Hh|]. now rewrite Forall_forall in F.
  - right. apply dot_raise; [exact Hh|]. apply Exists_exists in F. destruct F as (t & Ht & Hx). exists t. split; [exact Ht|lia].
Qed.
Lemma hlen_pos n tbp : 1 <= n -> (0 < tbp)%R -> 0 <= hlen n tbp.
Proof. intros Hn Ht. assert (RP := reach_pos n tbp Hn Ht). unfold hlen, round_half. destruct (Z.even n); [|destruct (Z.even (n / 2))]; Z.to_euclidean_division_equations; lia. Qed.
Lemma row_cases x h g n tbp m t : 1 <= n -> (0 < tbp)%R -> 1 <= m <= round_half n -> zlen h = hlen n tbp -> zlen g = hlen n tbp ->
  (exists v, mor_row x h g (reach n tbp) m t = Ok v) \/ mor_row x h g (reach n tbp) m t = Raise IndexError.
Proof.
  intros Hn Ht Hm Lh Lg. assert (RP := reach_pos n tbp Hn Ht). unfold mor_row.
  destruct (dot_cases h x (fun s => m * s - 1) (fun s => t + s - 1) (mor_pos (zlen x) (reach n tbp) m t)) as [[v ->]| ->]; [|cbn [bind]|right; reflexivity].
  { intros s Hs. unfold mor_pos in Hs. apply in_arange in Hs. assert (B := ceil_bound (reach n tbp) m s ltac:(lia) ltac:(lia)). rewrite Lh. unfold hlen. nia. }
  assert (D : (exists v, mor_dot g x (fun s => s * m) (fun s => t - s) (mor_neg (reach n tbp) m t) = Ok v) \/ mor_dot g x (fun s => s * m) (fun s => t - s) (mor_neg (reach n tbp) m t) = Raise IndexError).
  { apply dot_cases. intros s Hs. unfold mor_neg in Hs. apply in_arange in Hs. assert (B := ceil_bound (reach n tbp) m s ltac:(lia) ltac:(lia)). rewrite Lg. unfold hlen. nia. }
  destruct (mor_neg (reach n tbp) m t); [left; eexists; reflexivity|]. destruct D as [[b ->]| ->]; [left; eexists; reflexivity|right; reflexivity].
Qed.
Lemma mid_cases x h g n tbp m t : 1 <= n -> (0 < tbp)%R -> 1 <= m <= round_half n -> zlen h = hlen n tbp -> zlen g = hlen n tbp ->
  (exists v, mor_mid x h g (reach n tbp) m t = Ok v) \/ mor_mid x h g (reach n tbp) m t = Raise IndexError.
Proof.
  intros Hn Ht Hm Lh Lg. assert (RP := reach_pos n tbp Hn Ht). unfold mor_mid.
  destruct (dot_cases h x (fun s => m * s) (fun s => t + s) (map (fun s => s - 1) (mor_pos (zlen x) (reach n tbp) m t))) as [[v ->]| ->]; [|cbn [bind]|right; reflexivity].
  { intros s Hs. apply in_map_iff in Hs. destruct Hs as (s' & <- & Hs). unfold mor_pos in Hs. apply in_arange in Hs. assert (B := ceil_bound (reach n tbp) m s' ltac:(lia) ltac:(lia)). rewrite Lh. unfold hlen. nia. }
  assert (D : (exists v, mor_dot g x (fun s => s * m) (fun s => t - s) (map (fun s => s - 1) (mor_neg (reach n tbp) m t)) = Ok v) \/ mor_dot g x (fun s => s * m) (fun s => t - s) (map (fun s => s - 1) (mor_neg (reach n tbp) m t)) = Raise IndexError).
  { apply dot_cases. intros s Hs. apply in_map_iff in Hs. destruct Hs as (s' & <- & Hs). unfold mor_neg in Hs. apply in_arange in Hs. assert (B := ceil_bound (reach n tbp) m s' ltac:(lia) ltac:(lia)). rewrite Lg. unfold hlen. nia. }
  destruct (map (fun s => s - 1) (mor_neg (reach n tbp) m t)); [left; eexists; reflexivity|]. destruct D as [[b ->]| ->]; [left; eexists; reflexivity|right; reflexivity].
Qed.
Lemma mid_raise x h g n tbp m t : 1 <= n -> (0 < tbp)%R -> 1 <= m <= round_half n -> zlen h = hlen n tbp -> zlen g = hlen n tbp -> 1 <= zlen x -> ~ allowed (zlen x) t ->
  mor_mid x h g (reach n tbp) m t = Raise IndexError.
Proof.
  intros Hn Ht Hm Lh Lg HN HA. assert (RP := reach_pos n tbp Hn Ht). assert (CP := ceil_pos (reach n tbp) m RP ltac:(lia)). unfold allowed in HA. unfold mor_mid.
  assert (IP : forall s, In s (map (fun s => s - 1) (mor_pos (zlen x) (reach n tbp) m t)) -> - zlen h <= m * s < zlen h). { intros s Hs. apply in_map_iff in Hs. destruct Hs as (s' & <- & Hs). unfold mor_pos in Hs. apply in_arange in Hs. assert (B := ceil_bound (reach n tbp) m s' ltac:(lia) ltac:(lia)). rewrite Lh. unfold hlen. nia. }
  assert (IN : forall s, In s (map (fun s => s - 1) (mor_neg (reach n tbp) m t)) -> - zlen g <= s * m < zlen g). { intros s Hs. apply in_map_iff in Hs. destruct Hs as (s' & <- & Hs). unfold mor_neg in Hs. apply in_arange in Hs. assert (B := ceil_bound (reach n tbp) m s' ltac:(lia) ltac:(lia)). rewrite Lg. unfold hlen. nia. }
  destruct (Z_lt_le_dec t (1 - zlen x)) as [L|L].
  - rewrite (dot_raise h); [reflexivity|exact IP|]. exists (-1). split; [|lia]. apply in_map_iff. exists 0. split; [reflexivity|]. unfold mor_pos. apply in_arange. lia.
  - destruct (dot_cases h x (fun s => m * s) (fun s => t + s) _ IP) as [[v ->]| ->]; [cbn [bind]|reflexivity].
    assert (D : mor_dot g x (fun s => s * m) (fun s => t - s) (map (fun s => s - 1) (mor_neg (reach n tbp) m t)) = Raise IndexError). { apply dot_raise; [exact IN|]. exists 0. split; [|lia]. apply in_map_iff. exists 1. split; [reflexivity|]. unfold mor_neg. apply in_arange. lia. }
    destruct (map (fun s => s - 1) (mor_neg (reach n tbp) m t)) as [|a l] eqn:E; [|now rewrite D]. exfalso. revert E. unfold mor_neg. rewrite arange_cons by lia. discriminate.
Qed.
Lemma half_bounds n : 2 <= n -> 1 <= round_half n < n /\ (n / 2 <= round_half n <= n - n / 2).
Proof.
  intros Hn. unfold round_half. assert (D := Z.div_mod n 2 ltac:(lia)). destruct (Z.even n) eqn:E.
  - apply Z.even_spec in E. destruct E as [k ->]. rewrite (Z.mul_comm 2 k), Z.div_mul in * by lia. lia.
  - assert (O : Z.odd n = true) by (rewrite <- Z.negb_even, E; reflexivity). apply Z.odd_spec in O. destruct O as [k ->]. assert (Q : (2 * k + 1) / 2 = k) by (Z.to_euclidean_division_equations; lia). rewrite Q. destruct (Z.even k) eqn:EK; [|lia]. apply Z.even_spec in EK. destruct EK as [i ->]. lia.
Qed.
Lemma hstar_eq n tbp : mor_hstar n tbp = map (wave n tbp) (arange 0 (hlen n tbp)).
Proof. unfold mor_hstar. rewrite mor_M_eq. reflexivity. Qed.
Lemma cell_ok x n tbp t j : 1 <= zlen x -> 2 <= n -> (0 < tbp)%R -> allowed (zlen x) t -> 0 <= j < n ->
  exists v, mor_cell x n tbp t j = Ok v /\ (Cmod v ^ 2)%R = energy n tbp x t j.
Proof.
  intros HN Hn Ht HA Hj. assert (HI := allowed_inside _ _ HN HA). assert (HB := half_bounds n Hn). assert (NP : (0 < IZR n)%R) by (apply IZR_lt; lia).
  assert (FS : forall m v, 1 <= m -> (Cmod (v * RtoC (mor_factor n tbp m))%C ^ 2 = IZR m / (tbp * IZR n) * Cmod v ^ 2)%R).
  { intros m v Hm. assert (MP : (0 < IZR m)%R) by (apply IZR_lt; lia). assert (P : (0 < IZR m / (tbp * IZR n))%R) by (apply Rdiv_lt_0_compat; [lra|apply Rmult_lt_0_compat; lra]). rewrite Cmod_mult, Cmod_R, Rabs_right by (apply Rle_ge, sqrt_pos). rewrite Rpow_mult_distr. unfold mor_factor. rewrite pow2_sqrt by lra. ring. }
  unfold mor_cell, energy. cbv zeta. rewrite mor_M_eq, hstar_eq, map_map.
  destruct ((1 <=? j) && (j <? n / 2)) eqn:E1.
  { apply andb_true_iff in E1. destruct E1 as [A B]. apply Z.leb_le in A. apply Z.ltb_lt in B. rewrite (row_ok (wave n tbp)) by (auto; lia). cbn [bind]. eexists. split; [reflexivity|]. apply FS. lia. }
  destruct ((1 <=? n - j) && (n - j <? n / 2)) eqn:E2.
  { apply andb_true_iff in E2. destruct E2 as [A B]. apply Z.leb_le in A. apply Z.ltb_lt in B. rewrite (row_ok (fun k => Cconj (wave n tbp k))); auto; try lia. { cbn [bind]. eexists. split; [reflexivity|]. apply FS. lia. } apply map_ext. intros k. now rewrite Cconj_invol. }
  destruct (Z.eqb_spec j (round_half n)) as [->|NE].
  { rewrite (mid_ok (wave n tbp)); auto; try lia; [|destruct HA; lia]. cbn [bind]. eexists. split; [reflexivity|]. apply FS. lia. }
  exists (RtoC 0). split; [reflexivity|]. rewrite Cmod_0. ring.
Qed.
Lemma cell_cases x n tbp t j : 2 <= n -> (0 < tbp)%R -> 0 <= j < n -> (exists v, mor_cell x n tbp t j = Ok v) \/ mor_cell x n tbp t j = Raise IndexError.
Proof.
  intros Hn Ht Hj. assert (HB := half_bounds n Hn). assert (HL := hlen_pos n tbp ltac:(lia) Ht). unfold mor_cell. cbv zeta. rewrite mor_M_eq, hstar_eq. set (h := map _ (arange _ _)). assert (Lh : zlen h = hlen n tbp) by (unfold h; rewrite zlen_map_arange; lia). assert (Lg : zlen (map Cconj h) = hlen n tbp) by (now rewrite zlen_map).
  destruct ((1 <=? j) && (j <? n / 2)) eqn:E1.
  { apply andb_true_iff in E1. destruct E1 as [A B]. apply Z.leb_le in A. apply Z.ltb_lt in B. destruct (row_cases x h (map Cconj h) n tbp j t) as [[v ->]| ->]; auto; try lia. left. eexists. reflexivity. }
  destruct ((1 <=? n - j) && (n - j <? n / 2)) eqn:E2.
  { apply andb_true_iff in E2. destruct E2 as [A B]. apply Z.leb_le in A. apply Z.ltb_lt in B. destruct (row_cases x (map Cconj h) h n tbp (n - j) t) as [[v ->]| ->]; auto; try lia. left. eexists. reflexivity. }
  destruct (Z.eqb_spec j (round_half n)) as [->|NE]; [|left; eexists; reflexivity]. destruct (mid_cases x h (map Cconj h) n tbp (round_half n) t) as [[v ->]| ->]; auto; try lia. left. eexists. reflexivity.
Qed.
Lemma cell_raise x n tbp t : 1 <= zlen x -> 2 <= n -> (0 < tbp)%R -> ~ allowed (zlen x) t -> mor_cell x n tbp t (round_half n) = Raise IndexError.
Proof.
  intros HN Hn Ht HA. assert (HB := half_bounds n Hn). assert (HL := hlen_pos n tbp ltac:(lia) Ht). unfold mor_cell. cbv zeta. rewrite mor_M_eq, hstar_eq. set (h := map _ (arange _ _)). assert (Lh : zlen h = hlen n tbp) by (unfold h; rewrite zlen_map_arange; lia). assert (Lg : zlen (map Cconj h) = hlen n tbp) by (now rewrite zlen_map).
  destruct (Z.leb_spec 1 (round_half n)); [|lia]. destruct (Z.ltb_spec (round_half n) (n / 2)); [lia|]. destruct (Z.ltb_spec (n - round_half n) (n / 2)); [lia|]. rewrite andb_false_r, andb_false_r, Z.eqb_refl. rewrite mid_raise; auto; lia.
Qed.

(** ** Regular timestamps *)
Definition steps (a d T : Z) : list Z := map (fun i => a + d * i) (arange 0 T).
Lemma zdiffs_nth l k : 0 <= k -> k + 1 < zlen l -> In (nth (Z.to_nat (k + 1)) l 0 - nth (Z.to_nat k) l 0) (zdiffs l).
Proof.
  revert k. induction l as [|a l IH]; intros k Hk HL; [unfold zlen in HL; cbn in HL; lia|]. destruct l as [|b l]; [unfold zlen in HL; cbn in HL; lia|]. rewrite zdiffs_cons. destruct (Z.eq_dec k 0) as [->|NE]; [left; reflexivity|]. right.
  assert (Q := IH (k - 1) ltac:(lia) ltac:(unfold zlen in *; cbn [length] in *; lia)). replace (k - 1 + 1) with k in Q by ring. replace (Z.to_nat (k + 1)) with (S (Z.to_nat k)) by lia. replace (Z.to_nat k) with (S (Z.to_nat (k - 1))) at 2 by lia. exact Q.
Qed.
Lemma zdiffs_steps a d T : zdiffs (steps a d T) = map (fun _ => d) (arange 0 (T - 1)).
Proof.
  unfold steps. destruct (Z_le_gt_dec T 1) as [L|G].
  - rewrite (arange_empty 0 (T - 1)) by lia. destruct (Z.eq_dec T 1) as [->|]; [reflexivity|]. rewrite (arange_empty 0 T) by lia. reflexivity.
  - replace (map (fun i => a + d * i) (arange 0 T)) with (map (fun i => a + d * i) (arange 0 ((T - 1) + 1))) by (do 2 f_equal; lia). assert (H : forall k b, 0 <= k -> zdiffs (map (fun i => a + d * i) (arange b (b + k + 1))) = map (fun _ => d) (arange b (b + k))).
    { intros k b Hk. revert b. pattern k. apply natlike_ind; [| |exact Hk].
      - intros b. rewrite (arange_empty b (b + 0)) by lia. rewrite arange_cons by lia. rewrite (arange_empty (b + 1)) by lia. reflexivity.
      - intros z Hz IH b. rewrite (arange_cons b (b + Z.succ z + 1)) by lia. rewrite (arange_cons (b + 1)) by lia. cbn [map]. rewrite zdiffs_cons. rewrite (arange_cons b (b + Z.succ z)) by lia. cbn [map]. f_equal; [ring|]. specialize (IH (b + 1)). rewrite (arange_cons (b + 1)) in IH by lia. cbn [map] in IH. replace (b + Z.succ z + 1) with (b + 1 + z + 1) by lia. replace (b + Z.succ z) with (b + 1 + z) by lia. exact IH. }
    specialize (H (T - 1) 0 ltac:(lia)). rewrite !Z.add_0_l in H. exact H.
Qed.
Lemma steps_of l d : 2 <= zlen l -> (forall b, In b (zdiffs l) -> b = d) -> l = steps (nth 0 l 0) d (zlen l).
Proof.
  intros HL HD. apply (nth_ext _ _ 0 0). { unfold steps. rewrite map_length, arange_length. unfold zlen. lia. } intros k Hk.
  assert (G : forall k, 0 <= k < zlen l -> nth (Z.to_nat k) l 0 = nth 0 l 0 + d * k). { intros z Hz. assert (Hz' := proj1 Hz). revert Hz. pattern z. apply natlike_ind; [| |exact Hz'].
    - intros _. change (Z.to_nat 0) with 0%nat. ring.
    - intros y Hy IH Hs. assert (Q := HD _ (zdiffs_nth l y Hy ltac:(lia))). specialize (IH ltac:(lia)). replace (Z.succ y) with (y + 1) by lia. lia. }
  unfold steps. rewrite <- (Nat2Z.id k). rewrite nth_map_arange by (unfold zlen; lia). rewrite Z.add_0_l. apply G. unfold zlen. lia.
Qed.
Lemma morlet_irregular x l n tbp : (forall a d T, 2 <= T -> l <> steps a d T) -> morlet x (Some l) n tbp = Raise ValueError.
Proof.
  intros H. unfold morlet. cbv zeta. destruct (zdiffs l) as [|d0 ds] eqn:ED; [reflexivity|]. destruct (zmin_ok (d0 :: ds)) as [mn Emn]; [discriminate|]. destruct (zmax_ok (d0 :: ds)) as [mx Emx]; [discriminate|]. rewrite Emn, Emx. cbn [bind]. destruct (Z.eqb_spec mn mx) as [->|]; [|reflexivity]. exfalso.
  apply zmin_spec in Emn. apply zmax_spec in Emx. apply (H (nth 0 l 0) mx (zlen l)).
  - destruct l as [|a [|b l]]; try discriminate. unfold zlen. cbn [length]. lia.
  - apply steps_of; [destruct l as [|a [|b l]]; try discriminate; unfold zlen; cbn [length]; lia|]. intros b Hb. rewrite ED in Hb. destruct Emn as [_ A], Emx as [_ B]. specialize (A b Hb). specialize (B b Hb). lia.
Qed.
Lemma morlet_regular x a d T n tbp : 2 <= T -> morlet x (Some (steps a d T)) n tbp =
  let n := match n with Some n => n | None => zlen x end in
  cols <- mapM (fun ti => mapM (mor_cell x n tbp ti) (arange 0 n)) (steps a d T) ;;
  let tfr := map (map (fun v => Cmod v ^ 2)%R) cols in
  rtfr <- rmorlet_loop tfr n T (mean2 x * (1 / 1000000))%R ;; Ok (tfr, rtfr).
Proof.
  intros HT. unfold morlet. cbv zeta. rewrite zdiffs_steps. set (D := map _ (arange 0 (T - 1))). assert (ND : D <> []) by (unfold D; rewrite arange_cons by lia; discriminate). assert (HD : forall b, In b D -> b = d) by (intros b Hb; unfold D in Hb; apply in_map_iff in Hb; destruct Hb as (? & <- & _); reflexivity).
  destruct (zmin_ok D ND) as [mn Emn]. destruct (zmax_ok D ND) as [mx Emx]. rewrite Emn, Emx. cbn [bind]. apply zmin_spec in Emn. apply zmax_spec in Emx. rewrite (HD mn (proj1 Emn)), (HD mx (proj1 Emx)), Z.eqb_refl. cbn [negb]. assert (LS : zlen (steps a d T) = T) by (unfold steps; rewrite zlen_map_arange; lia). rewrite LS. reflexivity.
Qed.
(** ** Outcome of every call *)
Lemma c92_irregular : forall x l n tbp, (forall a d T, 2 <= T -> l <> steps a d T) -> morlet x (Some l) n tbp = Raise ValueError.
Proof. exact morlet_irregular. Qed.
Lemma c92_outside : forall x a d T n tbp, 1 <= zlen x -> 2 <= T -> 2 <= n -> (0 < tbp)%R ->
  (exists i, 0 <= i < T /\ (a + d * i < 1 - zlen x \/ Z.max 2 (zlen x) <= a + d * i)) ->
  morlet x (Some (steps a d T)) (Some n) tbp = Raise IndexError.
Proof.
  intros x a d T n tbp HN HT Hn Ht (i & Hi & HO). rewrite morlet_regular by lia. cbv zeta. assert (HB := half_bounds n Hn). rewrite (mapM_raise _ _ IndexError); [reflexivity| |].
  - intros t _. destruct (mapM_cases (mor_cell x n tbp t) (arange 0 n) IndexError) as [H|H]; [|left; exact H|right; exact H]. intros j Hj. apply in_arange in Hj. apply cell_cases; auto.
  - exists (a + d * i). split; [unfold steps; apply in_map_iff; exists i; split; [reflexivity|apply in_arange; lia]|]. apply mapM_raise.
    + intros j Hj. apply in_arange in Hj. apply cell_cases; auto.
    + exists (round_half n). split; [apply in_arange; lia|]. apply cell_raise; auto. unfold allowed. lia.
Qed.
Lemma c92_outcome : forall x a d T n tbp, 1 <= zlen x -> 2 <= T -> 2 <= n -> (0 < tbp)%R ->
  (forall i, 0 <= i < T -> 1 - zlen x <= a + d * i < Z.max 2 (zlen x)) ->
  let thr := (rsum x (fun v => Cmod v ^ 2) / IZR (zlen x) / 1000000)%R in
  ((exists i j, 0 <= i < T /\ 0 <= j < n /\ (thr < energy n tbp x (a + d * i) j)%R) -> morlet x (Some (steps a d T)) (Some n) tbp = Raise IndexError) /\
  ((forall i j, 0 <= i < T -> 0 <= j < n -> (energy n tbp x (a + d * i) j <= thr)%R) ->
    exists tfr rtfr, morlet x (Some (steps a d T)) (Some n) tbp = Ok (tfr, rtfr) /\ shape tfr n T /\ shape rtfr n T /\
      forall i j, 0 <= i < T -> 0 <= j < n -> rent tfr j i = energy n tbp x (a + d * i) j /\ rent rtfr j i = rent tfr j i).
Proof.
  intros x a d T n tbp HN HT Hn Ht HI thr. rewrite morlet_regular by lia. cbv zeta.
  assert (EX : exists cols, mapM (fun ti => mapM (mor_cell x n tbp ti) (arange 0 n)) (steps a d T) = Ok cols /\ shape (map (map (fun v => Cmod v ^ 2)%R) cols) n T /\ forall i j, 0 <= i < T -> 0 <= j < n -> rent (map (map (fun v => Cmod v ^ 2)%R) cols) j i = energy n tbp x (a + d * i) j).
  { set (V := fun t j => match mor_cell x n tbp t j with Ok v => v | Raise _ => RtoC 0 end). assert (HV : forall t j, allowed (zlen x) t -> 0 <= j < n -> mor_cell x n tbp t j = Ok (V t j) /\ (Cmod (V t j) ^ 2)%R = energy n tbp x t j). { intros t j HA Hj. destruct (cell_ok x n tbp t j HN Hn Ht HA Hj) as (v & E & Q). unfold V. rewrite E. auto. }
    assert (AL : forall t, In t (steps a d T) -> allowed (zlen x) t). { intros t Hin. unfold steps in Hin. apply in_map_iff in Hin. destruct Hin as (i & <- & Hi). apply in_arange in Hi. specialize (HI i Hi). unfold allowed. lia. }
    exists (map (fun t => map (V t) (arange 0 n)) (steps a d T)). split; [|split].
    - apply mapM_ok. intros t Hin. apply mapM_ok. intros j Hj. apply in_arange in Hj. apply HV; auto.
    - unfold shape. split; [rewrite !zlen_map; unfold steps; rewrite zlen_map_arange; lia|]. intros col Hc. apply in_map_iff in Hc. destruct Hc as (c & <- & Hc). apply in_map_iff in Hc. destruct Hc as (t & <- & _). rewrite !zlen_map, arange_zlen. lia.
    - intros i j Hi Hj. unfold rent, steps. rewrite !map_map. rewrite nth_map_arange by lia. rewrite Z.add_0_l. rewrite map_map. unfold rnth. rewrite nth_map_arange by lia. rewrite Z.add_0_l. apply HV; [|lia]. specialize (HI i Hi). unfold allowed. lia. }
  destruct EX as (cols & -> & SH & EN). cbn [bind]. set (tfr := map _ cols) in *. assert (ET : (mean2 x * (1 / 1000000) = thr)%R) by (unfold mean2, thr; field; apply not_0_IZR; lia). rewrite ET.
  destruct (c76_morlet_loop tfr n T thr ltac:(lia) ltac:(lia)) as [L1 L2]. split.
  - intros (i & j & Hi & Hj & H). rewrite L1; [reflexivity|]. exists i, j. repeat split; try lia. rewrite EN by lia. exact H.
  - intros H. destruct L2 as (m & Em & Sm & Fm). { intros i j Hi Hj. rewrite EN by lia. auto. } rewrite Em. cbn [bind]. exists tfr, m. split; [reflexivity|]. split; [exact SH|]. split; [exact Sm|]. intros i j Hi Hj. split; [auto|]. apply Fm; lia.
Qed.
Lemma c92_default : forall x n tbp, morlet x None n tbp = morlet x (Some (steps 0 1 (zlen x))) n tbp /\ morlet x None None tbp = morlet x (Some (steps 0 1 (zlen x))) (Some (zlen x)) tbp /\
  (zlen x <= 1 -> morlet x None n tbp = Raise ValueError).
Proof.
  intros x n tbp. assert (E : arange 0 (zlen x) = steps 0 1 (zlen x)). { unfold steps. rewrite <- (map_id (arange 0 (zlen x))) at 1. apply map_ext. intros i. ring. } repeat split; try (unfold morlet; cbv zeta; now rewrite E).
  intros L. unfold morlet. cbv zeta. rewrite E, zdiffs_steps. rewrite arange_empty by lia. reflexivity.
Qed.
(** ** Real signals: negative frequencies mirror positive ones *)
Lemma coef_conj w n tbp x m t : (forall k, Im (cnth x k) = 0%R) -> coef (fun k => Cconj (w k)) n tbp x m t = Cconj (coef w n tbp x m t).
Proof.
  intros HX. assert (RX : forall k, Cconj (cnth x k) = cnth x k). { intros k. specialize (HX k). destruct (cnth x k) as [a b]. cbn in HX. subst b. unfold Cconj. cbn. now rewrite Ropp_0. }
  unfold coef. cbv zeta. rewrite Cconj_plus, !csum_conj. f_equal; apply csum_ext; intros s _; rewrite Cconj_mult, RX; reflexivity.
Qed.
Lemma c92_mirror : forall n tbp x t m, (forall k, Im (cnth x k) = 0%R) -> 1 <= m < n / 2 -> energy n tbp x t (n - m) = energy n tbp x t m.
Proof.
  intros n tbp x t m HX Hm. assert (D : 2 * (n / 2) <= n) by (apply Z.mul_div_le; lia). unfold energy. replace (n - (n - m)) with m by ring.
  assert (E1 : (1 <=? n - m) && (n - m <? n / 2) = false) by (apply andb_false_iff; right; apply Z.ltb_ge; lia). assert (E2 : (1 <=? m) && (m <? n / 2) = true) by (apply andb_true_iff; split; [apply Z.leb_le|apply Z.ltb_lt]; lia). rewrite E1, E2. rewrite coef_conj by exact HX. rewrite Cmod_conj. reflexivity.
Qed.
(** ** Scaling the signal scales the energies and changes no outcome *)
Lemma cnth_scale c (x : list C) k : cnth (map (fun v => c * v)%C x) k = (c * cnth x k)%C.
Proof. unfold cnth. replace (RtoC 0) with (c * RtoC 0)%C at 1 by ring. exact (map_nth (fun v => c * v)%C x (RtoC 0) (Z.to_nat k)). Qed.
Lemma c92_scale : forall n tbp c x t j, energy n tbp (map (fun v => c * v)%C x) t j = (Cmod c ^ 2 * energy n tbp x t j)%R.
Proof.
  intros n tbp c x t j. assert (EC : forall w m, coef w n tbp (map (fun v => c * v)%C x) m t = (c * coef w n tbp x m t)%C).
  { intros w m. unfold coef. cbv zeta. rewrite zlen_map, Cmult_plus_distr_l, <- !csum_scal_l. f_equal; apply csum_ext; intros s _; rewrite cnth_scale; ring. }
  assert (EM : forall w m, coef_mid w n tbp (map (fun v => c * v)%C x) m t = (c * coef_mid w n tbp x m t)%C).
  { intros w m. unfold coef_mid. cbv zeta. rewrite zlen_map, Cmult_plus_distr_l, <- !csum_scal_l. f_equal; apply csum_ext; intros s _; rewrite cnth_scale; ring. }
  unfold energy. rewrite !EC, EM, !Cmod_mult, !Rpow_mult_distr. destruct (_ && _); [ring|]. destruct (_ && _); [ring|]. destruct (_ =? _); ring.
Qed.
Lemma c92_scale_outcome : forall c x a d T n tbp, c <> RtoC 0 -> 1 <= zlen x -> 2 <= T -> 2 <= n -> (0 < tbp)%R ->
  ((exists r, morlet x (Some (steps a d T)) (Some n) tbp = Ok r) <-> (exists r, morlet (map (fun v => c * v)%C x) (Some (steps a d T)) (Some n) tbp = Ok r)).
Proof.
  intros c x a d T n tbp Hc HN HT Hn Ht. assert (CP : (0 < Cmod c ^ 2)%R) by (apply pow_lt, Cmod_gt_0, Hc). set (y := map (fun v => c * v)%C x). assert (Ly : zlen y = zlen x) by apply zlen_map.
  destruct (Forall_Exists_dec (fun i => 1 - zlen x <= a + d * i < Z.max 2 (zlen x)) (fun i => ltac:(destruct (Z_le_dec (1 - zlen x) (a + d * i)); [destruct (Z_lt_dec (a + d * i) (Z.max 2 (zlen x))); [left; lia|right; lia]|right; lia])) (arange 0 T)) as [F|F].
  - rewrite Forall_forall in F. assert (HI : forall i, 0 <= i < T -> 1 - zlen x <= a + d * i < Z.max 2 (zlen x)) by (intros i Hi; apply F, in_arange; lia).
    destruct (c92_outcome x a d T n tbp HN HT Hn Ht HI) as [A1 A2]. destruct (c92_outcome y a d T n tbp ltac:(lia) HT Hn Ht ltac:(rewrite Ly; exact HI)) as [B1 B2]. cbv zeta in *.
    assert (ST : (rsum y (fun v => Cmod v ^ 2) / IZR (zlen y) / 1000000 = Cmod c ^ 2 * (rsum x (fun v => Cmod v ^ 2) / IZR (zlen x) / 1000000))%R).
    { rewrite Ly. unfold y. rewrite rsum_map. rewrite (rsum_ext _ _ (fun v => Cmod c ^ 2 * Cmod v ^ 2)%R) by (intros; rewrite Cmod_mult; ring). rewrite rsum_scal_l. unfold Rdiv. ring. }
    rewrite ST in B1, B2. set (thr := (rsum x (fun v => Cmod v ^ 2) / IZR (zlen x) / 1000000)%R) in *.
    assert (LE : forall e, (Cmod c ^ 2 * e <= Cmod c ^ 2 * thr <-> e <= thr)%R) by (intros e; split; intros Q; nra).
    assert (DEC : (exists i j, 0 <= i < T /\ 0 <= j < n /\ (thr < energy n tbp x (a + d * i) j)%R) \/ (forall i j, 0 <= i < T -> 0 <= j < n -> (energy n tbp x (a + d * i) j <= thr)%R)).
    { destruct (Classical_Prop.classic (exists i j, 0 <= i < T /\ 0 <= j < n /\ (thr < energy n tbp x (a + d * i) j)%R)) as [E|E]; [left; exact E|right]. intros i j Hi Hj. apply Rnot_lt_le. intros Q. apply E. exists i, j. auto. }
    destruct DEC as [E|E].
    + rewrite (A1 E). rewrite B1; [split; intros [r Q]; discriminate|]. destruct E as (i & j & Hi & Hj & Q). exists i, j. repeat split; try lia. unfold y. rewrite c92_scale. nra.
    + destruct (A2 E) as (p & q & -> & _). destruct B2 as (p' & q' & -> & _); [|split; intros _; eauto]. intros i j Hi Hj. unfold y. rewrite c92_scale. apply LE. auto.
  - apply Exists_exists in F. destruct F as (i & Hi & HO). apply in_arange in Hi. rewrite !c92_outside; auto; try lia; try (exists i; split; [lia|rewrite ?Ly; lia]). split; intros [r Q]; discriminate.
Qed.
(** ** A unit impulse *)
Definition impulse (N s : Z) : list C := map (fun k => if k =? s then RtoC 1 else RtoC 0) (arange 0 N).
Lemma impulse_at N s k : 0 <= k < N -> cnth (impulse N s) k = if k =? s then RtoC 1 else RtoC 0.
Proof. intros H. unfold impulse. rewrite cnth_map_arange by lia. now rewrite Z.add_0_l. Qed.
Lemma c92_impulse : forall N s n tbp m, 2 <= N -> 0 <= s < N -> (0 < tbp)%R -> 1 <= m < n / 2 ->
  energy n tbp (impulse N s) s m = (IZR m / (tbp * IZR n) * exp (- (IZR (m - 1) / (IZR n * tbp)) ^ 2))%R.
Proof.
  intros N s n tbp m HN Hs Ht Hm. assert (n2 : 2 <= n) by (Z.to_euclidean_division_equations; lia). assert (RP := reach_pos n tbp ltac:(lia) Ht). assert (HB := half_bounds n n2). assert (CP := ceil_pos (reach n tbp) m RP ltac:(lia)). assert (LI : zlen (impulse N s) = N) by (unfold impulse; rewrite zlen_map_arange; lia).
  unfold energy. assert (E2 : (1 <=? m) && (m <? n / 2) = true) by (apply andb_true_iff; split; [apply Z.leb_le|apply Z.ltb_lt]; lia). rewrite E2. f_equal.
  assert (EC : coef (wave n tbp) n tbp (impulse N s) m s = wave n tbp (m - 1)).
  { unfold coef. cbv zeta. rewrite LI. rewrite (csum_0 (arange 1 _)). 2:{ intros k Hk. apply in_arange in Hk. rewrite impulse_at by lia. destruct (Z.eqb_spec (s - k) s); [lia|]. ring. }
    rewrite Cplus_0_r. rewrite (csum_single _ 1).
    - replace (s + 1 - 1) with s by ring. rewrite (Z.mod_small s N) by lia. rewrite impulse_at by lia. rewrite Z.eqb_refl, Cmult_1_r. f_equal. rewrite Z.mod_small by (unfold hlen; lia). ring.
    - apply NoDup_arange.
    - apply in_arange. lia.
    - intros k Hk NE. apply in_arange in Hk. assert (B := Z.mod_pos_bound (s + k - 1) N ltac:(lia)). rewrite impulse_at by lia. destruct (Z.eqb_spec ((s + k - 1) mod N) s) as [E|]; [|ring]. exfalso. destruct (Z.eq_dec k 0) as [->|]; [|rewrite Z.mod_small in E by lia; lia].
      destruct (Z.eq_dec s 0) as [->|]; [|rewrite Z.mod_small in E by lia; lia]. replace (0 + 0 - 1) with (-1) in E by ring. rewrite <- (Z_mod_plus_full (-1) 1) in E. rewrite Z.mod_small in E by lia. lia. }
  rewrite EC. unfold wave. rewrite Cmod_mult, Cmod_R, Cmod_cis, Rmult_1_r, Rabs_right by (apply Rle_ge, Rlt_le, exp_pos). rewrite <- Rsqr_pow2. unfold Rsqr. rewrite <- exp_plus. f_equal. field. assert (IZR n <> 0%R) by (apply not_0_IZR; lia). split; [lra|assumption].
Qed.
(** So the function raises on impulses, whatever their place, with default
    timestamps. *)
Lemma c92_impulse_raises : forall N s n tbp, 2 <= N -> 0 <= s < N -> 4 <= n -> (0 < tbp)%R -> (tbp * IZR n < 1000000 * IZR N)%R ->
  morlet (impulse N s) None (Some n) tbp = Raise IndexError.
Proof.
  intros N s n tbp HN Hs Hn Ht HB. assert (LI : zlen (impulse N s) = N) by (unfold impulse; rewrite zlen_map_arange; lia). rewrite (proj1 (c92_default _ _ _)), LI.
  destruct (c92_outcome (impulse N s) 0 1 N n tbp ltac:(lia) HN ltac:(lia) Ht ltac:(rewrite LI; intros; lia)) as [A _]. cbv zeta in A. apply A. exists s, 1. split; [lia|]. split; [lia|]. replace (0 + 1 * s) with s by ring. rewrite c92_impulse by (try lia; auto; Z.to_euclidean_division_equations; lia).
  rewrite LI. assert (E : rsum (impulse N s) (fun v => Cmod v ^ 2)%R = 1%R). { unfold impulse. rewrite rsum_map. rewrite (rsum_single _ s); [|apply NoDup_arange|apply in_arange; lia|]. - rewrite Z.eqb_refl, Cmod_1. ring. - intros k _ NE. rewrite (proj2 (Z.eqb_neq k s)) by auto. rewrite Cmod_0. ring. }
  rewrite E. replace (IZR (1 - 1)) with 0%R by reflexivity. replace (- (0 / (IZR n * tbp)) ^ 2)%R with 0%R by (unfold Rdiv; ring). rewrite exp_0.
  assert (NP : (2 <= IZR N)%R) by (apply IZR_le; lia). assert (nP : (4 <= IZR n)%R) by (apply IZR_le; lia). assert (TP : (0 < tbp * IZR n)%R) by (apply Rmult_lt_0_compat; lra). 
  apply (Rmult_lt_reg_r (tbp * IZR n * (IZR N * 1000000))). { apply Rmult_lt_0_compat; lra. } replace (1 / IZR N / 1000000 * (tbp * IZR n * (IZR N * 1000000)))%R with (tbp * IZR n)%R by (field; lra). replace (1 / (tbp * IZR n) * 1 * (tbp * IZR n * (IZR N * 1000000)))%R with (IZR N * 1000000)%R by (field; lra).
  lra.
Qed.
(** Row m of a unit impulse at its own instant falls short of m / (tbp n). *)
Lemma c92_peak_refuted : exists N s n tbp m, 2 <= N /\ 0 <= s < N /\ (0 < tbp)%R /\ 1 <= m < n / 2 /\ (energy n tbp (impulse N s) s m < IZR m / (tbp * IZR n) / 2)%R.
Proof.
  exists 8, 3, 8, (1 / 4)%R, 3. split; [lia|]. split; [lia|]. split; [lra|]. split; [cbn; lia|]. rewrite c92_impulse by (try lia; try lra; cbn; lia). change (IZR (3 - 1)) with 2%R. replace (- (2 / (8 * (1 / 4))) ^ 2)%R with (- (1))%R by field. rewrite exp_Ropp. assert (E : (2 < exp 1)%R) by (assert (H := exp_ineq1 1 ltac:(lra)); lra). assert (Q : (/ exp 1 < / 2)%R) by (apply Rinv_lt_contravar; nra). lra.
Qed.
Example c92_example : morlet (impulse 4 1) None None (1 / 4)%R = Raise IndexError /\ morlet (impulse 4 1) (Some [0; 1; 3]) None (1 / 4)%R = Raise ValueError /\
  exists tfr rtfr, morlet [RtoC 0; RtoC 0; RtoC 0] None None (1 / 4)%R = Ok (tfr, rtfr) /\ forall i j, 0 <= i < 3 -> 0 <= j < 3 -> rent rtfr j i = 0%R.
Proof.
  split; [|split].
  - assert (E : morlet (impulse 4 1) None None (1 / 4)%R = morlet (impulse 4 1) None (Some 4) (1 / 4)%R) by reflexivity. rewrite E. apply c92_impulse_raises; try lia; lra.
  - apply c92_irregular. intros a d T HT E. assert (LT := f_equal zlen E). unfold steps in LT. rewrite zlen_map_arange in LT by lia. change (zlen [0; 1; 3]) with 3 in LT. assert (T = 3) by lia. subst T. apply (f_equal zdiffs) in E. rewrite zdiffs_steps in E. change (arange 0 (3 - 1)) with [0; 1] in E. cbn in E. injection E. lia.
  - set (x := [RtoC 0; RtoC 0; RtoC 0]). assert (X0 : forall k, cnth x k = RtoC 0) by (intros k; unfold cnth, x; destruct (Z.to_nat k) as [|[|[|[|?]]]]; reflexivity). rewrite (proj1 (proj2 (c92_default x None (1 / 4)%R))). change (zlen x) with 3.
    assert (E0 : forall t j, energy 3 (1 / 4) x t j = 0%R).
    { intros t j. assert (C0 : forall w m, coef w 3 (1 / 4) x m t = RtoC 0) by (intros w m; unfold coef; cbv zeta; rewrite !csum_0 by (intros; rewrite X0; ring); ring). assert (M0 : forall w m, coef_mid w 3 (1 / 4) x m t = RtoC 0) by (intros w m; unfold coef_mid; cbv zeta; rewrite !csum_0 by (intros; rewrite X0; ring); ring). unfold energy. rewrite !C0, M0, Cmod_0. destruct (_ && _); [ring|]. destruct (_ && _); [ring|]. destruct (_ =? _); ring. }
    destruct (c92_outcome x 0 1 3 3 (1 / 4)%R) as [_ A]; try (change (zlen x) with 3; lia); try lra. cbv zeta in A. destruct A as (tfr & rtfr & E & _ & _ & V).
    + intros i j _ _. rewrite E0. unfold x. rewrite !rsum_cons, rsum_nil, Cmod_0. change (zlen _) with 3. lra.
    + exists tfr, rtfr. split; [exact E|]. intros i j Hi Hj. destruct (V i j Hi Hj) as [V1 V2]. now rewrite V2, V1, E0.
Qed.
