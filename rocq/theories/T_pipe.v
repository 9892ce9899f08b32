(** C153: friedman_density and ridges applied to the reassignment fields of the library. *)
From Coq Require Import Reals ZArith List Lia Lra Bool.
From Coquelicot Require Import Coquelicot.
From Flocq Require Import Core.
From Verif Require Import Py Scalars CSum DFT Spec M_base M_stft M_cohen M_putils M_reas M_post M_gallery2 P_base P_stft P_spec T_key T_noise T_putils T_reas T_reas2 T_rpwv T_conc T_post3 T_gallery3 T_rtone T_rchirp T_rpimp.
Import ListNotations.
Local Open Scope Z_scope.

(** The third output of pseudo_wigner_ville (reassigned.py 82-92: the 1-based row, or infinity), as the argument re_mat of ridges;
    that of spectrogram (539-546: row + 1j * 1-based column, or infinity). *)
Definition hat_z (vec : list (list (option Z))) : list (list (option C)) := map (map (option_map (fun r => RtoC (IZR r)))) vec.
Definition hat_rc (vec : list (list (option (Z * Z)))) : list (list (option C)) := map (map (option_map (fun rc => (IZR (fst rc), IZR (snd rc))))) vec.
(** Row of the density that cell (j, i) is counted in. *)
Definition landing (vec : list (list (option Z))) (n j i : Z) : Z := match vent vec j i with Some _ => Z.min (rdest vec j i + 1) (n - 1) | None => n - 1 end.

Lemma hat_nth {A B} (g : A -> B) (vec : list (list (option A))) j i : nth (Z.to_nat j) (nth (Z.to_nat i) (map (map (option_map g)) vec) []) None = option_map g (vent vec j i).
Proof. change (@nil (option B)) with (map (option_map g) []). rewrite (map_nth (map (option_map g))). change (@None B) with (option_map g None). rewrite map_nth. reflexivity. Qed.
Lemma zlen_filter_map {A B} (f : A -> B) p l : zlen (filter p (map f l)) = zlen (filter (fun a => p (f a)) l).
Proof. induction l as [|a l IH]; [reflexivity|]. cbn [map filter]. destruct (p (f a)); [|exact IH]. unfold zlen in *. cbn [length]. lia. Qed.
Lemma combine_map_arange {A B} (f : Z -> A) (g : Z -> B) l : combine (map f l) (map g l) = map (fun j => (f j, g j)) l.
Proof. induction l as [|a l IH]; [reflexivity|]. cbn [map combine]. now rewrite IH. Qed.
Lemma zipw_nth_combine tfr re i : 0 <= i < zlen tfr -> zlen re = zlen tfr -> nth (Z.to_nat i) (fpairs tfr re) [] = combine (nth (Z.to_nat i) tfr []) (nth (Z.to_nat i) re []).
Proof.
  unfold fpairs, zlen. intros Hi L. assert (Hn : (Z.to_nat i < length tfr)%nat) by lia. assert (L' : length re = length tfr) by lia. clear Hi L. revert re L' Hn. generalize (Z.to_nat i). clear i. induction tfr as [|c tfr IH]; intros k [|rc re] L' Hn; cbn in *; try lia.
  destruct k; [reflexivity|]. apply IH; lia.
Qed.
Lemma fpairs_zlen tfr re : zlen re = zlen tfr -> zlen (fpairs tfr re) = zlen tfr.
Proof. intros L. unfold fpairs. apply zipw_zlen. symmetry. exact L. Qed.

Lemma pwv_pairs x ts n w tfr rtfr vec i : rpwv x ts n w = Ok (Some (tfr, rtfr, vec)) -> 0 <= i < zlen (rp_ts x ts) ->
  zlen (fpairs tfr (hat_real vec)) = zlen (rp_ts x ts) /\
  nth (Z.to_nat i) (fpairs tfr (hat_real vec)) [] = map (fun j => (rent tfr j i, match vent vec j i with Some r => Fin (IZR r) | None => PInf end)) (arange 0 (rp_n x n)).
Proof.
  intros H Hi. destruct (rpwv_vec _ _ _ _ _ _ _ H) as [V1 V2]. destruct (c39_entries _ _ _ _ _ _ _ H) as ([S1 S2] & _). set (T := zlen (rp_ts x ts)) in *. set (n' := rp_n x n) in *.
  assert (LH : zlen (hat_real vec) = zlen tfr) by (unfold hat_real; rewrite zlen_map; lia). split; [rewrite fpairs_zlen; lia|].
  rewrite zipw_nth_combine by lia. rewrite <- combine_map_arange. f_equal.
  - rewrite (list_nth_map (nth (Z.to_nat i) tfr []) 0%R) at 1. rewrite S2 by (apply nth_In; unfold zlen in S1; lia). reflexivity.
  - set (F := fun o => match o with Some r => Fin (IZR r) | None => PInf end). unfold hat_real. fold F. change (@nil ext) with (map F []). rewrite (map_nth (map F)). rewrite (list_nth_map (nth (Z.to_nat i) vec []) None) at 1. rewrite V2 by (apply nth_In; unfold zlen in V1; lia). rewrite map_map. reflexivity.
Qed.

(** Each cell above the threshold is counted once, in the row after the one its energy is moved to, the last row excepted. *)
Lemma c153_density : forall x ts n w tfr rtfr vec d, rpwv x ts n w = Ok (Some (tfr, rtfr, vec)) -> let n := rp_n x n in friedman tfr (hat_real vec) n = Some d ->
  exists K, 0 < K /\ forall b i, 0 <= b < n -> 0 <= i < zlen (rp_ts x ts) ->
  rent d b i = (IZR (zlen (filter (fun j => gtb (rent tfr j i) (mean_half tfr) && (b =? landing vec n j i)) (arange 0 n))) / IZR K)%R.
Proof.
  intros x ts n w tfr rtfr vec d H n' HD. assert (Hn : 0 < n') by (exact (rpwv_pos _ _ _ _ _ H)). destruct (c45_density tfr (hat_real vec) n' ltac:(lia)) as [D0 D1]. cbv zeta in D0, D1. set (K := fcount tfr (hat_real vec)) in *.
  destruct (Z.eq_dec K 0) as [Z0|Z0]; [rewrite (D0 Z0) in HD; discriminate|]. destruct (D1 Z0) as (m & Em & _ & _ & _ & V). assert (m = d) by congruence. subst m. exists K. split; [unfold K, fcount, count in *; assert (Q := zlen_nonneg (filter (T_post3.above (mean_half tfr)) (concat (fpairs tfr (hat_real vec))))); lia|].
  intros b i Hb Hi. destruct (pwv_pairs x ts n w tfr rtfr vec i H Hi) as [L E]. specialize (V b i Hb ltac:(lia)). unfold cell in V. unfold rent, rnth at 1. rewrite V. do 2 f_equal. rewrite E. unfold count. rewrite zlen_filter_map. f_equal. apply filter_ext_in. intros j Hj. apply in_arange in Hj. cbn [fst snd]. f_equal.
  destruct (c39_mass x ts n w tfr rtfr vec i H Hi) as (RR & _). specialize (RR j Hj). fold n' in RR. unfold landing. unfold rdest in *. destruct (vent vec j i) as [r|]; cbn [bin_of]; [|reflexivity]. rewrite Zfloor_IZR. f_equal. lia.
Qed.
(** Row 0 of the density stays empty. *)
Lemma c153_row0 : forall x ts n w tfr rtfr vec d, rpwv x ts n w = Ok (Some (tfr, rtfr, vec)) -> 2 <= rp_n x n -> friedman tfr (hat_real vec) (rp_n x n) = Some d ->
  forall i, 0 <= i < zlen (rp_ts x ts) -> rent d 0 i = 0%R.
Proof.
  intros x ts n w tfr rtfr vec d H H2 HD i Hi. destruct (c153_density x ts n w tfr rtfr vec d H HD) as (K & HK & V). rewrite V by lia. rewrite filter_none; [unfold zlen, Rdiv; cbn; ring|]. intros j Hj. apply in_arange in Hj. apply andb_false_iff. right. apply Z.eqb_neq.
  destruct (c39_mass x ts n w tfr rtfr vec i H Hi) as (RR & _). specialize (RR j Hj). unfold landing. destruct (vent vec j i); lia.
Qed.
(** ridges with 'rpwv': the 1-based rows of the field are compared with 0-based ones, so that a cell is a ridge point when
    its energy is moved one row down, which is where cells without displacement go; row 0 has no ridge points. *)
Lemma c153_ridge_pwv : forall x ts n w tfr rtfr vec thr, rpwv x ts n w = Ok (Some (tfr, rtfr, vec)) -> forall j i, 0 <= i < zlen (rp_ts x ts) ->
  (In j (ridge_idx Rpwv thr i (nth (Z.to_nat i) tfr []) (nth (Z.to_nat i) (hat_z vec) [])) <->
   1 <= j < rp_n x n /\ (thr < rent tfr j i)%R /\ vent vec j i <> None /\ rdest vec j i = j - 1).
Proof.
  intros x ts n w tfr rtfr vec thr H j i Hi. rewrite c46_points. unfold hat_z. rewrite hat_nth. destruct (c39_entries _ _ _ _ _ _ _ H) as ([S1 S2] & _). rewrite S2 by (apply nth_In; unfold zlen in *; lia).
  destruct (c39_mass x ts n w tfr rtfr vec i H Hi) as (RR & _). unfold rent. unfold rdest in *. split.
  - intros (Hj & z & E & L & Z). specialize (RR j Hj). destruct (vent vec j i) as [r|]; cbn [option_map] in E; [|discriminate]. injection E as E. subst z. apply RtoC_inj in Z. apply eq_IZR in Z. subst r. repeat split; try lia; [exact L|discriminate].
  - intros (Hj & L & N & E). split; [lia|]. destruct (vent vec j i) as [r|]; [|tauto]. cbn [option_map]. exists (RtoC (IZR r)). split; [reflexivity|]. split; [exact L|]. do 2 f_equal. lia.
Qed.
Lemma c153_undisplaced : forall x ts n w tfr rtfr vec thr, rpwv x ts n w = Ok (Some (tfr, rtfr, vec)) ->
  let l := rp_ts x ts in let w := rp_w x n w in let n := rp_n x n in
  forall j i, 0 <= j < n -> 0 <= i < zlen l -> vent vec j i <> None -> let ti := nth (Z.to_nat i) l 0 in
  exists d q, derive_window (rp_fw w) = Ok (Some d) /\ (Rabs (Im (rp_S x (rp_fw w) d n ti j) * (IZR n / rent tfr j i / (2 * PI)) - IZR q) <= / 2)%R /\
  (In j (ridge_idx Rpwv thr i (nth (Z.to_nat i) tfr []) (nth (Z.to_nat i) (hat_z vec) [])) <-> 1 <= j /\ (thr < rent tfr j i)%R /\ q mod n = 0).
Proof.
  intros x ts n w tfr rtfr vec thr H l w' n' j i Hj Hi Hm ti. destruct (vent vec j i) as [r|] eqn:V; [|tauto]. destruct (c39_nearest x ts n w tfr rtfr vec H j i Hj Hi r V) as (d & q & Hd & E & B & _). exists d, q. split; [exact Hd|]. split; [exact B|].
  rewrite (c153_ridge_pwv x ts n w tfr rtfr vec thr H j i Hi). fold n'. fold n' in E. rewrite E, V. split.
  - intros (J & L & _ & Q). split; [lia|]. split; [exact L|]. assert (M := Z.div_mod (j - 1 - q) n' ltac:(lia)). rewrite Q in M. replace q with ((- ((j - 1 - q) / n')) * n') by lia. apply Z.mod_mul. lia.
  - intros (J & L & Q). split; [lia|]. split; [exact L|]. split; [discriminate|]. rewrite <- Zminus_mod_idemp_r, Q, Z.sub_0_r. apply Z.mod_small. lia.
Qed.
(** ridges with 'rsp': the rows of this field are 0-based and the columns 1-based; a cell is a ridge point when it keeps its row. *)
Lemma c153_ridge_spec : forall x ts n w tfr rtfr vec thr, rspec x ts n w = Ok (Some (tfr, rtfr, vec)) -> forall j i, 0 <= i < zlen (rs_ts x ts) ->
  (In j (ridge_idx Rsp thr i (nth (Z.to_nat i) tfr []) (nth (Z.to_nat i) (hat_rc vec) [])) <->
   0 <= j < rs_n x n /\ vent vec j i <> None /\ dest vec j i = (j, i - 1)).
Proof.
  intros x ts n w tfr rtfr vec thr H j i Hi. rewrite c46_points. unfold hat_rc. rewrite hat_nth. destruct (c36_entries _ _ _ _ _ _ _ H) as ([S1 S2] & _). rewrite S2 by (apply nth_In; unfold zlen in *; lia). unfold dest. split.
  - intros (Hj & z & E & Z). destruct (vent vec j i) as [[r c]|]; cbn [option_map fst snd] in E; [|discriminate]. injection E as E. subst z. injection Z as E1 E2. apply eq_IZR in E1. apply eq_IZR in E2. subst. repeat split; try lia; try discriminate; try (f_equal; lia).
  - intros (Hj & N & E). split; [lia|]. destruct (vent vec j i) as [[r c]|]; [|tauto]. injection E as E1 E2. cbn [option_map fst snd]. eexists. split; [reflexivity|]. f_equal; f_equal; lia.
Qed.
(** So a cell without displacement in frequency is never one. *)
Lemma c153_never : forall x ts n w tfr rtfr vec thr, rspec x ts n w = Ok (Some (tfr, rtfr, vec)) -> 3 <= zlen (rs_w x w) -> 2 <= rs_n x n ->
  exists d, derive_window (rs_w x w) = Ok (Some d) /\ forall j i, 0 <= i < zlen (rs_ts x ts) ->
  In j (ridge_idx Rsp thr i (nth (Z.to_nat i) tfr []) (nth (Z.to_nat i) (hat_rc vec) [])) -> let df := disp_f x (rs_w x w) d (rs_n x n) (nth (Z.to_nat i) (rs_ts x ts) 0) j in (df + 1) mod rs_n x n = 0 /\ df <> 0.
Proof.
  intros x ts n w tfr rtfr vec thr H H3 H2. destruct (c37_vectors _ _ _ _ _ _ _ H) as [V _]. destruct (V H3) as (d & Ed & V'). clear V. exists d. split; [exact Ed|]. intros j i Hi I df. apply (c153_ridge_spec x ts n w tfr rtfr vec thr H j i Hi) in I. destruct I as (Hj & N & E).
  destruct (vent vec j i) as [[r c]|] eqn:V; [|tauto]. destruct (V' j i r c Hj Hi V) as [R1 _]. fold df in R1. unfold dest in E. rewrite V in E. injection E as E1 _. subst r.
  assert (M := Z.div_mod (j - df - 1) (rs_n x n) ltac:(lia)). rewrite <- R1 in M. assert (Q : (df + 1) mod rs_n x n = 0) by (replace (df + 1) with ((- ((j - df - 1) / rs_n x n)) * rs_n x n) by lia; apply Z.mod_mul; lia).
  split; [exact Q|]. intros Z. rewrite Z in Q. rewrite Z.mod_small in Q by lia. lia.
Qed.
(** A chirp that is on bin k0 at the instant: of the cells at most D bins away, the one on the chirp is the ridge point, and all are
    counted in its row of the density. *)
Lemma c153_chirp : forall x ts n w tfr rtfr vec A law k0 D i thr, rpwv x ts n w = Ok (Some (tfr, rtfr, vec)) -> sweeps x A law -> (0 < A)%R ->
  let l := rp_ts x ts in let w := rp_w x n w in let n := rp_n x n in real_list w -> symmetric w -> 3 <= zlen w -> cnth w 0 = RtoC 0 -> 0 <= i < zlen l -> (forall t, In t l -> 0 <= t) ->
  let ti := nth (Z.to_nat i) l 0 in fits x w ti -> (2 * IZR n * law (ti - 1)%Z = IZR k0)%R -> 0 <= D -> (4 * PI ^ 2 * IZR D ^ 3 < 3 * IZR n ^ 2)%R ->
  forall d, - D <= d <= D -> let j := (k0 + d) mod n in (A / 1000000 < Rabs (rent tfr j i))%R ->
  (k0 mod n <> 0 -> landing vec n j i = k0 mod n) /\
  (In j (ridge_idx Rpwv thr i (nth (Z.to_nat i) tfr []) (nth (Z.to_nat i) (hat_z vec) [])) <-> d = 0 /\ k0 mod n <> 0 /\ (thr < rent tfr j i)%R).
Proof.
  intros x ts n w tfr rtfr vec A law k0 D i thr H K A0 l w' n' RW S H3 W0 Hi NN ti I EK HD BD d Hd j LT.
  assert (Hn : 0 < n') by (exact (rpwv_pos _ _ _ _ _ H)). assert (N0 : (0 < IZR n')%R) by (apply IZR_lt; lia). assert (P3 := PI2_3_2).
  assert (SM : 2 * D < n').
  { destruct (Z_lt_dec (2 * D) n') as [|NL]; [auto|exfalso]. assert (D1 : (1 <= IZR D)%R) by (apply (IZR_le 1); lia). assert (L2 : (IZR n' <= 2 * IZR D)%R) by (rewrite <- mult_IZR; apply IZR_le; lia). assert (PP : (9 < PI ^ 2)%R) by (cbn; nra).
    assert (Q1 : (36 * IZR D ^ 3 < 3 * IZR n' ^ 2)%R). { eapply Rlt_trans; [|exact BD]. apply Rmult_lt_compat_r; [apply pow_lt; lra|lra]. } assert (Q2 : (IZR n' ^ 2 <= 4 * IZR D ^ 2)%R) by (cbn; nra). assert (Q3 : (IZR D ^ 2 <= IZR D ^ 3)%R) by (cbn; nra). assert (Q4 : (0 < IZR D ^ 2)%R) by (apply pow_lt; lra). lra. }
  assert (Hj : 0 <= j < n') by (apply Z.mod_pos_bound; lia).
  destruct (c145_collect x ts n w tfr rtfr vec A law k0 D i H K A0 RW S H3 W0 Hi NN I EK HD BD) as [C _]. specialize (C d Hd LT). fold n' in C. fold j in C.
  assert (NV : vent vec j i <> None).
  { assert (R0 := rpwv_run _ _ _ _ _ _ _ H). cbv zeta in R0. fold l n' w' in R0. destruct R0 as (_ & Ho & C0 & Hb & St & Sr & Ht & mn & mx & dh' & Hmn & Hmx & Hd' & Hv & Hdn & Hr).
    apply zmin_spec in Hmn. apply zmax_spec in Hmx. destruct Hmn as [In1 M1]. destruct Hmx as [In2 M2].
    assert (TI : In ti l) by (unfold ti; apply nth_In; unfold zlen in Hi; lia). assert (W := odd_lh w' Ho). rewrite lh_eq in W by auto.
    assert (TH : rp_thr x mn mx = Some (A / 1000000)%R). { apply (slice_power x A law); auto. destruct I as (I1 & I2). assert (Q1 := M1 ti TI). assert (Q2 := NN mn In1). lia. }
    rewrite (Hv j i Hj Hi), TH. unfold M_reas.above. destruct (Rlt_dec _ _); [discriminate|contradiction]. }
  assert (B0 := Z.mod_pos_bound k0 n' Hn). assert (K1 : k0 mod n' <> 0 -> (k0 - 1) mod n' = k0 mod n' - 1).
  { intros N. rewrite <- Zminus_mod_idemp_l. apply Z.mod_small. lia. }
  assert (K2 : k0 mod n' = 0 -> (k0 - 1) mod n' = n' - 1).
  { intros N. rewrite <- Zminus_mod_idemp_l, N. symmetry. apply (Zmod_unique _ _ (-1)); lia. }
  split.
  - intros N. unfold landing. destruct (vent vec j i); [|tauto]. rewrite C, (K1 N). lia.
  - rewrite (c153_ridge_pwv x ts n w tfr rtfr vec thr H j i Hi). fold n'. rewrite C. split.
    + intros (J & L & _ & Q). destruct (Z.eq_dec (k0 mod n') 0) as [E0|E0]; [rewrite (K2 E0) in Q; lia|]. rewrite (K1 E0) in Q. split; [|split; auto].
      assert (Q' : (k0 + d) mod n' = k0 mod n') by (fold j; lia). assert (M1 := Z.div_mod (k0 + d) n' ltac:(lia)). assert (M2 := Z.div_mod k0 n' ltac:(lia)). rewrite Q' in M1. assert (Ed : d = n' * ((k0 + d) / n' - k0 / n')) by lia. set (m := (k0 + d) / n' - k0 / n') in *. clearbody m. destruct (Z.eq_dec m 0) as [M0|M0]; [rewrite M0 in Ed; lia|exfalso]. clear - Ed M0 SM Hd Hn HD. assert (1 <= m \/ m <= -1) as [Q|Q] by lia; [assert (n' * 1 <= n' * m) by (apply Z.mul_le_mono_nonneg_l; lia)|assert (n' * m <= n' * -1) by (apply Z.mul_le_mono_nonneg_l; lia)]; lia.
    + intros (-> & N & L). rewrite (K1 N). unfold j in *. rewrite Z.add_0_r in *. split; [lia|]. auto.
Qed.
(** A tone on bin k0 in the reassigned spectrogram: of the cells at most D bins away it is the one below the tone that is found. *)
Lemma c153_tone : forall x ts n w tfr rtfr vec a k0 D i thr, rspec x ts n w = Ok (Some (tfr, rtfr, vec)) ->
  let n := rs_n x n in is_tone x a (IZR k0 / IZR n) -> a <> RtoC 0 ->
  real_list (rs_w x w) -> symmetric (rs_w x w) -> 3 <= zlen (rs_w x w) -> cnth (rs_w x w) 0 = RtoC 0 ->
  0 <= i < zlen (rs_ts x ts) -> inside x (rs_w x w) n (nth (Z.to_nat i) (rs_ts x ts) 0) -> 0 <= D -> (4 * PI ^ 2 * IZR D ^ 3 < 3 * IZR n ^ 2)%R ->
  forall d, - D <= d <= D -> let j := (k0 + d) mod n in (Cmod a ^ 2 / 1000000 < rent tfr j i)%R ->
  (In j (ridge_idx Rsp thr i (nth (Z.to_nat i) tfr []) (nth (Z.to_nat i) (hat_rc vec) [])) <-> 1 <= i /\ (d + 1) mod n = 0).
Proof.
  intros x ts n w tfr rtfr vec a k0 D i thr H n' T A0 RW S H3 W0 Hi I HD BD d Hd j LT. assert (R0 := rspec_run _ _ _ _ _ _ _ H). cbv zeta in R0. destruct R0 as (Hn & _). fold n' in Hn.
  destruct (c139_collect x ts n w tfr rtfr vec a k0 D i H T A0 RW S H3 W0 Hi I HD BD) as [C _]. specialize (C d Hd LT). fold n' in C. fold j in C.
  assert (Hj : 0 <= j < n') by (apply Z.mod_pos_bound; lia). rewrite (c153_ridge_spec x ts n w tfr rtfr vec thr H j i Hi). fold n'. rewrite C. assert (M1 := Z.div_mod (k0 + d) n' ltac:(lia)). assert (M2 := Z.div_mod (k0 - 1) n' ltac:(lia)). fold j in M1. split.
  - intros (_ & _ & E). injection E as E1 E2. split; [lia|]. rewrite E1 in M2. replace (d + 1) with (((k0 + d) / n' - (k0 - 1) / n') * n') by lia. apply Z.mod_mul. lia.
  - intros (I1 & E). assert (EJ : (k0 - 1) mod n' = j). { unfold j. replace (k0 + d) with (k0 - 1 + (d + 1)) by lia. rewrite <- Zplus_mod_idemp_r, E. f_equal. lia. }
    split; [exact Hj|]. split; [|rewrite EJ; f_equal; lia]. intros V. unfold dest in C. rewrite V in C. injection C as _ C. lia.
Qed.
(** The line of an impulse is found whole, but for its row 0. *)
Lemma c153_impulse : forall x n w tfr rtfr vec k a thr, rpwv x None n w = Ok (Some (tfr, rtfr, vec)) -> only_at x k a -> a <> RtoC 0 -> 0 <= k < zlen x - 1 -> real_list (rp_w x n w) ->
  forall j, In j (ridge_idx Rpwv thr (k + 1) (nth (Z.to_nat (k + 1)) tfr []) (nth (Z.to_nat (k + 1)) (hat_z vec) [])) <-> 1 <= j < rp_n x n /\ (thr < Cmod a ^ 2)%R.
Proof.
  intros x n w tfr rtfr vec k a thr H HX A0 Hk RW j. assert (ZT : zlen (rp_ts x None) = zlen x) by (unfold rp_ts; cbn [dflt]; rewrite arange_zlen; lia).
  rewrite (c153_ridge_pwv x None n w tfr rtfr vec thr H j (k + 1)) by lia.
  assert (D : forall j, 0 <= j < rp_n x n -> rent tfr j (k + 1) = (Cmod a ^ 2)%R /\ vent vec j (k + 1) <> None).
  { intros j' Hj. destruct (c151_default x n w tfr rtfr vec k a H HX ltac:(lia) RW j' (k + 1) Hj ltac:(lia)) as (E & _ & M). rewrite Z.eqb_refl in E. split; [exact E|]. now apply (M A0). }
  split.
  - intros (J & L & _). destruct (D j ltac:(lia)) as [E _]. rewrite E in L. auto.
  - intros (J & L). destruct (D j ltac:(lia)) as [E V]. rewrite E. repeat split; try lia; try assumption.
    rewrite (c151_rows x None n w tfr rtfr vec k a H HX ltac:(lia) RW j (k + 1) ltac:(lia) ltac:(lia) V). apply Z.mod_small. lia.
Qed.
Example c153_example : exists tfr rtfr vec, rpwv [RtoC 0; RtoC 2; RtoC 0; RtoC 0] None (Some 8) (Some [RtoC 1; RtoC 1; RtoC 1]) = Ok (Some (tfr, rtfr, vec)) /\
  forall j, In j (ridge_idx Rpwv 3 2 (nth 2%nat tfr []) (nth 2%nat (hat_z vec) [])) <-> 1 <= j < 8.
Proof.
  destruct c151_example as (tfr & rtfr & vec & H & _). exists tfr, rtfr, vec. split; [exact H|]. intros j.
  set (x := [RtoC 0; RtoC 2; RtoC 0; RtoC 0]) in *. set (w := [RtoC 1; RtoC 1; RtoC 1]) in *.
  assert (HX : only_at x 1 (RtoC 2)). { intros t Ht. change (zlen x) with 4 in Ht. assert (t = 0 \/ t = 1 \/ t = 2 \/ t = 3) as [-> | [-> | [-> | ->]]] by lia; reflexivity. }
  assert (RW : real_list (rp_w x (Some 8) (Some w))). { intros t Ht. change (zlen (rp_w x (Some 8) (Some w))) with 3 in Ht. assert (t = 0 \/ t = 1 \/ t = 2) as [-> | [-> | ->]] by lia; reflexivity. }
  assert (I := c153_impulse x (Some 8) (Some w) tfr rtfr vec 1 (RtoC 2) 3 H HX ltac:(intros Q; apply RtoC_inj in Q; lra) ltac:(change (zlen x) with 4; lia) RW j).
  change (Z.to_nat (1 + 1)) with 2%nat in I. change (1 + 1) with 2 in I. rewrite I. change (rp_n x (Some 8)) with 8. rewrite Cmod_R, Rabs_right by lra. split; [tauto|]. intros J. split; [exact J|lra].
Qed.
