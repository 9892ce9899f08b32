(** C68, C82, C83: normalisation of the affine class and the scalogram. *)
From Coq Require Import Reals ZArith List Lia Lra Bool.
From Coquelicot Require Import Coquelicot.
From Flocq Require Import Core.
From Verif Require Import Py Scalars CSum DFT Spec M_base M_utils M_putils M_gen1 M_gen2 M_gen3 M_aff P_base T_utils T_putils T_dom T_gen1 T_gen2 T_hil T_key T_noise T_misc T_misc2 T_aff.
Import ListNotations.
Local Open Scope Z_scope.

(** *** C68 *)
Lemma integrate_needs_two rows n x y v : 0 < zlen rows -> integrate_2d rows n (Some x) (Some y) = Ok v -> 2 <= zlen x.
Proof.
  intros Hr H. destruct (Z_le_gt_dec 2 (zlen x)); [auto|]. exfalso. unfold integrate_2d in H.
  destruct (mapM (fun r => get r 0) rows); [|discriminate]. cbn [bind] in H. destruct (mapM (fun r => get r (n - 1)) rows); [|discriminate]. cbn [bind] in H.
  rewrite (get_raise x 1) in H by lia. discriminate.
Qed.
Lemma ent_map g rows i k n : (forall r, In r rows -> zlen r = n) -> 0 <= i < zlen rows -> 0 <= k < n -> ent (map (map g) rows) i k = g (ent rows i k).
Proof.
  intros Hr Hi Hk. unfold ent. assert (I : In (nth (Z.to_nat i) rows []) rows) by (apply nth_In; unfold zlen in Hi; lia).
  rewrite (nth_indep _ _ (map g [])) by (rewrite map_length; unfold zlen in Hi; lia). rewrite map_nth. unfold rnth. specialize (Hr _ I). unfold zlen in Hr.
  rewrite (nth_indep _ _ (g 0%R)) by (rewrite map_length; lia). apply map_nth.
Qed.
Lemma scaled_integral c rows n x y i : 1 <= n -> 1 <= zlen rows -> (forall r, In r rows -> zlen r = n) -> zlen y = zlen rows ->
  integrate_2d rows n (Some x) (Some y) = Ok i -> integrate_2d (map (map (fun v => v * c)%R) rows) n (Some x) (Some y) = Ok (i * c)%R.
Proof.
  intros Hn Hm Hr Hy H. assert (Hx : 2 <= zlen x) by (apply (integrate_needs_two rows n x y i); [lia|exact H]).
  replace (i * c)%R with (c * i + 0 * i)%R by ring. apply (c47_linear c 0 rows rows); rewrite ?zlen_map; auto.
  - intros r Hi. rewrite !in_app_iff in Hi. destruct Hi as [Hi|[Hi|Hi]]; auto. apply in_map_iff in Hi. destruct Hi as (r' & <- & Hi). rewrite zlen_map. auto.
  - intros a k Ha Hk. rewrite (ent_map (fun v => v * c)%R rows a k n) by auto. ring.
Qed.
Lemma normal_integral mult rows ts f nv tfr : 1 <= zlen ts -> 1 <= zlen rows -> (forall r, In r rows -> zlen r = zlen ts) -> zlen f = zlen rows ->
  aff_normal mult rows ts f nv = Ok (Some tfr) -> IZR nv <> 0%R ->
  (forall r, In r tfr -> zlen r = zlen ts) /\ zlen tfr = zlen rows /\ integrate_2d tfr (zlen ts) (Some (map IZR ts)) (Some f) = Ok (mult / IZR nv)%R.
Proof.
  intros Ht Hm Hr Hf H Hv. unfold aff_normal in H. destruct (integrate_2d rows (zlen ts) (Some (map IZR ts)) (Some f)) as [i|] eqn:E; [|discriminate]. cbn [bind] in H.
  destruct (Req_EM_T i 0) as [|Ni]; [discriminate|]. injection H as <-.
  assert (EQ : map (map (fun v => (v * mult / i / IZR nv)%R)) rows = map (map (fun v => (v * (mult / i / IZR nv))%R)) rows) by (apply map_ext; intros; apply map_ext; intros; field; auto).
  rewrite EQ. split; [|split].
  - intros r Hi. apply in_map_iff in Hi. destruct Hi as (r' & <- & Hi). rewrite zlen_map. auto.
  - apply zlen_map.
  - rewrite (scaled_integral _ rows (zlen ts) _ _ i) by auto. f_equal. field. auto.
Qed.
(** The energy of the analytic signal of s in the bins a .. b. *)
Definition band_energy (s : list R) (a b : Z) : R := rsum (arange a (b + 1)) (fun k => (hfac (zlen s) k * Cmod (cnth (fft (map RtoC s)) k)) ^ 2)%R.
Lemma pyslice_map {B} (l : list C) a b (g : C -> B) : 0 <= a -> a <= b -> b <= zlen l -> map g (pyslice l a b) = map (fun k => g (cnth l k)) (arange a b).
Proof.
  intros Ha Hab Hb. unfold pyslice, pyclip. destruct (Z.ltb_spec a 0); [lia|]. destruct (Z.ltb_spec b 0); [lia|]. rewrite !Z.min_l by lia. unfold slice.
  rewrite (list_as_map l) at 1. replace (Z.to_nat a) with (Z.to_nat (a - 0)) by lia. rewrite skipn_map_arange by lia. rewrite firstn_map_arange by lia. now rewrite map_map.
Qed.
Lemma fft_band (s : list R) z a b : hilbert s = Ok z -> 0 <= a <= b + 1 -> b < zlen s ->
  rsum (pyslice (fft z) a (b + 1)) (fun v => Cmod v ^ 2)%R = band_energy s a b.
Proof.
  intros H Ha Hb. destruct (hil_spectrum s z H) as [L S]. transitivity (rsum (map (fun v => v) (pyslice (fft z) a (b + 1))) (fun v => Cmod v ^ 2)%R); [now rewrite map_id|].
  rewrite pyslice_map by (rewrite ?fft_zlen; lia). rewrite rsum_map. unfold band_energy. apply rsum_ext. intros k Hk. apply in_arange in Hk. rewrite S by lia. rewrite Cmod_mult, Cmod_R, Rabs_pos_eq; [reflexivity|].
  unfold hfac. destruct (k =? 0); [lra|]. destruct (2 * k =? zlen s); [lra|]. destruct (2 * k <? zlen s); lra.
Qed.
Lemma c68_band : forall x nts fmin fmax, 0 < zlen x ->
  let a := ZnearestE (fmin * IZR (nts - 2)) in let b := ZnearestE (fmax * IZR (nts - 2)) in
  0 <= a <= b + 1 -> b < zlen x -> aff_mult x nts fmin fmax = Ok (band_energy (map Re x) a b).
Proof.
  intros x nts fmin fmax Hx a b Ha Hb. unfold aff_mult. destruct (hil_ok (map Re x)) as [z Hz]; [destruct x; [unfold zlen in Hx; cbn in Hx; lia|discriminate]|]. rewrite Hz. cbn [bind]. f_equal. fold a b.
  replace (1 + a - 1) with a by lia. replace (1 + b) with (b + 1) by lia. apply fft_band; auto. now rewrite zlen_map.
Qed.
Lemma mapM_rows {A} (f : A -> res (list R)) l rows n : mapM f l = Ok rows -> (forall a r, f a = Ok r -> zlen r = n) -> zlen rows = zlen l /\ forall r, In r rows -> zlen r = n.
Proof.
  intros H Hf. destruct (mapM_ok_inv _ _ _ H) as [L P]. split; [unfold zlen; lia|]. intros r Hr. apply In_nth_error in Hr. destruct Hr as [k Hk].
  destruct (nth_error l k) as [a|] eqn:E; [|apply nth_error_None in E; assert (k < length rows)%nat by (apply nth_error_Some; congruence); lia].
  destruct (P k a E) as (b & Hb & Fb). rewrite Hk in Hb. injection Hb as <-. eauto.
Qed.
Lemma c68_affine : forall spl form o tfr t f, (forall x y xi, zlen (spl x y xi) = zlen xi) -> 0 < zlen (a_sig o) ->
  aff_run spl form o = Ok (Some tfr, t, f) ->
  let nts := zlen (a_ts o) in
  t = a_ts o /\ f = geo_grid (a_fmin o) (a_fmax o) (a_nv o) /\ zlen tfr = a_nv o /\ zlen f = a_nv o /\ (forall r, In r tfr -> zlen r = nts) /\
  exists E, aff_mult (a_sig o) nts (a_fmin o) (a_fmax o) = Ok E /\
    integrate_2d tfr nts (Some (map IZR t)) (Some f) = Ok (E / IZR (a_nv o))%R.
Proof.
  intros spl form o tfr t f HS HX H nts. unfold aff_run in H. cbv zeta in H. set (nv := a_nv o) in *. destruct (Z.eqb_spec nv 1); [discriminate|]. destruct (Z.leb_spec nv 0); [discriminate|].
  destruct (match a_kind o with Unt => negb form | _ => false end); [discriminate|]. set (geo := geo_grid (a_fmin o) (a_fmax o) nv) in *.
  assert (LG : zlen geo = nv) by (unfold geo, geo_grid; rewrite zlen_map_arange; lia).
  match type of H with context [aff_interp ?a ?b ?c ?d ?e ?g ?h ?i] => destruct (aff_interp a b c d e g h i) as [rows|] eqn:EI; [|discriminate] end. cbn [bind] in H.
  destruct (aff_mult (a_sig o) (zlen (a_ts o)) (a_fmin o) (a_fmax o)) as [E|] eqn:EM; [|discriminate]. cbn [bind] in H.
  destruct (aff_normal E rows (a_ts o) geo nv) as [r|] eqn:EN; [|discriminate]. cbn [bind] in H. injection H as -> <- <-.
  unfold aff_interp in EI. rewrite (get_ok 0%R) in EI by lia. cbn [bind] in EI. eapply mapM_rows in EI.
  2:{ intros i r0. match goal with |- context [if ?b then Raise TypeError else _] => destruct b; [discriminate|] end. intros Q. injection Q as <-. rewrite HS. apply zlen_map. }
  destruct EI as [LR RR]. rewrite arange_zlen in LR by lia. replace (nv - 0) with nv in LR by lia.
  assert (NT : 1 <= zlen (a_ts o)). { unfold aff_normal in EN. destruct (integrate_2d rows (zlen (a_ts o)) (Some (map IZR (a_ts o))) (Some geo)) eqn:Q; [|discriminate]. apply integrate_needs_two in Q; [|lia]. rewrite zlen_map in Q. lia. }
  destruct (normal_integral E rows (a_ts o) geo nv tfr) as (A & B & D); auto; try lia. { apply IZR_neq. lia. }
  split; [reflexivity|]. split; [reflexivity|]. split; [lia|]. split; [exact LG|]. split; [exact A|]. exists E. split; [exact EM|exact D].
Qed.
(** All samples used, band below 1/2: bins from round(fmin (N-2)) to
    round(fmax (N-2)), positive frequencies. *)
Lemma c68_inband : forall x fmin fmax, 2 <= zlen x -> (0 < fmin < fmax)%R -> (fmax <= 1 / 2)%R ->
  let N := zlen x in let a := ZnearestE (fmin * IZR (N - 2)) in let b := ZnearestE (fmax * IZR (N - 2)) in
  0 <= a <= b /\ 2 * b < N /\
  aff_mult x N fmin fmax = Ok (rsum (arange a (b + 1)) (fun k => ((if (k =? 0)%Z then 1 else 2) * Cmod (cnth (fft (map RtoC (map Re x))) k)) ^ 2)%R).
Proof.
  intros x fmin fmax HN Hf Hm N a b. assert (NP : (0 <= IZR (N - 2))%R) by (apply IZR_le; lia).
  assert (A0 : 0 <= a). { unfold a. rewrite <- (Zrnd_IZR ZnearestE 0). apply (Zrnd_le ZnearestE). nra. }
  assert (AB : a <= b). { apply (Zrnd_le ZnearestE). nra. }
  assert (B2 : 2 * b < N). { assert (Q : b <= half_round (N - 2)). { unfold b, half_round. apply (Zrnd_le ZnearestE). nra. } destruct (half_round_spec (N - 2)) as [W|[W _]]; lia. }
  split; [lia|]. split; [lia|]. rewrite c68_band by lia. f_equal. unfold band_energy. apply rsum_ext. intros k Hk. apply in_arange in Hk. fold a b in Hk. rewrite zlen_map. fold N. unfold hfac.
  destruct (Z.eqb_spec k 0); [reflexivity|]. destruct (Z.eqb_spec (2 * k) N); [lia|]. destruct (Z.ltb_spec (2 * k) N); [reflexivity|lia].
Qed.

(** *** C83: what the scalogram computes *)
(** Correlation of z with the wavelet h cut to |t| <= K. *)
Definition cwt (z : list C) (K : Z) (h : Z -> C) (t : Z) : C :=
  csum (arange 0 (zlen z)) (fun s => cnth z s * (if (Z.abs (t - s) <=? K)%Z then h (t - s)%Z else RtoC 0))%C.
Lemma conv_at (z : list C) g K t : 0 <= K -> 0 <= K + t < zlen z + 2 * K ->
  cnth (convolve z (map g (arange (- K) (K + 1)))) (K + t) = cwt z K g t.
Proof.
  intros HK Ht. unfold convolve. assert (LH : zlen (map g (arange (- K) (K + 1))) = 2 * K + 1) by (rewrite zlen_map_arange; lia). rewrite LH.
  rewrite cnth_map_arange by lia. rewrite Z.add_0_l. unfold cwt. apply csum_ext. intros s Hs. apply in_arange in Hs. f_equal.
  destruct (Z.leb_spec (Z.abs (t - s)) K).
  - destruct (Z.leb_spec 0 (K + t - s)); [|lia]. destruct (Z.ltb_spec (K + t - s) (2 * K + 1)); [|lia]. cbn [andb]. rewrite cnth_map_arange by lia. f_equal. lia.
  - destruct (Z.leb_spec 0 (K + t - s)), (Z.ltb_spec (K + t - s) (2 * K + 1)); cbn [andb]; reflexivity || lia.
Qed.
Lemma conv_zlen (z h : list C) : 1 <= zlen z + zlen h -> zlen (convolve z h) = zlen z + zlen h - 1.
Proof. intros. unfold convolve. rewrite zlen_map_arange; lia. Qed.
Lemma sq_mod v : Re (v * Cconj v)%C = (Cmod v ^ 2)%R.
Proof. rewrite Cmod2_conj || idtac. unfold Cmod. rewrite pow2_sqrt by (apply Rplus_le_le_0_compat; apply pow2_ge_0). destruct v as [a b]. cbn. ring. Qed.
Definition morlet_at (nha f : R) (t : Z) : C := (RtoC (exp (- (2 * ln 10 / nha ^ 2) * IZR t ^ 2)) * cis (2 * PI * f * IZR t))%C.
Definition mexhat_at (f : R) (t : Z) : C := RtoC (f * sqrt PI / 2 * exp (- (PI ^ 2 * f ^ 2) * IZR t ^ 2) * (1 - 2 * (PI ^ 2 * f ^ 2) * IZR t ^ 2))%R.
Lemma cnth_map_div (l : list C) a k : 0 <= k < zlen l -> cnth (map (fun v => v / a)%C l) k = (cnth l k / a)%C.
Proof.
  intros H. unfold cnth. rewrite (nth_indep _ _ ((RtoC 0 / a)%C)) by (rewrite map_length; unfold zlen in H; lia). exact (map_nth (fun v => (v / a)%C) l (RtoC 0) (Z.to_nat k)).
Qed.
Lemma take_map_arange (l : list C) a b : 0 <= a -> b <= zlen l -> take l (arange a b) = Ok (map (cnth l) (arange a b)).
Proof. intros. apply (take_ok (RtoC 0)). intros i Hi. apply in_arange in Hi. lia. Qed.
Lemma sq_over (c : C) a : (0 < a)%R -> (Cmod (c / RtoC (sqrt a))%C ^ 2 = Cmod c ^ 2 / a)%R.
Proof.
  intros H. assert (S := sqrt_lt_R0 a H). rewrite Cmod_div by (intros Q; apply RtoC_inj in Q; lra). rewrite Cmod_R, Rabs_pos_eq by lra. unfold Rdiv. rewrite Rpow_mult_distr, pow_inv, pow2_sqrt by lra. reflexivity.
Qed.
Lemma morlet_row_ok (z : list C) wp f a : let K := ZnearestE (wp * a) in 1 <= K -> 1 <= zlen z -> (0 < a)%R ->
  morlet_row z (arange 0 (zlen z)) wp f a =
  Ok (map (fun t => cwt z K (morlet_at (wp * a) f) (t - K)%Z / RtoC (sqrt a))%C (arange 0 (zlen z)),
      map (fun t => Cmod (cwt z K (morlet_at (wp * a) f) t) ^ 2 / a)%R (arange 0 (zlen z))).
Proof.
  intros K HK Hz Ha. unfold morlet_row. cbv zeta. fold K. unfold morlet. fold K.
  change (fun t : Z => (RtoC (exp (- (2 * ln 10 / (wp * a) ^ 2) * IZR t ^ 2)) * cis (2 * PI * f * IZR t))%C) with (morlet_at (wp * a) f).
  set (cv := convolve z _). assert (LC : zlen cv = zlen z + 2 * K) by (unfold cv; rewrite conv_zlen; rewrite zlen_map_arange; lia).
  set (d := map _ cv). assert (LD : zlen d = zlen z + 2 * K) by (unfold d; now rewrite zlen_map).
  assert (VD : forall t, 0 <= K + t < zlen z + 2 * K -> cnth d (K + t) = (cwt z K (morlet_at (wp * a) f) t / RtoC (sqrt a))%C).
  { intros t Ht. unfold d. rewrite cnth_map_div by lia. unfold cv. now rewrite conv_at by lia. }
  rewrite take_map_arange by lia. cbn [bind]. rewrite take_map_arange by lia. cbn [bind].
  set (e := map (cnth d) (arange K (zlen d - K + 1))). assert (LE : zlen e = zlen z + 1) by (unfold e; rewrite zlen_map_arange; lia).
  rewrite take_map_arange by lia. cbn [bind]. f_equal. f_equal.
  - apply map_ext_in. intros t Ht. apply in_arange in Ht. replace t with (K + (t - K)) at 1 by lia. apply VD. lia.
  - unfold sq_row. rewrite map_map. apply map_ext_in. intros t Ht. apply in_arange in Ht. rewrite sq_mod. unfold e. rewrite cnth_map_arange by lia. rewrite VD by lia. now apply sq_over.
Qed.
Lemma morlet_row_raise (z : list C) wp f a : ZnearestE (wp * a) = 0 -> 1 <= zlen z -> morlet_row z (arange 0 (zlen z)) wp f a = Raise IndexError.
Proof.
  intros HK Hz. unfold morlet_row. cbv zeta. unfold morlet. rewrite HK. set (cv := convolve z _). assert (LC : zlen cv = zlen z) by (unfold cv; rewrite conv_zlen; rewrite zlen_map_arange; lia).
  set (d := map _ cv). assert (LD : zlen d = zlen z) by (unfold d; now rewrite zlen_map). rewrite take_map_arange by lia. cbn [bind].
  assert (TR : take d (arange 0 (zlen d - 0 + 1)) = Raise IndexError); [|now rewrite TR]. apply mapM_raise; [intros; apply get_cases|]. exists (zlen d). split; [apply in_arange; lia|]. apply get_raise. lia.
Qed.
Lemma mexhat_row_ok (z : list C) f a : (0 < f <= 1 / 2)%R -> (0 < a)%R -> 1 <= zlen z -> let K := Zceil (3 / 2 / f) in
  3 <= K /\ mexhat_row z (arange 0 (zlen z)) f a =
  Ok (map (fun t => cwt z K (mexhat_at f) (t + 1)%Z / RtoC (sqrt a))%C (arange 0 (zlen z)),
      map (fun t => Cmod (cwt z K (mexhat_at f) (t + 1)%Z) ^ 2 / a)%R (arange 0 (zlen z))).
Proof.
  intros Hf Ha Hz K. assert (HK : 3 <= K). { assert (3 <= 3 / 2 / f)%R by (apply (Rmult_le_reg_r f); [lra|]; unfold Rdiv; rewrite (Rmult_assoc (3 * / 2)), Rinv_l by lra; lra). apply le_IZR. unfold K. apply Rle_trans with (2 := Zceil_ub _). lra. }
  split; [exact HK|]. unfold mexhat_row, mexhat. destruct (Rlt_dec (1 / 2) f); [lra|]. destruct (Rlt_dec f 0); [lra|]. destruct (Req_EM_T f 0); [lra|]. cbv zeta. cbn [bind]. fold K. rewrite map_map.
  change (fun t : Z => RtoC (f * sqrt PI / 2 * exp (- (PI ^ 2 * f ^ 2) * IZR t ^ 2) * (1 - 2 * (PI ^ 2 * f ^ 2) * IZR t ^ 2))) with (mexhat_at f).
  assert (LH : forall A (g : Z -> A), zlen (map g (arange (- K) (K + 1))) = 2 * K + 1) by (intros; rewrite zlen_map_arange; lia). rewrite LH. replace ((2 * K + 1 - 1) / 2) with K by (Z.to_euclidean_division_equations; lia).
  set (cv := convolve z _). assert (LC : zlen cv = zlen z + 2 * K) by (unfold cv; rewrite conv_zlen; rewrite LH; lia).
  set (d := map _ cv). assert (LD : zlen d = zlen z + 2 * K) by (unfold d; now rewrite zlen_map).
  rewrite take_map_arange by lia. cbn [bind]. set (e := map (cnth d) (arange (K + 1) (zlen d - K + 1))). assert (LE : zlen e = zlen z) by (unfold e; rewrite zlen_map_arange; lia).
  assert (VE : forall t, 0 <= t < zlen z -> cnth e t = (cwt z K (mexhat_at f) (t + 1)%Z / RtoC (sqrt a))%C).
  { intros t Ht. unfold e. rewrite cnth_map_arange by lia. replace (K + 1 + t) with (K + (t + 1)) by lia. unfold d. rewrite cnth_map_div by lia. unfold cv. now rewrite conv_at by lia. }
  rewrite take_map_arange by lia. cbn [bind]. f_equal. f_equal.
  - apply map_ext_in. intros t Ht. apply in_arange in Ht. apply VE. lia.
  - unfold sq_row. rewrite map_map. apply map_ext_in. intros t Ht. apply in_arange in Ht. rewrite sq_mod, VE by lia. now apply sq_over.
Qed.
(** The scales: a_i = (fmax/fmin)^(1 - i/(N-1)), at least 1. *)
Definition scal_a (fmin fmax : R) (nv i : Z) : R := Rpower (fmax / fmin) (1 - IZR i / IZR (nv - 1)).
Definition scal_f (fmin fmax : R) (nv i : Z) : R := (fmin * Rpower (fmax / fmin) (IZR i / IZR (nv - 1)))%R.
Lemma scal_a_at fmin fmax nv i : (0 < fmin < fmax)%R -> 2 <= nv -> 0 <= i < nv ->
  rnth (logspace (log10 (fmax / fmin)) (log10 1) nv) i = scal_a fmin fmax nv i /\ (1 <= scal_a fmin fmax nv i)%R.
Proof.
  intros Hf Hn Hi. assert (R1 := ratio_gt1 _ _ Hf). assert (NP : (0 < IZR (nv - 1))%R) by (apply IZR_lt; lia). split.
  - rewrite logspace_at by lia. unfold scal_a, Rpower. f_equal. rewrite ln_1. field. lra.
  - unfold scal_a. rewrite <- (Rpower_O (fmax / fmin)) at 1 by lra. apply Rle_Rpower; [lra|].
    assert (IZR i <= IZR (nv - 1))%R by (apply IZR_le; lia). assert (IZR i / IZR (nv - 1) <= 1)%R by (apply (Rmult_le_reg_r (IZR (nv - 1))); [lra|]; unfold Rdiv; rewrite Rmult_assoc, Rinv_l by lra; lra). lra.
Qed.
Lemma scal_f_at fmin fmax nv i : (0 < fmin < fmax)%R -> 2 <= nv -> 0 <= i < nv -> rnth (logspace (log10 fmin) (log10 fmax) nv) i = scal_f fmin fmax nv i.
Proof. intros Hf Hn Hi. destruct (c69_scalogram fmin fmax nv Hf Hn) as (-> & _). now apply geo_at. Qed.
Lemma near_ge_1 v : (1 / 2 < v)%R -> 1 <= ZnearestE v.
Proof. intros H. assert (Q := Znearest_half (fun x => negb (Z.even x)) v). apply Rabs_le_inv in Q. assert (0 < IZR (ZnearestE v))%R by lra. apply lt_IZR in H0. lia. Qed.
Lemma near_0 v : (0 < v <= 1 / 2)%R -> ZnearestE v = 0.
Proof.
  intros H. assert (A : 0 <= ZnearestE v) by (rewrite <- (Zrnd_IZR ZnearestE 0); apply (Zrnd_le ZnearestE); lra).
  assert (B : ZnearestE v <= ZnearestE (1 / 2)) by (apply (Zrnd_le ZnearestE); lra). assert (E : ZnearestE (1 / 2) = 0).
  { replace (1 / 2)%R with (IZR 1 / 2)%R by lra. change (half_round 1 = 0). assert (W := half_round_range 1 ltac:(lia)). lia. } lia.
Qed.
(** One voice of either wavelet, before normalisation: the analysed instant is
    t for the Morlet wavelet and t + 1 for the Mexican hat. *)
Definition voice (z : list C) (fmin fmax wp : R) (N i t : Z) : R :=
  let a := scal_a fmin fmax N i in let f := scal_f fmin fmax N i in
  (if Rlt_dec 0 wp then Cmod (cwt z (ZnearestE (wp * a)) (morlet_at (wp * a) f) t) ^ 2 / a
   else Cmod (cwt z (Zceil (3 / 2 / f)) (mexhat_at f) (t + 1)) ^ 2 / a)%R.
Definition voice_wt (z : list C) (fmin fmax wp : R) (N i t : Z) : C :=
  let a := scal_a fmin fmax N i in let f := scal_f fmin fmax N i in
  (if Rlt_dec 0 wp then cwt z (ZnearestE (wp * a)) (morlet_at (wp * a) f) (t - ZnearestE (wp * a))%Z / RtoC (sqrt a)
   else cwt z (Zceil (3 / 2 / f)) (mexhat_at f) (t + 1)%Z / RtoC (sqrt a))%C.
Lemma scal_rows_ok (z : list C) wp fmin fmax nv : (0 < fmin < fmax)%R -> 2 <= nv <= zlen z -> (1 / 2 < wp)%R \/ (wp = 0%R /\ (fmax <= 1 / 2)%R) ->
  let N := zlen z in
  scal_rows z (arange 0 N) wp fmin fmax nv N =
  Ok (map (fun i => map (voice_wt z fmin fmax wp nv i) (arange 0 N)) (arange 0 nv),
      map (fun i => map (voice z fmin fmax wp nv i) (arange 0 N)) (arange 0 nv) ++ repeat (repeat 0%R (Z.to_nat N)) (Z.to_nat (N - nv))).
Proof.
  intros Hf Hn Hw N. unfold scal_rows. cbv zeta. destruct (Rlt_dec wp 0) as [|_]; [lra|].
  rewrite (mapM_ok _ (fun i => (map (voice_wt z fmin fmax wp nv i) (arange 0 N), map (voice z fmin fmax wp nv i) (arange 0 N)))).
  - cbn [bind]. rewrite !map_map. rewrite arange_zlen by lia. now replace (Z.max 0 (N - 0)) with N by (unfold N; lia).
  - intros i Hi. apply in_arange in Hi. destruct (scal_a_at fmin fmax nv i Hf) as [EA A1]; [lia|lia|]. rewrite EA. rewrite scal_f_at by (auto; lia). set (a := scal_a fmin fmax nv i) in *. set (f := scal_f fmin fmax nv i) in *.
    destruct (Z.ltb_spec i N); [|lia]. unfold voice, voice_wt. fold a f. destruct (Rlt_dec 0 wp) as [W|W].
    + unfold N. rewrite morlet_row_ok; [reflexivity| |lia|lra]. apply near_ge_1. destruct Hw as [Hw|Hw]; [nra|lra].
    + destruct Hw as [Hw|[Hw Hm]]; [lra|]. assert (F : (0 < f <= 1 / 2)%R).
      { split; [unfold f, scal_f; apply Rmult_lt_0_compat; [lra|apply exp_pos]|]. apply Rle_trans with (2 := Hm). assert (P : (a * f = fmax)%R). { destruct (c69_scalogram fmin fmax nv Hf ltac:(lia)) as (_ & _ & Q). specialize (Q i ltac:(lia)). rewrite EA in Q. rewrite scal_f_at in Q by (auto; lia). exact Q. }
        assert (0 < f)%R by (unfold f, scal_f; apply Rmult_lt_0_compat; [lra|apply exp_pos]). nra. }
      unfold N. destruct (mexhat_row_ok z f a F ltac:(lra) ltac:(lia)) as [_ E]. rewrite E. reflexivity.
Qed.
(** Mean removal touches bin 0 only. *)
Lemma centred_bin (s : list R) m k : 0 < k < zlen s -> cnth (fft (map RtoC (map (fun v => v - m)%R s))) k = cnth (fft (map RtoC s)) k.
Proof.
  intros Hk. rewrite !fft_nth by (rewrite !zlen_map; lia). rewrite !zlen_map.
  rewrite (csum_ext _ _ (fun j => cnth (map RtoC s) j * root (zlen s) (- (k * j)) - RtoC m * root (zlen s) (- (j * k)))%C).
  - rewrite csum_minus, csum_scal_l, root_orth_neg by lia. rewrite Z.mod_small by lia. destruct (Z.eqb_spec k 0); [lia|]. ring.
  - intros j Hj. apply in_arange in Hj. assert (Q : cnth (map RtoC (map (fun v => v - m)%R s)) j = (cnth (map RtoC s) j - RtoC m)%C).
    { rewrite map_map. unfold cnth. rewrite (nth_indep _ _ (RtoC (0 - m))) by (rewrite map_length; unfold zlen in Hj; lia). rewrite (map_nth (fun x => RtoC (x - m)) s 0%R). rewrite map_nth. now rewrite RtoC_minus. }
    rewrite Q, (Z.mul_comm j k). ring.
Qed.
Lemma scal_energy (x z : list C) a b : scal_z x = Ok z -> 1 <= a <= b + 1 -> b < zlen x ->
  rsum (pyslice (fft z) a (b + 1)) (fun v => Cmod v ^ 2)%R = band_energy (map Re x) a b.
Proof.
  intros Hz Ha Hb. unfold scal_z in Hz. rewrite (fft_band _ _ a b Hz) by (rewrite ?zlen_map; lia). unfold band_energy. rewrite !zlen_map. apply rsum_ext. intros k Hk. apply in_arange in Hk.
  rewrite (centred_bin (map Re x)) by (rewrite zlen_map; lia). reflexivity.
Qed.
Lemma c83_scalogram : forall x ts fmin fmax wp, 2 <= zlen x -> (0 < fmin < fmax)%R -> (1 / 2 < wp)%R \/ (wp = 0%R /\ (fmax <= 1 / 2)%R) ->
  let N := zlen x in
  exists z, hilbert (map (fun v => Re v - rsum x Re / IZR N)%R x) = Ok z /\
  exists tfr, scalogram x ts (Some fmin) (Some fmax) None (Some (Wnum wp)) =
      Ok (tfr, arange 0 N, geo_grid fmin fmax N, map (fun i => map (voice_wt z fmin fmax wp N i) (arange 0 N)) (arange 0 N)) /\
  exists J, integrate_2d (map (fun i => map (voice z fmin fmax wp N i) (arange 0 N)) (arange 0 N)) N (Some (map IZR (arange 0 N))) (Some (geo_grid fmin fmax N)) = Ok J /\
    (J = 0%R -> tfr = None) /\
    (J <> 0%R -> exists m, tfr = Some m /\ zlen m = N /\ (forall r, In r m -> zlen r = N) /\
       exists c, (forall i t, 0 <= i < N -> 0 <= t < N -> ent m i t = (c * voice z fmin fmax wp N i t)%R) /\
         integrate_2d m N (Some (map IZR (arange 0 N))) (Some (geo_grid fmin fmax N)) = Ok (scal_mult z N fmin fmax / IZR N)%R).
Proof.
  intros x ts fmin fmax wp HN Hf Hw N. unfold scalogram. cbv zeta. fold N. cbn [affine_band bind].
  destruct (hil_ok (map (fun v => v - rsum (map Re x) (fun v => v) / IZR (zlen (map Re x)))%R (map Re x))) as [z Hz]. { destruct x; [unfold N, zlen in HN; cbn in HN; lia|discriminate]. }
  exists z. split. { rewrite <- Hz. rewrite map_map, rsum_map, zlen_map. reflexivity. }
  unfold scal_z. rewrite Hz. cbn [bind]. destruct (Z.ltb_spec N 0) as [?|_]; [lia|]. assert (LZ : zlen z = N) by (rewrite (hil_zlen _ _ Hz), !zlen_map; reflexivity).
  assert (SR := scal_rows_ok z wp fmin fmax N Hf ltac:(lia) Hw). cbv zeta in SR. rewrite LZ in SR. rewrite SR. clear SR. cbn [bind]. rewrite Z.sub_diag. cbn [Z.to_nat repeat]. rewrite app_nil_r.
  set (rows := map (fun i => map (voice z fmin fmax wp N i) (arange 0 N)) (arange 0 N)). destruct (c69_scalogram fmin fmax N Hf HN) as (-> & _). set (geo := geo_grid fmin fmax N).
  assert (LR : zlen rows = N) by (unfold rows; rewrite zlen_map_arange; lia). assert (RR : forall r, In r rows -> zlen r = N) by (intros r Hr; unfold rows in Hr; apply in_map_iff in Hr; destruct Hr as (i & <- & _); rewrite zlen_map_arange; lia).
  assert (LG : zlen geo = N) by (unfold geo, geo_grid; rewrite zlen_map_arange; lia).
  assert (LT : zlen (map IZR (arange 0 N)) = N) by (rewrite zlen_map_arange; lia).
  destruct (integrate_2d rows N (Some (map IZR (arange 0 N))) (Some geo)) as [J|] eqn:EJ; [|rewrite integrate_formula in EJ by (auto; lia); discriminate].
  cbn [bind]. eexists. split; [reflexivity|]. exists J. split; [reflexivity|]. assert (NZ : IZR N <> 0%R) by (apply IZR_neq; lia). split; intros HJ.
  - destruct (Req_EM_T J 0); [reflexivity|contradiction].
  - destruct (Req_EM_T J 0); [contradiction|]. set (M := scal_mult z N fmin fmax). eexists. split; [reflexivity|].
    assert (EQ : map (map (fun v => (v * (M / J) / IZR N)%R)) rows = map (map (fun v => (v * (M / J / IZR N))%R)) rows) by (apply map_ext; intros; apply map_ext; intros; field; auto).
    rewrite EQ. split; [now rewrite zlen_map|]. split. { intros r Hi. apply in_map_iff in Hi. destruct Hi as (r' & <- & Hi). rewrite zlen_map. auto. }
    exists (M / J / IZR N)%R. split.
    + intros i t Hi Ht. rewrite (ent_map (fun v => (v * (M / J / IZR N))%R) rows i t N) by (auto; lia). rewrite Rmult_comm. f_equal. unfold ent, rows. rewrite nth_map_arange by lia. rewrite rnth_map_arange by lia. reflexivity.
    + rewrite (scaled_integral _ rows N _ _ J) by (auto; lia). f_equal. field. auto.
Qed.
Lemma c68_scalogram : forall x z fmin fmax, 2 <= zlen x -> (0 < fmin < fmax)%R -> (fmax <= 1 / 2)%R -> scal_z x = Ok z ->
  let N := zlen x in let a := ZnearestE (fmin * IZR (N - 2)) in let b := ZnearestE (fmax * IZR (N - 2)) in
  0 <= a <= b /\ 2 * (b + 1) <= N + 1 /\ scal_mult z N fmin fmax = band_energy (map Re x) (a + 1) (b + 1).
Proof.
  intros x z fmin fmax HN Hf Hm Hz N a b. destruct (c68_inband x fmin fmax HN Hf Hm) as (A & B & _). fold N a b in A, B. split; [exact A|].
  split; [lia|]. unfold scal_mult. fold N. fold a b. rewrite <- (scal_energy x z (a + 1) (b + 1) Hz) by lia.
  replace (1 + a) with (a + 1) by lia. now replace (1 + b + 1) with (b + 1 + 1) by lia.
Qed.

(** *** C82: the options of the scalogram *)
Lemma c82_timestamps_refuted : forall x ts fmin fmax nv wp tfr t f wt, scalogram x ts fmin fmax nv wp = Ok (tfr, t, f, wt) -> t = arange 0 (zlen x).
Proof.
  intros x ts fmin fmax nv wp tfr t f wt H. unfold scalogram in H. cbv zeta in H. destruct (affine_band _ _ _ _) as [[a b]|]; [|discriminate]. cbn [bind] in H. destruct (scal_z x) as [z|]; [|discriminate]. cbn [bind] in H. match type of H with (if ?b then _ else _) = _ => destruct b; [discriminate|] end.
  destruct (match wp with Some w => w | None => _ end); [|discriminate]. match type of H with bind ?e _ = _ => destruct e as [[w r]|]; [|discriminate] end. cbn [bind] in H.
  match type of H with bind ?e _ = _ => destruct e as [i|]; [|discriminate] end. cbn [bind] in H. injection H as _ <- _ _. reflexivity.
Qed.

(** Defaults: wavelets of half-length sqrt(N) and N voices. *)
Lemma c82_defaults : forall x ts fmin fmax nv wp,
  scalogram x ts fmin fmax nv None = scalogram x ts fmin fmax nv (Some (Wnum (sqrt (IZR (zlen x))))) /\
  scalogram x ts fmin fmax None wp = scalogram x ts fmin fmax (Some (zlen x)) wp.
Proof. intros. split; reflexivity. Qed.
Lemma c82_array_refuted : forall x ts fmin fmax nv, 0 < zlen x -> scalogram x ts (Some fmin) (Some fmax) nv (Some Warr) = Raise ValueError.
Proof.
  intros x ts fmin fmax nv Hx. unfold scalogram. cbv zeta. cbn [affine_band bind]. destruct (scal_z x) as [z|e] eqn:Hz; [cbn [bind]; match goal with |- (if ?b then _ else _) = _ => destruct b end; reflexivity|].
  exfalso. unfold scal_z in Hz. match type of Hz with hilbert ?l = _ => destruct (hil_ok l) as [z Q]; [destruct x; [unfold zlen in Hx; cbn in Hx; lia|discriminate]|congruence] end.
Qed.
Lemma scal_z_ok x : 0 < zlen x -> exists z, scal_z x = Ok z /\ zlen z = zlen x.
Proof.
  intros Hx. unfold scal_z. match goal with |- context [hilbert ?l] => destruct (hil_ok l) as [z Q]; [destruct x; [unfold zlen in Hx; cbn in Hx; lia|discriminate]|] end.
  exists z. split; [exact Q|]. now rewrite (hil_zlen _ _ Q), !zlen_map.
Qed.
(** Matrix of m rows against an axis of k < m entries. *)
Lemma integrate_short rows n x y : 1 <= n -> 2 <= zlen x -> (forall r, In r rows -> zlen r = n) -> 2 <= zlen y < zlen rows -> (zlen y = 2 -> zlen rows <> 3) ->
  integrate_2d rows n (Some x) (Some y) = Raise ValueError.
Proof.
  intros Hn Hx Hr Hy H23. unfold integrate_2d. set (m := zlen rows) in *.
  rewrite (mapM_ok _ (fun r => rnth r 0)). 2:{ intros r Hi. apply (get_ok 0%R). rewrite (Hr r Hi). lia. }
  cbn [bind]. rewrite (mapM_ok _ (fun r => rnth r (n - 1))). 2:{ intros r Hi. apply (get_ok 0%R). rewrite (Hr r Hi). lia. }
  cbn [bind]. rewrite !(get_ok 0%R) by lia. cbn [bind]. set (s := zipw _ rows _).
  assert (LS : zlen s = m). { unfold s. rewrite zipw_zlen; [reflexivity|]. unfold zlen. rewrite combine_length, !map_length. lia. }
  assert (L1 : length (tl1 s) = Z.to_nat (m - 1)) by (unfold zlen in LS; destruct s; cbn [tl1 length] in *; lia).
  assert (L2 : length (prefix s (m - 1)) = Z.to_nat (m - 1)) by (unfold prefix; rewrite firstn_length; unfold zlen in LS; lia).
  unfold bcast at 1. rewrite L1, L2, Nat.eqb_refl. cbn [bind]. set (dm := zipw Rplus _ _). assert (LD : length dm = Z.to_nat (m - 1)). { unfold dm. assert (Q : zlen (zipw Rplus (prefix s (m - 1)) (tl1 s)) = zlen (prefix s (m - 1))) by (apply zipw_zlen; unfold zlen; lia). unfold zlen in Q. lia. }
  assert (L3 : prefix y (m - 1) = y) by (unfold prefix; apply firstn_all2; unfold zlen in Hy; lia). rewrite L3.
  unfold zlen in Hy. destruct y as [|y0 [|y1 [|y2 y]]]; cbn [length] in Hy; try lia.
  - change (zlen [y0; y1] = 2 -> m <> 3) in H23. specialize (H23 eq_refl). cbn [tl1 bcast length Nat.eqb bind map]. unfold bcast. rewrite LD. cbn [length]. destruct (Nat.eqb_spec (Z.to_nat (m - 1)) 2); [lia|].
    destruct dm as [|d0 [|d1 dm]]; cbn [length] in LD; try lia. reflexivity.
  - cbn [tl1]. unfold bcast at 1. destruct (Nat.eqb_spec (length (y1 :: y2 :: y)) (length (y0 :: y1 :: y2 :: y))) as [Q|_]; [cbn [length] in Q; lia|]. reflexivity.
Qed.
Lemma c82_voices_refuted : forall x ts fmin fmax nv wp, 2 <= zlen x -> (0 < fmin < fmax)%R -> (1 / 2 < wp)%R \/ (wp = 0%R /\ (fmax <= 1 / 2)%R) ->
  let N := zlen x in 2 <= nv -> nv <> N -> (nv = 2 -> N <> 3) ->
  scalogram x ts (Some fmin) (Some fmax) (Some nv) (Some (Wnum wp)) = Raise (if nv <? N then ValueError else IndexError).
Proof.
  intros x ts fmin fmax nv wp HN Hf Hw N Hv Hne H23. unfold scalogram. cbv zeta. fold N. cbn [affine_band bind]. destruct (scal_z_ok x ltac:(lia)) as (z & Hz & LZ). rewrite Hz. cbn [bind]. destruct (Z.ltb_spec nv 0) as [?|_]; [lia|].
  destruct (Z.ltb_spec nv N) as [L|L].
  - assert (SR := scal_rows_ok z wp fmin fmax nv Hf ltac:(lia) Hw). cbv zeta in SR. rewrite LZ in SR. fold N in SR. rewrite SR. cbn [bind].
    destruct (c69_scalogram fmin fmax nv Hf Hv) as (-> & _). rewrite integrate_short; [reflexivity|lia|rewrite zlen_map_arange; lia| | |].
    + intros r Hr. apply in_app_iff in Hr. destruct Hr as [Hr|Hr]; [apply in_map_iff in Hr; destruct Hr as (i & <- & _); rewrite zlen_map_arange; lia|apply repeat_spec in Hr; subst r; unfold zlen; rewrite repeat_length; lia].
    + unfold geo_grid. rewrite zlen_map_arange by lia. unfold zlen at 1. rewrite app_length, map_length, arange_length, repeat_length. lia.
    + unfold geo_grid. rewrite zlen_map_arange by lia. intros E. unfold zlen at 1. rewrite app_length, map_length, arange_length, repeat_length. specialize (H23 ltac:(lia)). lia.
  - unfold scal_rows. cbv zeta. destruct (Rlt_dec wp 0); [lra|].
    match goal with |- context [mapM ?f ?l] => assert (MR : mapM f l = Raise IndexError) end; [|rewrite MR; reflexivity].
    assert (OK : forall i, 0 <= i < nv -> exists r, (if Rlt_dec 0 wp then morlet_row z (arange 0 N) wp (rnth (logspace (log10 fmin) (log10 fmax) nv) i) (rnth (logspace (log10 (fmax / fmin)) (log10 1) nv) i)
       else mexhat_row z (arange 0 N) (rnth (logspace (log10 fmin) (log10 fmax) nv) i) (rnth (logspace (log10 (fmax / fmin)) (log10 1) nv) i)) = Ok r).
    { intros i Hi. destruct (scal_a_at fmin fmax nv i Hf) as [EA A1]; [lia|lia|]. rewrite EA. rewrite scal_f_at by (auto; lia). set (a := scal_a fmin fmax nv i) in *. set (f := scal_f fmin fmax nv i) in *. unfold N. rewrite <- LZ.
      destruct (Rlt_dec 0 wp) as [W|W].
      + rewrite morlet_row_ok; [eexists; reflexivity| |lia|lra]. apply near_ge_1. destruct Hw as [Hw|Hw]; [nra|lra].
      + destruct Hw as [Hw|[Hw Hm]]; [lra|]. assert (F : (0 < f <= 1 / 2)%R).
        { split; [unfold f, scal_f; apply Rmult_lt_0_compat; [lra|apply exp_pos]|]. apply Rle_trans with (2 := Hm). assert (P : (a * f = fmax)%R). { destruct (c69_scalogram fmin fmax nv Hf ltac:(lia)) as (_ & _ & Q). specialize (Q i ltac:(lia)). rewrite EA in Q. rewrite scal_f_at in Q by (auto; lia). exact Q. }
          assert (0 < f)%R by (unfold f, scal_f; apply Rmult_lt_0_compat; [lra|apply exp_pos]). nra. }
        destruct (mexhat_row_ok z f a F ltac:(lra) ltac:(lia)) as [_ E]. rewrite E. eexists; reflexivity. }
    apply mapM_raise.
    + intros i Hi. apply in_arange in Hi. destruct (OK i Hi) as [r ->]. cbn [bind]. destruct (i <? N); eauto.
    + exists N. split; [apply in_arange; lia|]. destruct (OK N ltac:(lia)) as [r ->]. cbn [bind]. now rewrite Z.ltb_irrefl.
Qed.
(** A wavelet half-length of at most 1/2. *)
Lemma c82_short_wavelet : forall x ts fmin fmax wp, 2 <= zlen x -> (0 < fmin < fmax)%R -> (0 < wp <= 1 / 2)%R ->
  scalogram x ts (Some fmin) (Some fmax) None (Some (Wnum wp)) = Raise IndexError.
Proof.
  intros x ts fmin fmax wp HN Hf Hw. unfold scalogram. cbv zeta. cbn [affine_band bind]. set (N := zlen x) in *. destruct (scal_z_ok x ltac:(unfold N in *; lia)) as (z & Hz & LZ). rewrite Hz. cbn [bind]. destruct (Z.ltb_spec N 0) as [?|_]; [lia|]. fold N in LZ.
  unfold scal_rows. cbv zeta. destruct (Rlt_dec wp 0); [lra|]. destruct (Rlt_dec 0 wp); [|lra].
  match goal with |- context [mapM ?f ?l] => assert (MR : mapM f l = Raise IndexError) end; [|rewrite MR; reflexivity]. apply mapM_raise.
  - intros i Hi. apply in_arange in Hi. destruct (scal_a_at fmin fmax N i Hf) as [EA A1]; [lia|lia|]. rewrite EA. rewrite scal_f_at by (auto; lia). replace (arange 0 N) with (arange 0 (zlen z)) by now rewrite LZ.
    destruct (Z_le_gt_dec 1 (ZnearestE (wp * scal_a fmin fmax N i))) as [K|K].
    + rewrite morlet_row_ok by (try lia; lra). cbn [bind]. destruct (i <? N); eauto.
    + right. rewrite morlet_row_raise; [reflexivity| |lia]. assert (0 <= ZnearestE (wp * scal_a fmin fmax N i)); [|lia]. rewrite <- (Zrnd_IZR ZnearestE 0). apply (Zrnd_le ZnearestE). nra.
  - exists (N - 1). split; [apply in_arange; lia|]. destruct (scal_a_at fmin fmax N (N - 1) Hf) as [EA A1]; [lia|lia|]. rewrite EA. replace (arange 0 N) with (arange 0 (zlen z)) by now rewrite LZ. rewrite morlet_row_raise; [reflexivity| |lia].
    assert (A : scal_a fmin fmax N (N - 1) = 1%R). { unfold scal_a. replace (1 - IZR (N - 1) / IZR (N - 1))%R with 0%R by (field; apply IZR_neq; lia). apply Rpower_O. assert (Q := ratio_gt1 _ _ Hf). lra. }
    rewrite A, Rmult_1_r. now apply near_0.
Qed.
(** A negative wavelet length leaves every row zero: the normalisation divides zero by zero. *)
Lemma c82_negative : forall x ts fmin fmax wp, 2 <= zlen x -> (0 < fmin < fmax)%R -> (wp < 0)%R ->
  let N := zlen x in
  scalogram x ts (Some fmin) (Some fmax) None (Some (Wnum wp)) = Ok (None, arange 0 N, geo_grid fmin fmax N, repeat (zeros N) (Z.to_nat N)).
Proof.
  intros x ts fmin fmax wp HN Hf Hw N. unfold scalogram. cbv zeta. fold N. cbn [affine_band bind]. destruct (scal_z_ok x ltac:(lia)) as (z & Hz & LZ). rewrite Hz. cbn [bind]. destruct (Z.ltb_spec N 0) as [?|_]; [lia|].
  unfold scal_rows. cbv zeta. destruct (Rlt_dec wp 0) as [rw|]; [|contradiction]. cbn [bind]. assert (LA : zlen (arange 0 N) = N) by (rewrite arange_zlen; unfold N; lia). rewrite LA.
  destruct (c69_scalogram fmin fmax N Hf HN) as (-> & _). rewrite integrate_formula.
  2:lia. 2:unfold zlen at 1; rewrite repeat_length; lia. 2:{ intros r Hr. apply repeat_spec in Hr. subst r. unfold zlen. rewrite repeat_length. lia. }
  2:rewrite zlen_map; lia. 2:{ unfold geo_grid. rewrite zlen_map_arange by lia. unfold zlen. rewrite repeat_length. lia. }
  cbn [bind]. match goal with |- context [trapz ?a ?b ?c] => assert (E : trapz a b c = 0%R) end; [|rewrite E; destruct (Req_EM_T 0 0); [reflexivity|easy]].
  assert (Z0 : forall i k, ent (repeat (repeat 0%R (Z.to_nat N)) (Z.to_nat N)) i k = 0%R).
  { intros i k. unfold ent. destruct (nth_in_or_default (Z.to_nat i) (repeat (repeat 0%R (Z.to_nat N)) (Z.to_nat N)) []) as [Hi|Hi].
    - apply repeat_spec in Hi. rewrite Hi. unfold rnth. destruct (nth_in_or_default (Z.to_nat k) (repeat 0%R (Z.to_nat N)) 0%R) as [Hk|Hk]; [now apply repeat_spec in Hk|exact Hk].
    - rewrite Hi. unfold rnth. now destruct (Z.to_nat k). }
  unfold trapz. apply rsum_0. intros i _. assert (S0 : forall j, rsum (arange 0 N) (ent (repeat (repeat 0%R (Z.to_nat N)) (Z.to_nat N)) j) = 0%R) by (intros j; apply rsum_0; intros; apply Z0). rewrite !S0, !Z0. lra.
Qed.
Example c82_example : scalogram (repeat (RtoC 1) 256) None (Some (1 / 20)%R) (Some (4 / 10)%R) (Some 128) (Some (Wnum 7%R)) = Raise ValueError.
Proof. rewrite c82_voices_refuted; [reflexivity|unfold zlen; rewrite repeat_length; cbn; lia|lra|left; lra|lia|unfold zlen; rewrite repeat_length; cbn; lia|lia]. Qed.

(** Examples for C68 and C83. *)
Lemma root_4 k : root 4 k = cis (PI * (IZR k / 2)).
Proof. unfold root. f_equal. field. Qed.
Lemma cis_pi2 : cis (PI * (1 / 2)) = Ci /\ cis (PI * (2 / 2)) = RtoC (-1) /\ cis (PI * (3 / 2)) = (- Ci)%C.
Proof.
  unfold cis. replace (PI * (1 / 2))%R with (PI / 2)%R by field. replace (PI * (2 / 2))%R with PI by field. replace (PI * (3 / 2))%R with (PI / 2 + PI)%R by field.
  rewrite neg_cos, neg_sin, cos_PI2, sin_PI2, cos_PI, sin_PI. unfold Ci, Copp, RtoC. cbn. repeat split; f_equal; lra.
Qed.
Example c68_example : aff_mult [RtoC 1; RtoC 0; RtoC (-1); RtoC 0] 4 (1 / 5) (2 / 5) = Ok 16%R.
Proof.
  destruct (c68_inband [RtoC 1; RtoC 0; RtoC (-1); RtoC 0] (1 / 5) (2 / 5) ltac:(unfold zlen; cbn; lia) ltac:(lra) ltac:(lra)) as (_ & _ & E). cbv zeta in E.
  change (zlen [RtoC 1; RtoC 0; RtoC (-1); RtoC 0]) with 4 in E. change (4 - 2) with 2 in E. rewrite E. clear E.
  rewrite (Znearest_imp _ (1 / 5 * 2) 0) by (rewrite Rabs_pos_eq; lra). rewrite (Znearest_imp _ (2 / 5 * 2) 1) by (rewrite Rabs_left; lra).
  change (map RtoC (map Re [RtoC 1; RtoC 0; RtoC (-1); RtoC 0])) with [RtoC 1; RtoC 0; RtoC (-1); RtoC 0].
  change (arange 0 (1 + 1)) with [0; 1]. unfold rsum. cbn [map fold_right Z.eqb]. rewrite !fft_nth by (unfold zlen; cbn; lia).
  change (zlen [RtoC 1; RtoC 0; RtoC (-1); RtoC 0]) with 4. change (arange 0 4) with [0; 1; 2; 3]. unfold csum. cbn [fold_right].
  unfold cnth. change (Z.to_nat 0) with 0%nat. change (Z.to_nat 1) with 1%nat. change (Z.to_nat 2) with 2%nat. change (Z.to_nat 3) with 3%nat. cbn [nth].
  change (- (0 * 0)) with 0. change (- (0 * 2)) with 0. change (- (1 * 0)) with 0. change (- (1 * 2)) with (- (2)). rewrite (root_opp 4 2), (root_half 2 ltac:(lia) : root 4 2 = _). rewrite root_0.
  f_equal. match goal with |- ((1 * Cmod ?a) ^ 2 + ((2 * Cmod ?b) ^ 2 + 0) = 16)%R => replace a with (RtoC 0); [replace b with (RtoC 2)|] end.
  - rewrite Cmod_0, Cmod_R, Rabs_pos_eq by lra. lra.
  - unfold RtoC, Cplus, Cmult, Cconj; cbn; f_equal; ring.
  - unfold RtoC, Cplus, Cmult; cbn; f_equal; ring.
Qed.
Example c83_example : exists m f wt, scalogram [RtoC 1; RtoC (-1)] None (Some (1 / 8)%R) (Some (1 / 4)%R) None (Some (Wnum 1%R)) = Ok (Some m, [0; 1], f, wt) /\
  integrate_2d m 2 (Some [0%R; 1%R]) (Some f) = Ok 2%R.
Proof.
  set (x := [RtoC 1; RtoC (-1)]). assert (Hf : (0 < 1 / 8 < 1 / 4)%R) by lra.
  destruct (c83_scalogram x None (1 / 8) (1 / 4) 1 ltac:(unfold x, zlen; cbn; lia) Hf ltac:(left; lra)) as (z & Hz & tfr & E & J & HJ & _ & B). change (zlen x) with 2 in *.
  assert (Z1 : map (fun v => Re v - rsum x Re / IZR 2)%R x = [1%R; (-1)%R]) by (unfold x, rsum; cbn; f_equal; [field|f_equal; field]). rewrite Z1 in Hz.
  assert (Hx : hilbert [1%R; (-1)%R] = Ok x).
  { unfold hilbert. change (zlen [1%R; (-1)%R]) with 2. cbn [Z.eqb]. f_equal. change (map RtoC [1%R; (-1)%R]) with x. transitivity (ifft (fft x)); [|apply ifft_fft]. f_equal.
    rewrite (list_as_map (fft x)), fft_zlen. change (arange 0 (zlen x)) with [0; 1]. change (arange 0 2) with [0; 1]. unfold zipw. cbn [map combine fst snd]. unfold hfac. cbn. f_equal; [|f_equal]; apply Cmult_1_r. }
  assert (z = x) by congruence. subst z.
  assert (MU : scal_mult x 2 (1 / 8) (1 / 4) = 4%R).
  { destruct (c68_scalogram x x (1 / 8) (1 / 4) ltac:(unfold x, zlen; cbn; lia) Hf ltac:(lra)) as (_ & _ & W). { unfold scal_z. rewrite <- Hx. f_equal. unfold x, rsum. cbn. f_equal; [field|f_equal; field]. }
    cbv zeta in W. change (zlen x) with 2 in W. change (2 - 2) with 0 in W. rewrite !Rmult_0_r in W. rewrite (Zrnd_IZR ZnearestE 0) in W. rewrite W. unfold band_energy. change (arange (0 + 1) (0 + 1 + 1)) with [1]. change (map RtoC (map Re x)) with x. change (zlen (map Re x)) with 2.
    unfold rsum. cbn [fold_right]. rewrite fft_nth by (unfold x, zlen; cbn; lia). change (zlen x) with 2. change (arange 0 2) with [0; 1]. unfold csum. cbn [fold_right]. unfold x, cnth. change (Z.to_nat 0) with 0%nat. change (Z.to_nat 1) with 1%nat. cbn [nth].
    change (- (1 * 0)) with 0. change (- (1 * 1)) with (- (1)). rewrite (root_opp 2 1), (root_half 1 ltac:(lia) : root 2 1 = _). rewrite root_0. change (hfac 2 1) with 1%R.
    match goal with |- ((1 * Cmod ?a) ^ 2 + 0 = 4)%R => replace a with (RtoC 2) end; [rewrite Cmod_R, Rabs_pos_eq by lra; lra|unfold RtoC, Cplus, Cmult, Cconj; cbn; f_equal; ring]. }
  rewrite MU in B.
  assert (A1 : forall i, 0 <= i < 2 -> (1 <= scal_a (1 / 8) (1 / 4) 2 i)%R) by (intros i Hi; apply (scal_a_at (1 / 8) (1 / 4) 2 i Hf); lia).
  assert (V0 : forall i t, 0 <= i < 2 -> (0 <= voice x (1 / 8) (1 / 4) 1 2 i t)%R).
  { intros i t Hi. specialize (A1 i Hi). unfold voice. cbv zeta. destruct (Rlt_dec 0 1); (apply Rmult_le_pos; [apply pow2_ge_0|left; apply Rinv_0_lt_compat; lra]). }
  assert (V1 : (0 < voice x (1 / 8) (1 / 4) 1 2 1 0)%R).
  { unfold voice. cbv zeta. destruct (Rlt_dec 0 1); [|lra]. assert (A : scal_a (1 / 8) (1 / 4) 2 1 = 1%R) by (unfold scal_a; replace (1 - 1 / IZR (2 - 1))%R with 0%R by (cbn; field); apply Rpower_O; lra). rewrite A. rewrite Rmult_1_r, Rdiv_1. rewrite (Zrnd_IZR ZnearestE 1).
    apply pow_lt. apply Cmod_gt_0. unfold cwt. change (zlen x) with 2. change (arange 0 2) with [0; 1]. unfold csum. cbn [fold_right]. unfold x, cnth. change (Z.to_nat 0) with 0%nat. change (Z.to_nat 1) with 1%nat. cbn [nth].
    change (Z.abs (0 - 0) <=? 1) with true. change (Z.abs (0 - 1) <=? 1) with true. cbv iota. change (0 - 0) with 0. change (0 - 1) with (-1). intros Z0.
    assert (M0 : morlet_at 1 (scal_f (1 / 8) (1 / 4) 2 1) 0 = RtoC 1) by (unfold morlet_at; rewrite pow_i, !Rmult_0_r, exp_0, cis_0 by lia; apply Cmult_1_l). rewrite M0 in Z0.
    assert (W : forall w : C, (RtoC 1 * RtoC 1 + (RtoC (-1) * w + RtoC 0))%C = RtoC 0 -> w = RtoC 1) by (intros [a b] Q; injection Q as Q1 Q2; unfold RtoC; f_equal; cbn in Q1, Q2; lra).
    assert (ME := W _ Z0).
    apply (f_equal Cmod) in ME. unfold morlet_at in ME. rewrite Cmod_mult, Cmod_cis, !Cmod_R, Rmult_1_r, (Rabs_pos_eq 1), Rabs_pos_eq in ME by (try lra; left; apply exp_pos). apply exp_eq_1 in ME.
    assert (0 < ln 10)%R by (rewrite <- ln_1; apply ln_increasing; lra). replace (- (2 * ln 10 / 1 ^ 2) * (-1) ^ 2)%R with (- (2 * ln 10))%R in ME by field. lra. }
  assert (JP : J <> 0%R).
  { rewrite integrate_formula in HJ.
    2:lia. 2:(rewrite zlen_map_arange; lia). 2:{ intros r Hr. apply in_map_iff in Hr. destruct Hr as (i & <- & _). rewrite zlen_map_arange; lia. } 2:(rewrite zlen_map_arange; lia). 2:(unfold geo_grid; rewrite !zlen_map_arange; lia).
    assert (IJ : forall a b : R, Ok a = Ok b -> a = b) by congruence. apply IJ in HJ. rewrite <- HJ. clear IJ HJ. rewrite zlen_map_arange by lia. unfold trapz. change (arange 0 (2 - 0 - 1)) with [0]. unfold rsum at 1. cbn [fold_right]. change (0 + 1) with 1.
    assert (G0 := geo_at (1 / 8) (1 / 4) 2 0 Hf ltac:(lia) ltac:(lia)). assert (G1 := geo_at (1 / 8) (1 / 4) 2 1 Hf ltac:(lia) ltac:(lia)). rewrite G0, G1. clear G0 G1.
    change (2 - 1) with 1. replace (0 / 1)%R with 0%R by lra. replace (1 / 1)%R with 1%R by lra. rewrite Rpower_O, Rpower_1 by lra.
    change (arange 0 2) with [0; 1]. unfold rsum, ent. cbn [fold_right map]. change (Z.to_nat 0) with 0%nat. change (Z.to_nat 1) with 1%nat. cbn [nth]. unfold rnth. change (Z.to_nat 0) with 0%nat. change (Z.to_nat 1) with 1%nat. cbn [nth].
    assert (P1 := V0 0 0 ltac:(lia)). assert (P2 := V0 0 1 ltac:(lia)). assert (P3 := V0 1 1 ltac:(lia)). nra. }
  destruct (B JP) as (m & -> & _ & _ & _ & _ & I). exists m, (geo_grid (1 / 8) (1 / 4) 2). eexists. split; [exact E|]. change [0%R; 1%R] with (map IZR (arange 0 2)). rewrite I. f_equal. lra.
Qed.
