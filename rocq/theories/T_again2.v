(** C15, the spectrogram: a second [run] of the same object. *)
From Coq Require Import Reals ZArith List Lia Lra Bool.
From Coquelicot Require Import Coquelicot.
From Verif Require Import Py Scalars CSum DFT Spec M_base M_stft M_cohen M_state M_heap M_utils.
From Verif Require Import P_base P_stft P_wvd P_pwvd T_utils P_spec T_state T_mh T_plot T_heap T_heap2.
Import ListNotations.
Local Open Scope Z_scope.

(** Every [run] that returns leaves in the array it worked on the table of which the matrix it
    returns is the transform. *)
Lemma c121_table : forall k s s' b, reachable k s -> s_rows s = None -> run_step k s = Some (s', Ok b) -> cell s' b = finish k (cell s' (s_at s)).
Proof.
  intros k s s' b RE NR H. destruct (reachable_wf _ _ RE) as [W1 W2]. unfold run_step in H. destruct (precheck k s); [discriminate|]. destruct (loop (passes k s) (view s)) as [cols [|e|]]; try discriminate.
  assert (X := H). injection X as _ Eb. assert (Y : s' = fresh s (match k with KWvd => wvd_freqs (s_n s) | _ => s_freqs s end) (finish_real k) (write s cols) (finish k cols)) by congruence. subst s' b. unfold fresh, cell. cbn [s_mem]. rewrite nth_last. f_equal.
  unfold write. rewrite NR. rewrite app_nth1 by (rewrite upd_length; exact W1). now rewrite upd_nth.
Qed.
Lemma spec_two_runs x l n w : 1 <= n -> (forall v, In v w -> v <> RtoC 0) ->
  let F ti := map (fun z => RtoC (Cmod z ^ 2)) (fft (scatter n (spec_taus (zlen x) w n ti) (spec_val x w n ti))) in
  let G ti := puts (F ti) (map (fun t => ((n + t) mod n, RtoC (Re (spec_val x w n ti t)))) (spec_taus (zlen x) w n ti)) in
  exists s1 s2, run_step KSpec (create x (Some (TsI l)) (Some n) (Some w)) = Some (s1, Ok 1%nat) /\ run_step KSpec s1 = Some (s2, Ok 2%nat) /\
  cell s1 1 = map F l /\ cell s2 2 = map (fun ti => map (fun z => RtoC (Cmod z ^ 2)) (fft (G ti))) l.
Proof.
  intros Hn Hw F G. set (F0 := fun ti => scatter n (spec_taus (zlen x) w n ti) (spec_val x w n ti)).
  assert (LF : forall ti, zlen (F ti) = n) by (intros c; unfold F; rewrite zlen_map, fft_zlen; apply scatter_zlen; lia).
  assert (Z2 : zeros2 (T:=C) n (zlen l) = map (fun _ => zeros n) l). { unfold zeros2, zlen. rewrite Nat2Z.id. clear. induction l as [|u l IH]; cbn; [reflexivity|]. now rewrite IH. }
  assert (R1 : run_step KSpec (create x (Some (TsI l)) (Some n) (Some w)) = Some (mkst x (TsI l) n w (base_freqs n) 1 None true [map F0 l; map F l], Ok 1%nat)).
  { unfold run_step. cbn [precheck]. unfold passes, view, cell, create. cbn [s_sig s_ts s_n s_win s_freqs s_real s_rows s_mem s_at base_init r_sig r_ts r_n r_win r_freqs r_tfr nth ts_len per_ts]. rewrite Z2.
    rewrite (loop_all _ _ F0). 2:{ intros ti _. unfold spec_pass. rewrite spec_col_ok by (try (apply zeros_zlen); lia). unfold F0, scatter. destruct (spec_taus (zlen x) w n ti) as [|t0 tl] eqn:E; [reflexivity|]. destruct (Req_EM_T (spec_nrm x w n ti) 0) as [Q|_]; [|reflexivity]. exfalso. apply (spec_nrm_pos x w n ti Hw); [rewrite E; discriminate|exact Q]. }
    unfold fresh, write. cbn [s_sig s_ts s_n s_win s_freqs s_real s_rows s_mem s_at upd length app finish finish_real]. rewrite map_map. reflexivity. }
  assert (R2 : run_step KSpec (mkst x (TsI l) n w (base_freqs n) 1 None true [map F0 l; map F l])
     = Some (mkst x (TsI l) n w (base_freqs n) 2 None true [map F0 l; map G l; map (fun ti => map (fun z => RtoC (Cmod z ^ 2)) (fft (G ti))) l], Ok 2%nat)).
  { unfold run_step. cbn [precheck]. unfold passes, view, cell. cbn [s_sig s_ts s_n s_win s_freqs s_real s_rows s_mem s_at nth ts_len per_ts].
    rewrite (loop_all _ _ G). 2:{ intros ti _. unfold spec_pass. rewrite spec_col_real by (auto; lia). unfold G. destruct (spec_taus (zlen x) w n ti) as [|t0 tl] eqn:E; [reflexivity|]. destruct (Req_EM_T (spec_nrm x w n ti) 0) as [Q|_]; [|reflexivity]. exfalso. apply (spec_nrm_pos x w n ti Hw); [rewrite E; discriminate|exact Q]. }
    unfold fresh, write. cbn [s_sig s_ts s_n s_win s_freqs s_real s_rows s_mem s_at upd length app finish finish_real]. rewrite map_map. reflexivity. }
  eexists. eexists. split; [exact R1|]. split; [exact R2|]. split; reflexivity.
Qed.
(** A one-sample window: the column at a timestamp goes from the constant a = |x|^2 to
    (u + (n-1) a)^2 at bin 0 and (u - a)^2 at the others, where u is the real part of the sample
    in the phase of the window. *)
Lemma c15_spectrogram_second_run : forall x l n v, 2 <= n -> v <> RtoC 0 ->
  exists s1 a s2 b, run_step KSpec (create x (Some (TsI l)) (Some n) (Some [v])) = Some (s1, Ok a) /\ run_step KSpec s1 = Some (s2, Ok b) /\
  forall i ti, 0 <= i -> nth_error l (Z.to_nat i) = Some ti -> 1 <= ti <= zlen x ->
  let e := (Cmod (cnth x (ti - 1)) ^ 2)%R in
  let u := Re (cnth x (ti - 1) * Cconj v / RtoC (Cmod v))%C in
  forall f, 0 <= f < n -> at2 (seen KSpec s1 a) f i = RtoC e /\
  at2 (seen KSpec s2 b) f i = RtoC ((if f =? 0 then u + IZR (n - 1) * e else u - e) ^ 2)%R.
Proof.
  intros x l n v Hn Hv. destruct (spec_two_runs x l n [v]) as (s1 & s2 & R1 & R2 & C1 & C2); [lia|intros w [<-|[]]; exact Hv|].
  exists s1, 1%nat, s2, 2%nat. split; [exact R1|]. split; [exact R2|]. intros i ti Hi Ei Ht e u f Hf. cbn [seen]. rewrite C1, C2.
  assert (RH := round_half_bounds n). assert (TA : spec_taus (zlen x) [v] n ti = [0]).
  { unfold spec_taus. replace (spec_m [v] n) with 0 by (unfold spec_m; change (win_lh [v]) with 0; lia). replace (- Z.min 0 (ti - 1)) with 0 by lia. replace (Z.min 0 (zlen x - ti)) with 0 by lia. reflexivity. }
  set (z := (cnth x (ti - 1) * Cconj v / RtoC (Cmod v))%C) in *.
  assert (MV : Cmod v <> 0%R) by (intros E; apply Hv; now apply Cmod_eq_0).
  assert (SV : spec_val x [v] n ti 0 = z). { unfold spec_val, spec_nrm, norm2. rewrite TA. change (win_lh [v]) with 0. cbn [map]. rewrite rsum_cons, rsum_nil. change (cnth [v] (0 + 0)) with v. rewrite Rplus_0_r, sqrt_pow2 by apply Cmod_ge_0. replace (ti + 0 - 1) with (ti - 1) by lia. reflexivity. }
  assert (MZ : (Cmod z ^ 2 = e)%R). { unfold z, e. rewrite Cmod_div by (intros E; apply MV; now apply RtoC_inj). rewrite Cmod_mult, Cmod_conj, Cmod_R, Rabs_right by (apply Rle_ge, Cmod_ge_0). field. exact MV. }
  set (F := map (fun z : C => RtoC (Cmod z ^ 2)) (fft (scatter n [0] (spec_val x [v] n ti)))).
  assert (LF : zlen F = n) by (unfold F; rewrite zlen_map, fft_zlen; apply scatter_zlen; lia).
  assert (EF : forall f, 0 <= f < n -> cnth F f = RtoC e).
  { intros g Hg. unfold F, cnth. rewrite (nth_indep _ (RtoC 0) ((fun z : C => RtoC (Cmod z ^ 2)) (RtoC 0))) by (rewrite map_length, fft_length; assert (L := scatter_zlen n [0] (spec_val x [v] n ti) ltac:(lia)); unfold zlen in L; lia). rewrite (map_nth (fun z : C => RtoC (Cmod z ^ 2))). fold (cnth (fft (scatter n [0] (spec_val x [v] n ti))) g).
    rewrite scatter_fft by first [lia|cbn; constructor; [intros []|constructor]]. unfold esum. rewrite csum_cons, csum_nil, SV, Z.mul_0_r. change (- 0) with 0. rewrite root_0. replace (z * RtoC 1 + RtoC 0)%C with z by ring. now rewrite MZ. }
  rewrite (at2_map_list _ l _ i ti Ei). rewrite (at2_map_list _ l _ i ti Ei). rewrite TA. fold F. split; [now apply EF|].
  cbn [map puts]. rewrite SV. replace ((n + 0) mod n) with 0 by (rewrite Z.add_0_r; symmetry; apply Z.mod_same; lia).
  set (G := upd F (Z.to_nat 0) (RtoC (Re z))).
  assert (LG : zlen G = n) by (unfold G; now rewrite upd_zlen).
  assert (EG : forall k, 0 <= k < n -> cnth G k = ((if k =? 0 then RtoC (Re z - e) else RtoC 0) + RtoC e)%C).
  { intros k Hk. unfold G, cnth. destruct (Z.eqb_spec k 0) as [->|NE].
    - rewrite upd_nth by (unfold zlen in LF; lia). rewrite <- RtoC_plus. f_equal. ring.
    - rewrite upd_other by lia. fold (cnth F k). rewrite EF by exact Hk. ring. }
  assert (EFT : forall g, 0 <= g < n -> cnth (fft G) g = RtoC (if g =? 0 then u + IZR (n - 1) * e else u - e)%R).
  { intros g Hg. rewrite fft_nth by lia. rewrite LG.
    rewrite (csum_ext _ _ (fun k => (if k =? 0 then RtoC (Re z - e) else RtoC 0) * root n (- (g * k)) + RtoC e * root n (- (g * k)))%C) by (intros k Hk; apply in_arange in Hk; rewrite EG by lia; ring).
    rewrite csum_plus, csum_scal_l. rewrite (csum_ext (arange 0 n) (fun k => root n (- (g * k))) (fun k => root n (- (k * g)))) by (intros; do 2 f_equal; ring). rewrite root_orth_neg by lia. rewrite Z.mod_small by lia.
    rewrite arange_cons by lia. rewrite csum_cons. rewrite csum_0 by (intros k Hk; apply in_arange in Hk; destruct (Z.eqb_spec k 0); [lia|ring]). rewrite Z.eqb_refl, Z.mul_0_r. change (- 0) with 0. rewrite root_0. fold u. destruct (g =? 0); [rewrite minus_IZR|]; apply injective_projections; cbn; ring. }
  unfold cnth. rewrite (nth_indep _ (RtoC 0) ((fun z : C => RtoC (Cmod z ^ 2)) (RtoC 0))) by (rewrite map_length, fft_length; unfold zlen in LG; lia). rewrite (map_nth (fun z : C => RtoC (Cmod z ^ 2))). fold (cnth (fft G) f). rewrite EFT by exact Hf. rewrite Cmod_R. now rewrite pow2_abs.
Qed.
(** The two columns agree only in the coincidence a = 4/n^2, u = - 2 (n-2)/n^2. *)
Lemma c15_spectrogram_refuted : forall x l n v, 2 <= n -> v <> RtoC 0 ->
  exists s1 a s2 b, run_step KSpec (create x (Some (TsI l)) (Some n) (Some [v])) = Some (s1, Ok a) /\ run_step KSpec s1 = Some (s2, Ok b) /\
  forall i ti, 0 <= i -> nth_error l (Z.to_nat i) = Some ti -> 1 <= ti <= zlen x -> cnth x (ti - 1) <> RtoC 0 ->
  ((forall f, 0 <= f < n -> at2 (seen KSpec s2 b) f i = at2 (seen KSpec s1 a) f i) <->
   (Cmod (cnth x (ti - 1)) ^ 2 = 4 / IZR n ^ 2 /\ Re (cnth x (ti - 1) * Cconj v / RtoC (Cmod v))%C = - (2 * IZR (n - 2) / IZR n ^ 2))%R).
Proof.
  intros x l n v Hn Hv. destruct (c15_spectrogram_second_run x l n v Hn Hv) as (s1 & a & s2 & b & R1 & R2 & V). exists s1, a, s2, b. split; [exact R1|]. split; [exact R2|]. intros i ti Hi Ei Ht NZ. specialize (V i ti Hi Ei Ht). cbv zeta in V.
  set (e := (Cmod (cnth x (ti - 1)) ^ 2)%R) in *. set (u := Re (cnth x (ti - 1) * Cconj v / RtoC (Cmod v))%C) in *.
  assert (EP : (0 < e)%R) by (apply pow_lt, Cmod_gt_0, NZ). assert (NP : (2 <= IZR n)%R) by (apply (IZR_le 2); lia).
  rewrite minus_IZR. rewrite minus_IZR in V. split.
  - intros A. assert (A0 := A 0 ltac:(lia)). assert (A1 := A 1 ltac:(lia)). destruct (V 0 ltac:(lia)) as [V1 V2]. destruct (V 1 ltac:(lia)) as [V3 V4]. rewrite V1, V2 in A0. rewrite V3, V4 in A1. apply RtoC_inj in A0. apply RtoC_inj in A1. cbn [Z.eqb] in A0, A1.
    assert (U : (2 * u = - (IZR n - 2) * e)%R). { assert (P : ((IZR n * e) * (2 * u + (IZR n - 2) * e) = 0)%R) by (transitivity ((u + (IZR n - 1) * e) ^ 2 - (u - e) ^ 2)%R; [ring|lra]). apply Rmult_integral in P. destruct P as [P|P]; [|lra]. exfalso. apply Rmult_integral in P. lra. }
    assert (E : (e = 4 / IZR n ^ 2)%R). { assert (D : (u - e = - (IZR n / 2) * e)%R) by (replace u with (- (IZR n - 2) / 2 * e)%R by lra; field). rewrite D in A1. assert (P : (e * (IZR n ^ 2 * e - 4) = 0)%R) by (transitivity (4 * ((- (IZR n / 2) * e) ^ 2 - e))%R; [field|lra]). apply Rmult_integral in P. destruct P as [P|P]; [lra|]. apply (Rmult_eq_reg_l (IZR n ^ 2)); [|apply pow_nonzero; lra]. field_simplify; lra. }
    split; [exact E|]. apply (Rmult_eq_reg_l 2); [|lra]. rewrite U, E. field. lra.
  - intros [E U] f Hf. destruct (V f Hf) as [V1 V2]. rewrite V1, V2. f_equal. rewrite U, E. destruct (f =? 0); field; lra.
Qed.
