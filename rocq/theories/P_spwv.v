(** Lemmas about smoothed_pseudo_wigner_ville. *)
From Coq Require Import Reals ZArith List Lia Lra Bool Permutation.
From Coquelicot Require Import Coquelicot.
From Verif Require Import Py Scalars CSum DFT Spec M_base M_stft M_cohen P_base P_stft P_wvd P_spec P_mh.
Import ListNotations.
Local Open Scope Z_scope.

Definition sp_pts (N lg ti tau : Z) : list Z :=
  arange (- Z.min lg (N - ti - tau)) (Z.min lg (ti - 1 - tau) + 1).
Definition sp_g (tw : list C) (p : Z) : C := cnth tw (win_lh tw + p).
Definition sp_mass (x tw : list C) (ti tau : Z) : C := csum (sp_pts (zlen x) (win_lh tw) ti tau) (sp_g tw).
(** NaN: points exist and their weights sum to zero. *)
Definition sp_nan (x tw : list C) (ti tau : Z) : bool :=
  match sp_pts (zlen x) (win_lh tw) ti tau with
  | [] => false
  | _ => if Ceq_dec (sp_mass x tw ti tau) (RtoC 0) then true else false
  end.
Definition sp_R (x tw : list C) (ti tau sg : Z) : C :=
  csum (sp_pts (zlen x) (win_lh tw) ti tau)
    (fun p => sp_g tw p / sp_mass x tw ti tau * cnth x (ti + sg * tau - p - 1)%Z
              * Cconj (cnth x (ti - sg * tau - p - 1)%Z))%C.

Lemma zipw_cons2 {A B D} (f : A -> B -> D) a l b l' : zipw f (a :: l) (b :: l') = f a b :: zipw f l l'.
Proof. reflexivity. Qed.

Lemma cplus3_map {A} (l : list A) (f g h : A -> C) :
  cplus3 (map f l) (map g l) (map h l) = Ok (csum l (fun p => f p * g p * Cconj (h p))%C).
Proof.
  unfold cplus3. rewrite bcast_map. cbn [bind]. rewrite map_map, bcast_map. cbn [bind].
  now rewrite csum_map.
Qed.

Lemma sp_pts_ok (x tw : list C) ti tau p : 0 <= tau -> In p (sp_pts (zlen x) (win_lh tw) ti tau) ->
  0 <= win_lh tw + p < zlen tw /\ 0 <= ti + tau - p - 1 < zlen x /\ 0 <= ti - tau - p - 1 < zlen x /\
  - win_lh tw <= p <= win_lh tw.
Proof.
  intros Ht H. unfold sp_pts in H. apply in_arange in H. assert (B := win_lh_bounds tw). lia.
Qed.

Lemma normalise_map (x tw : list C) ti tau :
  normalise (map (sp_g tw) (sp_pts (zlen x) (win_lh tw) ti tau)) =
  if sp_nan x tw ti tau then None
  else Some (map (fun p => sp_g tw p / sp_mass x tw ti tau)%C (sp_pts (zlen x) (win_lh tw) ti tau)).
Proof.
  unfold normalise, sp_nan.
  destruct (sp_pts (zlen x) (win_lh tw) ti tau) as [|p l] eqn:E; [reflexivity|].
  assert (Es : csum (map (sp_g tw) (p :: l)) (fun z => z) = sp_mass x tw ti tau).
  { rewrite csum_map. unfold sp_mass. now rewrite E. }
  cbn [map] in *. rewrite Es.
  destruct (Ceq_dec _ _); [reflexivity|]. rewrite map_map. reflexivity.
Qed.

Definition sp_step (x tw fw : list C) (n ti tau : Z) (c : list C) : list C :=
  upd (upd c (Z.to_nat (1 + tau)) (winf fw (1 + tau) * sp_R x tw ti tau 1)%C)
      (Z.to_nat (n - tau - 1)) (winf fw (1 - tau) * sp_R x tw ti tau (-1))%C.

Lemma sp_step_zlen x tw fw n ti tau c : zlen (sp_step x tw fw n ti tau c) = zlen c.
Proof. unfold sp_step. now rewrite !upd_zlen. Qed.

Lemma spwv_tau_ok x tw fw n ti tau oc :
  0 <= tau -> tau + 1 <= win_lh fw -> 1 + tau < n -> (forall c, oc = Some c -> zlen c = n) ->
  spwv_tau x tw fw n ti tau oc =
  Ok (if sp_nan x tw ti tau then None else option_map (sp_step x tw fw n ti tau) oc).
Proof.
  intros Ht Hlh Hn Hc. unfold spwv_tau. fold (sp_pts (zlen x) (win_lh tw) ti tau).
  assert (B := win_lh_bounds fw).
  rewrite (take_ok (RtoC 0) tw).
  2:{ intros i Hi. apply in_map_iff in Hi. destruct Hi as [p [<- Hp]].
      destruct (sp_pts_ok x tw ti tau p Ht Hp); tauto. }
  cbn [bind]. rewrite (take_ok (RtoC 0) x).
  2:{ intros i Hi. apply in_map_iff in Hi. destruct Hi as [p [<- Hp]].
      destruct (sp_pts_ok x tw ti tau p Ht Hp); tauto. }
  cbn [bind]. rewrite (take_ok (RtoC 0) x).
  2:{ intros i Hi. apply in_map_iff in Hi. destruct Hi as [p [<- Hp]].
      destruct (sp_pts_ok x tw ti tau p Ht Hp); tauto. }
  cbn [bind]. rewrite !(get_ok (RtoC 0)) by lia. cbn [bind]. rewrite !map_map.
  fold (sp_g tw). change (fun p => nth (Z.to_nat (win_lh tw + p)) tw (RtoC 0)) with (sp_g tw).
  rewrite normalise_map. destruct (sp_nan x tw ti tau); [reflexivity|].
  rewrite (cplus3_map (sp_pts (zlen x) (win_lh tw) ti tau) (fun p => sp_g tw p / sp_mass x tw ti tau)%C
    (fun p => nth (Z.to_nat (ti + tau - p - 1)) x (RtoC 0)) (fun p => nth (Z.to_nat (ti - tau - p - 1)) x (RtoC 0))).
  cbn [bind].
  rewrite (cplus3_map (sp_pts (zlen x) (win_lh tw) ti tau) (fun p => sp_g tw p / sp_mass x tw ti tau)%C
    (fun p => nth (Z.to_nat (ti - tau - p - 1)) x (RtoC 0)) (fun p => nth (Z.to_nat (ti + tau - p - 1)) x (RtoC 0))).
  cbn [bind]. destruct oc as [c|]; [|reflexivity]. specialize (Hc c eq_refl).
  rewrite set_ok by lia. cbn [bind]. rewrite set_ok by (rewrite upd_zlen; lia). cbn [bind option_map].
  do 3 f_equal; unfold sp_step; rewrite ?winf_lh_in by lia; f_equal.
  - f_equal.
    + unfold cnth. do 2 f_equal. lia.
    + unfold sp_R. apply csum_ext. intros p _. rewrite !Z.mul_1_l. reflexivity.
  - f_equal.
    + unfold cnth. do 2 f_equal. lia.
    + unfold sp_R. apply csum_ext. intros p _. replace (ti + -1 * tau) with (ti - tau) by lia.
      replace (ti - -1 * tau) with (ti + tau) by lia. reflexivity.
Qed.

Definition sp_pure x tw fw n ti (oc : option (list C)) tau :=
  if sp_nan x tw ti tau then None else option_map (sp_step x tw fw n ti tau) oc.

Lemma sp_fold x tw fw n ti l oc :
  (forall tau, In tau l -> 0 <= tau /\ tau + 1 <= win_lh fw /\ 1 + tau < n) ->
  (forall c, oc = Some c -> zlen c = n) ->
  foldM (fun oc tau => spwv_tau x tw fw n ti tau oc) l oc = Ok (fold_left (sp_pure x tw fw n ti) l oc).
Proof.
  revert oc. induction l as [|tau l IH]; intros oc Hl Hc; [reflexivity|].
  cbn [foldM fold_left]. destruct (Hl tau (or_introl eq_refl)) as (H1 & H2 & H3).
  rewrite spwv_tau_ok by auto. cbn [bind]. apply IH.
  - intros t Ht. apply Hl. right; auto.
  - intros c E. unfold sp_pure in E. destruct (sp_nan x tw ti tau); [discriminate E|]. destruct oc as [c'|]; [|discriminate E].
    cbn [option_map] in E. replace c with (sp_step x tw fw n ti tau c') by congruence. rewrite sp_step_zlen. auto.
Qed.

Lemma sp_fold_none x tw fw n ti l : fold_left (sp_pure x tw fw n ti) l None = None.
Proof. induction l as [|a l IH]; [reflexivity|]. cbn. unfold sp_pure at 2. now destruct (sp_nan x tw ti a). Qed.

Lemma sp_fold_some x tw fw n ti l c :
  fold_left (sp_pure x tw fw n ti) l (Some c) =
  if existsb (sp_nan x tw ti) l then None
  else Some (fold_left (fun c tau => sp_step x tw fw n ti tau c) l c).
Proof.
  revert c. induction l as [|a l IH]; intros c; [reflexivity|]. cbn [fold_left existsb].
  unfold sp_pure at 2. destruct (sp_nan x tw ti a); cbn [orb option_map]; [apply sp_fold_none|apply IH].
Qed.

(** The stored column as a scatter over lags. *)
Definition sp_lags (m : Z) : list Z := 0 :: flat_map (fun t => [1 + t; - (1 + t)]) (arange 0 m).
Definition sp_val (x tw fw : list C) (ti t : Z) : C :=
  if t =? 0 then sp_R x tw ti 0 1
  else if 0 <? t then (winf fw t * sp_R x tw ti (t - 1) 1)%C
  else (winf fw (2 + t) * sp_R x tw ti (- t - 1) (-1))%C.

Lemma puts_app {A} (l : list A) a b : puts l (a ++ b) = puts (puts l a) b.
Proof. revert l. induction a as [|[i v] a IH]; intros l; cbn; auto. Qed.

Lemma sp_val_pos x tw fw ti m : 0 <= m ->
  sp_val x tw fw ti (1 + m) = (winf fw (1 + m) * sp_R x tw ti m 1)%C.
Proof.
  intros H. unfold sp_val. rewrite (proj2 (Z.eqb_neq (1 + m) 0)), (proj2 (Z.ltb_lt 0 (1 + m))) by lia.
  replace (1 + m - 1) with m by lia. reflexivity.
Qed.
Lemma sp_val_neg x tw fw ti m : 0 <= m ->
  sp_val x tw fw ti (- (1 + m)) = (winf fw (1 - m) * sp_R x tw ti m (-1))%C.
Proof.
  intros H. unfold sp_val. rewrite (proj2 (Z.eqb_neq (- (1 + m)) 0)), (proj2 (Z.ltb_ge 0 (- (1 + m)))) by lia.
  replace (2 + - (1 + m)) with (1 - m) by lia. replace (- - (1 + m) - 1) with m by lia. reflexivity.
Qed.

Lemma sp_scatter x tw fw n ti m : 0 < n -> 0 <= m -> 2 * m < n ->
  fold_left (fun c tau => sp_step x tw fw n ti tau c) (arange 0 m) (upd (zeros n) 0 (sp_R x tw ti 0 1))
  = scatter n (sp_lags m) (sp_val x tw fw ti).
Proof.
  intros Hn Hm. pattern m. apply natlike_ind; [| |exact Hm].
  - intros _. unfold sp_lags. rewrite arange_empty by lia. cbn [flat_map fold_left].
    unfold scatter. cbn [map puts]. rewrite Z.add_0_r, Z.mod_same by lia. reflexivity.
  - clear m Hm. intros m Hm IH Hb. rewrite <- Z.add_1_r in *.
    rewrite arange_snoc, fold_left_app by lia. rewrite IH by lia. cbn [fold_left].
    unfold scatter, sp_lags. rewrite (arange_snoc 0 m) by lia. rewrite flat_map_app.
    cbn [flat_map app map puts]. rewrite map_app, puts_app. cbn [map puts].
    unfold sp_step. fold (sp_lags m). 
    replace ((n + (1 + m)) mod n) with (1 + m) by (rewrite mod_add_n by lia; rewrite Z.mod_small; lia).
    replace ((n + - (1 + m)) mod n) with (n - m - 1) by (rewrite Z.mod_small; lia).
    rewrite sp_val_pos, sp_val_neg by lia. reflexivity.
Qed.

Lemma sp_lags_perm m : 0 <= m -> Permutation (sp_lags m) (arange (- m) (m + 1)).
Proof.
  intros Hm. pattern m. apply natlike_ind; [| |exact Hm].
  - reflexivity.
  - clear m Hm. intros m Hm IH. rewrite <- Z.add_1_r.
    unfold sp_lags. rewrite (arange_snoc 0 m) by lia. rewrite flat_map_app. cbn [flat_map app].
    rewrite (arange_cons (- (m + 1))) by lia. replace (- (m + 1) + 1) with (- m) by lia.
    rewrite (arange_snoc (- m) (m + 1)) by lia.
    rewrite app_comm_cons. fold (sp_lags m). rewrite IH.
    rewrite app_comm_cons. replace (1 + m) with (m + 1) by lia.
    change [m + 1; - (m + 1)] with ([m + 1] ++ [- (m + 1)]). rewrite app_assoc.
    rewrite <- Permutation_cons_append. reflexivity.
Qed.

Definition sp_taumax (x tw fw : list C) (n ti : Z) : Z :=
  Z.min (Z.min (ti + win_lh tw - 1) (zlen x - ti + win_lh tw)) (Z.min (round_half n - 1) (win_lh fw)).
Definition sp_m x tw fw n ti := Z.max 0 (sp_taumax x tw fw n ti).
Definition sp_bad (N lh n ti : Z) : bool :=
  (ti <=? N - round_half n) && (round_half n + 1 <=? ti) && (round_half n <=? lh).
Definition sp_isnan (x tw fw : list C) (n ti : Z) : bool :=
  sp_nan x tw ti 0 || existsb (sp_nan x tw ti) (arange 0 (sp_m x tw fw n ti)).

Lemma arange_max a : arange 0 (Z.max 0 a) = arange 0 a.
Proof. unfold arange. do 2 f_equal. lia. Qed.

Lemma spwv_col_ok x tw fw n ti : 0 < n ->
  spwv_col x tw fw n ti (zeros n) =
  if sp_bad (zlen x) (win_lh fw) n ti then Raise IndexError
  else Ok (if sp_isnan x tw fw n ti then None
           else Some (scatter n (sp_lags (sp_m x tw fw n ti)) (sp_val x tw fw ti))).
Proof.
  intros Hn. unfold spwv_col. fold (sp_taumax x tw fw n ti).
  assert (B := round_half_bounds n). assert (B' := win_lh_bounds fw).
  replace (arange (- Z.min (win_lh tw) (zlen x - ti)) (Z.min (win_lh tw) (ti - 1) + 1))
    with (sp_pts (zlen x) (win_lh tw) ti 0) by (unfold sp_pts; f_equal; lia).
  rewrite (take_ok (RtoC 0) tw).
  2:{ intros i Hi. apply in_map_iff in Hi. destruct Hi as [p [<- Hp]].
      destruct (sp_pts_ok x tw ti 0 p ltac:(lia) Hp); tauto. }
  cbn [bind]. rewrite (take_ok (RtoC 0) x).
  2:{ intros i Hi. apply in_map_iff in Hi. destruct Hi as [p [<- Hp]].
      destruct (sp_pts_ok x tw ti 0 p ltac:(lia) Hp); lia. }
  cbn [bind]. rewrite !map_map. change (fun p => nth (Z.to_nat (win_lh tw + p)) tw (RtoC 0)) with (sp_g tw).
  rewrite normalise_map. unfold sp_isnan.
  assert (Hl : forall tau, In tau (arange 0 (sp_taumax x tw fw n ti)) ->
    0 <= tau /\ tau + 1 <= win_lh fw /\ 1 + tau < n).
  { intros tau H. apply in_arange in H. unfold sp_taumax in H. lia. }
  destruct (sp_nan x tw ti 0).
  - cbn [bind orb]. rewrite sp_fold by (auto; discriminate). cbn [bind]. rewrite sp_fold_none.
    unfold sp_bad. reflexivity.
  - rewrite (cplus3_map (sp_pts (zlen x) (win_lh tw) ti 0) (fun p => sp_g tw p / sp_mass x tw ti 0)%C
      (fun p => nth (Z.to_nat (ti - p - 1)) x (RtoC 0)) (fun p => nth (Z.to_nat (ti - p - 1)) x (RtoC 0))).
    cbn [bind orb]. rewrite set_ok by (rewrite zeros_zlen; lia). cbn [bind].
    rewrite sp_fold; auto.
    2:{ intros c E. injection E as <-. rewrite upd_zlen, zeros_zlen; lia. }
    cbn [bind]. rewrite sp_fold_some. unfold sp_m. rewrite arange_max.
    fold (sp_bad (zlen x) (win_lh fw) n ti). destruct (sp_bad _ _ _ _); [reflexivity|].
    destruct (existsb _ _); [reflexivity|]. do 2 f_equal.
    rewrite <- (arange_max (sp_taumax x tw fw n ti)). rewrite <- sp_scatter; try lia.
    + f_equal. change (Z.to_nat 0) with 0%nat. f_equal. unfold sp_R. apply csum_ext. intros p _.
      replace (ti + 1 * 0 - p - 1) with (ti - p - 1) by lia. replace (ti - 1 * 0 - p - 1) with (ti - p - 1) by lia. reflexivity.
    + unfold sp_taumax. lia.
Qed.

Lemma spwv_cases x l n tw fw : 0 < n -> zlen tw mod 2 = 1 -> zlen fw mod 2 = 1 ->
  spwv x (Some l) (Some n) (Some tw) (Some fw) =
  if existsb (sp_bad (zlen x) (win_lh fw) n) l then Raise IndexError
  else Ok (map (fun ti => if sp_isnan x tw fw n ti then None
       else Some (map Re (fft (scatter n (sp_lags (sp_m x tw fw n ti)) (sp_val x tw fw ti))))) l).
Proof.
  intros Hn Ht Hf. unfold spwv. rewrite Ht, Hf. cbn [Z.eqb bind].
  destruct (existsb _ l) eqn:E.
  - rewrite (mapM_raise _ l IndexError); [reflexivity| |].
    + intros ti _. rewrite spwv_col_ok by auto. destruct (sp_bad _ _ _ _); eauto.
    + apply existsb_exists in E. destruct E as [ti [Hi E]]. exists ti. split; auto.
      rewrite spwv_col_ok by auto. now rewrite E.
  - rewrite (mapM_ok _ (fun ti => if sp_isnan x tw fw n ti then None
           else Some (scatter n (sp_lags (sp_m x tw fw n ti)) (sp_val x tw fw ti)))).
    + cbn [bind]. rewrite map_map. f_equal. apply map_ext. intros ti. now destruct (sp_isnan _ _ _ _ _).
    + intros ti Hi. rewrite spwv_col_ok by auto. destruct (sp_bad _ _ _ ti) eqn:F; [|reflexivity].
      exfalso. assert (existsb (sp_bad (zlen x) (win_lh fw) n) l = true); [|congruence].
      apply existsb_exists. eauto.
Qed.

(** Points in terms of samples. *)
Lemma sp_csum (x tw : list C) ti tau (F : Z -> C) : 0 <= tau ->
  csum (sp_pts (zlen x) (win_lh tw) ti tau) (fun p => F (ti - 1 - p)) =
  csum (arange tau (zlen x - tau)) (fun s => if (- win_lh tw <=? ti - 1 - s) && (ti - 1 - s <=? win_lh tw) then F s else RtoC 0).
Proof.
  intros Ht. unfold sp_pts. rewrite (csum_flip _ _ (ti - 1) F).
  rewrite (csum_ext (arange (ti - 1 + 1 - (Z.min (win_lh tw) (ti - 1 - tau) + 1)) (ti - 1 + 1 - - Z.min (win_lh tw) (zlen x - ti - tau))) F
     (fun s => if (- win_lh tw <=? ti - 1 - s) && (ti - 1 - s <=? win_lh tw) then F s else RtoC 0)).
  - symmetry. apply csum_incl.
    + apply NoDup_arange.
    + apply NoDup_arange.
    + intros s Hs. rewrite in_arange in *. lia.
    + intros s Hs Hs'. rewrite in_arange in *. destruct (Z.leb_spec (- win_lh tw) (ti - 1 - s)), (Z.leb_spec (ti - 1 - s) (win_lh tw)); auto. lia.
  - intros s Hs. apply in_arange in Hs. rewrite !(proj2 (Z.leb_le _ _)) by lia. reflexivity.
Qed.

Lemma sp_mass_spec (x tw : list C) ti tau : 0 <= tau -> sp_mass x tw ti tau = lagmass x (winf tw) (ti - 1) tau.
Proof.
  intros Ht. unfold sp_mass, lagmass.
  rewrite (csum_ext _ _ (fun p => (fun s => sp_g tw (ti - 1 - s)) (ti - 1 - p))).
  - etransitivity; [apply (sp_csum x tw ti tau (fun s => sp_g tw (ti - 1 - s))); auto|].
    apply csum_ext. intros s _. unfold winf, sp_g, win_lh. reflexivity.
  - intros p _. f_equal. lia.
Qed.

Lemma sp_R_spec (x tw : list C) ti tau sg : 0 <= tau -> sg = 1 \/ sg = -1 ->
  sp_R x tw ti tau sg = lagavg x (winf tw) (ti - 1) (sg * tau).
Proof.
  intros Ht Hs. unfold sp_R, lagavg. replace (Z.abs (sg * tau)) with tau by lia.
  rewrite <- sp_mass_spec by auto. unfold Cdiv at 2. rewrite <- csum_scal_r.
  rewrite (csum_ext _ _ (fun p => (fun s => sp_g tw (ti - 1 - s) / sp_mass x tw ti tau * cnth x (s + sg * tau)%Z
              * Cconj (cnth x (s - sg * tau)%Z))%C (ti - 1 - p))).
  - etransitivity; [apply (sp_csum x tw ti tau (fun s => sp_g tw (ti - 1 - s) / sp_mass x tw ti tau * cnth x (s + sg * tau)%Z
              * Cconj (cnth x (s - sg * tau)%Z))%C); auto|].
    apply csum_ext. intros s _.
    destruct ((- win_lh tw <=? ti - 1 - s) && (ti - 1 - s <=? win_lh tw)) eqn:E.
    + unfold winf. unfold win_lh in E. rewrite E. unfold sp_g, win_lh, Cdiv. ring.
    + unfold winf. unfold win_lh in E. rewrite E. ring.
  - intros p _. replace (ti - 1 - (ti - 1 - p)) with p by lia.
    replace (ti - 1 - p + sg * tau) with (ti + sg * tau - p - 1) by lia.
    replace (ti - 1 - p - sg * tau) with (ti - sg * tau - p - 1) by lia. reflexivity.
Qed.

Lemma sp_entry x tw fw n ti f : 0 < n -> 0 <= f < n ->
  cnth (fft (scatter n (sp_lags (sp_m x tw fw n ti)) (sp_val x tw fw ti))) f =
  esum n (arange (- sp_m x tw fw n ti) (sp_m x tw fw n ti + 1)) (sp_val x tw fw ti) f.
Proof.
  intros Hn Hf. assert (B := round_half_bounds n).
  assert (Hm : 0 <= sp_m x tw fw n ti) by (unfold sp_m; lia).
  rewrite scatter_fft; auto.
  - unfold esum. apply csum_perm. now apply sp_lags_perm.
  - eapply Permutation_NoDup; [apply Permutation_map; symmetry; now apply sp_lags_perm|].
    apply NoDup_mod_arange; auto. unfold sp_m, sp_taumax. lia.
Qed.
