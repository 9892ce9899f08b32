(** C68, C125: changes of the signal and the affine representations. *)
From Coq Require Import Reals ZArith List Lia Lra Bool.
From Coquelicot Require Import Coquelicot.
From Flocq Require Import Core.
From Verif Require Import Py Scalars CSum DFT Spec M_base M_utils M_putils M_post M_gen1 M_gen2 M_gen3 M_aff M_wb P_base P_spec T_post T_utils T_putils T_dom T_gen1 T_gen2 T_hil T_key T_noise T_misc T_misc2 T_aff T_aff2 T_wb T_aff3 T_post2.
Import ListNotations.
Local Open Scope Z_scope.

(** Multiplication of a list by a real number. *)
Definition rsc (c : R) (l : list R) : list R := map (fun v => v * c)%R l.
Definition csc (c : R) (l : list C) : list C := map (fun v => v * RtoC c)%C l.
Lemma csc_alt c l : csc c l = map (Cmult (RtoC c)) l.
Proof. apply map_ext. intros. ring. Qed.
Lemma csc_zlen c l : zlen (csc c l) = zlen l. Proof. apply zlen_map. Qed.
Lemma rsc_zlen c l : zlen (rsc c l) = zlen l. Proof. apply zlen_map. Qed.
Lemma csc_cnth c l k : cnth (csc c l) k = (cnth l k * RtoC c)%C.
Proof. rewrite csc_alt, cnth_lin. ring. Qed.
Lemma rsc_rnth c l k : rnth (rsc c l) k = (rnth l k * c)%R.
Proof. unfold rnth, rsc. replace 0%R with (0 * c)%R at 1 by ring. now rewrite (map_nth (fun v => v * c)%R). Qed.
Lemma fft_csc c l : fft (csc c l) = csc c (fft l).
Proof. rewrite csc_alt. apply fft_lin. Qed.
Lemma ifft_csc c l : ifft (csc c l) = csc c (ifft l).
Proof. apply ifft_map_scal. Qed.
Lemma skipn_map' {A B} (g : A -> B) l : forall k, skipn k (map g l) = map g (skipn k l).
Proof. induction l as [|a l IH]; intros [|k]; cbn; auto. Qed.
Lemma shift_map {A B} (g : A -> B) l : fftshift (map g l) = map g (fftshift l).
Proof. unfold fftshift. cbv zeta. rewrite zlen_map, skipn_map', firstn_map, <- map_app. reflexivity. Qed.
Lemma prefix_map {A B} (g : A -> B) l k : prefix (map g l) k = map g (prefix l k).
Proof. apply firstn_map. Qed.
Lemma pyslice_map' {A B} (g : A -> B) l a b : pyslice (map g l) a b = map g (pyslice l a b).
Proof. unfold pyslice, slice. rewrite zlen_map, skipn_map', firstn_map. reflexivity. Qed.
Lemma mapM_post {A B D} (f : A -> res B) (g : B -> D) l : mapM (fun a => b <- f a ;; Ok (g b)) l = (r <- mapM f l ;; Ok (map g r)).
Proof.
  induction l as [|a l IH]; [reflexivity|]. cbn [mapM]. rewrite IH. destruct (f a); [|reflexivity]. cbn [bind]. destruct (mapM f l); reflexivity.
Qed.
Lemma mapM_pre {A B D} (f : B -> res D) (g : A -> B) l : mapM f (map g l) = mapM (fun a => f (g a)) l.
Proof. induction l as [|a l IH]; [reflexivity|]. cbn [map mapM]. now rewrite IH. Qed.
Lemma take_sc {A B} (g : A -> B) l idx : take (map g l) idx = (r <- take l idx ;; Ok (map g r)).
Proof. unfold take. rewrite <- mapM_post. apply mapM_ext. intros i _. apply get_map. Qed.
Lemma bcast_pos {A B D A' B' D'} (f : A -> B -> D) (f' : A' -> B' -> D') (ga : A -> A') (gb : B -> B') (gd : D -> D') a b :
  (forall u v, f' (ga u) (gb v) = gd (f u v)) -> bcast f' (map ga a) (map gb b) = (r <- bcast f a b ;; Ok (map gd r)).
Proof.
  intros H. unfold bcast. rewrite !map_length. destruct (Nat.eqb (length a) (length b)).
  - cbn [bind]. f_equal. revert b. induction a as [|u a IH]; intros [|v b]; try reflexivity. cbn [map zipw]. now rewrite H, IH.
  - destruct a as [|u [|u' a]]; destruct b as [|v [|v' b]]; cbn [map bind]; try reflexivity; try (rewrite ?H; reflexivity); do 3 f_equal; rewrite ?H; try reflexivity; try f_equal; rewrite ?map_map; try (apply map_ext; intros; apply H); auto.
Qed.
Lemma tl1_map {A B} (g : A -> B) l : tl1 (map g l) = map g (tl1 l).
Proof. destruct l; reflexivity. Qed.
Lemma rsum_rsc c l : rsum (rsc c l) (fun v => v) = (rsum l (fun v => v) * c)%R.
Proof. unfold rsc. rewrite rsum_map. apply (rsum_scal_r l c (fun v => v)). Qed.
Lemma integrate_lin c rows n x y : integrate_2d (map (rsc c) rows) n x y = (i <- integrate_2d rows n x y ;; Ok (i * c)%R).
Proof.
  unfold integrate_2d. cbv zeta. rewrite zlen_map. set (xs := match x with Some _ => _ | None => _ end). set (ys := match y with Some _ => _ | None => _ end).
  assert (G : forall k, mapM (fun r => get r k) (map (rsc c) rows) = (r <- mapM (fun r => get r k) rows ;; Ok (rsc c r))).
  { intros k. rewrite mapM_pre. unfold rsc at 2. rewrite <- mapM_post. apply mapM_ext. intros r _. apply get_map. }
  rewrite !G. destruct (mapM (fun r => get r 0) rows) as [c0|]; [|reflexivity]. cbn [bind]. destruct (mapM (fun r => get r (n - 1)) rows) as [c1|]; [|reflexivity]. cbn [bind].
  destruct (get xs 1) as [x1|]; [|reflexivity]. cbn [bind]. destruct (get xs 0) as [x0|]; [|reflexivity]. cbn [bind].
  set (op := fun (r : list R) (ab : R * R) => ((rsum r (fun v => v) - fst ab / 2 - snd ab / 2) * (x1 - x0))%R).
  assert (Z1 : zipw op (map (rsc c) rows) (combine (rsc c c0) (rsc c c1)) = rsc c (zipw op rows (combine c0 c1))).
  { clear. revert c0 c1. induction rows as [|r rows IH]; intros [|a c0] [|b c1]; try reflexivity. cbn [map combine zipw rsc]. f_equal; [|apply IH]. unfold op. cbn [fst snd]. rewrite rsum_rsc. field. }
  rewrite Z1. set (s := zipw op rows _). unfold rsc at 1 2. rewrite prefix_map, tl1_map, (bcast_pos Rplus Rplus _ _ (fun v => v * c)%R) by (intros; ring).
  destruct (bcast Rplus _ _) as [dm|]; [|reflexivity]. cbn [bind]. destruct (bcast Rminus _ _) as [d|]; [|reflexivity]. cbn [bind].
  rewrite <- (map_id (map (fun v => v / 2)%R d)) at 1. rewrite (bcast_pos Rmult Rmult _ _ (fun v => v * c)%R) by (intros; ring). destruct (bcast Rmult _ _) as [p|]; [|reflexivity]. cbn [bind]. f_equal. apply (rsum_rsc c p).
Qed.

(** *** C68: the scalogram integrates to the in-band energy over the number of voices *)
Lemma c68_scalogram_total : forall x ts fmin fmax nv wp m t f wt, 2 <= zlen x -> (0 < fmin < fmax)%R -> (fmax <= 1 / 2)%R ->
  scalogram x ts (Some fmin) (Some fmax) nv wp = Ok (Some m, t, f, wt) ->
  let N := zlen x in let a := ZnearestE (fmin * IZR (N - 2)) in let b := ZnearestE (fmax * IZR (N - 2)) in
  let E := rsum (arange (a + 1) (b + 2)) (fun k => ((if (2 * k <? N)%Z then 2 else if (2 * k =? N)%Z then 1 else 0) * Cmod (cnth (fft (map RtoC (map Re x))) k)) ^ 2)%R in
  integrate_2d m N (Some (map IZR t)) (Some f) = Ok (E / IZR (match nv with Some v => v | None => N end))%R.
Proof.
  intros x ts fmin fmax nv wp m t f wt HN Hf Hm H N a b E. unfold scalogram in H. cbv zeta in H. cbn [affine_band bind] in H. fold N in H.
  destruct (scal_z x) as [z|] eqn:Hz; [|discriminate]. cbn [bind] in H. match type of H with (if ?b then _ else _) = _ => destruct b; [discriminate|] end. destruct (c68_scalogram x z fmin fmax HN Hf Hm Hz) as (A & B & EM). fold N a b in A, B, EM. rewrite EM in H.
  destruct (match wp with Some w => w | None => _ end) as [w|]; [|discriminate]. destruct (scal_rows _ _ _ _ _ _ _) as [[wr rows]|]; [|discriminate]. cbn [bind] in H.
  destruct (integrate_2d _ _ _ _) as [i|] eqn:EI; [|discriminate]. cbn [bind] in H. destruct (Req_EM_T i 0) as [|Hi]; [discriminate|]. injection H as <- <- <- _.
  set (nvv := match nv with Some v => v | None => N end) in *.
  rewrite (map_ext (map (fun v => (v * (band_energy (map Re x) (a + 1) (b + 1) / i) / IZR nvv)%R)) (rsc (band_energy (map Re x) (a + 1) (b + 1) / i / IZR nvv))) by (intros; apply map_ext; intros; unfold Rdiv; ring).
  rewrite integrate_lin, EI. cbn [bind]. f_equal. transitivity (band_energy (map Re x) (a + 1) (b + 1) / IZR nvv)%R; [unfold Rdiv; rewrite <- !Rmult_assoc; rewrite (Rmult_comm i), Rmult_assoc, (Rmult_assoc _ i); rewrite <- (Rmult_assoc i), Rinv_r by exact Hi; ring|].
  f_equal. unfold band_energy, E. replace (b + 1 + 1) with (b + 2) by ring. apply rsum_ext. intros k Hk. apply in_arange in Hk. do 2 f_equal. unfold hfac. rewrite zlen_map. fold N.
  destruct (Z.eqb_spec k 0); [lia|]. destruct (Z.eqb_spec (2 * k) N); destruct (Z.ltb_spec (2 * k) N); reflexivity || lia.
Qed.

(** *** C125 *)
(** The scalogram, with an explicit band, sees the real part up to a constant. *)
Lemma c125_constant : forall (x y : list C) (c : R) ts fmin fmax nv wp, 0 < zlen x -> map Re y = map (fun v => Re v + c)%R x ->
  scalogram y ts (Some fmin) (Some fmax) nv wp = scalogram x ts (Some fmin) (Some fmax) nv wp.
Proof.
  intros x y c ts fmin fmax nv wp HN E. assert (L : zlen y = zlen x) by (rewrite <- (zlen_map Re y), E; apply zlen_map).
  unfold scalogram. cbv zeta. cbn [affine_band bind]. rewrite L. replace (scal_z y) with (scal_z x); [reflexivity|].
  unfold scal_z. rewrite E, !zlen_map, rsum_map. f_equal. rewrite !map_map. apply map_ext. intros v. rewrite rsum_map, rsum_plus, rsum_const. rewrite INR_IZR_INZ. fold (zlen x). change (fun a : C => Re a) with Re. field. apply IZR_neq. lia.
Qed.

(** Multiplication by a real number. *)
Lemma re_csc a x : map Re (csc a x) = rsc a (map Re x).
Proof. unfold csc, rsc. rewrite !map_map. apply map_ext. intros [u v]. cbn. ring. Qed.
Lemma RtoC_rsc a s : map RtoC (rsc a s) = csc a (map RtoC s).
Proof. unfold csc, rsc. rewrite !map_map. apply map_ext. intros. apply RtoC_mult. Qed.
Lemma hil_sc a s : hilbert (rsc a s) = (z <- hilbert s ;; Ok (csc a z)).
Proof.
  destruct (hilbert s) as [z|e] eqn:H; cbn [bind].
  - rewrite csc_alt. rewrite <- (hil_lin a s z H). f_equal. apply map_ext. intros. ring.
  - unfold hilbert in *. rewrite rsc_zlen. destruct (zlen s =? 0); [congruence|discriminate].
Qed.
Lemma scal_z_sc a x : scal_z (csc a x) = (z <- scal_z x ;; Ok (csc a z)).
Proof.
  unfold scal_z. cbv zeta. rewrite re_csc, rsc_zlen, rsum_rsc. rewrite <- hil_sc. f_equal. unfold rsc. rewrite !map_map. apply map_ext. intros v. unfold Rdiv. ring.
Qed.
Lemma conv_sc a z h : convolve (csc a z) h = csc a (convolve z h).
Proof.
  unfold convolve. rewrite csc_zlen. etransitivity; [|symmetry; apply map_map]. apply map_ext. intros i. rewrite <- csum_scal_r. apply csum_ext. intros s _. rewrite csc_cnth. ring.
Qed.
Lemma sq_row_sc a d : sq_row (csc a d) = rsc (a ^ 2) (sq_row d).
Proof. unfold sq_row, csc, rsc. rewrite !map_map. apply map_ext. intros v. rewrite !sq_mod, Cmod_mult, Cmod_R, Rpow_mult_distr, pow2_abs. ring. Qed.
Lemma div_sc a (d : C) l : map (fun v => v / d)%C (csc a l) = csc a (map (fun v => v / d)%C l).
Proof. unfold csc. rewrite !map_map. apply map_ext. intros v. unfold Cdiv. ring. Qed.
Definition both (a : R) (r : list C * list R) : list C * list R := (csc a (fst r), rsc (a ^ 2) (snd r)).
Lemma morlet_row_sc a z ts wp f b : morlet_row (csc a z) ts wp f b = (r <- morlet_row z ts wp f b ;; Ok (both a r)).
Proof.
  unfold morlet_row. cbv zeta. rewrite conv_sc, div_sc. set (d := map _ (convolve z _)). rewrite csc_zlen. unfold csc at 1 2. rewrite !take_sc. destruct (take d ts) as [w|]; [|reflexivity]. cbn [bind].
  destruct (take d (arange _ _)) as [e|]; [|reflexivity]. cbn [bind]. rewrite take_sc. destruct (take e ts) as [u|]; [|reflexivity]. cbn [bind]. unfold both. cbn [fst snd]. now rewrite <- sq_row_sc.
Qed.
Lemma mexhat_row_sc a z ts f b : mexhat_row (csc a z) ts f b = (r <- mexhat_row z ts f b ;; Ok (both a r)).
Proof.
  unfold mexhat_row. destruct (mexhat f) as [h|]; [|reflexivity]. cbn [bind]. cbv zeta. rewrite conv_sc, div_sc. set (d := map _ (convolve z _)). rewrite csc_zlen. unfold csc at 1. rewrite !take_sc.
  destruct (take d (arange _ _)) as [e|]; [|reflexivity]. cbn [bind]. rewrite take_sc. destruct (take e ts) as [u|]; [|reflexivity]. cbn [bind]. unfold both. cbn [fst snd]. now rewrite <- sq_row_sc.
Qed.
Lemma zeros_sc a n : csc a (zeros n) = zeros n.
Proof. unfold csc, zeros. rewrite map_repeat. now rewrite Cmult_0_l. Qed.
Lemma rzeros_sc a n : rsc a (repeat 0%R n) = repeat 0%R n.
Proof. unfold rsc. rewrite map_repeat. now rewrite Rmult_0_l. Qed.
Lemma scal_rows_sc a z ts wp fmin fmax nv N : scal_rows (csc a z) ts wp fmin fmax nv N =
  (r <- scal_rows z ts wp fmin fmax nv N ;; Ok (map (csc a) (fst r), map (rsc (a ^ 2)) (snd r))).
Proof.
  unfold scal_rows. cbv zeta. destruct (Rlt_dec wp 0).
  - cbn [bind fst snd]. rewrite !map_repeat, zeros_sc, rzeros_sc. reflexivity.
  - set (F := fun i => _). set (G := fun i => (r <- (if Rlt_dec 0 wp then morlet_row z _ _ _ _ else _) ;; _)).
    assert (FG : forall i, F i = (r <- G i ;; Ok (both a r))).
    { intros i. unfold F, G. destruct (Rlt_dec 0 wp); [rewrite morlet_row_sc; destruct (morlet_row z _ _ _ _)|rewrite mexhat_row_sc; destruct (mexhat_row z _ _ _)]; cbn [bind]; try reflexivity; destruct (i <? N); reflexivity. }
    rewrite (mapM_ext F (fun i => r <- G i ;; Ok (both a r))) by (intros; apply FG). rewrite mapM_post. destruct (mapM G _) as [r|]; [|reflexivity]. cbn [bind fst snd]. rewrite map_app, !map_map, map_repeat, rzeros_sc. reflexivity.
Qed.
(** The default band does not change. *)
Lemma fold_max_sc c l : (0 < c)%R -> forall v, fold_left Rmax (rsc c l) (v * c)%R = (fold_left Rmax l v * c)%R.
Proof. intros Hc. induction l as [|u l IH]; intros v; [reflexivity|]. cbn [rsc map fold_left]. rewrite <- IH. f_equal. rewrite (Rmult_comm v), (Rmult_comm u), (Rmult_comm (Rmax v u)). apply RmaxRmult. lra. Qed.
Lemma rmax_sc c l : (0 < c)%R -> rmax_list (rsc c l) = (m <- rmax_list l ;; Ok (m * c)%R).
Proof. intros Hc. destruct l as [|v l]; [reflexivity|]. cbn [rsc map rmax_list bind]. f_equal. now apply fold_max_sc. Qed.
Lemma loud_sc c l : (0 < c)%R -> loud (rsc c l) = loud l.
Proof.
  intros Hc. unfold loud. rewrite rmax_sc by exact Hc. destruct (rmax_list l) as [m|]; [|reflexivity]. cbn [bind]. f_equal. rewrite rsc_zlen. apply filter_ext. intros k. rewrite rsc_rnth.
  destruct (Rlt_dec (m * c / 100) (rnth l k * c)), (Rlt_dec (m / 100) (rnth l k)); try reflexivity; exfalso; nra.
Qed.
Lemma power_sc a s : half_power (rsc a s) = rsc (a ^ 2) (half_power s).
Proof.
  unfold half_power. rewrite RtoC_rsc, rsc_zlen. unfold csc at 1. rewrite shift_map. fold (csc a (fftshift (map RtoC s))). rewrite fft_csc. unfold rsc. rewrite <- (prefix_map (fun v => v * a ^ 2)%R). f_equal. unfold csc. rewrite !map_map. apply map_ext. intros v.
  rewrite Cmod_mult, Cmod_R, Rpow_mult_distr, pow2_abs. reflexivity.
Qed.
Lemma band_sc a x ts fmin fmax : a <> 0%R -> affine_band (csc a x) ts fmin fmax = affine_band x ts fmin fmax.
Proof.
  intros Ha. unfold affine_band. rewrite re_csc. unfold rsc at 1 2 3. assert (A2 : (0 < a ^ 2)%R) by (assert (H := pow2_gt_0 a Ha); lra).
  assert (E : forall lo hi, pyslice (rsc a (map Re x)) lo hi = rsc a (pyslice (map Re x) lo hi)) by (intros; apply pyslice_map').
  destruct (zmin_list ts) as [lo|]; [|reflexivity]. cbn [bind]. destruct (zmax_list ts) as [hi|]; [|reflexivity]. cbn [bind]. fold (rsc a (map Re x)). cbv zeta. rewrite E, rsc_zlen, power_sc, rmax_sc by exact A2. set (s := pyslice _ _ _).
  unfold default_fmin, default_fmax. rewrite !loud_sc by exact A2. destruct (zlen s =? 0); [reflexivity|]. destruct (rmax_list (half_power s)); reflexivity.
Qed.
Lemma scal_mult_sc a z N fmin fmax : scal_mult (csc a z) N fmin fmax = (scal_mult z N fmin fmax * a ^ 2)%R.
Proof.
  unfold scal_mult. cbv zeta. rewrite fft_csc. unfold csc. rewrite pyslice_map', rsum_map, <- rsum_scal_r. apply rsum_ext. intros v _. rewrite Cmod_mult, Cmod_R, Rpow_mult_distr, pow2_abs. reflexivity.
Qed.
Lemma c125_scalogram_scale : forall (a : R) (x : list C) ts fmin fmax nv wp, a <> 0%R ->
  scalogram (map (fun v => v * RtoC a)%C x) ts fmin fmax nv wp =
  match scalogram x ts fmin fmax nv wp with
  | Ok (m, t, f, wt) => Ok (option_map (map (map (fun v => v * a ^ 2)%R)) m, t, f, map (map (fun v => v * RtoC a)%C) wt)
  | Raise e => Raise e
  end.
Proof.
  intros a x ts fmin fmax nv wp Ha. fold (csc a x). unfold scalogram. cbv zeta. rewrite csc_zlen, band_sc by exact Ha. set (N := zlen x). destruct (affine_band _ _ _ _) as [[fa fb]|]; [|reflexivity]. cbn [bind]. rewrite scal_z_sc.
  destruct (scal_z x) as [z|]; [|reflexivity]. cbn [bind]. match goal with |- (if ?b then _ else _) = _ => destruct b; [reflexivity|] end. destruct (match wp with Some w => w | None => _ end) as [w|]; [|reflexivity]. rewrite scal_rows_sc. destruct (scal_rows _ _ _ _ _ _ _) as [[wt rows]|]; [|reflexivity]. cbn [bind fst snd].
  rewrite integrate_lin. destruct (integrate_2d rows _ _ _) as [i|]; [|reflexivity]. cbn [bind]. assert (A2 : (a ^ 2 <> 0)%R) by (apply pow_nonzero; exact Ha). fold (csc a). do 4 f_equal.
  destruct (Req_EM_T i 0) as [->|Hi]; [destruct (Req_EM_T (0 * a ^ 2) 0); [reflexivity|lra]|]. destruct (Req_EM_T (i * a ^ 2) 0) as [Q|_]; [apply Rmult_integral in Q; destruct Q; contradiction|]. cbn [option_map]. f_equal. rewrite !map_map. apply map_ext. intros r. unfold rsc. rewrite !map_map. apply map_ext. intros v.
  rewrite scal_mult_sc. unfold Rdiv. rewrite Rinv_mult. transitivity (v * a ^ 2 * (scal_mult z N fa fb * (a ^ 2 * / a ^ 2) * / i) * / IZR (match nv with Some n => n | None => N end))%R; [ring|]. rewrite Rinv_r by auto. ring.
Qed.

(** The Bertrand, D-Flandrin and Unterberger distributions. *)
Lemma geo_sc a s geo : geo_sample (rsc a s) geo = csc a (geo_sample s geo).
Proof.
  unfold geo_sample. rewrite rsc_zlen. unfold csc. rewrite map_app, map_map. fold (csc a (zeros (zlen geo))). rewrite zeros_sc. f_equal. apply map_ext. intros f. rewrite <- csum_scal_r. apply csum_ext. intros i _. rewrite rsc_rnth, RtoC_mult. ring.
Qed.
Lemma dilate_sc k q nv L a mel : aff_dilate k q nv L (csc a mel) = csc a (aff_dilate k q nv L mel).
Proof.
  unfold aff_dilate. set (g := fun p => _). set (h := fun p => (_ * cnth mel p)%C). assert (E : map g (arange 0 (2 * nv)) = csc a (map h (arange 0 (2 * nv)))) by (unfold csc; rewrite map_map; apply map_ext; intros p; unfold g, h; rewrite csc_cnth; ring).
  rewrite E. unfold csc at 1. rewrite shift_map. fold (csc a (fftshift (map h (arange 0 (2 * nv))))). rewrite fft_csc. apply prefix_map.
Qed.
Lemma zipw_sc a (u v : list C) : zipw (fun p q => p * Cconj q)%C (csc a u) (csc a v) = csc (a ^ 2) (zipw (fun p q => p * Cconj q)%C u v).
Proof.
  revert v. induction u as [|p u IH]; intros [|q v]; try reflexivity. cbn [csc map zipw]. f_equal; [|apply IH]. rewrite Cconj_mult. replace (Cconj (RtoC a)) with (RtoC a) by (apply injective_projections; cbn; ring). replace (RtoC (a ^ 2)) with (RtoC a * RtoC a)%C by (rewrite <- RtoC_mult; f_equal; ring). ring.
Qed.
Lemma mellin_sc a S : mellin (csc a S) = csc a (mellin S).
Proof. unfold mellin. rewrite ifft_csc. apply shift_map. Qed.
Lemma row_sc k q umax nv m1 a S j : aff_row k q umax nv m1 (csc a S) j = csc (a ^ 2) (aff_row k q umax nv m1 S j).
Proof.
  unfold aff_row. cbv zeta. rewrite mellin_sc, !dilate_sc. assert (P : prefix (csc a S) nv = csc a (prefix S nv)) by apply prefix_map. rewrite P. destruct k, (j =? m1); apply zipw_sc.
Qed.
Lemma tffr_sc k q umax nv m1 a S geo : aff_tffr k q umax nv m1 (csc a S) geo = map (rsc (a ^ 2)) (aff_tffr k q umax nv m1 S geo).
Proof.
  unfold aff_tffr. rewrite map_map. apply map_ext. intros i. assert (E : aff_col k q umax nv m1 (csc a S) geo i = csc (a ^ 2) (aff_col k q umax nv m1 S geo i)).
  { unfold aff_col, csc at 2. rewrite map_map. apply map_ext. intros j. rewrite row_sc, csc_cnth. ring. }
  rewrite E, <- re_csc. f_equal. unfold csc at 1. rewrite shift_map. fold (csc (a ^ 2) (fftshift (aff_col k q umax nv m1 S geo i))). rewrite ifft_csc. unfold csc. rewrite shift_map, map_rev. reflexivity.
Qed.
Definition linear_spline (spl : list R -> list R -> list R -> list R) : Prop :=
  forall xs ys xi c, spl xs (map (fun v => v * c)%R ys) xi = map (fun v => v * c)%R (spl xs ys xi).
Lemma interp_sc spl shift geo ts N nv m1 c tffr : linear_spline spl ->
  aff_interp spl shift geo ts N nv m1 (map (rsc c) tffr) = (r <- aff_interp spl shift geo ts N nv m1 tffr ;; Ok (map (rsc c) r)).
Proof.
  intros HS. unfold aff_interp. cbv zeta. destruct (get geo (nv - 1)) as [last|]; [|reflexivity]. cbn [bind]. rewrite <- mapM_post. apply mapM_ext. intros i _. destruct (zlen _ <=? 3); [reflexivity|]. cbn [bind]. f_equal. unfold rsc at 2. rewrite <- HS. f_equal. rewrite map_map. apply map_ext. intros j.
  replace (@nil R) with (rsc c []) at 1 by reflexivity. rewrite map_nth. apply rsc_rnth.
Qed.
Lemma mult_sc a x nts fmin fmax : aff_mult (csc a x) nts fmin fmax = (E <- aff_mult x nts fmin fmax ;; Ok (E * a ^ 2)%R).
Proof.
  unfold aff_mult. rewrite re_csc, hil_sc. destruct (hilbert (map Re x)) as [z|]; [|reflexivity]. cbn [bind]. cbv zeta. f_equal. rewrite fft_csc. unfold csc. rewrite pyslice_map', rsum_map, <- rsum_scal_r. apply rsum_ext. intros v _. rewrite Cmod_mult, Cmod_R, Rpow_mult_distr, pow2_abs. reflexivity.
Qed.
Lemma normal_sc c mult rows ts f nv : c <> 0%R -> aff_normal (mult * c) (map (rsc c) rows) ts f nv = (r <- aff_normal mult rows ts f nv ;; Ok (option_map (map (rsc c)) r)).
Proof.
  intros Hc. unfold aff_normal. rewrite integrate_lin. destruct (integrate_2d _ _ _ _) as [i|]; [|reflexivity]. cbn [bind].
  destruct (Req_EM_T i 0) as [->|Hi]; [destruct (Req_EM_T (0 * c) 0); [reflexivity|lra]|]. destruct (Req_EM_T (i * c) 0) as [Q|_]; [apply Rmult_integral in Q; destruct Q; contradiction|]. cbn [bind option_map]. do 2 f_equal. rewrite !map_map. apply map_ext. intros r. unfold rsc. rewrite !map_map. apply map_ext. intros v.
  unfold Rdiv. rewrite Rinv_mult. transitivity (v * mult * / i * (c * / c) * c * / IZR nv)%R; [ring|]. rewrite Rinv_r by auto. ring.
Qed.
Lemma c125_affine_scale : forall spl form k (a : R) (x : list C) ts fmin fmax nv, a <> 0%R ->
  (forall xs ys xi c, spl xs (map (fun v => v * c)%R ys) xi = map (fun v => v * c)%R (spl xs ys xi)) ->
  (o <- aff_new k (map (fun v => v * RtoC a)%C x) ts fmin fmax nv ;; aff_run spl form o) =
  match (o <- aff_new k x ts fmin fmax nv ;; aff_run spl form o) with
  | Ok (m, t, f) => Ok (option_map (map (map (fun v => v * a ^ 2)%R)) m, t, f)
  | Raise e => Raise e
  end.
Proof.
  intros spl form k a x ts fmin fmax nv Ha HS. fold (csc a x). unfold aff_new. cbv zeta. rewrite csc_zlen, band_sc by exact Ha. destruct (affine_band _ _ _ _) as [[fa fb]|]; [|reflexivity]. cbn [bind]. destruct (umax_of _ _) as [um|]; [|reflexivity]. cbn [bind]. destruct (aff_size _ _ _ _) as [[m1 T]|]; [|reflexivity]. cbn [bind].
  destruct (match nv with Some v => _ | None => _ end) as [v|]; [|reflexivity]. cbn [bind]. unfold aff_run. cbv zeta. cbn [a_kind a_sig a_ts a_fmin a_fmax a_umax a_m1 a_nv]. destruct (v =? 1); [reflexivity|]. destruct (v <=? 0); [reflexivity|]. destruct (match k with Unt => _ | _ => _ end); [reflexivity|].
  rewrite re_csc, rsc_zlen, geo_sc, tffr_sc, interp_sc by exact HS. destruct (aff_interp _ _ _ _ _ _ _ _) as [rows|]; [|reflexivity]. cbn [bind]. rewrite mult_sc. destruct (aff_mult _ _ _ _) as [E|]; [|reflexivity]. cbn [bind]. rewrite normal_sc by (apply pow_nonzero; exact Ha). destruct (aff_normal _ _ _ _ _) as [r|]; reflexivity.
Qed.
(** Only the real part is read. *)
Lemma c125_real : forall (x y : list C), map Re x = map Re y ->
  (forall ts fmin fmax nv wp, scalogram x ts fmin fmax nv wp = scalogram y ts fmin fmax nv wp) /\
  (forall spl form k ts fmin fmax nv, (o <- aff_new k x ts fmin fmax nv ;; aff_run spl form o) = (o <- aff_new k y ts fmin fmax nv ;; aff_run spl form o)).
Proof.
  intros x y E. assert (L : zlen x = zlen y) by (rewrite <- (zlen_map Re x), E; apply zlen_map). assert (B : forall ts a b, affine_band x ts a b = affine_band y ts a b) by (intros; unfold affine_band; now rewrite E). split; intros.
  - unfold scalogram, scal_z. cbv zeta. now rewrite L, B, E.
  - unfold aff_new. cbv zeta. rewrite L, B. destruct (affine_band _ _ _ _) as [[fa fb]|]; [|reflexivity]. cbn [bind]. destruct (umax_of _ _) as [um|]; [|reflexivity]. cbn [bind]. destruct (aff_size _ _ _ _) as [[m1 T]|]; [|reflexivity]. cbn [bind].
    destruct (match nv with Some v => _ | None => _ end) as [v|]; [|reflexivity]. cbn [bind]. unfold aff_run, aff_mult. cbv zeta. cbn [a_kind a_sig a_ts a_fmin a_fmax a_umax a_m1 a_nv]. now rewrite E.
Qed.
Example c125_example : exists m m' f wt wt',
  scalogram [RtoC 4; RtoC 2] None (Some (1 / 8)%R) (Some (1 / 4)%R) None (Some (Wnum 1%R)) = Ok (Some m, [0; 1], f, wt) /\
  integrate_2d m 2 (Some [0%R; 1%R]) (Some f) = Ok 2%R /\
  scalogram [RtoC 12; RtoC 6] None (Some (1 / 8)%R) (Some (1 / 4)%R) None (Some (Wnum 1%R)) = Ok (Some m', [0; 1], f, wt') /\
  integrate_2d m' 2 (Some [0%R; 1%R]) (Some f) = Ok 18%R.
Proof.
  destruct c83_example as (m & f & wt & E & I). exists m, (map (map (fun v => v * 3 ^ 2)%R) m), f, wt, (map (map (fun v => v * RtoC 3)%C) wt).
  assert (S4 : scalogram [RtoC 4; RtoC 2] None (Some (1 / 8)%R) (Some (1 / 4)%R) None (Some (Wnum 1%R)) = Ok (Some m, [0; 1], f, wt)).
  { rewrite <- E. apply (c125_constant [RtoC 1; RtoC (-1)] _ 3). - cbn. lia. - cbn. repeat f_equal; lra. }
  split; [exact S4|]. split; [exact I|]. assert (Q := c125_scalogram_scale 3 [RtoC 4; RtoC 2] None (Some (1 / 8)%R) (Some (1 / 4)%R) None (Some (Wnum 1%R)) ltac:(lra)). rewrite S4 in Q.
  split.
  - replace [RtoC 12; RtoC 6] with (map (fun v => v * RtoC 3)%C [RtoC 4; RtoC 2]); [exact Q|]. cbn [map]. rewrite <- !RtoC_mult. repeat f_equal; lra.
  - change (map (map (fun v => v * 3 ^ 2)%R) m) with (map (rsc (3 ^ 2)) m). rewrite integrate_lin, I. cbn [bind]. f_equal. lra.
Qed.
