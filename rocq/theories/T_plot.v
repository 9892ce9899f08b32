(** C93 (which pictures are drawn), C94 (their frequency axis), C97 (the
    spectrum beside them): STFT and Cohen class. *)
From Coq Require Import Reals ZArith List Lia Lra Bool.
From Coquelicot Require Import Coquelicot.
From Verif Require Import Py Scalars CSum DFT Spec M_base P_base M_utils M_putils M_post M_stft M_cohen M_state M_gen1 M_gen2 M_aff M_plot T_gen1 T_putils T_state.
Import ListNotations.
Local Open Scope Z_scope.

(** A matrix of n rows and t columns, held as a list of columns. *)
Definition shaped (tfr : list (list C)) (n t : Z) : Prop := zlen tfr = t /\ forall c, In c tfr -> zlen c = n.
(** matplotlib's verdict on a picture of [rows] x [cols] points for a signal of
    N samples: [None] when it is drawn. *)
Definition refusal (k : pkind) (tf : bool) (rows cols N : Z) : option exn :=
  match k, tf with
  | Kcmap, _ => None
  | Kcontour, true => if (rows =? N) && (2 <=? rows) && (2 <=? cols) then None else Some TypeError
  | (Kcontour | Kother), false => if (2 <=? rows) && (2 <=? cols) then None else Some TypeError
  | (Ksurf | Kwire), false =>
    if ((rows =? N) || (rows =? 1) || (N =? 1)) && ((cols =? N) || (cols =? 1) || (N =? 1)) then None else Some ValueError
  | (Ksurf | Kwire | Kother), true => None
  end.
Definition outcome (r : res (list artist)) (e : option exn) : Prop :=
  match e with Some e => r = Raise e | None => exists p, r = Ok p end.

Lemma shaped_map f tfr n t : (forall c, zlen (f c) = zlen c) -> shaped tfr n t -> shaped (map f tfr) n t.
Proof.
  intros F [L S]. split; [now rewrite zlen_map|]. intros c Hc. apply in_map_iff in Hc. destruct Hc as (c' & <- & Hc'). rewrite F. now apply S.
Qed.
Lemma shaped_first h tfr n t : 0 <= h <= n -> shaped tfr n t -> shaped (first_rows h tfr) h t.
Proof.
  intros Hh [L S]. unfold first_rows. split; [now rewrite zlen_map|]. intros c Hc. apply in_map_iff in Hc. destruct Hc as (c' & <- & Hc'). apply S in Hc'. unfold prefix, zlen in *. rewrite firstn_length. lia.
Qed.
Lemma shaped_ne tfr n t : 1 <= n -> 1 <= t -> shaped tfr n t -> concat tfr <> [].
Proof.
  intros Hn Ht [L S]. destruct tfr as [|c tfr]; [unfold zlen in L; cbn in L; lia|]. specialize (S c (or_introl eq_refl)). destruct c; [unfold zlen in S; cbn in S; lia|]. discriminate.
Qed.
Lemma shaped_nil tfr n t : n = 0 \/ t = 0 -> shaped tfr n t -> concat tfr = [].
Proof.
  intros H [L S]. destruct H as [-> | ->].
  - clear L. induction tfr as [|c tfr IH]; [reflexivity|]. cbn. assert (c = []) as -> by (specialize (S c (or_introl eq_refl)); destruct c; [reflexivity|unfold zlen in S; cbn in S; lia]). cbn. apply IH. intros c Hc. apply S. now right.
  - destruct tfr; [reflexivity|unfold zlen in L; cbn in L; lia].
Qed.
Lemma shaped_cut x tfr n t : shaped tfr n t -> shaped (cut x tfr) n t.
Proof. apply shaped_map. intros c. apply zlen_map. Qed.
Lemma shaped_sq tfr n t : shaped tfr n t -> shaped (sqmod_tfr tfr) n t.
Proof. apply shaped_map. intros c. apply zlen_map. Qed.
Lemma shaped_abs tfr n t : shaped tfr n t -> shaped (abs_tfr tfr) n t.
Proof. apply shaped_map. intros c. apply zlen_map. Qed.
Lemma threshold_ok th tfr n t : 1 <= n -> 1 <= t -> shaped tfr n t -> exists tfr', threshold th tfr = Ok tfr' /\ shaped tfr' n t.
Proof.
  intros Hn Ht S. unfold threshold. destruct (amax_cases tfr) as [[m E]|[_ E]]; [|now apply (shaped_ne _ _ _ Hn Ht S) in E]. rewrite E. cbn [bind]. eexists. split; [reflexivity|]. now apply shaped_cut.
Qed.
Lemma threshold_raise th tfr n t : n = 0 \/ t = 0 -> shaped tfr n t -> threshold th tfr = Raise ValueError.
Proof. intros H S. unfold threshold. rewrite (proj2 (amax_raise_iff tfr) (shaped_nil _ _ _ H S)). reflexivity. Qed.

Lemma view_shape o n t : 0 <= n -> 1 <= t -> shaped (r_tfr o) n t -> zlen (v_tfr (rep_view o)) = n /\ (1 <= n -> mat_cols (v_tfr (rep_view o)) = t).
Proof.
  intros Hn Ht [L S]. assert (RR : rep_rows o = n). { unfold rep_rows. destruct (r_tfr o); [unfold zlen in L; cbn in L; lia|]. apply S. now left. }
  unfold rep_view. cbn [v_tfr]. rewrite RR. split; [rewrite zlen_map_arange by lia; lia|]. intros H1. rewrite (arange_cons 0 n) by lia. cbn [map mat_cols]. rewrite zlen_map_arange by lia. lia.
Qed.
Lemma ts_vals_len ts : zlen (ts_vals ts) = ts_len ts.
Proof. destruct ts; cbn; [apply zlen_map|reflexivity]. Qed.
Lemma rmin_ok l : l <> [] -> exists m, rmin_list l = Ok m.
Proof. destruct l; [easy|]. cbn. eauto. Qed.
Lemma rmax_ok l : l <> [] -> exists m, rmax_list l = Ok m.
Proof. destruct l; [easy|]. cbn. eauto. Qed.
Lemma axis_len a b n : 0 <= n -> zlen (axis a b n) = n.
Proof. intros H. unfold axis, M_post.linspace. destruct (Z.eqb_spec n 1) as [->|_]; [reflexivity|]. rewrite zlen_map_arange by lia. lia. Qed.
Lemma ne_zlen {A} (l : list A) : 1 <= zlen l -> l <> [].
Proof. intros H ->. unfold zlen in H. cbn in H. lia. Qed.
Lemma fftshift_zlen {A} (l : list A) : zlen (fftshift l) = zlen l.
Proof. unfold fftshift, zlen. rewrite app_length, skipn_length, firstn_length. lia. Qed.

(** The side pictures of a class that is not affine. *)
Lemma spectrum_ok o v : v_affine v = None -> 1 <= zlen (v_sig v) -> o_freq_x o = None -> o_freq_y o = None ->
  plot_spectrum o v = Ok (Line (prefix (rev (spectrum_of v)) (zlen (v_sig v) / 2)) (map IZR (arange 0 (zlen (v_sig v) / 2)))).
Proof.
  intros A H FX FY. unfold plot_spectrum. rewrite FX, FY, A. unfold line.
  assert (L : zlen (prefix (rev (spectrum_of v)) (zlen (v_sig v) / 2)) = zlen (v_sig v) / 2).
  { assert (Q : zlen (spectrum_of v) = zlen (v_sig v)) by (unfold spectrum_of; rewrite A, fftshift_zlen, zlen_map; apply fft_zlen). unfold prefix, zlen in *. rewrite firstn_length, rev_length. Z.to_euclidean_division_equations; lia. }
  rewrite L, zlen_map_arange by (Z.to_euclidean_division_equations; lia). rewrite Z.sub_0_r.
  rewrite Z.eqb_refl. cbn [bind]. reflexivity.
Qed.

Lemma contour_none x y m : contour x y m None = if ((zlen m =? zlen y) && (mat_cols m =? zlen x)) && ((2 <=? zlen y) && (2 <=? zlen x)) then Ok (Contour x y m None) else Raise TypeError.
Proof.
  unfold contour. destruct (zlen m =? zlen y); destruct (mat_cols m =? zlen x); cbn; try reflexivity.
  rewrite !Z.ltb_antisym. destruct (2 <=? zlen y); destruct (2 <=? zlen x); reflexivity.
Qed.
Lemma base_outcome k tf th ext v rows cols : v_affine v = None -> zlen (v_tfr v) = rows -> mat_cols (v_tfr v) = cols -> zlen (v_ts v) = cols ->
  0 <= rows -> 1 <= cols -> 1 <= zlen (v_sig v) -> v_freqs v <> [] \/ ext <> None ->
  outcome (base_plot (defaults k tf th ext) v) (refusal k tf rows cols (zlen (v_sig v))).
Proof.
  intros A LR LC LT HR HC HN HE. set (o := defaults k tf th ext). unfold base_plot. change (o_extent o) with ext.
  assert (X : exists e, match ext with Some e => Ok e | None => a <- rmin_list (v_ts v) ;; b <- rmax_list (v_ts v) ;; c <- rmin_list (v_freqs v) ;; d <- rmax_list (v_freqs v) ;; Ok (a, b, c, d) end = Ok e).
  { destruct ext as [e|]; [eauto|]. destruct HE as [HE|]; [|congruence]. assert (T : v_ts v <> []) by (apply ne_zlen; lia).
    destruct (rmin_ok _ T) as [a ->]. destruct (rmax_ok _ T) as [b ->]. destruct (rmin_ok _ HE) as [c ->]. destruct (rmax_ok _ HE) as [d ->]. cbn [bind]. eauto. }
  destruct X as [[[[t0 t1] f0] f1] ->]. cbn [bind]. change (o_tf o) with tf. change (o_kind o) with k.
  assert (SP : plot_spectrum o v = Ok (Line (prefix (rev (spectrum_of v)) (zlen (v_sig v) / 2)) (map IZR (arange 0 (zlen (v_sig v) / 2))))) by (apply spectrum_ok; auto).
  destruct tf.
  - unfold plot_tfr. change (o_kind o) with k. change (o_contour_x o) with (@None (list R)). change (o_contour_y o) with (@None (list R)). change (o_levels o) with (@None (list R)). rewrite A.
    destruct k; cbn [refusal outcome bind]; rewrite ?SP; cbn [bind]; eauto. rewrite contour_none, axis_len, LR, LC, LT, Z.eqb_refl, andb_true_r by lia.
    destruct (Z.eqb_spec rows (zlen (v_sig v))) as [->|N]; cbn [andb]; [|reflexivity]. destruct ((2 <=? zlen (v_sig v)) && (2 <=? cols)); cbn [bind]; rewrite ?SP; cbn [bind outcome]; eauto.
  - assert (CT : outcome (a <- contour (v_ts v) (axis 0 (1 / 2) (zlen (v_tfr v))) (v_tfr v) None ;; Ok [a]) (if (2 <=? rows) && (2 <=? cols) then None else Some TypeError)).
    { rewrite contour_none, axis_len, LR, LC, LT, !Z.eqb_refl by lia. cbn [andb]. destruct ((2 <=? rows) && (2 <=? cols)); cbn [bind outcome]; eauto. }
    assert (MT : outcome (a <- mesh (map IZR (arange 0 (zlen (v_sig v)))) (axis 0 (1 / 2) (zlen (v_sig v))) (map (map Rabs) (v_tfr v)) ;; Ok [a])
       (if ((rows =? zlen (v_sig v)) || (rows =? 1) || (zlen (v_sig v) =? 1)) && ((cols =? zlen (v_sig v)) || (cols =? 1) || (zlen (v_sig v) =? 1)) then None else Some ValueError)).
    { unfold mesh, fits. rewrite axis_len, zlen_map, zlen_map_arange, LR, Z.sub_0_r by lia. replace (mat_cols (map (map Rabs) (v_tfr v))) with cols by (rewrite <- LC; destruct (v_tfr v); cbn; [reflexivity|now rewrite zlen_map]).
      match goal with |- context [if ?b then Ok _ else _] => destruct b end; cbn [bind outcome]; eauto. }
    destruct k; cbn [refusal outcome]; auto. eauto.
Qed.

(** C93.  The objects are as [run] leaves them: r_n rows, one column per instant. *)
Lemma c93_wvd : forall k tf sq th o n t, shaped (r_tfr o) n t -> ts_len (r_ts o) = t -> 1 <= n -> 1 <= t -> 1 <= zlen (r_sig o) -> r_freqs o <> [] ->
  outcome (wvd_picture k tf sq th o) (refusal k tf n t (zlen (r_sig o))).
Proof.
  intros k tf sq th o n t S LT Hn Ht HN HF. unfold wvd_picture, wvd_plot.
  destruct (threshold_ok th (if sq then sqmod_tfr (r_tfr o) else abs_tfr (r_tfr o)) n t Hn Ht) as (tfr' & E & S'). { destruct sq; [now apply shaped_sq|now apply shaped_abs]. }
  rewrite E. cbn [bind]. set (o1 := with_tfr _ _ _ _). destruct (view_shape o1 n t ltac:(lia) Ht S') as [V1 V2]. change (r_sig o) with (v_sig (rep_view o1)) at 1. apply base_outcome; auto. change (v_ts (rep_view o1)) with (ts_vals (r_ts o)). now rewrite ts_vals_len. lia.
Qed.
Lemma freqs_first n h : 2 <= n -> h = n / 2 -> zlen (prefix (base_freqs n) h) = h /\ forall k, 0 <= k < h -> rnth (prefix (base_freqs n) h) k = (IZR k / IZR n)%R.
Proof.
  intros Hn ->. assert (B : n / 2 <= zlen (base_freqs n) /\ forall k, 0 <= k < n / 2 -> rnth (base_freqs n) k = (IZR k / IZR n)%R).
  { destruct (Z.eq_dec (n mod 2) 0) as [E|E]; [destruct (base_freqs_even n ltac:(lia) E) as (-> & H & _)|destruct (base_freqs_odd n ltac:(lia)) as (-> & H & _); [Z.to_euclidean_division_equations; lia|]]; split; auto; Z.to_euclidean_division_equations; lia. }
  destruct B as [B1 B2]. split; [unfold prefix, zlen in *; rewrite firstn_length; Z.to_euclidean_division_equations; lia|]. intros k Hk. rewrite <- B2 by lia. unfold rnth, prefix. apply T_putils.nth_prefix. lia.
Qed.

(** What [run] leaves behind has r_n rows and one column per instant. *)
Lemma upd_len {A} (l : list A) k v : length (upd l k v) = length l.
Proof. revert k. induction l as [|a l IH]; intros [|k]; cbn; auto. Qed.
Lemma put_aux_len {A} (l l' : list A) ivs : put_aux l ivs = Ok l' -> zlen l' = zlen l.
Proof.
  revert l. induction ivs as [|[i v] ivs IH]; intros l H; cbn in H; [now injection H as ->|]. unfold set in H. destruct (pyidx (zlen l) i) as [k|]; [|discriminate]. cbn [bind] in H. apply IH in H. rewrite H. unfold zlen. now rewrite upd_len.
Qed.
Lemma put_len {A} (l l' : list A) idx vs : put l idx vs = Ok l' -> zlen l' = zlen l.
Proof.
  unfold put. destruct (Nat.eqb _ _); [apply put_aux_len|]. destruct vs as [|v [|? ?]]; try discriminate. apply put_aux_len.
Qed.
Lemma loop_shape {A} (f : A -> list C -> res (list C)) (g : list C -> list C) l tfr cols n t : zlen l = t -> (forall c, zlen (g c) = zlen c) -> (forall a c c', f a c = Ok c' -> zlen c' = zlen c) -> shaped tfr n t ->
  mapM (fun '(i, c) => f i c) (combine l tfr) = Ok cols -> shaped (map g cols) n t.
Proof.
  intros LL G F [L S] H. destruct (mapM_ok_inv _ _ _ H) as [HL P]. split.
  - rewrite zlen_map. unfold zlen in *. rewrite HL, combine_length. lia.
  - intros c Hc. apply in_map_iff in Hc. destruct Hc as (c' & <- & Hc'). rewrite G. apply In_nth_error in Hc'. destruct Hc' as [k Hk].
    assert (KL : (k < length (combine l tfr))%nat) by (rewrite <- HL; apply nth_error_Some; congruence).
    destruct (nth_error (combine l tfr) k) as [[a c]|] eqn:E; [|apply nth_error_None in E; lia]. destruct (P _ _ E) as (b & Hb & FB). cbv beta iota in FB. assert (b = c') by congruence. subst b. rewrite (F _ _ _ FB). apply S. apply nth_error_In in E. now apply in_combine_r in E.
Qed.
Lemma enum_shape (f : Z -> list C -> res (list C)) (g : list C -> list C) tfr cols n t : (forall c, zlen (g c) = zlen c) -> (forall a c c', f a c = Ok c' -> zlen c' = zlen c) -> shaped tfr n t ->
  mapM (fun '(i, c) => f i c) (enum tfr) = Ok cols -> shaped (map g cols) n t.
Proof. intros G F S H. unfold enum in H. apply (loop_shape f g _ _ _ n t) in H; auto. rewrite arange_zlen. destruct S as [S _]. unfold zlen in *. lia. Qed.
Lemma zeros2_shape n t : 0 <= n -> 0 <= t -> shaped (zeros2 (T:=C) n t) n t.
Proof.
  intros Hn Ht. unfold zeros2. split; [unfold zlen; rewrite repeat_length; lia|]. intros c Hc. apply repeat_spec in Hc. subst c. unfold zeros, zlen. rewrite repeat_length. lia.
Qed.
Lemma ts_len_pos ts : 0 <= ts_len ts.
Proof. destruct ts; cbn; unfold zlen; lia. Qed.
Ltac strip H := repeat match type of H with bind ?e _ = Ok _ => destruct e; [cbn [bind] in H|discriminate] end.
Ltac okeq H := match type of H with Ok ?v = Ok ?o => let Q := fresh in assert (Q : o = v) by congruence; clear H; subst o end.
Lemma c93_shapes : forall x ts n w o, 1 <= n ->
  (stft x (Some ts) (Some n) (Some w) = Ok o \/ wvd x (Some ts) (Some n) = Ok o \/ mh x (Some ts) (Some n) = Ok o \/ pmh x (Some ts) (Some n) (Some w) = Ok o \/ (exists m, pwvd x (Some ts) (Some n) (Some w) = Ok (o, m))) ->
  shaped (r_tfr o) n (ts_len ts) /\ r_n o = n /\ r_ts o = ts /\ r_sig o = x.
Proof.
  intros x ts n w o Hn H. assert (Z2 := zeros2_shape n (ts_len ts) ltac:(lia) (ts_len_pos ts)).
  destruct H as [H|[H|[H|[H|[m H]]]]].
  - unfold stft, stft_run, stft_tfr in H. cbn [r_sig r_win r_n r_tfr r_ts r_freqs r_real base_init] in H. destruct (mapM _ _) as [cols|] eqn:E; [|discriminate]. cbn [bind] in H. okeq H. cbn [r_tfr r_n r_ts r_sig].
    split; auto. revert E. apply enum_shape; auto; [intros; apply fft_zlen|]. intros a c c' F. unfold stft_col in F. cbv zeta in F. strip F. now apply put_len in F.
  - unfold wvd, wvd_run, wvd_tfr, wvd_cplx in H. cbn [r_sig r_win r_n r_tfr r_ts r_freqs r_real base_init] in H. destruct (ts_len ts =? zlen x); [|discriminate]. destruct (mapM _ _) as [cols|] eqn:E; [|discriminate]. cbn [bind] in H. okeq H. cbn [r_tfr r_n r_ts r_sig].
    split; auto. apply shaped_map; [intros; apply zlen_map|]. revert E. apply enum_shape; auto; [intros; apply fft_zlen|]. intros a c c' F. unfold wvd_col in F. cbv zeta in F.
    destruct (take x _); [|discriminate]. cbn [bind] in F. destruct (take (map nconj x) _); [|discriminate]. cbn [bind] in F. destruct (bcast _ _ _); [|discriminate]. cbn [bind] in F. destruct (put _ _ _) as [d|] eqn:P; [|discriminate]. cbn [bind] in F. destruct (_ && _); [discriminate|]. injection F as <-. now apply put_len in P.
  - unfold mh, mh_run, mh_tfr, ts_loop in H. cbn [r_sig r_win r_n r_tfr r_ts r_freqs r_real base_init] in H. destruct ts as [l|[|? ?]]; try discriminate.
    + destruct (mapM _ _) as [cols|] eqn:E; [|discriminate]. cbn [bind] in H. okeq H. cbn [r_tfr r_n r_ts r_sig]. split; auto.
      revert E. apply (loop_shape _ (fun c => map nre (fft c))); [reflexivity| | |exact Z2]. { intros c. rewrite zlen_map. apply fft_zlen. } intros a c c' F. unfold mh_col in F. cbv zeta in F. strip F. now apply put_len in F.
    + cbn [bind map] in H. okeq H. cbn [r_tfr r_n r_ts r_sig ts_len]. split; [exact Z2|auto].
  - unfold pmh, pmh_run, pmh_tfr in H. cbn [bind r_sig r_win r_n r_tfr r_ts r_freqs r_real base_init] in H. destruct (mapM _ _) as [cols|] eqn:E; [|discriminate]. cbn [bind] in H. okeq H. cbn [r_tfr r_n r_ts r_sig].
    split; auto. revert E. apply enum_shape; auto; [intros; apply fft_zlen|]. intros a c c' F. unfold pmh_col in F. cbv zeta in F. destruct (_ || _); [discriminate|]. strip F. now apply put_len in F.
  - unfold pwvd, pwvd_run, pwvd_tfr in H. cbn [r_sig r_win r_n r_tfr r_ts r_freqs r_real base_init] in H. destruct (mapM _ _) as [cols|] eqn:E; [|discriminate]. cbn [bind] in H. injection H as <- _. cbn [r_tfr r_n r_ts r_sig].
    split; auto. revert E. apply enum_shape; auto; [intros; apply fft_zlen|]. intros a c c' F. unfold pwvd_col in F. cbv zeta in F.
    destruct (take w _); [|discriminate]. cbn [bind] in F. destruct (take x _); [|discriminate]. cbn [bind] in F. destruct (bcast _ _ _); [|discriminate]. cbn [bind] in F. destruct (take x _); [|discriminate]. cbn [bind] in F. destruct (bcast _ _ _); [|discriminate]. cbn [bind] in F.
    destruct (put _ _ _) as [d|] eqn:P; [|discriminate]. cbn [bind] in F. destruct (_ && _); [discriminate|]. injection F as <-. now apply put_len in P.
Qed.

Lemma half_freqs_ne n : 2 <= n -> prefix (base_freqs n) (n / 2) <> [].
Proof. intros H. apply ne_zlen. rewrite (proj1 (freqs_first n _ H eq_refl)). Z.to_euclidean_division_equations; lia. Qed.
Lemma c93_stft : forall k tf th o n t, shaped (r_tfr o) n t -> r_n o = n -> ts_len (r_ts o) = t -> r_freqs o = base_freqs n -> 1 <= n -> 1 <= t -> 1 <= zlen (r_sig o) ->
  outcome (stft_picture k tf th o) (if n =? 1 then Some ValueError else refusal k tf (n / 2) t (zlen (r_sig o))).
Proof.
  intros k tf th o n t S EN LT FR Hn Ht HN. unfold stft_picture, stft_plot. rewrite EN, FR. cbv zeta.
  assert (S2 : shaped (sqmod_tfr (first_rows (n / 2) (r_tfr o))) (n / 2) t) by (apply shaped_sq, (shaped_first _ _ n); [Z.to_euclidean_division_equations; lia|exact S]).
  destruct (Z.eqb_spec n 1) as [->|N1].
  - rewrite (threshold_raise th _ _ _ (or_introl eq_refl) S2). reflexivity.
  - assert (H2 : 1 <= n / 2) by (Z.to_euclidean_division_equations; lia). destruct (threshold_ok th _ _ _ H2 Ht S2) as (tfr' & E & S'). rewrite E. cbn [bind]. set (o1 := with_tfr _ _ _ _).
    destruct (view_shape o1 (n / 2) t ltac:(lia) Ht S') as [V1 V2]. change (r_sig o) with (v_sig (rep_view o1)) at 1. apply base_outcome; auto; [|lia|left; apply half_freqs_ne; lia].
    change (v_ts (rep_view o1)) with (ts_vals (r_ts o)). now rewrite ts_vals_len.
Qed.
Lemma c93_spectrogram : forall k tf th o n t, shaped (r_tfr o) n t -> r_n o = n -> ts_len (r_ts o) = t -> r_freqs o = base_freqs n -> 1 <= n -> 1 <= t -> 1 <= zlen (r_sig o) ->
  outcome (spec_picture k tf th o) (if n =? 1 then Some ValueError else refusal k tf (n / 2) t (zlen (r_sig o))).
Proof.
  intros k tf th o n t S EN LT FR Hn Ht HN. unfold spec_picture, spec_plot. rewrite EN, FR. cbv zeta.
  assert (S2 : shaped (first_rows (n / 2) (r_tfr o)) (n / 2) t) by (apply (shaped_first _ _ n); [Z.to_euclidean_division_equations; lia|exact S]).
  destruct (Z.eqb_spec n 1) as [->|N1].
  - rewrite (proj2 (amax_raise_iff _) (shaped_nil _ _ _ (or_introl eq_refl) S2)). reflexivity.
  - assert (H2 : 1 <= n / 2) by (Z.to_euclidean_division_equations; lia). destruct (amax_cases (first_rows (n / 2) (r_tfr o))) as [[m E]|[_ E]]; [|now apply (shaped_ne _ _ _ H2 Ht S2) in E]. rewrite E. cbn [bind fst]. rewrite cut_first_rows. set (o1 := with_tfr _ _ _ _).
    destruct (view_shape o1 (n / 2) t ltac:(lia) Ht (shaped_cut (m * th) _ _ _ S2)) as [V1 V2]. change (r_sig o) with (v_sig (rep_view o1)) at 1. apply base_outcome; auto; [|lia|left; apply half_freqs_ne; lia].
    change (v_ts (rep_view o1)) with (ts_vals (r_ts o)). now rewrite ts_vals_len.
Qed.
Lemma c93_mh : forall k tf th o n t, shaped (r_tfr o) n t -> ts_len (r_ts o) = t -> 1 <= n -> 1 <= t -> 1 <= zlen (r_sig o) ->
  outcome (mh_picture k tf th o) (if n =? 1 then Some ValueError else refusal k tf (n / 2) t (zlen (r_sig o))).
Proof.
  intros k tf th o n t S LT Hn Ht HN. unfold mh_picture, mh_plot.
  assert (RW : match r_tfr o with c :: _ => zlen c | [] => r_n o end = n). { destruct S as [L S]. destruct (r_tfr o) as [|c l]; [unfold zlen in L; cbn in L; lia|]. apply S. now left. } rewrite RW. cbv zeta.
  assert (S2 : shaped (sqmod_tfr (first_rows (n / 2) (r_tfr o))) (n / 2) t) by (apply shaped_sq, (shaped_first _ _ n); [Z.to_euclidean_division_equations; lia|exact S]).
  destruct (Z.eqb_spec n 1) as [->|N1].
  - rewrite (threshold_raise th _ _ _ (or_introl eq_refl) S2). reflexivity.
  - assert (H2 : 1 <= n / 2) by (Z.to_euclidean_division_equations; lia). destruct (threshold_ok th _ _ _ H2 Ht S2) as (tfr' & E & S'). rewrite E. cbn [bind]. set (o1 := with_tfr _ _ _ _).
    assert (TV : ts_vals (r_ts o) <> []) by (apply ne_zlen; rewrite ts_vals_len; lia). destruct (rmax_ok _ TV) as [hi ->]. cbn [bind].
    destruct (view_shape o1 (n / 2) t ltac:(lia) Ht S') as [V1 V2]. change (r_sig o) with (v_sig (rep_view o1)) at 1. apply base_outcome; auto; [|lia|right; discriminate].
    change (v_ts (rep_view o1)) with (ts_vals (r_ts o)). now rewrite ts_vals_len.
Qed.
(** With the default number of bins the halved matrix no longer fits the axes. *)
Lemma c93_half_refuted : forall x w th o, 4 <= zlen x ->
  (stft x None None (Some w) = Ok o -> stft_picture Kcontour true th o = Raise TypeError /\ stft_picture Ksurf false th o = Raise ValueError /\ stft_picture Kwire false th o = Raise ValueError) /\
  (mh x None None = Ok o -> mh_picture Kcontour true th o = Raise TypeError /\ mh_picture Ksurf false th o = Raise ValueError /\ mh_picture Kwire false th o = Raise ValueError).
Proof.
  intros x w th o HN. set (N := zlen x) in *. set (ts := TsI (arange 0 N)). assert (TL : ts_len ts = N) by (unfold ts; cbn; rewrite arange_zlen; lia).
  assert (H2 : 2 <= N / 2 < N) by (Z.to_euclidean_division_equations; lia).
  assert (R1 : refusal Kcontour true (N / 2) N N = Some TypeError) by (cbn; destruct (Z.eqb_spec (N / 2) N); [lia|reflexivity]).
  assert (R2 : forall k, k = Ksurf \/ k = Kwire -> refusal k false (N / 2) N N = Some ValueError). { intros k [-> | ->]; cbn; destruct (Z.eqb_spec (N / 2) N); [lia| |lia|]; destruct (Z.eqb_spec (N / 2) 1); [lia| |lia|]; destruct (Z.eqb_spec N 1); [lia| |lia|]; reflexivity. }
  split; intros H.
  - change (stft x None None (Some w)) with (stft x (Some ts) (Some N) (Some w)) in H.
    assert (FR : r_freqs o = base_freqs N). { unfold stft, stft_run in H. cbn [r_sig r_win r_n r_tfr r_ts r_freqs r_real base_init] in H. destruct (stft_tfr _ _ _ _ _); [|discriminate]. cbn [bind] in H. okeq H. reflexivity. }
    destruct (c93_shapes x ts N w o ltac:(lia) (or_introl H)) as (S & EN & ET & EX).
    assert (O := fun k tf => c93_stft k tf th o N N). rewrite ET, EX, TL in O. rewrite TL in S. assert (N =? 1 = false) as N1 by (apply Z.eqb_neq; lia). rewrite N1 in O. fold N in O.
    repeat split; [assert (Q := O Kcontour true)|assert (Q := O Ksurf false)|assert (Q := O Kwire false)]; specialize (Q S EN eq_refl FR ltac:(lia) ltac:(lia) ltac:(lia)); rewrite ?R1, ?R2 in Q by auto; exact Q.
  - change (mh x None None) with (mh x (Some ts) (Some N)) in H.
    destruct (c93_shapes x ts N [] o ltac:(lia) (or_intror (or_intror (or_introl H)))) as (S & EN & ET & EX).
    assert (O := fun k tf => c93_mh k tf th o N N). rewrite ET, EX, TL in O. rewrite TL in S. assert (N =? 1 = false) as N1 by (apply Z.eqb_neq; lia). rewrite N1 in O. fold N in O.
    repeat split; [assert (Q := O Kcontour true)|assert (Q := O Ksurf false)|assert (Q := O Kwire false)]; specialize (Q S eq_refl ltac:(lia) ltac:(lia) ltac:(lia)); rewrite ?R1, ?R2 in Q by auto; exact Q.
Qed.
(** The Wigner-Ville picture of a default object is drawn, whatever the kind. *)
Lemma c93_wvd_default : forall x o k tf sq th, 2 <= zlen x -> wvd x None None = Ok o -> exists p, wvd_picture k tf sq th o = Ok p.
Proof.
  intros x o k tf sq th HN H. set (N := zlen x) in *. set (ts := TsI (arange 0 N)). assert (TL : ts_len ts = N) by (unfold ts; cbn; rewrite arange_zlen; lia).
  change (wvd x None None) with (wvd x (Some ts) (Some N)) in H. destruct (c93_shapes x ts N [] o ltac:(lia) (or_intror (or_introl H))) as (S & EN & ET & EX). rewrite TL in S.
  assert (FR : r_freqs o <> []). { unfold wvd, wvd_run in H. cbn [r_sig r_win r_n r_tfr r_ts r_freqs r_real base_init] in H. destruct (wvd_tfr _ _ _ _ _); [|discriminate]. cbn [bind] in H. okeq H. cbn [r_freqs]. apply ne_zlen. unfold wvd_freqs. rewrite zlen_map_arange by lia. lia. }
  assert (O := c93_wvd k tf sq th o N N S). rewrite ET, EX in O. specialize (O TL ltac:(lia) ltac:(lia) ltac:(lia) FR). fold N in O. assert (R : refusal k tf N N N = None).
  { assert (L2 : 2 <=? N = true) by (apply Z.leb_le; lia). destruct k; destruct tf; cbn [refusal]; rewrite ?Z.eqb_refl, ?L2; reflexivity. } rewrite R in O. exact O.
Qed.
(** A short-time Fourier transform of 4 bins at 4 instants. *)
Example c93_example : let x := [RtoC 1; RtoC 2; RtoC 3; RtoC 4] in
  let o := mkrep x (TsI [0; 1; 2; 3]) 4 [RtoC 1] (base_freqs 4) [x; x; x; x] false in
  (exists p, stft_picture Kcmap true (1 / 20) o = Ok p) /\ stft_picture Kcontour true (1 / 20) o = Raise TypeError /\
  (exists p, stft_picture Kcontour false (1 / 20) o = Ok p) /\ stft_picture Ksurf false (1 / 20) o = Raise ValueError /\ (exists p, wvd_picture Ksurf false true (1 / 20) o = Ok p).
Proof.
  intros x o. assert (S : shaped (r_tfr o) 4 4) by (split; [reflexivity|]; intros c [<-|[<-|[<-|[<-|[]]]]]; reflexivity).
  assert (FN : r_freqs o <> []) by (apply ne_zlen; cbn [o r_freqs]; destruct (base_freqs_even 4 ltac:(lia) eq_refl) as [-> _]; lia).
  assert (A := fun k tf => c93_stft k tf (1 / 20) o 4 4 S eq_refl eq_refl eq_refl ltac:(lia) ltac:(lia) ltac:(discriminate)).
  assert (B := c93_wvd Ksurf false true (1 / 20) o 4 4 S eq_refl ltac:(lia) ltac:(lia) ltac:(discriminate) FN).
  exact (conj (A Kcmap true) (conj (A Kcontour true) (conj (A Kcontour false) (conj (A Ksurf false) B)))).
Qed.
