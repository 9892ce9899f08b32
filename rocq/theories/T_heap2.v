(** C121, continued: calls that raise, [plot] against its value model, and the spectrogram run again
    after [plot], through the view. *)
From Coq Require Import Reals ZArith List Lia Lra Bool.
From Coquelicot Require Import Coquelicot.
From Verif Require Import Py Scalars CSum DFT Spec M_base M_stft M_cohen M_state M_heap M_utils.
From Verif Require Import P_base P_stft P_wvd P_pwvd T_utils P_spec T_state T_mh T_plot T_heap.
Import ListNotations.
Local Open Scope Z_scope.

(** *** A loop some of whose passes raise *)
Lemma loop_fate {A} (g : A -> list C -> list C * fate) (P : list C -> Prop) (bad : A -> bool) (G H : A -> list C -> list C) e l cols :
  (forall a c, In a l -> P c -> g a c = if bad a then (H a c, Err e) else (G a c, Done)) -> length l = length cols -> List.Forall P cols ->
  snd (loop (map g l) cols) = (if existsb bad l then Err e else Done) /\
  forall i a, nth_error l i = Some a ->
  nth i (fst (loop (map g l) cols)) [] =
    if existsb bad (firstn i l) then nth i cols [] else if bad a then H a (nth i cols []) else G a (nth i cols []).
Proof.
  revert cols. induction l as [|b l IH]; intros [|c cs] Hg L FP; cbn [length] in L; try lia.
  - split; [reflexivity|]. intros [|i] a E; discriminate.
  - inversion FP as [|? ? Pc Pcs]; subst. cbn [map loop existsb]. rewrite (Hg b c (or_introl eq_refl) Pc). specialize (IH cs ltac:(intros a c' Ha; apply Hg; now right) ltac:(lia) Pcs). destruct IH as [IH1 IH2].
    destruct (bad b) eqn:Eb; cbn [orb].
    + split; [reflexivity|]. intros [|i] a E; cbn [nth_error] in E; cbn [fst nth firstn existsb].
      * injection E as <-. now rewrite Eb.
      * now rewrite Eb.
    + destruct (loop (map g l) cs) as [cs' f]. cbn [fst snd] in *. split; [exact IH1|]. intros [|i] a E; cbn [nth_error] in E; cbn [nth firstn existsb].
      * injection E as <-. now rewrite Eb.
      * rewrite Eb. cbn [orb]. now apply IH2.
Qed.

(** *** [run] that raises *)
Lemma wvd_first_ok (x : list C) n c col : 0 < n -> zlen col = n -> 0 <= c < zlen x ->
  wvd_first false x n c col = Ok (puts col (map (fun t => ((n + t) mod n, wvd_val x c t)) (wvd_taus (zlen x) n c))).
Proof.
  intros Hn Hc Hi. unfold wvd_first. fold (wvd_taus (zlen x) n c).
  rewrite (take_ok (RtoC 0)).
  2:{ intros i Hi'. apply in_map_iff in Hi'. destruct Hi' as [t [<- Ht]]. unfold wvd_taus in Ht. apply in_arange in Ht. lia. }
  cbn [bind]. rewrite (take_ok (RtoC 0)).
  2:{ intros i Hi'. apply in_map_iff in Hi'. destruct Hi' as [t [<- Ht]]. rewrite zlen_map. unfold wvd_taus in Ht. apply in_arange in Ht. lia. }
  cbn [bind]. rewrite !map_map, bcast_map. cbn [bind]. rewrite map_map. rewrite put_map_ok.
  2:{ intros t _. rewrite Hc. apply Z.mod_pos_bound. lia. }
  do 2 f_equal. apply map_ext. intros t. f_equal. unfold wvd_val, ncast. f_equal. apply (cnth_conj x).
Qed.
Lemma pwvd_first_ok (x w : list C) n c col : 0 < n -> zlen col = n -> 0 <= c ->
  pwvd_first false x w n c col = Ok (puts col (map (fun t => ((n + t) mod n, pwvd_val x w c t)) (pwvd_taus (zlen x) w n c))).
Proof.
  intros Hn Hc Hi. unfold pwvd_first. fold (pwvd_taus (zlen x) w n c). assert (B := win_lh_bounds w).
  rewrite (take_ok (RtoC 0)).
  2:{ intros i Hi'. apply in_map_iff in Hi'. destruct Hi' as [t [<- Ht]]. unfold pwvd_taus in Ht. apply in_arange in Ht. lia. }
  cbn [bind]. rewrite (take_ok (RtoC 0)).
  2:{ intros i Hi'. apply in_map_iff in Hi'. destruct Hi' as [t [<- Ht]]. unfold pwvd_taus in Ht. apply in_arange in Ht. lia. }
  cbn [bind]. rewrite !map_map, bcast_map. cbn [bind]. rewrite (take_ok (RtoC 0)).
  2:{ intros i Hi'. apply in_map_iff in Hi'. destruct Hi' as [t [<- Ht]]. unfold pwvd_taus in Ht. apply in_arange in Ht. lia. }
  cbn [bind]. rewrite !map_map, bcast_map. cbn [bind]. rewrite map_map. rewrite put_map_ok; [reflexivity|].
  intros t _. rewrite Hc. apply Z.mod_pos_bound. lia.
Qed.
Lemma nth_error_arange T i : 0 <= i < T -> nth_error (arange 0 T) (Z.to_nat i) = Some i.
Proof.
  intros H. rewrite (arange_at 0 T i) by lia. rewrite nth_error_app2; rewrite arange_length, Z.sub_0_r; [|lia]. now rewrite Nat.sub_diag.
Qed.
Lemma firstn_arange T i : 0 <= i <= T -> firstn (Z.to_nat i) (arange 0 T) = arange 0 i.
Proof.
  intros H. rewrite (arange_app 0 i T) by lia. rewrite firstn_app, arange_length, Z.sub_0_r, Nat.sub_diag, firstn_O, app_nil_r. apply firstn_all2. rewrite arange_length. lia.
Qed.
Lemma nth_zeros2 n T i : 0 <= i < T -> nth (Z.to_nat i) (zeros2 (T:=C) n T) [] = zeros n.
Proof. intros H. apply nth_error_nth. unfold zeros2. apply nth_error_repeat. lia. Qed.
Lemma Forall_zeros2 n T : 0 <= n -> List.Forall (fun c : list C => zlen c = n) (zeros2 n T).
Proof. intros H. apply List.Forall_forall. intros c Hc. apply repeat_spec in Hc. subst. now apply zeros_zlen. Qed.
(** What a column holds after its assignment: the value of the last lag at the row. *)
Lemma put_lags n a b (v : Z -> C) col : 0 < n -> zlen col = n ->
  let out := puts col (map (fun t => ((n + t) mod n, v t)) (arange a (b + 1))) in
  (forall t, a <= t <= b -> (forall t', t < t' <= b -> t' mod n <> t mod n) -> cnth out (t mod n) = v t) /\
  (forall f, 0 <= f -> (forall t, a <= t <= b -> t mod n <> f) -> cnth out f = cnth col f).
Proof.
  intros Hn Hc out. split.
  - intros t Ht Hl. unfold out. rewrite (arange_at _ _ t) by lia. replace (t mod n) with ((n + t) mod n) by (apply mod_add_n; lia).
    apply (nth_puts_last col (fun t => (n + t) mod n) v).
    + rewrite Hc. apply Z.mod_pos_bound. lia.
    + intros j Hj. apply in_arange in Hj. rewrite !mod_add_n by lia. split; [apply Z.mod_pos_bound; lia|]. apply Hl. lia.
  - intros f Hf Hout. unfold out, cnth. apply nth_puts_out; [exact Hf|]. intros i v0 Hi. apply in_map_iff in Hi. destruct Hi as (t & E & Ht). injection E as <- <-. rewrite mod_add_n by lia. split; [apply Z.mod_pos_bound; lia|]. apply Hout. apply in_arange in Ht. lia.
Qed.
(** The Wigner-Ville distribution with few bins raises at column round(n/2)+1.  The object's matrix
    then holds the lag products of the columns up to that one and zeros after it; nothing has been
    transformed. *)
Lemma c121_wvd_failed_run : forall x ts n, 1 <= n -> ts_len ts = zlen x -> 2 * round_half n + 1 <= zlen x -> round_half n + 1 < zlen x ->
  exists s, run_step KWvd (create x (Some ts) (Some n) None) = Some (s, Raise IndexError) /\
  forall c, 0 <= c < zlen x ->
  let m := Z.min (Z.min c (zlen x - c - 1)) (round_half n - 1) in
  (c <= round_half n + 1 ->
    (forall t, - m <= t <= m -> (forall t', t < t' <= m -> t' mod n <> t mod n) -> at2 (view s) (t mod n) c = (cnth x (c + t) * Cconj (cnth x (c - t)))%C) /\
    (forall f, 0 <= f < n -> (forall t, - m <= t <= m -> t mod n <> f) -> at2 (view s) f c = RtoC 0)) /\
  (round_half n + 1 < c -> forall f, 0 <= f < n -> at2 (view s) f c = RtoC 0).
Proof.
  intros x ts n Hn HT Hlong Hl0. assert (RH := round_half_bounds n). set (N := zlen x) in *.
  set (H := fun c col => puts col (map (fun t => ((n + t) mod n, wvd_val x c t)) (wvd_taus N n c))).
  set (cols := fst (loop (map (fun c => two_pass (wvd_first false x n c) (wvd_col false x n c)) (arange 0 N)) (zeros2 n N))).
  destruct (loop_fate (fun c => two_pass (wvd_first false x n c) (wvd_col false x n c)) (fun c => zlen c = n) (wvd_bad N n) H H IndexError (arange 0 N) (zeros2 n N)) as [F1 F2].
  { intros c col Hc Pc. cbn beta in Pc. apply in_arange in Hc. unfold two_pass. rewrite wvd_col_ok, wvd_first_ok by (fold N; lia). fold N. destruct (wvd_bad N n c); reflexivity. }
  { unfold zeros2. rewrite arange_length, repeat_length. f_equal. lia. }
  { apply Forall_zeros2. lia. }
  fold cols in F2.
  assert (EX : existsb (wvd_bad N n) (arange 0 N) = true). { apply existsb_exists. exists (round_half n + 1). split; [apply in_arange; lia|]. unfold wvd_bad. apply andb_true_intro. split; apply Z.leb_le; lia. }
  rewrite EX in F1.
  exists (mkst x ts n (map RtoC (make_window n)) (base_freqs n) 0 None false [cols]). split.
  - unfold run_step, precheck. unfold passes, view, cell, create. cbn [s_sig s_ts s_n s_win s_freqs s_real s_rows s_mem s_at base_init r_sig r_ts r_n r_win r_freqs r_tfr nth]. fold N. rewrite HT, Z.eqb_refl.
    destruct (loop _ (zeros2 n N)) as [cs f]. cbn [fst snd] in *. subst f. reflexivity.
  - intros c Hc m. unfold view, cell. cbn [s_rows s_at s_mem nth]. unfold at2. rewrite (F2 (Z.to_nat c) c) by (apply nth_error_arange; exact Hc). rewrite firstn_arange by lia. rewrite nth_zeros2 by lia. split.
    + intros Hle. assert (E0 : existsb (wvd_bad N n) (arange 0 c) = false). { destruct (existsb _ (arange 0 c)) eqn:E; auto. apply existsb_exists in E. destruct E as (k & Hk & E). apply in_arange in Hk. unfold wvd_bad in E. apply andb_prop in E. destruct E as [_ E]. apply Z.leb_le in E. lia. }
      rewrite E0. replace (if wvd_bad N n c then H c (zeros n) else H c (zeros n)) with (H c (zeros n)) by (destruct (wvd_bad N n c); reflexivity).
      destruct (put_lags n (- m) m (wvd_val x c) (zeros n) ltac:(lia) ltac:(apply zeros_zlen; lia)) as [P1 P2]. split.
      * intros t Ht Hl. apply P1; auto.
      * intros f Hf Hout. etransitivity; [apply (P2 f); auto; lia|]. apply cnth_zeros.
    + intros Hgt f Hf. assert (E0 : existsb (wvd_bad N n) (arange 0 c) = true). { apply existsb_exists. exists (round_half n + 1). split; [apply in_arange; lia|]. unfold wvd_bad. apply andb_true_intro. split; apply Z.leb_le; lia. }
      rewrite E0. apply cnth_zeros.
Qed.
(** The pseudo Wigner-Ville distribution, when the window reaches round(n/2). *)
Lemma c121_pwvd_failed_run : forall x ts n w, 1 <= n -> 2 * round_half n + 1 <= zlen x -> round_half n + 1 < ts_len ts -> round_half n <= (zlen w - 1) / 2 ->
  exists s, run_step KPwvd (create x (Some ts) (Some n) (Some w)) = Some (s, Raise IndexError) /\
  forall c, 0 <= c < ts_len ts ->
  let lh := (zlen w - 1) / 2 in
  let m := Z.min (Z.min c (zlen x - c - 1)) (round_half n) in
  (c <= round_half n + 1 ->
    (forall t, - m <= t <= m -> (forall t', t < t' <= m -> t' mod n <> t mod n) -> at2 (view s) (t mod n) c = (cnth w (lh + t) * cnth x (c + t) * Cconj (cnth x (c - t)))%C) /\
    (forall f, 0 <= f < n -> (forall t, - m <= t <= m -> t mod n <> f) -> at2 (view s) f c = RtoC 0)) /\
  (round_half n + 1 < c -> forall f, 0 <= f < n -> at2 (view s) f c = RtoC 0).
Proof.
  intros x ts n w Hn Hlong HT Hw. assert (RH := round_half_bounds n). set (T := ts_len ts) in *. set (N := zlen x) in *. fold (win_lh w) in *.
  set (H := fun c col => puts col (map (fun t => ((n + t) mod n, pwvd_val x w c t)) (pwvd_taus N w n c))).
  set (cols := fst (loop (map (fun c => two_pass (pwvd_first false x w n c) (pwvd_col false x w n c)) (arange 0 T)) (zeros2 n T))).
  destruct (loop_fate (fun c => two_pass (pwvd_first false x w n c) (pwvd_col false x w n c)) (fun c => zlen c = n) (pwvd_bad N w n) H H IndexError (arange 0 T) (zeros2 n T)) as [F1 F2].
  { intros c col Hc Pc. cbn beta in Pc. apply in_arange in Hc. unfold two_pass. rewrite pwvd_col_ok, pwvd_first_ok by (fold N; lia). fold N. destruct (pwvd_bad N w n c); reflexivity. }
  { unfold zeros2. rewrite arange_length, repeat_length. f_equal. lia. }
  { apply Forall_zeros2. lia. }
  fold cols in F2.
  assert (BB : pwvd_bad N w n (round_half n + 1) = true). { unfold pwvd_bad. rewrite !andb_true_iff, !Z.leb_le. lia. }
  assert (EX : existsb (pwvd_bad N w n) (arange 0 T) = true). { apply existsb_exists. exists (round_half n + 1). split; [apply in_arange; lia|exact BB]. }
  rewrite EX in F1.
  exists (mkst x ts n w (base_freqs n) 0 None false [cols]). split.
  - unfold run_step, precheck. unfold passes, view, cell, create. cbn [s_sig s_ts s_n s_win s_freqs s_real s_rows s_mem s_at base_init r_sig r_ts r_n r_win r_freqs r_tfr nth]. fold N T.
    destruct (loop _ (zeros2 n T)) as [cs f]. cbn [fst snd] in *. subst f. reflexivity.
  - intros c Hc lh m. unfold view, cell. cbn [s_rows s_at s_mem nth]. unfold at2. rewrite (F2 (Z.to_nat c) c) by (apply nth_error_arange; exact Hc). rewrite firstn_arange by lia. rewrite nth_zeros2 by lia. split.
    + intros Hle. assert (E0 : existsb (pwvd_bad N w n) (arange 0 c) = false). { destruct (existsb _ (arange 0 c)) eqn:E; auto. apply existsb_exists in E. destruct E as (k & Hk & E). apply in_arange in Hk. unfold pwvd_bad in E. rewrite !andb_true_iff, !Z.leb_le in E. lia. }
      rewrite E0. replace (if pwvd_bad N w n c then H c (zeros n) else H c (zeros n)) with (H c (zeros n)) by (destruct (pwvd_bad N w n c); reflexivity).
      destruct (put_lags n (- m) m (pwvd_val x w c) (zeros n) ltac:(lia) ltac:(apply zeros_zlen; lia)) as [P1 P2].
      assert (TE : H c (zeros n) = puts (zeros n) (map (fun t => ((n + t) mod n, pwvd_val x w c t)) (arange (- m) (m + 1)))). { unfold H, pwvd_taus. replace (Z.min (Z.min c (N - c - 1)) (Z.min (round_half n) (win_lh w))) with m by (unfold m; lia). reflexivity. }
      rewrite TE. split.
      * intros t Ht Hl. rewrite (P1 t Ht Hl). reflexivity.
      * intros f Hf Hout. rewrite (P2 f) by (auto; lia). apply cnth_zeros.
    + intros Hgt f Hf. assert (E0 : existsb (pwvd_bad N w n) (arange 0 c) = true). { apply existsb_exists. exists (round_half n + 1). split; [apply in_arange; lia|exact BB]. }
      rewrite E0. apply cnth_zeros.
Qed.

(** *** [plot] *)
(** The memory model of [plot] and the value model agree on every reachable state.  For a spectrogram
    the state must be one after a successful run (before it the matrix is complex). *)
Definition value_plot (k : cls) (th : R) (o : rep C) : res (rep C) :=
  match k with
  | KStft => stft_plot th o
  | KSpec => p <- spec_plot th o ;; Ok (fst p)
  | KWvd | KPwvd => wvd_plot false th o
  | KMh | KPmh => mh_plot th o
  | KPage => page_plot o
  end.
Lemma plot_fresh_model s freqs th m :
  match threshold th m with
  | Ok t => exists s', plot_fresh s freqs th m = (s', Ok 0%nat) /\ obj s' = with_tfr (obj s) freqs t true
  | Raise e => exists s', plot_fresh s freqs th m = (s', Raise e)
  end.
Proof.
  unfold plot_fresh. destruct (threshold th m) as [t|e]; eexists; [|reflexivity]. split; [reflexivity|]. unfold obj, with_tfr, view, fresh, cell. cbn [s_rows s_at s_mem s_sig s_ts s_n s_win s_freqs s_real r_sig r_ts r_n r_win]. now rewrite nth_last.
Qed.
Lemma cut_head (f : C -> C) k (c : list C) : firstn k (map f (firstn k c) ++ skipn k c) = map f (firstn k c).
Proof.
  rewrite firstn_app, map_length, firstn_length. rewrite (firstn_all2 (map f (firstn k c))) by (rewrite map_length, firstn_length; lia). destruct (Nat.le_gt_cases k (length c)).
  - rewrite Nat.min_l, Nat.sub_diag by lia. now rewrite firstn_O, app_nil_r.
  - rewrite (skipn_all2 c) by lia. now rewrite firstn_nil, app_nil_r.
Qed.
Lemma first_cut h t (m : list (list C)) : first_rows h (cut_first h t m) = map (fun c => map (fun z => if Rle_dec (Re z) t then RtoC 0 else z) (firstn (Z.to_nat h) c)) m.
Proof. unfold first_rows, cut_first, prefix. rewrite map_map. apply map_ext. intros c. apply cut_head. Qed.
Lemma first_rows_idem h (m : list (list C)) : first_rows h (first_rows h m) = first_rows h m.
Proof. unfold first_rows, prefix. rewrite map_map. apply map_ext. intros c. rewrite firstn_firstn. now rewrite Nat.min_id. Qed.
Lemma step_rows k p s s' r : (forall h, s_rows s = Some h -> h = s_n s / 2) -> step k p s = Some (s', r) -> forall h, s_rows s' = Some h -> h = s_n s' / 2.
Proof.
  intros I H. assert (X : forall freqs th m h, s_rows (fst (plot_fresh s freqs th m)) = Some h -> False) by (intros freqs th m h; unfold plot_fresh; destruct (threshold th m); cbn; discriminate).
  destruct p as [|th]; cbn [step] in H.
  - unfold run_step in H. destruct (precheck k s); [injection H as <- _; exact I|]. destruct (loop (passes k s) (view s)) as [cols [| |]]; [| |discriminate]; injection H as <- _; cbn; [discriminate|exact I].
  - injection H as H. unfold plot_step in H. cbv zeta in H. destruct k.
    2:{ destruct (amax (first_rows (s_n s / 2) (view s))); injection H as <- _; cbn; intros h E; injection E as <-; reflexivity. }
    5:{ injection H as <- _. exact I. }
    all: intros h E; exfalso; match type of H with plot_fresh _ ?f _ ?m = _ => apply (X f th m h); rewrite H; exact E end.
Qed.
Lemma reachable_rows k s : reachable k s -> forall h, s_rows s = Some h -> h = s_n s / 2.
Proof.
  intros (x & ts & n & w & ps & H). assert (I : forall h, s_rows (create x ts n w) = Some h -> h = s_n (create x ts n w) / 2) by (cbn; discriminate). revert I H. generalize (create x ts n w). induction ps as [|p ps IH]; intros s0 I H; cbn [history] in H; [injection H as <-; exact I|]. destruct (step k p s0) as [[s1 r]|] eqn:E; [|discriminate]. exact (IH s1 (step_rows _ _ _ _ _ I E) H).
Qed.
Lemma c121_plot_model : forall k s th, reachable k s -> (k = KSpec -> s_real s = true) ->
  match value_plot k th (obj s) with
  | Ok o => exists s', step k (Plot th) s = Some (s', Ok 0%nat) /\ obj s' = o
  | Raise e => exists s', step k (Plot th) s = Some (s', Raise e)
  end.
Proof.
  intros k s th RE HR. destruct (reachable_wf _ _ RE) as [W1 _]. assert (RR := reachable_rows _ _ RE).
  assert (FR : forall freqs m, match (t <- threshold th m ;; Ok (with_tfr (obj s) freqs t true)) with
    | Ok o => exists s', Some (plot_fresh s freqs th m) = Some (s', Ok 0%nat) /\ obj s' = o
    | Raise e => exists s', Some (plot_fresh s freqs th m) = Some (s', Raise e) end).
  { intros freqs m. assert (P := plot_fresh_model s freqs th m). destruct (threshold th m); cbn [bind]; destruct P as [s' P]; exists s'; [destruct P as [P1 P2]; rewrite P1; auto|now rewrite P]. }
  cbn [step]. destruct k; cbn [value_plot plot_step]; try apply FR.
  - unfold spec_plot. cbn [obj r_n r_tfr r_freqs]. set (h := s_n s / 2) in *.
    assert (VF : first_rows h (view s) = first_rows h (cell s (s_at s))). { unfold view. destruct (s_rows s) as [h'|]; [|reflexivity]. rewrite (RR h' eq_refl). apply first_rows_idem. }
    rewrite VF. destruct (amax (first_rows h (cell s (s_at s)))) as [m|e]; cbn [bind fst]; [|eexists; reflexivity]. eexists. split; [reflexivity|].
    unfold obj, with_tfr, view, cell. cbn [s_rows s_at s_mem s_sig s_ts s_n s_win s_freqs s_real r_sig r_ts r_n r_win]. rewrite upd_nth by exact W1. rewrite (HR eq_refl). f_equal. rewrite !first_cut. destruct (s_rows s) as [h'|]; [|reflexivity]. rewrite (RR h' eq_refl). unfold first_rows. rewrite map_map. apply map_ext. intros c. unfold prefix. rewrite firstn_firstn, Nat.min_id. reflexivity.
  - eexists. reflexivity.
Qed.
(** For a spectrogram [plot] allocates nothing: it writes into the array last handed out, which is
    afterwards what the value model says. *)
Lemma c121_spectrogram_plot : forall s th o arr, reachable KSpec s -> s_rows s = None -> spec_plot th (obj s) = Ok (o, arr) ->
  exists s', step KSpec (Plot th) s = Some (s', Ok 0%nat) /\ s_at s' = s_at s /\ cell s' (s_at s) = arr /\ view s' = r_tfr o.
Proof.
  intros s th o arr RE NR H. destruct (reachable_wf _ _ RE) as [W1 _]. unfold spec_plot in H. cbn [obj r_n r_tfr r_freqs] in H. cbn [step plot_step]. unfold view in *. rewrite NR in *. destruct (amax (first_rows (s_n s / 2) (cell s (s_at s)))) as [m|e]; cbn [bind] in H; [|discriminate]. injection H as <- <-. eexists. split; [reflexivity|]. unfold cell. cbn [s_at s_rows s_mem r_tfr with_tfr]. rewrite upd_nth by exact W1. auto.
Qed.
(** The caller of the pseudo Wigner-Ville class sees the real parts. *)
Lemma c121_pwvd_view : forall s a f c, at2 (seen KPwvd s a) f c = RtoC (Re (at2 (cell s a) f c)).
Proof.
  intros s a f c. unfold seen, at2, cnth. change (@nil C) with (map (nre (T:=C)) []) at 1. rewrite map_nth. change (RtoC 0) with (nre (RtoC 0)) at 1. rewrite map_nth. reflexivity.
Qed.

(** *** A spectrogram run again after [plot] *)
Lemma combine_map_l2 {A B D} (f : A -> B) (g : A -> D) l : combine (map f l) (map g l) = map (fun a => (f a, g a)) l.
Proof. induction l as [|a l IH]; cbn; [reflexivity|]. now rewrite IH. Qed.
Lemma spec_col_short x w n h ti col : 0 < n -> zlen col = h -> (forall v, In v w -> v <> RtoC 0) ->
  spec_pass true x w n ti col =
  if existsb (fun t => h <=? t mod n) (spec_taus (zlen x) w n ti) then (col, Err IndexError)
  else (puts col (map (fun t => ((n + t) mod n, RtoC (Re (spec_val x w n ti t)))) (spec_taus (zlen x) w n ti)), Done).
Proof.
  intros Hn Hc Hw. unfold spec_pass, spec_col. fold (spec_m w n). fold (spec_taus (zlen x) w n ti).
  rewrite (take_ok (RtoC 0)).
  2:{ intros i Hi. apply in_map_iff in Hi. destruct Hi as [t [<- Ht]]. apply spec_taus_ok in Ht. lia. }
  cbn [bind]. rewrite (take_ok (RtoC 0)).
  2:{ intros i Hi. apply in_map_iff in Hi. destruct Hi as [t [<- Ht]]. rewrite zlen_map. apply spec_taus_ok in Ht. lia. }
  cbn [bind]. rewrite !map_map, bcast_map. cbn [bind]. rewrite (take_ok (RtoC 0)).
  2:{ intros i Hi. apply in_map_iff in Hi. destruct Hi as [t [<- Ht]]. apply spec_taus_ok in Ht. lia. }
  cbn [bind]. rewrite !map_map. change (norm2 _) with (spec_nrm x w n ti).
  destruct (existsb (fun t => h <=? t mod n) (spec_taus (zlen x) w n ti)) eqn:EX.
  - apply existsb_exists in EX. destruct EX as (t & Ht & Eh). apply Z.leb_le in Eh.
    unfold put. rewrite !map_length, Nat.eqb_refl. rewrite put_aux_raise; [reflexivity|].
    rewrite combine_map_l2. eexists. eexists. split; [apply in_map_iff; exists t; split; [reflexivity|exact Ht]|]. unfold remainder. rewrite mod_add_n by lia. lia.
  - rewrite (put_map_ok col (remainder n)).
    2:{ intros t Ht. unfold remainder. rewrite mod_add_n by lia. assert (B := Z.mod_pos_bound t n ltac:(lia)). split; [lia|]. destruct (Z.leb_spec h (t mod n)) as [L|L]; [|lia]. exfalso. assert (existsb (fun t => h <=? t mod n) (spec_taus (zlen x) w n ti) = true) by (apply existsb_exists; exists t; split; [exact Ht|apply Z.leb_le; lia]). congruence. }
    cbn [bind]. assert (PE : map (fun t => (remainder n t, ncast true (cnth x (ti + t - 1) * cnth (map Cconj w) (win_lh w + t) / RtoC (spec_nrm x w n ti))%C)) (spec_taus (zlen x) w n ti) = map (fun t => ((n + t) mod n, RtoC (Re (spec_val x w n ti t)))) (spec_taus (zlen x) w n ti)).
    { apply map_ext. intros t. unfold remainder. f_equal. unfold spec_val, ncast. cbn [nre NumC]. do 4 f_equal. apply (cnth_conj w). }
    unfold cnth in PE |- *. rewrite PE. destruct (spec_taus (zlen x) w n ti) as [|t0 tl] eqn:E; [reflexivity|]. destruct (Req_EM_T (spec_nrm x w n ti) 0) as [Q|_]; [|reflexivity]. exfalso. apply (spec_nrm_pos x w n ti Hw); [rewrite E; discriminate|exact Q].
Qed.
Lemma nth_zipw {A B D} (f : A -> B -> D) a b i da db d : (i < length a)%nat -> (i < length b)%nat -> nth i (zipw f a b) d = f (nth i a da) (nth i b db).
Proof. revert b i. induction a as [|x a IH]; intros [|y b] [|i] H1 H2; cbn in *; try lia; auto. apply IH; lia. Qed.
Lemma cnth_app_l (a b : list C) f : 0 <= f < zlen a -> cnth (a ++ b) f = cnth a f.
Proof. intros H. unfold cnth. apply app_nth1. unfold zlen in H. lia. Qed.
Lemma skipn_nth {A} (l : list A) n k d : nth k (skipn n l) d = nth (n + k) l d.
Proof. revert l. induction n as [|n IH]; intros [|a l]; cbn; auto. now destruct k. Qed.
Lemma nth_first {A} (l : list A) k j d : (j < k)%nat -> nth j (firstn k l) d = nth j l d.
Proof. revert l j. induction k as [|k IH]; intros [|a l] [|j] H; cbn; try lia; auto. apply IH. lia. Qed.
Lemma cnth_paste (a c : list C) h f : zlen a = h -> h <= f -> 0 <= h -> cnth (a ++ skipn (Z.to_nat h) c) f = cnth c f.
Proof. intros Ha Hf Hh. unfold cnth. rewrite app_nth2 by (unfold zlen in Ha; lia). rewrite skipn_nth. f_equal. unfold zlen in Ha. lia. Qed.
(** After [plot] the object works on the first n/2 rows of the matrix last returned.  Another [run]
    raises IndexError at the first timestamp with a lag whose row n + t mod n lies beyond them, and
    otherwise returns a matrix of n/2 rows.  Either way it writes windowed samples into the matrix
    already returned, for the timestamps before the failing one, and leaves its other entries. *)
Lemma c121_spectrogram_run_after_plot : forall x l n w th, 2 <= n -> l <> [] -> (forall v, In v w -> v <> RtoC 0) ->
  let h := n / 2 in
  let lh := (zlen w - 1) / 2 in
  let m := Z.min (round_half n - 1) lh in
  let lags ti := arange (- Z.min m (ti - 1)) (Z.min m (zlen x - ti) + 1) in
  let norm ti := sqrt (rsum (lags ti) (fun t => Cmod (cnth w (lh + t)) ^ 2))%R in
  let bad ti := exists t, In t (lags ti) /\ h <= t mod n in
  exists s1 a s2 s3 r, run_step KSpec (create x (Some (TsI l)) (Some n) (Some w)) = Some (s1, Ok a) /\ step KSpec (Plot th) s1 = Some (s2, Ok 0%nat) /\ run_step KSpec s2 = Some (s3, r) /\
  ((forall ti, In ti l -> ~ bad ti) -> exists b, r = Ok b /\ a <> b /\ forall c, In c (seen KSpec s3 b) -> zlen c = h) /\
  ((exists ti, In ti l /\ bad ti) -> r = Raise IndexError) /\
  forall i ti, 0 <= i -> nth_error l (Z.to_nat i) = Some ti ->
  let before := forall j tj, 0 <= j <= i -> nth_error l (Z.to_nat j) = Some tj -> ~ bad tj in
  (before -> forall t, In t (lags ti) -> at2 (seen KSpec s3 a) (t mod n) i = RtoC (Re (cnth x (ti + t - 1) * Cconj (cnth w (lh + t)) / RtoC (norm ti))%C)) /\
  (forall f, 0 <= f < n -> (before -> forall t, In t (lags ti) -> t mod n <> f) -> at2 (seen KSpec s3 a) f i = at2 (seen KSpec s2 a) f i).
Proof.
  intros x l n w th Hn NE Hw h lh m lags norm bad. assert (RH := round_half_bounds n). assert (Hh : 1 <= h <= n) by (unfold h; split; [apply Z.div_le_lower_bound; lia|apply Z.div_le_upper_bound; lia]).
  set (F0 := fun ti => scatter n (spec_taus (zlen x) w n ti) (spec_val x w n ti)). set (F := fun ti => map (fun z => RtoC (Cmod z ^ 2)) (fft (F0 ti))).
  assert (LF : forall ti, zlen (F ti) = n) by (intros c; unfold F; rewrite zlen_map, fft_zlen; apply scatter_zlen; lia).
  assert (Z2 : zeros2 (T:=C) n (zlen l) = map (fun _ => zeros n) l). { unfold zeros2, zlen. rewrite Nat2Z.id. clear. induction l as [|u l IH]; cbn; [reflexivity|]. now rewrite IH. }
  assert (R1 : run_step KSpec (create x (Some (TsI l)) (Some n) (Some w)) = Some (mkst x (TsI l) n w (base_freqs n) 1 None true [map F0 l; map F l], Ok 1%nat)).
  { unfold run_step. cbn [precheck]. unfold passes, view, cell, create. cbn [s_sig s_ts s_n s_win s_freqs s_real s_rows s_mem s_at base_init r_sig r_ts r_n r_win r_freqs r_tfr nth ts_len per_ts]. rewrite Z2.
    rewrite (loop_all _ _ F0). 2:{ intros ti _. unfold spec_pass. rewrite spec_col_ok by (try (apply zeros_zlen); lia). unfold F0, scatter. destruct (spec_taus (zlen x) w n ti) as [|t0 tl] eqn:E; [reflexivity|]. destruct (Req_EM_T (spec_nrm x w n ti) 0) as [Q|_]; [|reflexivity]. exfalso. apply (spec_nrm_pos x w n ti Hw); [rewrite E; discriminate|exact Q]. }
    unfold fresh, write. cbn [s_sig s_ts s_n s_win s_freqs s_real s_rows s_mem s_at upd length app finish finish_real]. rewrite map_map. reflexivity. }
  assert (AM : exists mx, amax (first_rows h (map F l)) = Ok mx). { unfold amax. destruct l as [|t0 l']; [congruence|]. cbn [map first_rows concat]. assert (L0 := LF t0). destruct (F t0) as [|z c] eqn:EF; [unfold zlen in L0; cbn in L0; lia|]. unfold prefix. replace (Z.to_nat h) with (S (Z.to_nat (h - 1))) by lia. cbn [firstn app]. eexists. reflexivity. }
  destruct AM as [mx AM].
  set (F2 := fun ti => map (fun z => if Rle_dec (Re z) (mx * th) then RtoC 0 else z) (firstn (Z.to_nat h) (F ti)) ++ skipn (Z.to_nat h) (F ti)).
  assert (L2 : forall ti, zlen (F2 ti) = n). { intros ti. unfold F2, zlen. rewrite app_length, map_length, <- app_length, firstn_skipn. apply LF. }
  set (s2 := mkst x (TsI l) n w (prefix (base_freqs n) h) 1 (Some h) true [map F0 l; map F2 l]).
  assert (P1 : step KSpec (Plot th) (mkst x (TsI l) n w (base_freqs n) 1 None true [map F0 l; map F l]) = Some (s2, Ok 0%nat)).
  { cbn [step plot_step]. unfold view, cell. cbn [s_sig s_ts s_n s_win s_freqs s_real s_rows s_mem s_at nth]. fold h. rewrite AM. cbn [upd]. unfold s2, cut_first. rewrite map_map. reflexivity. }
  set (V := fun ti => firstn (Z.to_nat h) (F2 ti)). assert (LV : forall ti, zlen (V ti) = h). { intros ti. assert (Q := L2 ti). unfold V, zlen in *. rewrite firstn_length. lia. }
  assert (LAG : forall ti, spec_taus (zlen x) w n ti = lags ti) by reflexivity.
  set (badb := fun ti => existsb (fun t => h <=? t mod n) (lags ti)).
  assert (BB : forall ti, badb ti = true <-> bad ti). { intros ti. unfold badb, bad. rewrite existsb_exists. split; intros (t & Ht & E); exists t; (split; [exact Ht|]); now apply Z.leb_le. }
  set (G := fun ti col => puts col (map (fun t => ((n + t) mod n, RtoC (Re (spec_val x w n ti t)))) (lags ti))).
  destruct (loop_fate (spec_pass true x w n) (fun c => zlen c = h) badb G (fun _ c => c) IndexError l (map V l)) as [Q1 Q2].
  { intros ti c _ Hc. rewrite (spec_col_short x w n h) by (auto; lia). rewrite LAG. reflexivity. }
  { now rewrite map_length. }
  { apply List.Forall_forall. intros c Hc. apply in_map_iff in Hc. destruct Hc as (ti & <- & _). apply LV. }
  assert (LL := loop_length (map (spec_pass true x w n) l) (map V l)). rewrite map_length in LL.
  assert (VW : view s2 = map V l). { unfold view, cell, s2. cbn [s_rows s_at s_mem nth]. unfold first_rows. rewrite map_map. reflexivity. }
  assert (PS : passes KSpec s2 = map (spec_pass true x w n) l) by reflexivity.
  set (lp := loop (map (spec_pass true x w n) l) (map V l)) in *.
  set (M := zipw (fun c old => c ++ skipn (Z.to_nat h) old) (fst lp) (map F2 l)).
  assert (WR : write s2 (fst lp) = [map F0 l; M]) by reflexivity.
  assert (COLS : forall i ti, nth_error l i = Some ti -> zlen (nth i (fst lp) []) = h). { intros i ti E. rewrite (Q2 i ti E). assert (NV : nth i (map V l) [] = V ti) by (apply nth_error_nth; now rewrite nth_error_map, E). rewrite NV. destruct (existsb badb (firstn i l)); [apply LV|]. destruct (badb ti); [apply LV|]. unfold G, zlen. rewrite puts_length. apply LV. }
  assert (R3 : exists s3 r, run_step KSpec s2 = Some (s3, r) /\ cell s3 1 = M /\ r = (if existsb badb l then Raise IndexError else Ok 2%nat) /\ (existsb badb l = false -> cell s3 2 = finish KSpec (fst lp))).
  { unfold run_step. cbn [precheck]. rewrite PS, VW. fold lp. destruct lp as [cols f] eqn:EL. cbn [fst snd] in *. rewrite WR. subst f. destruct (existsb badb l); eexists; eexists; (split; [reflexivity|]).
    - repeat split; try reflexivity. discriminate.
    - unfold fresh, cell. cbn [s_mem nth length app]. auto. }
  destruct R3 as (s3 & r & R3 & C3 & RV & C4).
  do 5 eexists. split; [exact R1|]. split; [exact P1|]. split; [exact R3|]. split; [|split].
  - intros NB. assert (EB : existsb badb l = false). { destruct (existsb badb l) eqn:E; auto. apply existsb_exists in E. destruct E as (ti & Hi & E). exfalso. apply (NB ti Hi). now apply BB. }
    rewrite EB in *. exists 2%nat. split; [exact RV|]. split; [discriminate|]. cbn [seen]. rewrite (C4 eq_refl). intros c Hc. cbn [finish] in Hc. apply in_map_iff in Hc. destruct Hc as (c0 & <- & Hc). rewrite zlen_map, fft_zlen. destruct (In_nth _ _ [] Hc) as (i & Hi & <-). destruct (nth_error l i) as [ti|] eqn:E; [|apply nth_error_None in E; lia]. exact (COLS i ti E).
  - intros (ti & Hi & B). assert (EB : existsb badb l = true) by (apply existsb_exists; exists ti; split; [exact Hi|now apply BB]). now rewrite EB in RV.
  - intros i ti Hi Ei before. cbn [seen]. rewrite C3. unfold cell, s2. cbn [s_mem nth]. assert (Li : (Z.to_nat i < length l)%nat) by (apply nth_error_Some; congruence).
    assert (NF : nth (Z.to_nat i) (map F2 l) [] = F2 ti) by (apply nth_error_nth; now rewrite nth_error_map, Ei).
    assert (NV : nth (Z.to_nat i) (map V l) [] = V ti) by (apply nth_error_nth; now rewrite nth_error_map, Ei).
    assert (MI : forall f, at2 M f i = cnth (nth (Z.to_nat i) (fst lp) [] ++ skipn (Z.to_nat h) (F2 ti)) f). { intros f. unfold at2, M. rewrite (nth_zipw _ _ _ _ [] [] []) by (rewrite ?map_length; lia). now rewrite NF. }
    assert (HC := COLS (Z.to_nat i) ti Ei). assert (QI := Q2 (Z.to_nat i) ti Ei). rewrite NV in QI.
    assert (VF : forall f, 0 <= f < h -> cnth (V ti) f = cnth (F2 ti) f) by (intros f Hf; unfold V, cnth; apply nth_first; lia).
    assert (BE : before -> existsb badb (firstn (Z.to_nat i) l) = false /\ badb ti = false).
    { intros B. split.
      - destruct (existsb badb (firstn (Z.to_nat i) l)) eqn:E; auto. apply existsb_exists in E. destruct E as (tj & Hj & E). destruct (In_nth_error _ _ Hj) as [j Ej]. assert (Lj : (j < Z.to_nat i)%nat). { assert (j < length (firstn (Z.to_nat i) l))%nat by (apply nth_error_Some; congruence). rewrite firstn_length in H. lia. } exfalso. apply (B (Z.of_nat j) tj); [lia| |now apply BB]. rewrite Nat2Z.id. rewrite <- (firstn_skipn (Z.to_nat i) l). rewrite nth_error_app1; [exact Ej|]. apply nth_error_Some. congruence.
      - destruct (badb ti) eqn:E; auto. exfalso. apply (B i ti); [lia|exact Ei|now apply BB]. }
    assert (BE' : existsb badb (firstn (Z.to_nat i) l) = false -> badb ti = false -> before).
    { intros E1 E2 j tj Hj Ej B. apply BB in B. destruct (Z.eq_dec j i) as [->|]; [congruence|]. assert (existsb badb (firstn (Z.to_nat i) l) = true); [|congruence]. apply existsb_exists. exists tj. split; [|exact B]. apply (nth_error_In _ (Z.to_nat j)). rewrite <- Ej. rewrite <- (firstn_skipn (Z.to_nat i) l) at 2. rewrite nth_error_app1; [reflexivity|]. rewrite firstn_length. lia. }
    assert (NR : norm ti = spec_nrm x w n ti) by (unfold norm, spec_nrm, norm2; rewrite rsum_map; reflexivity).
    split.
    + intros B t Ht. destruct (BE B) as [E1 E2]. rewrite E1, E2 in QI. assert (Hm : 0 <= t mod n < h). { split; [apply Z.mod_pos_bound; lia|]. destruct (Z.lt_ge_cases (t mod n) h); auto. exfalso. apply (B i ti); [lia|exact Ei|]. now exists t. }
      rewrite MI, cnth_app_l by lia. rewrite QI. unfold G. unfold lags in Ht. apply in_arange in Ht. unfold lags. rewrite (arange_at _ _ t) by lia. replace (t mod n) with ((n + t) mod n) by (apply mod_add_n; lia).
      etransitivity; [apply (nth_puts_last (V ti) (fun t => (n + t) mod n) (fun t => RtoC (Re (spec_val x w n ti t))))|].
      * rewrite LV, mod_add_n by lia. exact Hm.
      * intros j Hj. apply in_arange in Hj. rewrite !mod_add_n by lia. split; [apply Z.mod_pos_bound; lia|]. intros E. assert (D : (n | j - t)) by (apply Z.mod_divide; [lia|]; rewrite Zminus_mod, E, Z.sub_diag; apply Z.mod_0_l; lia). apply Z.divide_pos_le in D; lia.
      * unfold spec_val. now rewrite NR.
    + intros f Hf Hout. rewrite MI. unfold at2. rewrite NF. destruct (Z.lt_ge_cases f h) as [L|L]; [|apply cnth_paste; lia]. rewrite cnth_app_l by lia. rewrite <- VF by lia. rewrite QI.
      destruct (existsb badb (firstn (Z.to_nat i) l)) eqn:E1; [reflexivity|]. destruct (badb ti) eqn:E2; [reflexivity|]. assert (B := BE' eq_refl eq_refl). unfold G, cnth. apply nth_puts_out; [lia|]. intros j v Hj. apply in_map_iff in Hj. destruct Hj as (t & E & Ht). injection E as <- <-. rewrite mod_add_n by lia. split; [apply Z.mod_pos_bound; lia|]. now apply Hout.
Qed.
Example c121_run_after_plot_example : forall th,
  (exists s1 a s2 s3, run_step KSpec (create [RtoC 1; RtoC 2; RtoC 1] (Some (TsI [2])) (Some 4) (Some [RtoC 1; RtoC 1; RtoC 1])) = Some (s1, Ok a) /\ step KSpec (Plot th) s1 = Some (s2, Ok 0%nat) /\ run_step KSpec s2 = Some (s3, Raise IndexError)) /\
  (exists s1 a s2 s3 b, run_step KSpec (create [RtoC 3] (Some (TsI [1])) (Some 2) (Some [RtoC 1])) = Some (s1, Ok a) /\ step KSpec (Plot th) s1 = Some (s2, Ok 0%nat) /\ run_step KSpec s2 = Some (s3, Ok b) /\ at2 (seen KSpec s3 a) 0 0 = RtoC 3).
Proof.
  assert (N1 : RtoC 1 <> RtoC 0) by (intros E; injection E; lra).
  intros th. split.
  - destruct (c121_spectrogram_run_after_plot [RtoC 1; RtoC 2; RtoC 1] [2] 4 [RtoC 1; RtoC 1; RtoC 1] th) as (s1 & a & s2 & s3 & r & R1 & R2 & R3 & _ & B & _); [lia|discriminate|intros v [<-|[<-|[<-|[]]]]; exact N1|].
    exists s1, a, s2, s3. split; [exact R1|]. split; [exact R2|]. rewrite R3. f_equal. f_equal. apply B. exists 2. split; [now left|]. exists (-1). split; [apply in_arange; vm_compute; split; congruence|vm_compute; congruence].
  - destruct (c121_spectrogram_run_after_plot [RtoC 3] [1] 2 [RtoC 1] th) as (s1 & a & s2 & s3 & r & R1 & R2 & R3 & G & _ & V); [lia|discriminate|intros v [<-|[]]; exact N1|].
    assert (LG : forall ti, ti = 1 -> arange (- Z.min (Z.min (round_half 2 - 1) ((zlen [RtoC 1] - 1) / 2)) (ti - 1)) (Z.min (Z.min (round_half 2 - 1) ((zlen [RtoC 1] - 1) / 2)) (zlen [RtoC 3] - ti) + 1) = [0]) by (intros ti ->; reflexivity).
    assert (NB : forall ti, ti = 1 -> ~ (exists t, In t (arange (- Z.min (Z.min (round_half 2 - 1) ((zlen [RtoC 1] - 1) / 2)) (ti - 1)) (Z.min (Z.min (round_half 2 - 1) ((zlen [RtoC 1] - 1) / 2)) (zlen [RtoC 3] - ti) + 1)) /\ 2 / 2 <= t mod 2)).
    { intros ti E (t & Ht & Hh). rewrite (LG ti E) in Ht. destruct Ht as [<-|[]]. revert Hh. vm_compute. congruence. }
    destruct G as (b & -> & _); [intros ti [<-|[]]; now apply NB|]. exists s1, a, s2, s3, b. repeat (split; [assumption|]).
    destruct (V 0 1 ltac:(lia) eq_refl) as [V1 _]. change 0 with (0 mod 2) at 1. rewrite (V1); [| |rewrite LG by reflexivity; now left].
    + rewrite (LG 1 eq_refl). rewrite rsum_cons, rsum_nil. change (cnth [RtoC 1] _) with (RtoC 1). change (cnth [RtoC 3] _) with (RtoC 3). rewrite Cmod_1. replace (1 ^ 2 + 0)%R with 1%R by ring. rewrite sqrt_1. replace (RtoC 3 * Cconj (RtoC 1) / RtoC 1)%C with (RtoC 3) by (rewrite Cconj_R; field; exact N1). reflexivity.
    + intros j tj Hj Ej. assert (j = 0) by lia. subst j. cbn in Ej. injection Ej as <-. now apply NB.
Qed.
