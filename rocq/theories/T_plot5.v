(** C126: the [sqmod] keyword of [plot]. *)
From Coq Require Import Reals ZArith List Lia Lra Bool.
From Coquelicot Require Import Coquelicot.
From Verif Require Import Py Scalars CSum DFT Spec M_base M_stft M_cohen M_state M_utils M_plot M_heap M_plot2.
From Verif Require Import P_base P_stft P_wvd P_pwvd T_utils P_spec T_state T_mh T_tone T_plot T_draw T_heap T_heap2.
Import ListNotations.
Local Open Scope Z_scope.

(** a is not after b when sorted by real part, then by imaginary part. *)
Definition lex (a b : C) : Prop := (Re a < Re b)%R \/ (Re a = Re b /\ (Im a <= Im b)%R).
Lemma lexb_lex a b : lexb a b = true <-> lex a b.
Proof. unfold lexb, lex. destruct (Rlt_dec _ _); [tauto|]. destruct (Req_EM_T _ _); [|split; [discriminate|tauto]]. destruct (Rle_dec _ _); [tauto|]. split; [discriminate|]. intros [?|[_ ?]]; tauto. Qed.
Lemma lexb_no a b : lexb a b = false -> lex b a.
Proof. unfold lexb, lex. destruct (Rlt_dec _ _); [discriminate|]. destruct (Req_EM_T _ _); [|intros; left; lra]. destruct (Rle_dec _ _); [discriminate|]. intros. right. split; lra. Qed.
Lemma lex_refl a : lex a a.
Proof. right. split; lra. Qed.
Lemma lex_trans a b c : lex a b -> lex b c -> lex a c.
Proof. intros [A|[A A']] [B|[B B']]; [left|left|left|right]; try split; lra. Qed.

Lemma fold_lex l : forall z, let m := fold_left (fun a v => if lexb a v then v else a) l z in (m = z \/ In m l) /\ lex z m /\ forall v, In v l -> lex v m.
Proof.
  induction l as [|v l IH]; intros z; cbn [fold_left].
  - split; [now left|]. split; [apply lex_refl|]. intros v [].
  - destruct (IH (if lexb z v then v else z)) as (A & B & D). split; [|split].
    + destruct A as [A|A]; [|right; now right]. rewrite A. destruct (lexb z v); [right; now left|now left].
    + apply (lex_trans _ _ _) with (2 := B). destruct (lexb z v) eqn:E; [now apply lexb_lex|apply lex_refl].
    + intros u [<-|U]; [|now apply D]. apply (lex_trans _ _ _) with (2 := B). destruct (lexb z v) eqn:E; [apply lex_refl|now apply lexb_no].
Qed.
Lemma camax_spec m n t : 1 <= n -> 1 <= t -> shaped m n t ->
  exists fm cm, 0 <= fm < n /\ 0 <= cm < t /\ camax m = Ok (at2 m fm cm) /\ forall f c, 0 <= f < n -> 0 <= c < t -> lex (at2 m f c) (at2 m fm cm).
Proof.
  intros Hn Ht S. unfold camax. assert (NE := shaped_ne _ _ _ Hn Ht S). destruct (concat m) as [|z l] eqn:E; [congruence|].
  destruct (fold_lex l z) as (A & B & D). set (mx := fold_left _ l z) in *.
  assert (I : In mx (concat m)) by (rewrite E; destruct A as [->|A]; [now left|now right]). apply in_concat in I. destruct I as (col & I1 & I2).
  destruct (in_at2 _ _ _ _ _ S I1 I2) as (fm & cm & F1 & F2 & F3). exists fm, cm. rewrite F3. split; auto. split; auto. split; auto.
  intros f c Hf Hc. destruct (at2_in m n t f c S Hf Hc) as [J1 J2]. assert (J : In (at2 m f c) (concat m)) by (apply in_concat; eauto). rewrite E in J. destruct J as [<-|J]; auto.
Qed.
Lemma ccut_at h x m n t f c : shaped m n t -> 0 <= h <= n -> 0 <= f < n -> 0 <= c < t ->
  at2 (ccut_first h x m) f c = if (f <? h) && lexb (at2 m f c) x then RtoC 0 else at2 m f c.
Proof.
  intros [S1 S2] Hh Hf Hc. unfold at2, ccut_first. set (g := fun z => if lexb z x then RtoC 0 else z).
  rewrite (nth_indep _ [] ((fun c0 : list C => map g (firstn (Z.to_nat h) c0) ++ skipn (Z.to_nat h) c0) [])) by (rewrite map_length; unfold zlen in S1; lia).
  rewrite (map_nth (fun c0 : list C => map g (firstn (Z.to_nat h) c0) ++ skipn (Z.to_nat h) c0)).
  assert (IC : In (nth (Z.to_nat c) m []) m) by (apply nth_In; unfold zlen in S1; lia). apply S2 in IC. set (col := nth (Z.to_nat c) m []) in *. unfold cnth. unfold zlen in IC.
  destruct (f <? h) eqn:FH; cbn [andb].
  - apply Z.ltb_lt in FH. rewrite app_nth1 by (rewrite map_length, firstn_length; lia). rewrite (nth_indep _ (RtoC 0) (g (RtoC 0))) by (rewrite map_length, firstn_length; lia). rewrite map_nth, nth_first by lia. reflexivity.
  - apply Z.ltb_ge in FH. rewrite app_nth2 by (rewrite map_length, firstn_length; lia). rewrite map_length, firstn_length, skipn_nth. f_equal. lia.
Qed.
Lemma ccut_shaped h x m n t : shaped m n t -> 0 <= h <= n -> shaped (ccut_first h x m) n t.
Proof.
  intros [S1 S2] Hh. split; [unfold ccut_first; now rewrite zlen_map|]. intros c I. unfold ccut_first in I. apply in_map_iff in I. destruct I as (c' & <- & I). apply S2 in I. unfold zlen in *. rewrite app_length, map_length, firstn_length, skipn_length. lia.
Qed.

(** The state a successful first run leaves. *)
Definition keeps_view (k : cls) : Prop := k = KStft \/ k = KMh \/ k = KPmh.
Lemma first_run k x ts n w s1 a : keeps_view k -> 1 <= n -> run_step k (create x (Some ts) (Some n) w) = Some (s1, Ok a) ->
  s_at s1 = a /\ (a < length (s_mem s1))%nat /\ s_rows s1 = None /\ s_n s1 = n /\ shaped (cell s1 a) n (ts_len ts) /\ (s_real s1 = true <-> k = KMh).
Proof.
  intros K Hn H. destruct (run_result _ _ _ _ H) as (R1 & _ & R3).
  assert (RE : reachable k (create x (Some ts) (Some n) w)) by (exists x, (Some ts), (Some n), w, []; reflexivity).
  assert (NS : k <> KSpec) by (destruct K as [->|[->| ->]]; discriminate).
  destruct (c121_model k _ RE NS) as (v & V1 & V2). destruct v as [o|e].
  - destruct V2 as (s' & a' & V2 & V3 & V4 & V5). rewrite H in V2. assert (s' = s1) by congruence. assert (a' = a) by congruence. subst s' a'.
    assert (SN : s_rows s1 = None /\ (s_real s1 = true <-> k = KMh)).
    { unfold run_step in H. destruct (precheck _ _); [discriminate|]. destruct (loop _ _) as [cols f]. destruct f; try discriminate. injection H as <- _. cbn. split; [reflexivity|]. destruct K as [->|[->| ->]]; cbn; split; congruence. }
    destruct SN as [SN SR]. split; auto. split; auto. split; auto.
    assert (SH : shaped (r_tfr o) n (ts_len ts) /\ r_n o = n /\ r_ts o = ts /\ r_sig o = x).
    { destruct K as [->|[->| ->]]; cbn [value_run] in V1; injection V1 as V1.
      - apply (c93_shapes x ts n (match w with Some w => w | None => s_win (create x (Some ts) (Some n) None) end) o Hn). left. rewrite <- V1. destruct w; reflexivity.
      - assert (O' : exists o', mh x (Some ts) (Some n) = Ok o' /\ r_tfr o' = r_tfr o /\ r_n o' = r_n o /\ r_ts o' = r_ts o /\ r_sig o' = r_sig o).
        { destruct w as [w|]; [|exists o; rewrite <- V1; auto]. unfold mh, mh_run in *. cbn [obj create s_sig s_ts s_n s_win s_freqs s_real base_init r_sig r_ts r_n r_win r_freqs r_tfr r_real view s_rows cell s_at s_mem nth] in *. destruct (mh_tfr _ _ _ _); [|discriminate]. cbn [bind] in *. eexists. split; [reflexivity|]. injection V1 as <-. auto. }
        destruct O' as (o' & O1 & <- & <- & <- & <-). apply (c93_shapes x ts n [] o' Hn). auto.
      - apply (c93_shapes x ts n (match w with Some w => w | None => s_win (create x (Some ts) (Some n) None) end) o Hn). right. right. right. left. rewrite <- V1. destruct w; reflexivity. }
    destruct SH as (SH & SH2 & _). split; [rewrite <- SH2, <- V3; reflexivity|]. split; [|exact SR]. replace (cell s1 a) with (r_tfr o) by congruence. exact SH.
  - destruct V2 as (s' & V2). rewrite H in V2. discriminate.
Qed.

(** C126.  [plot(sqmod=False, threshold=th)] right after [run], for the short-time Fourier transform,
    the Margenau-Hill and the pseudo Margenau-Hill class: the array that [run] handed out is
    thresholded in place.  M is that array before; (fm, cm) is the entry np.amax finds. *)
Lemma c126_in_place : forall k x ts n w s1 a th d, k = KStft \/ k = KMh \/ k = KPmh -> 2 <= n -> 1 <= ts_len ts ->
  run_step k (create x (Some ts) (Some n) w) = Some (s1, Ok a) ->
  let M := at2 (seen k s1 a) in
  let after a b := (Re b < Re a)%R \/ (Re a = Re b /\ (Im b < Im a)%R) in
  exists s2 q fm cm, plot_call k false th d s1 = (s2, q) /\ 0 <= fm < n / 2 /\ 0 <= cm < ts_len ts /\
  (forall f c, 0 <= f < n / 2 -> 0 <= c < ts_len ts -> ~ after (M f c) (M fm cm)) /\
  (forall f c, 0 <= f < n -> 0 <= c < ts_len ts ->
    (f < n / 2 -> ~ after (M f c) (M fm cm * RtoC th)%C -> at2 (seen k s2 a) f c = RtoC 0) /\
    (n / 2 <= f \/ after (M f c) (M fm cm * RtoC th)%C -> at2 (seen k s2 a) f c = M f c) /\
    (f < n / 2 -> at2 (r_tfr (obj s2)) f c = at2 (seen k s2 a) f c)) /\
  (zlen (r_tfr (obj s2)) = ts_len ts /\ forall c, In c (r_tfr (obj s2)) -> zlen c = n / 2) /\
  (k <> KMh -> d = Dcmap -> q = Some (Raise TypeError)) /\
  (d = Dmesh -> exists m, q = Some (Ok m) /\ forall f c, 0 <= f < n / 2 -> 0 <= c < ts_len ts -> nth (Z.to_nat f) (nth (Z.to_nat c) m []) 0%R = Cmod (at2 (seen k s2 a) f c)) /\
  (k = KMh -> d <> Dmesh -> exists m, q = Some (Ok m) /\ forall f c, 0 <= f < n / 2 -> 0 <= c < ts_len ts -> nth (Z.to_nat f) (nth (Z.to_nat c) m []) 0%R = Re (at2 (seen k s2 a) f c)).
Proof.
  intros k x ts n w s1 a th d K Hn HT RUN M after. destruct (first_run k x ts n w s1 a K ltac:(lia) RUN) as (AT & LT & NR & SN & SH & SR).
  assert (H2 : 1 <= n / 2 <= n) by (split; [apply Z.div_le_lower_bound; lia|apply Z.div_le_upper_bound; lia]).
  assert (AF : forall u v, ~ after u v <-> lex u v). { intros u v. unfold after, lex. split; [|intros [?|[? ?]] [?|[? ?]]; lra]. intros N. destruct (Rtotal_order (Re u) (Re v)) as [O|[O|O]]; [now left| |exfalso; apply N; left; lra]. right. split; auto. destruct (Rle_lt_dec (Im u) (Im v)); auto. exfalso. apply N. right. auto. }
  assert (EM : forall u v, after u v -> lexb u v = false). { intros u v A. destruct (lexb u v) eqn:E; auto. apply lexb_lex, AF in E. tauto. }
  assert (SE : forall s, seen k s a = cell s a) by (destruct K as [->|[->| ->]]; reflexivity).
  assert (VW : view s1 = cell s1 a) by (unfold view; rewrite NR, AT; reflexivity).
  assert (RW : (match view s1 with c :: _ => zlen c | [] => s_n s1 end) = n). { rewrite VW. destruct SH as [S1 S2]. destruct (cell s1 a) as [|c l]; auto. apply S2. now left. }
  assert (PL : exists freqs, plot_sq k false th s1 = plot_raw (n / 2) freqs th s1).
  { destruct K as [->|[->| ->]]; cbn [plot_sq]; rewrite ?RW, ?SN; eexists; reflexivity. }
  destruct PL as [freqs PL]. assert (SF := shaped_first (n / 2) _ n _ ltac:(lia) SH).
  destruct (camax_spec _ _ _ (proj1 H2) HT SF) as (fm & cm & F1 & F2 & F3 & F4).
  assert (LM : zlen (cell s1 a) = ts_len ts) by (destruct SH; auto).
  rewrite at2_first in F3 by lia.
  set (cut' := ccut_first (n / 2) (at2 (cell s1 a) fm cm * RtoC th)%C (cell s1 a)).
  set (s2 := mkst (s_sig s1) (s_ts s1) (s_n s1) (s_win s1) freqs (s_at s1) (Some (n / 2)) (s_real s1) (upd (s_mem s1) (s_at s1) cut')).
  assert (P2 : plot_sq k false th s1 = (s2, Ok 0%nat)). { rewrite PL. unfold plot_raw. rewrite VW, F3, AT. unfold s2, cut'. rewrite AT. reflexivity. }
  assert (C2 : cell s2 a = cut'). { unfold cell, s2. cbn [s_mem]. rewrite AT. now apply upd_nth. }
  assert (V2 : view s2 = first_rows (n / 2) cut'). { unfold view. unfold s2 at 1. cbn [s_rows]. replace (s_at s2) with a by (unfold s2; cbn; auto). now rewrite C2. }
  assert (SC : shaped cut' n (ts_len ts)) by (apply ccut_shaped; [exact SH|lia]).
  assert (SV := shaped_first (n / 2) _ n _ ltac:(lia) SC).
  assert (DR : forall (g : C -> R) f c, 0 <= f < n / 2 -> 0 <= c < ts_len ts -> nth (Z.to_nat f) (nth (Z.to_nat c) (map (map g) (view s2)) []) 0%R = g (at2 (seen k s2 a) f c)).
  { intros g f c Hf Hc. rewrite SE, C2, V2. destruct SV as [SV1 SV2]. change (@nil R) with (map g []). rewrite map_nth. rewrite <- (at2_first cut' (n / 2) f c Hf) by (destruct SC; lia). unfold at2, cnth.
    assert (IC : In (nth (Z.to_nat c) (first_rows (n / 2) cut') []) (first_rows (n / 2) cut')) by (apply nth_In; unfold zlen in SV1; lia). apply SV2 in IC. unfold zlen in IC.
    rewrite (nth_indep _ 0%R (g (RtoC 0))) by (rewrite map_length; lia). apply map_nth. }
  exists s2, (draw d s2), fm, cm. split; [unfold plot_call; now rewrite P2|]. split; auto. split; auto. subst M. rewrite SE.
  split. { intros f c Hf Hc. apply AF. rewrite <- (at2_first (cell s1 a) (n / 2) f c Hf) by lia. rewrite <- (at2_first (cell s1 a) (n / 2) fm cm F1) by lia. now apply F4. }
  split. { intros f c Hf Hc. rewrite SE, C2. assert (CA := ccut_at (n / 2) (at2 (cell s1 a) fm cm * RtoC th)%C _ n _ f c SH ltac:(lia) Hf Hc). fold cut' in CA. split; [|split].
    - intros L A. apply AF, lexb_lex in A. rewrite CA, A. rewrite (proj2 (Z.ltb_lt _ _) L). reflexivity.
    - intros [L|A]; rewrite CA; [rewrite (proj2 (Z.ltb_ge _ _) L); reflexivity|]. rewrite (EM _ _ A), andb_false_r. reflexivity.
    - intros L. change (r_tfr (obj s2)) with (view s2). rewrite V2. apply at2_first; [lia|]. destruct SC; lia. }
  split. { change (r_tfr (obj s2)) with (view s2). rewrite V2. exact SV. }
  assert (R2 : s_real s2 = s_real s1) by reflexivity.
  split. { intros NK ->. unfold draw, is_complex. rewrite R2. destruct (s_real s1); [exfalso; apply NK, SR; reflexivity|reflexivity]. }
  split. { intros ->. eexists. split; [reflexivity|]. intros f c Hf Hc. now apply (DR Cmod). }
  intros KM ND. apply SR in KM. destruct d; [| now exfalso; apply ND|]; unfold draw, is_complex; rewrite R2, KM; cbn [negb]; (eexists; split; [reflexivity|]); intros f c Hf Hc; now apply (DR Re).
Qed.
(** What that order erases: every entry with a negative real part once the largest has a
    non-negative one, and the whole first half when all real parts are negative. *)
Lemma c126_negative : forall k x ts n w s1 a th d, k = KStft \/ k = KMh \/ k = KPmh -> 2 <= n -> (0 <= th)%R ->
  run_step k (create x (Some ts) (Some n) w) = Some (s1, Ok a) ->
  forall f c, 0 <= f < n / 2 -> 0 <= c < ts_len ts -> (Re (at2 (seen k s1 a) f c) < 0)%R -> (th < 1)%R ->
  at2 (seen k (fst (plot_call k false th d s1)) a) f c = RtoC 0.
Proof.
  intros k x ts n w s1 a th d K Hn H0 RUN f c Hf Hc NEG H1. assert (HT : 1 <= ts_len ts) by lia.
  destruct (c126_in_place k x ts n w s1 a th d K Hn HT RUN) as (s2 & q & fm & cm & P & F1 & F2 & MX & E & _).
  assert (H2 : n / 2 <= n) by (apply Z.div_le_upper_bound; lia). destruct (E f c ltac:(lia) Hc) as (E1 & _). rewrite P. cbn [fst]. apply E1; [lia|]. specialize (MX f c Hf Hc).
  set (z := at2 (seen k s1 a) f c) in *. set (m := at2 (seen k s1 a) fm cm) in *.
  assert (RM : Re (m * RtoC th)%C = (Re m * th)%R) by (unfold Re, Cmult, RtoC; cbn; ring).
  assert (LE : (Re z <= Re m)%R). { destruct (Rle_lt_dec (Re z) (Re m)); auto. exfalso. apply MX. now left. }
  assert (LT : (Re z < Re m * th)%R). { destruct (Rle_lt_dec 0 (Re m)); [apply Rlt_le_trans with 0%R; [lra|]; now apply Rmult_le_pos|]. apply Rle_lt_trans with (Re m); [lra|]. nra. }
  rewrite RM. intros [A|[A _]]; lra.
Qed.
(** An empty first half, or no columns: np.amax raises, and [self.tfr] is already cut. *)
Lemma c126_empty : forall k x ts n w s1 a th d, k = KStft \/ k = KMh \/ k = KPmh -> 1 <= n -> n = 1 \/ ts_len ts = 0 ->
  run_step k (create x (Some ts) (Some n) w) = Some (s1, Ok a) ->
  exists s2, plot_call k false th d s1 = (s2, Some (Raise ValueError)) /\ (forall b, seen k s2 b = seen k s1 b) /\
  zlen (r_tfr (obj s2)) = ts_len ts /\ forall c, In c (r_tfr (obj s2)) -> zlen c = n / 2.
Proof.
  intros k x ts n w s1 a th d K Hn HE RUN. destruct (first_run k x ts n w s1 a K Hn RUN) as (AT & LT & NR & SN & SH & SR).
  assert (VW : view s1 = cell s1 a) by (unfold view; rewrite NR, AT; reflexivity).
  assert (H2 : 0 <= n / 2 <= n) by (split; [apply Z.div_pos; lia|apply Z.div_le_upper_bound; lia]).
  assert (RW : (match view s1 with c :: _ => zlen c | [] => s_n s1 end) = n). { rewrite VW. destruct SH as [S1 S2]. destruct (cell s1 a) as [|c l]; auto. apply S2. now left. }
  assert (PL : exists freqs, plot_sq k false th s1 = plot_raw (n / 2) freqs th s1). { destruct K as [->|[->| ->]]; cbn [plot_sq]; rewrite ?RW, ?SN; eexists; reflexivity. }
  destruct PL as [freqs PL]. assert (SF := shaped_first (n / 2) _ n _ H2 SH).
  assert (CM : camax (first_rows (n / 2) (view s1)) = Raise ValueError). { unfold camax. rewrite VW. rewrite (shaped_nil _ _ _) with (2 := SF); [reflexivity|]. destruct HE as [->|HE]; auto. }
  eexists. split; [unfold plot_call; rewrite PL; unfold plot_raw; rewrite CM; reflexivity|]. split. { intros b. destruct K as [->|[->| ->]]; reflexivity. }
  unfold obj, view, cell. cbn [r_tfr s_rows s_at s_mem]. rewrite AT. exact SF.
Qed.
(** The other classes.  Spectrogram and Page: TypeError, nothing changed.  Wigner-Ville and pseudo
    Wigner-Ville: sqmod=False is the default; sqmod=True squares. *)
Lemma c126_others : forall sq th d s,
  plot_call KSpec sq th d s = (s, Some (Raise TypeError)) /\ plot_call KPage sq th d s = (s, Some (Raise TypeError)) /\
  (forall k, k = KWvd \/ k = KPwvd -> step k (Plot th) s = Some (plot_sq k false th s)) /\
  (forall k, k = KStft \/ k = KMh \/ k = KPmh -> step k (Plot th) s = Some (plot_sq k true th s)) /\
  (forall k, k = KWvd \/ k = KPwvd ->
    match wvd_plot sq th (obj s) with
    | Ok o => exists s', plot_sq k sq th s = (s', Ok 0%nat) /\ obj s' = o /\ forall b, (b < length (s_mem s))%nat -> cell s' b = cell s b
    | Raise e => exists s', plot_sq k sq th s = (s', Raise e)
    end).
Proof.
  intros sq th d s. split; [reflexivity|]. split; [reflexivity|]. split; [|split].
  - intros k [->| ->]; reflexivity.
  - intros k [->|[->| ->]]; reflexivity.
  - intros k K. assert (Q : plot_sq k sq th s = plot_fresh s (s_freqs s) th (if sq then sqmod_tfr (view s) else abs_tfr (view s))) by (destruct K as [->| ->]; reflexivity). rewrite Q.
    assert (P := plot_fresh_model s (s_freqs s) th (if sq then sqmod_tfr (view s) else abs_tfr (view s))). unfold wvd_plot. cbn [obj r_tfr r_freqs]. unfold plot_fresh in *.
    destruct (threshold th _) as [t|e]; cbn [bind]; [|eauto]. eexists. split; [reflexivity|]. split; [|intros b B; unfold fresh, cell; cbn [s_mem]; now rewrite app_nth1].
    unfold fresh, obj, view, cell, with_tfr. cbn [s_rows s_at s_mem s_sig s_ts s_n s_win s_freqs s_real r_sig r_ts r_n r_win]. rewrite nth_last. reflexivity.
Qed.
(** One bin window: the row 0 of the transform of [1, -5, 0] is 0, 1, -5.  With the default
    threshold the -5 is erased and the 1 is kept. *)
Example c126_example : exists s1 a s2, run_step KStft (create [RtoC 1; RtoC (-5); RtoC 0] (Some (TsI [0; 1; 2])) (Some 2) (Some [RtoC 1])) = Some (s1, Ok a) /\
  plot_call KStft false (1 / 20) Dcmap s1 = (s2, Some (Raise TypeError)) /\
  at2 (seen KStft s1 a) 0 1 = RtoC 1 /\ at2 (seen KStft s1 a) 0 2 = RtoC (-5) /\ at2 (seen KStft s2 a) 0 1 = RtoC 1 /\ at2 (seen KStft s2 a) 0 2 = RtoC 0 /\ at2 (seen KStft s2 a) 1 2 = RtoC (-5).
Proof.
  set (x := [RtoC 1; RtoC (-5); RtoC 0]).
  destruct (c121_stft_second_run x (TsI [0; 1; 2]) 2 [RtoC 1] ltac:(lia)) as (s1 & a & _ & _ & R1 & _ & (o & E & SO) & _).
  assert (W0 : winf [RtoC 1] 0 = RtoC 1) by reflexivity. assert (W1 : forall j, j <> 0 -> winf [RtoC 1] j = RtoC 0).
  { intros j Hj. unfold winf. change ((zlen [RtoC 1] - 1) / 2) with 0. destruct (_ && _) eqn:B; auto. apply andb_prop in B. destruct B as [B1 B2]. apply Z.leb_le in B1, B2. lia. }
  assert (V : forall f c, 0 <= f < 2 -> 1 <= c < 3 -> at2 (seen KStft s1 a) f c = cnth x (c - 1)).
  { intros f c Hf Hc. rewrite SO. rewrite (stft_at x (TsI [0; 1; 2]) 2 [RtoC 1] o f c) by first [lia|exact E|cbn; lia]. unfold STFT. change (arange 0 (zlen x)) with [0; 1; 2]. rewrite !csum_cons, csum_nil.
    assert (c = 1 \/ c = 2) as [-> | ->] by lia.
    - change (0 - (1 - 1)) with 0. rewrite W0, (W1 (1 - (1 - 1))), (W1 (2 - (1 - 1))) by lia. rewrite Z.mul_0_r. change (- 0) with 0. rewrite root_0, !Cconj_R. change (sigf x 0) with (RtoC 1). change (cnth x (1 - 1)) with (RtoC 1). ring.
    - change (1 - (2 - 1)) with 0. rewrite W0, (W1 (0 - (2 - 1))), (W1 (2 - (2 - 1))) by lia. rewrite Z.mul_0_r. change (- 0) with 0. rewrite root_0, !Cconj_R. change (sigf x 1) with (RtoC (-5)). change (cnth x (2 - 1)) with (RtoC (-5)). ring. }
  assert (X0 : cnth x (1 - 1) = RtoC 1) by reflexivity. assert (X1 : cnth x (2 - 1) = RtoC (-5)) by reflexivity. assert (RR : forall r, Re (RtoC r) = r) by reflexivity. assert (RT : forall r, Re (RtoC r * RtoC (1 / 20))%C = (r / 20)%R) by (intros r; unfold Re, Cmult, RtoC; cbn; field).
  assert (V0 : Re (at2 (seen KStft s1 a) 0 0) = 0%R).
  { rewrite SO. rewrite (stft_at x (TsI [0; 1; 2]) 2 [RtoC 1] o 0 0) by first [lia|exact E|cbn; lia]. unfold STFT. change (arange 0 (zlen x)) with [0; 1; 2]. rewrite !csum_cons, csum_nil. rewrite !W1 by lia. rewrite !Cconj_R. cbn. ring. }
  destruct (c126_in_place KStft x (TsI [0; 1; 2]) 2 (Some [RtoC 1]) s1 a (1 / 20) Dcmap (or_introl eq_refl) ltac:(lia) ltac:(cbn; lia) R1) as (s2 & q & fm & cm & P & F1 & F2 & MX & EN & _ & Q & _).
  change (ts_len (TsI [0; 1; 2])) with 3 in *. change (2 / 2) with 1 in *. assert (fm = 0) by lia. subst fm.
  assert (CM : cm = 1). { specialize (MX 0 1 ltac:(lia) ltac:(lia)). assert (cm = 0 \/ cm = 1 \/ cm = 2) as [-> |[-> | ->]] by lia; auto; exfalso; apply MX; left; cbv beta; [rewrite V0, (V 0 1) by lia|rewrite (V 0 1), (V 0 2) by lia]; rewrite ?X0, ?X1, ?RR; lra. } subst cm.
  exists s1, a, s2. split; [exact R1|]. split; [rewrite P; f_equal; apply Q; congruence|]. rewrite !V by lia. split; [reflexivity|]. split; [reflexivity|].
  assert (EN' : forall f c, 0 <= f < 2 -> 1 <= c < 3 -> _) by (intros f c Hf Hc; exact (EN f c Hf ltac:(lia))). split; [|split].
  - destruct (EN' 0 1 ltac:(lia) ltac:(lia)) as (_ & Z1 & _). rewrite Z1; [rewrite V by lia; reflexivity|]. right. left. rewrite V by lia. rewrite ?X0, ?X1, ?RT, ?RR. lra.
  - destruct (EN' 0 2 ltac:(lia) ltac:(lia)) as (Z1 & _ & _). apply Z1; [lia|]. rewrite !V by lia. rewrite ?X0, ?X1, ?RT, ?RR. intros [A|[A _]]; lra.
  - destruct (EN' 1 2 ltac:(lia) ltac:(lia)) as (_ & Z1 & _). rewrite Z1; [rewrite V by lia; reflexivity|]. left. lia.
Qed.

(** What else plot(sqmod=False) changes of the object: STFT.plot cuts the frequencies to
    the rows kept, the Margenau-Hill classes leave them as they are (twice as many as
    rows); signal, timestamps, window and number of bins stay. *)
Lemma c126_frequencies : forall k th s, k = KStft \/ k = KMh \/ k = KPmh ->
  let o := obj s in let o2 := obj (fst (plot_sq k false th s)) in
  r_freqs o2 = (match k with KStft => firstn (Z.to_nat (r_n o / 2)) (r_freqs o) | _ => r_freqs o end) /\
  r_sig o2 = r_sig o /\ r_ts o2 = r_ts o /\ r_n o2 = r_n o /\ r_win o2 = r_win o.
Proof.
  intros k th s K. destruct K as [->|[->| ->]]; cbn [plot_sq]; unfold plot_raw; destruct (camax _); cbn [fst]; repeat split; reflexivity.
Qed.
