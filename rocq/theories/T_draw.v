(** C108: the values drawn by the plots of the STFT and the Cohen class. *)
From Coq Require Import Reals ZArith List Lia Lra Bool.
From Coquelicot Require Import Coquelicot.
From Verif Require Import Py Scalars CSum DFT Spec M_base P_base M_utils M_putils M_post M_stft M_cohen M_state M_gen1 M_gen2 M_aff M_plot T_gen1 T_putils T_state T_plot T_reas.
Import ListNotations.
Local Open Scope Z_scope.

Definition pixels (a : artist) : option (list (list R)) :=
  match a with Image _ _ _ _ m => Some m | Contour _ _ m _ => Some m | Mesh _ _ m => Some m | Line _ _ => None end.
(** Matrix m is g on [rows] x [cols] points, with the values not above th times
    the largest one replaced by 0. *)
Definition shows (m : list (list R)) (g : Z -> Z -> R) (rows cols : Z) (th : R) : Prop :=
  zlen m = rows /\ (forall r, In r m -> zlen r = cols) /\ exists mx,
  (exists f c, 0 <= f < rows /\ 0 <= c < cols /\ g f c = mx) /\ (forall f c, 0 <= f < rows -> 0 <= c < cols -> (g f c <= mx)%R) /\
  forall f c, 0 <= f < rows -> 0 <= c < cols -> rnth (nth (Z.to_nat f) m []) c = if Rle_dec (g f c) (mx * th) then 0%R else g f c.

Lemma at2_pointwise (h : C -> C) tfr n t f c : shaped tfr n t -> 0 <= f < n -> 0 <= c < t -> at2 (map (map h) tfr) f c = h (at2 tfr f c).
Proof.
  intros [L S] Hf Hc. unfold at2. rewrite (nth_indep _ [] (map h [])) by (rewrite map_length; unfold zlen in L; lia). rewrite map_nth. unfold cnth.
  rewrite (nth_indep _ (RtoC 0) (h (RtoC 0))); [apply map_nth|]. rewrite map_length. assert (I : In (nth (Z.to_nat c) tfr []) tfr) by (apply nth_In; unfold zlen in L; lia). specialize (S _ I). unfold zlen in S. lia.
Qed.
Lemma at2_first tfr h f c : 0 <= f < h -> 0 <= c < zlen tfr -> at2 (first_rows h tfr) f c = at2 tfr f c.
Proof.
  intros Hf Hc. unfold at2, first_rows. rewrite (nth_indep _ [] (prefix [] h)) by (rewrite map_length; unfold zlen in Hc; lia). rewrite (map_nth (fun c => prefix c h)). unfold cnth, prefix. apply nth_firstn. lia.
Qed.
Lemma at2_in tfr n t f c : shaped tfr n t -> 0 <= f < n -> 0 <= c < t -> In (nth (Z.to_nat c) tfr []) tfr /\ In (at2 tfr f c) (nth (Z.to_nat c) tfr []).
Proof.
  intros [L S] Hf Hc. assert (I : In (nth (Z.to_nat c) tfr []) tfr) by (apply nth_In; unfold zlen in L; lia). split; auto. apply nth_In. specialize (S _ I). unfold zlen in S. lia.
Qed.
Lemma in_at2 tfr n t col z : shaped tfr n t -> In col tfr -> In z col -> exists f c, 0 <= f < n /\ 0 <= c < t /\ at2 tfr f c = z.
Proof.
  intros [L S] I J. assert (LC := S _ I). apply (In_nth _ _ []) in I. destruct I as (c & Hc & <-). apply (In_nth _ _ (RtoC 0)) in J. destruct J as (f & Hf & <-). exists (Z.of_nat f), (Z.of_nat c). unfold at2, cnth, zlen in *. rewrite !Nat2Z.id. repeat split; lia.
Qed.

Lemma cut_shows o tfr n t mx th : 1 <= t -> 0 <= n -> shaped tfr n t -> amax tfr = Ok mx -> r_tfr o = cut (mx * th) tfr -> shows (v_tfr (rep_view o)) (fun f c => Re (at2 tfr f c)) n t th.
Proof.
  intros Ht Hn S A E. assert (S' : shaped (r_tfr o) n t) by (rewrite E; now apply shaped_cut). destruct (view_shape o n t Hn Ht S') as [V1 V2]. destruct (amax_spec _ _ A) as ((c0 & z & I & J & Z) & M).
  assert (RR : rep_rows o = n). { destruct S' as [L S']. unfold rep_rows. destruct (r_tfr o); [unfold zlen in L; cbn in L; lia|]. apply S'. now left. }
  assert (LT : zlen (r_tfr o) = t) by (destruct S'; auto).
  split; auto. split. { intros r Hr. unfold rep_view in Hr. cbn [v_tfr] in Hr. apply in_map_iff in Hr. destruct Hr as (f & <- & _). rewrite zlen_map_arange by lia. lia. }
  exists mx. split; [|split].
  - destruct (in_at2 tfr n t c0 z S I J) as (f & c & Hf & Hc & Q). exists f, c. rewrite Q. auto.
  - intros f c Hf Hc. destruct (at2_in tfr n t f c S Hf Hc) as [I' J']. eapply M; eauto.
  - intros f c Hf Hc. unfold rep_view. cbn [v_tfr]. rewrite RR, nth_map_arange by lia. rewrite LT. unfold rnth. rewrite nth_map_arange by lia. rewrite !Z.add_0_l. rewrite E. unfold cut. rewrite (at2_pointwise _ tfr n t f c S Hf Hc). destruct (Rle_dec _ _); reflexivity.
Qed.
Lemma shows_ext m g g' rows cols th : (forall f c, 0 <= f < rows -> 0 <= c < cols -> g f c = g' f c) -> shows m g rows cols th -> shows m g' rows cols th.
Proof.
  intros E (A & B & mx & (f & c & Hf & Hc & M1) & M2 & V). split; auto. split; auto. exists mx. split; [exists f, c; rewrite <- E; auto|]. split.
  - intros f' c' F C. rewrite <- E by auto. auto.
  - intros f' c' F C. rewrite <- E by auto. auto.
Qed.
Lemma shows_abs m g rows cols th : (forall f c, 0 <= f < rows -> 0 <= c < cols -> (0 <= g f c)%R) -> shows m g rows cols th -> shows (map (map Rabs) m) g rows cols th.
Proof.
  intros P (A & B & mx & M1 & M2 & V). split; [now rewrite zlen_map|]. split.
  - intros r Hr. apply in_map_iff in Hr. destruct Hr as (r' & <- & Hr'). rewrite zlen_map. auto.
  - exists mx. split; auto. split; auto. intros f c Hf Hc. assert (I : In (nth (Z.to_nat f) m []) m) by (apply nth_In; unfold zlen in A; lia). specialize (B _ I). rewrite (nth_indep _ [] (map Rabs [])) by (rewrite map_length; unfold zlen in A; lia). rewrite map_nth. unfold rnth.
    rewrite (nth_indep _ 0%R (Rabs 0)) by (rewrite map_length; unfold zlen in B; lia). rewrite map_nth. fold (rnth (nth (Z.to_nat f) m []) c). rewrite V by auto. destruct (Rle_dec _ _); [apply Rabs_R0|]. apply Rabs_pos_eq. auto.
Qed.
(** Every matrix handed over by base.py is the object's, or its absolute values. *)
Lemma base_pixels o v p a m : v_affine v = None -> base_plot o v = Ok p -> In a p -> pixels a = Some m -> m = v_tfr v \/ m = map (map Rabs) (v_tfr v).
Proof.
  intros AF H I P. unfold base_plot in H. apply bind_ok_inv in H. destruct H as ([[[t0 t1] f0] f1] & _ & H). cbv zeta in H.
  assert (CT : forall x y l b, contour x y (v_tfr v) l = Ok b -> exists x' y' l', b = Contour x' y' (v_tfr v) l').
  { intros x y l b C. unfold contour in C. destruct (_ || _); [discriminate|]. destruct (_ || _); [discriminate|]. destruct l as [l|]; [destruct (increasing l); [|discriminate]|]; injection C as <-; eauto. }
  destruct (o_tf o).
  - apply bind_ok_inv in H. destruct H as (main & HM & H). apply bind_ok_inv in H. destruct H as (sp & HS & H). assert (EP : p = main ++ [Line (map IZR (arange 0 (zlen (v_sig v)))) (map Re (v_sig v)); sp]) by congruence. subst p. clear H.
    assert (LS : pixels sp = None). { unfold plot_spectrum in HS. cbv zeta in HS. apply bind_ok_inv in HS. destruct HS as (b & HB & HS). rewrite AF in HS. assert (b = sp) by congruence. subst b. unfold line in HB. destruct (_ =? _); [|discriminate]. injection HB as <-. reflexivity. }
    apply in_app_or in I. destruct I as [I|[<-|[<-|[]]]]; [|discriminate|congruence].
    unfold plot_tfr in HM. destruct (o_kind o); try (injection HM as <-; destruct I; fail).
    + injection HM as <-. destruct I as [<-|[]]. cbn in P. left. congruence.
    + rewrite AF in HM. destruct (o_levels o).
      * apply bind_ok_inv in HM. destruct HM as (b & HB & HM). injection HM as <-. destruct I as [<-|[]]. destruct (CT _ _ _ _ HB) as (? & ? & ? & ->). cbn in P. left. congruence.
      * apply bind_ok_inv in HM. destruct HM as (b & HB & HM). injection HM as <-. destruct I as [<-|[]]. destruct (CT _ _ _ _ HB) as (? & ? & ? & ->). cbn in P. left. congruence.
  - destruct (o_kind o).
    + injection H as <-. destruct I as [<-|[]]. cbn in P. left. congruence.
    + apply bind_ok_inv in H. destruct H as (b & HB & H). injection H as <-. destruct I as [<-|[]]. destruct (CT _ _ _ _ HB) as (? & ? & ? & ->). cbn in P. left. congruence.
    + apply bind_ok_inv in H. destruct H as (b & HB & H). injection H as <-. destruct I as [<-|[]]. unfold mesh in HB. destruct (_ && _); [|discriminate]. injection HB as <-. cbn in P. right. congruence.
    + apply bind_ok_inv in H. destruct H as (b & HB & H). injection H as <-. destruct I as [<-|[]]. unfold mesh in HB. destruct (_ && _); [|discriminate]. injection HB as <-. cbn in P. right. congruence.
    + apply bind_ok_inv in H. destruct H as (b & HB & H). injection H as <-. destruct I as [<-|[]]. destruct (CT _ _ _ _ HB) as (? & ? & ? & ->). cbn in P. left. congruence.
Qed.
Lemma picture_shows o o1 p a m tfr n t mx th : 1 <= t -> 0 <= n -> shaped tfr n t -> amax tfr = Ok mx -> r_tfr o1 = cut (mx * th) tfr ->
  (forall f c, 0 <= f < n -> 0 <= c < t -> (0 <= Re (at2 tfr f c))%R) ->
  base_plot o (rep_view o1) = Ok p -> In a p -> pixels a = Some m -> shows m (fun f c => Re (at2 tfr f c)) n t th.
Proof.
  intros Ht Hn S A E P H I X. assert (Q := cut_shows o1 tfr n t mx th Ht Hn S A E). destruct (base_pixels o (rep_view o1) p a m eq_refl H I X) as [-> | ->]; auto. now apply shows_abs.
Qed.

(** Short-time Fourier transform, Margenau-Hill (and pseudo): the squared modulus of
    the first n//2 rows. *)
Lemma c108_stft : forall k tf th o n t p a m, shaped (r_tfr o) n t -> r_n o = n -> 1 <= n -> 1 <= t ->
  stft_picture k tf th o = Ok p \/ mh_picture k tf th o = Ok p -> In a p -> pixels a = Some m ->
  shows m (fun f c => Cmod (at2 (r_tfr o) f c) ^ 2)%R (n / 2) t th.
Proof.
  intros k tf th o n t p a m S EN Hn Ht H I P. assert (H2 : 0 <= n / 2 <= n) by (Z.to_euclidean_division_equations; lia).
  assert (RW : match r_tfr o with c :: _ => zlen c | [] => r_n o end = n). { destruct S as [L S]. destruct (r_tfr o) as [|c l]; [auto|]. apply S. now left. }
  assert (S2 := shaped_first (n / 2) _ n t H2 S). assert (S3 := shaped_sq _ _ _ S2). set (T := sqmod_tfr (first_rows (n / 2) (r_tfr o))) in *.
  assert (V : forall f c, 0 <= f < n / 2 -> 0 <= c < t -> at2 T f c = RtoC (Cmod (at2 (r_tfr o) f c) ^ 2)). { intros f c Hf Hc. unfold T, sqmod_tfr. rewrite (at2_pointwise _ _ (n / 2) t f c S2 Hf Hc). rewrite at2_first; auto. destruct S as [-> _]. auto. }
  apply (shows_ext _ (fun f c => Re (at2 T f c))). { intros f c Hf Hc. now rewrite V. }
  assert (PO : forall f c, 0 <= f < n / 2 -> 0 <= c < t -> (0 <= Re (at2 T f c))%R) by (intros f c Hf Hc; rewrite V by auto; apply pow2_ge_0).
  destruct H as [H|H].
  - unfold stft_picture, stft_plot, threshold in H. rewrite EN in H. cbv zeta in H. fold T in H. destruct (amax T) as [mx|] eqn:A; [|discriminate]. cbn [bind] in H. eapply picture_shows; eauto; try lia. reflexivity.
  - unfold mh_picture, mh_plot, threshold in H. rewrite RW in H. cbv zeta in H. fold T in H. destruct (amax T) as [mx|] eqn:A; [|discriminate]. cbn [bind] in H. apply bind_ok_inv in H. destruct H as (hi & _ & H). eapply picture_shows; eauto; try lia. reflexivity.
Qed.
(** Wigner-Ville (and pseudo): modulus or squared modulus of every row. *)
Lemma c108_wvd : forall k tf sq th o n t p a m, shaped (r_tfr o) n t -> 1 <= n -> 1 <= t ->
  wvd_picture k tf sq th o = Ok p -> In a p -> pixels a = Some m ->
  shows m (fun f c => if sq then Cmod (at2 (r_tfr o) f c) ^ 2 else Cmod (at2 (r_tfr o) f c))%R n t th.
Proof.
  intros k tf sq th o n t p a m S Hn Ht H I P. set (T := if sq then sqmod_tfr (r_tfr o) else abs_tfr (r_tfr o)).
  assert (S3 : shaped T n t) by (unfold T; destruct sq; [now apply shaped_sq|now apply shaped_abs]).
  assert (V : forall f c, 0 <= f < n -> 0 <= c < t -> at2 T f c = RtoC (if sq then Cmod (at2 (r_tfr o) f c) ^ 2 else Cmod (at2 (r_tfr o) f c))%R).
  { intros f c Hf Hc. unfold T, sqmod_tfr, abs_tfr. destruct sq; now rewrite (at2_pointwise _ _ n t f c S Hf Hc). }
  apply (shows_ext _ (fun f c => Re (at2 T f c))). { intros f c Hf Hc. now rewrite V. }
  unfold wvd_picture, wvd_plot, threshold in H. fold T in H. destruct (amax T) as [mx|] eqn:A; [|discriminate]. cbn [bind] in H. eapply picture_shows; eauto; try lia; [reflexivity|].
  intros f c Hf Hc. rewrite V by auto. cbn [Re RtoC fst]. destruct sq; [apply pow2_ge_0|apply Cmod_ge_0].
Qed.
(** Spectrogram (non-negative entries): the first n//2 rows as they are. *)
Lemma c108_spectrogram : forall k tf th o n t p a m, shaped (r_tfr o) n t -> r_n o = n -> 1 <= n -> 1 <= t ->
  (forall f c, 0 <= f < n -> 0 <= c < t -> (0 <= Re (at2 (r_tfr o) f c))%R) ->
  spec_picture k tf th o = Ok p -> In a p -> pixels a = Some m -> shows m (fun f c => Re (at2 (r_tfr o) f c)) (n / 2) t th.
Proof.
  intros k tf th o n t p a m S EN Hn Ht PO H I P. assert (H2 : 0 <= n / 2 <= n) by (Z.to_euclidean_division_equations; lia).
  assert (S2 := shaped_first (n / 2) _ n t H2 S). assert (LT : zlen (r_tfr o) = t) by (destruct S; auto).
  apply (shows_ext _ (fun f c => Re (at2 (first_rows (n / 2) (r_tfr o)) f c))). { intros f c Hf Hc. now rewrite at2_first by lia. }
  unfold spec_picture, spec_plot in H. rewrite EN in H. cbv zeta in H. destruct (amax _) as [mx|] eqn:A; [|discriminate]. cbn [bind fst] in H.
  eapply picture_shows; eauto; try lia; [apply cut_first_rows|]. intros f c Hf Hc. rewrite at2_first by lia. apply PO; lia.
Qed.

Lemma Cmod_Ci : Cmod Ci = 1%R.
Proof. unfold Cmod, Ci. cbn [fst snd]. replace (0 ^ 2 + 1 ^ 2)%R with 1%R by ring. apply sqrt_1. Qed.
(** Modulus 1, 3, 4, 0 with threshold 1/2: 1 is dropped. *)
Example c108_example : let o := mkrep [RtoC 1] (TsI [0; 1]) 2 [] [0; 1 / 2]%R [[RtoC 1; (Ci * RtoC 3)%C]; [RtoC (-4); RtoC 0]] false in
  wvd_picture Kcmap false false (1 / 2) o = Ok [Image 0 1 0 (1 / 2) [[0; 4]; [3; 0]]%R].
Proof.
  cbv zeta. unfold wvd_picture, wvd_plot, threshold, amax, abs_tfr. cbn [r_tfr map concat app fold_left]. rewrite Cmod_mult, !Cmod_R, Cmod_Ci. rewrite Rabs_R0, (Rabs_pos_eq 1), (Rabs_pos_eq 3), (Rabs_left (-4)) by lra.
  cbn [Re RtoC fst bind]. replace (Rmax (Rmax (Rmax 1 (1 * 3)) (- -4)) 0)%R with 4%R.
  2:{ unfold Rmax. repeat (destruct (Rle_dec _ _); try lra). }
  unfold cut. cbn [map]. cbn [Re RtoC fst]. repeat (match goal with |- context [Rle_dec ?a ?b] => destruct (Rle_dec a b); try lra end).
  unfold base_plot, defaults, rep_view, with_tfr. cbn [o_extent o_tf o_kind v_ts v_freqs v_sig v_tfr r_ts r_freqs r_sig ts_vals map rmin_list rmax_list fold_left bind].
  unfold rmin_list, rmax_list. cbn [fold_left bind]. replace (Rmin 0 1) with 0%R by (unfold Rmin; destruct (Rle_dec _ _); lra). replace (Rmax 0 1) with 1%R by (unfold Rmax; destruct (Rle_dec _ _); lra). replace (Rmin 0 (1 / 2)) with 0%R by (unfold Rmin; destruct (Rle_dec _ _); lra). replace (Rmax 0 (1 / 2)) with (1 / 2)%R by (unfold Rmax; destruct (Rle_dec _ _); lra).
  cbn [bind]. do 3 f_equal. unfold rep_rows. cbn [r_tfr]. unfold zlen. cbn [length]. change (arange 0 (Z.of_nat 2)) with [0; 1]. cbn [map]. unfold at2, cnth. change (Z.to_nat 0) with 0%nat. change (Z.to_nat 1) with 1%nat. cbn [nth Re RtoC fst]. repeat (f_equal; try lra).
Qed.
