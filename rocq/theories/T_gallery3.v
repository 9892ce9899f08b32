(** C131: the programs of the gallery with reassigned representations and with sums of
    signals. *)
From Coq Require Import Reals ZArith List Lia Lra Bool.
From Coquelicot Require Import Coquelicot.
From Flocq Require Import Core.
From Verif Require Import Py Scalars CSum DFT Spec M_base M_stft M_cohen M_amb M_reas M_post M_dom M_gen1 M_gen2 M_gen3 M_gallery M_gallery2 M_plot
  P_base P_wvd T_wvd T_gen1 T_gen2 T_misc T_putils T_noise T_amb T_stft T_spec T_pwvd T_reas T_reas2 T_post T_post3 T_plot T_plot4 T_dom T_nd T_gallery.
Import ListNotations.
Local Open Scope Z_scope.

Lemma win_lh_hamming n : 8 <= n -> let k := pmh_winlen n in k mod 2 <> 0 /\ 3 <= k /\ win_lh (map RtoC (hamming k)) = (k - 1) / 2 /\ ~ round_half n - 1 <= (k - 1) / 2.
Proof.
  intros Hn k. assert (LK : zlen (map RtoC (hamming k)) = k) by (rewrite zlen_map; apply hamming_zlen; unfold k, pmh_winlen; destruct (Z.eqb_spec (n / 4 mod 2) 0); Z.to_euclidean_division_equations; lia).
  unfold win_lh. rewrite LK. assert (H := round_half_bounds n).
  unfold k, pmh_winlen in *. destruct (Z.eqb_spec (n / 4 mod 2) 0); repeat split; Z.to_euclidean_division_equations; lia.
Qed.

Lemma rpwv_vec x ts n w tfr rtfr vec : rpwv x ts n w = Ok (Some (tfr, rtfr, vec)) ->
  zlen vec = zlen (rp_ts x ts) /\ forall c, In c vec -> zlen c = rp_n x n.
Proof.
  intros H. assert (Hn := rpwv_pos _ _ _ _ _ H). rewrite rpwv_defaults in H by lia. 
  set (l := rp_ts x ts) in *. set (w' := rp_w x n w) in *. set (n' := rp_n x n) in *. 
  destruct (rpwv_inv _ _ _ _ _ H) as (_ & Ho & mn & mx & dh & Hmn & Hmx & Hd).
  destruct (rpwv_eval x l n' w' mn mx dh Hn Ho Hmn Hmx Hd) as [Eb Eg].
  destruct (rp_bad_list (zlen x) (win_lh w') n' l) as [B|B]; [rewrite Eb in H by auto; discriminate|].
  destruct (Eg B) as [E0 E1]. destruct (Ceq_dec (cnth w' (win_lh w')) (RtoC 0)) as [Hc|Hc]; [rewrite E0 in H by auto; discriminate|].
  specialize (E1 Hc). cbv zeta in E1. rewrite E1 in H. clear E0 E1 Eb Eg.
  apply bind_ok_inv in H. destruct H as (rt & Hr & H). injection H as _ _ <-. assert (P := zlen_nonneg l). split.
  - rewrite zlen_map, arange_zlen. lia.
  - intros c Hc'. apply in_map_iff in Hc'. destruct Hc' as (i & <- & _). rewrite zlen_map, arange_zlen. lia.
Qed.

(** With the default window pseudo_wigner_ville returns for every signal of at least 8
    samples and every list of timestamps. *)
Lemma rpwv_default x l : 8 <= zlen x -> l <> [] -> exists tfr rtfr vec, rpwv x (Some l) None None = Ok (Some (tfr, rtfr, vec)).
Proof.
  intros HN HL. rewrite rpwv_defaults by (cbn [rp_n]; lia). cbn [rp_ts rp_n rp_w]. destruct (win_lh_hamming _ HN) as (O & G & WL & NB). set (k := pmh_winlen (zlen x)) in *. set (w := map RtoC (hamming k)) in *.
  assert (LW : zlen w = k) by (unfold w; rewrite zlen_map; apply hamming_zlen; lia).
  destruct (c39_outcome x l (zlen x) w ltac:(lia)) as (_ & _ & H). rewrite LW, WL in H. specialize (H O G HL). 
  assert (H' := H ltac:(intros ti _ [_ Q]; lia)). destruct (Ceq_dec (cnth w ((k - 1) / 2)) (RtoC 0)) as [Z|Z].
  - exfalso. unfold w, cnth in Z. change (RtoC 0) with (RtoC 0) in Z. rewrite map_nth in Z. apply RtoC_inj in Z. assert (Q := hamming_range k ((k - 1) / 2) ltac:(Z.to_euclidean_division_equations; lia)). unfold rnth in Q. lra.
  - destruct H' as [[[a b] c] E]. eauto.
Qed.

Lemma list_nth_map {A} (l : list A) d : l = map (fun k => nth (Z.to_nat k) l d) (arange 0 (zlen l)).
Proof.
  apply (nth_ext _ _ d d); [rewrite map_length, arange_length; unfold zlen; lia|]. intros k Hk.
  assert (Q := nth_map_arange (fun k => nth (Z.to_nat k) l d) 0 (zlen l) (Z.of_nat k) d). rewrite Nat2Z.id in Q. rewrite Q by (unfold zlen; lia). rewrite Z.add_0_l, Nat2Z.id. reflexivity.
Qed.
Lemma sum_columns (m : list (list R)) n T : shape m n T -> rsum (concat m) (fun v => v) = rsum (arange 0 T) (fun i => rsum (arange 0 n) (fun j => rent m j i)).
Proof.
  intros [L H]. rewrite rsum_concat. rewrite (list_nth_map m []) at 1. rewrite rsum_map, L. apply rsum_ext. intros i Hi. apply in_arange in Hi. rewrite rsum_nth.
  rewrite H by (apply nth_In; unfold zlen in L; lia). reflexivity.
Qed.

Lemma c131_density : forall x l, 8 <= zlen x -> l <> [] -> (forall t, In t l -> 1 <= t <= zlen x) -> (exists t, In t l /\ cnth x (t - 1) <> RtoC 0) ->
  exists m, density_of x l = Ok (Some m) /\ zlen m = zlen l /\ (forall c, In c m -> zlen c = zlen x) /\
  (forall v, In v (concat m) -> (0 <= v)%R) /\ rsum (concat m) (fun v => v) = 1%R.
Proof.
  intros x l HN HL HT (t & It & Nt). destruct (rpwv_default x l HN HL) as (tfr & rtfr & vec & E). unfold density_of. rewrite E. cbn [bind].
  destruct (rpwv_vec _ _ _ _ _ _ _ E) as [V1 V2]. destruct (c39_entries _ _ _ _ _ _ _ E) as (SH & _ & _). cbn [rp_ts rp_n] in *. cbv zeta in SH.
  assert (MARG := fun i => c39_marginal _ _ _ _ _ _ _ i E). cbn [rp_ts rp_n] in MARG. cbv zeta in MARG.
  destruct SH as [S1 S2].
  assert (POS : (0 < rsum (concat tfr) (fun v => v))%R).
  { rewrite (sum_columns tfr (zlen x) (zlen l)) by (split; assumption). destruct (In_nth l t 0 It) as (i & Hi & Ei).
    assert (NN : forall i, In i (arange 0 (zlen l)) -> (0 <= rsum (arange 0 (zlen x)) (fun j => rent tfr j i))%R).
    { intros i' Hi'. apply in_arange in Hi'. rewrite MARG by auto. destruct (_ && _); [|lra]. apply Rmult_le_pos; [apply IZR_le; lia|apply pow2_ge_0]. }
    assert (Ia : In (Z.of_nat i) (arange 0 (zlen l))) by (apply in_arange; unfold zlen; lia).
    destruct (Rlt_dec 0 (rsum (arange 0 (zlen l)) (fun i => rsum (arange 0 (zlen x)) (fun j => rent tfr j i)))) as [Q|Q]; [exact Q|exfalso].
    assert (Q0 : rsum (arange 0 (zlen l)) (fun i => rsum (arange 0 (zlen x)) (fun j => rent tfr j i)) = 0%R) by (apply Rle_antisym; [lra|apply rsum_nonneg; exact NN]).
    assert (Q1 := rsum_nonneg_0 _ _ NN Q0 _ Ia). cbn beta in Q1. apply in_arange in Ia. rewrite MARG, Nat2Z.id, Ei in Q1 by auto. specialize (HT t It).
    rewrite (proj2 (Z.leb_le 1 t)), (proj2 (Z.leb_le t (zlen x))) in Q1 by lia. cbn [andb] in Q1.
    assert (NP : (0 < IZR (zlen x))%R) by (apply IZR_lt; lia). assert (CM := proj1 (Cmod_gt_0 _) Nt). assert (0 < Cmod (cnth x (t - 1)) ^ 2)%R by (apply pow_lt; exact CM). nra. }
  assert (NN := c45_positive tfr (hat_real vec) (zlen x) ltac:(lia)). destruct (c45_density tfr (hat_real vec) (zlen x) ltac:(lia)) as [D0 D1]. cbv zeta in D0, D1.
  destruct (Z.eq_dec (fcount tfr (hat_real vec)) 0) as [K|K].
  - exfalso. apply NN; [| | |exact POS|exact (D0 K)].
    + unfold hat_real. rewrite zlen_map. lia.
    + intros k Hk. unfold hat_real. rewrite (nth_indep _ [] (map (fun o => match o with Some r => Fin (IZR r) | None => PInf end) [])) by (rewrite map_length; unfold zlen in *; lia).
      rewrite map_nth, map_length. assert (A := V2 (nth k vec []) ltac:(apply nth_In; unfold zlen in *; lia)). assert (B := S2 (nth k tfr []) ltac:(apply nth_In; auto)). unfold zlen in A, B. lia.
    + intros c v Hc Hv Q. subst v. unfold hat_real in Hc. apply in_map_iff in Hc. destruct Hc as (c' & <- & _). apply in_map_iff in Hv. destruct Hv as ([o|] & Q & _); discriminate.
  - destruct (D1 K) as (m & EM & P & SUM & G & _). exists m. rewrite EM. split; [reflexivity|].
    assert (LF : zlen (fpairs tfr (hat_real vec)) = zlen l) by (unfold fpairs, hat_real; rewrite zipw_zlen; [exact S1|rewrite zlen_map; lia]). rewrite LF in G. destruct G as [G1 G2].
    split; [exact G1|]. split; [|auto]. intros c Hc. destruct (In_nth m c [] Hc) as (k & Hk & <-). specialize (G2 (Z.of_nat k)). rewrite Nat2Z.id in G2. apply G2. unfold zlen in *. lia.
Qed.

Lemma all_some_map {A} (y : list A) : all_some (map Some y) = Some y.
Proof. induction y as [|a y IH]; [reflexivity|]. cbn [map all_some]. rewrite IH. reflexivity. Qed.
Lemma tone_ok n f : 1 <= n -> (Rabs f <= 1 / 2)%R ->
  exists y l, fmconst n f None = Ok (map Some y, l) /\ zlen y = n /\ (forall k, 0 <= k < n -> cnth y k = cis (2 * PI * f * IZR (k - half_round n))).
Proof.
  intros Hn Hf. assert (B := half_round_range n ltac:(lia)). rewrite c54_default.
  destruct (c54_tone n f (half_round n) ltac:(lia) Hf) as (y & E & L & V & _). eauto.
Qed.
Lemma csum2_zlen x y : zlen x = zlen y -> zlen (csum2 x y) = zlen x.
Proof. intros H. unfold csum2. now apply zipw_zlen. Qed.

(** plot_4_3_6: with m samples a part and a gap of g. *)
Definition odd_stamps (n : Z) : list Z := map (fun k => 2 * k + 1) (arange 0 (n / 2)).
Lemma c131_friedman : forall m g, 2 <= m -> 0 <= g -> 8 <= 2 * m + g ->
  exists x d, three_parts m g = Ok (Some x) /\ zlen x = 2 * m + g /\ density_of x (odd_stamps (2 * m + g)) = Ok (Some d) /\
  zlen d = (2 * m + g) / 2 /\ (forall c, In c d -> zlen c = 2 * m + g) /\ (forall v, In v (concat d) -> (0 <= v)%R) /\ rsum (concat d) (fun v => v) = 1%R.
Proof.
  intros m g Hm Hg H8. assert (A : forall v, (0 <= v <= 1 / 2)%R -> (Rabs v <= 1 / 2)%R) by (intros v Hv; rewrite Rabs_right; lra).
  destruct (c57_fmsin m (16 / 100) (35 / 100) 50 1 (35 / 100) 1 ltac:(lra) ltac:(lra) ltac:(lra) ltac:(auto)) as (E1 & _). set (law := sin_law _ _ _ _ _) in E1. set (p := sin_p _ _ _ _ _) in E1.
  destruct (chirp_ok m (3 / 10) (1 / 10) Hm ltac:(apply A; lra) ltac:(apply A; lra)) as (y & l & E2 & L2 & _).
  destruct (tone_ok m (4 / 10) ltac:(lia) ltac:(apply A; lra)) as (z & l' & E3 & L3 & _).
  set (x1 := map (fun k => cis (p (IZR k - 1)%R)) (arange 0 m)) in *. assert (L1 : zlen x1 = m) by (unfold x1; rewrite zlen_map_arange; lia).
  set (x := x1 ++ zeros g ++ csum2 y z). assert (LX : zlen x = 2 * m + g) by (unfold x; rewrite !zlen_app, L1, csum2_zlen, zeros_zlen by lia; lia).
  assert (ET : three_parts m g = Ok (Some x)). { unfold three_parts. rewrite E1. cbn [bind]. rewrite E2. cbn [bind]. rewrite E3. cbn [bind]. rewrite all_some_map. reflexivity. }
  destruct (c131_density x (odd_stamps (2 * m + g))) as (d & ED & D1 & D2 & D3 & D4).
  - lia.
  - unfold odd_stamps. rewrite arange_cons by (Z.to_euclidean_division_equations; lia). discriminate.
  - intros t Ht. unfold odd_stamps in Ht. apply in_map_iff in Ht. destruct Ht as (k & <- & Hk). apply in_arange in Hk. rewrite LX. Z.to_euclidean_division_equations; lia.
  - exists 1. split; [unfold odd_stamps; apply in_map_iff; exists 0; split; [lia|apply in_arange; Z.to_euclidean_division_equations; lia]|].
    change (1 - 1) with 0. unfold x, cnth. rewrite app_nth1 by (unfold zlen in L1; lia). unfold x1. rewrite arange_cons by lia. cbn [map]. change (Z.to_nat 0) with 0%nat. cbn [nth].
    intros Q. apply (f_equal Cmod) in Q. rewrite Cmod_cis, Cmod_0 in Q. lra.
  - exists x, d. split; [exact ET|]. split; [exact LX|]. split; [exact ED|]. split; [|rewrite LX in D2; auto].
    rewrite D1. unfold odd_stamps. rewrite zlen_map, arange_zlen. Z.to_euclidean_division_equations; lia.
Qed.

(** reassigned_spectrogram(x) returns for every signal of at least 8 samples, and so does
    Spectrogram(x).run(). *)
Lemma c131_reassigned : forall x, 8 <= zlen x ->
  (exists tfr rtfr vec, rspec x None None None = Ok (Some (tfr, rtfr, vec)) /\ shape tfr (zlen x) (zlen x) /\ shape rtfr (zlen x) (zlen x)) /\
  (exists m, spectrogram x None None None = Ok m /\ zlen m = zlen x /\ forall c, In c m -> exists col, c = Some col /\ zlen col = zlen x /\ forall v, In v col -> (0 <= v)%R).
Proof.
  intros x HN. split.
  - set (k := zlen x / 4 + (1 - (zlen x / 4) mod 2)). assert (HK : k mod 2 <> 0 /\ 3 <= k) by (unfold k; Z.to_euclidean_division_equations; lia). destruct HK as [HO HK].
    assert (LW : zlen (rs_w x None) = k) by (cbn [rs_w]; rewrite zlen_map; apply hamming_zlen; lia).
    assert (NE : arange 0 (zlen x) <> []) by (rewrite arange_cons by lia; discriminate).
    assert (RNG : forall t, In t (arange 0 (zlen x)) -> 1 - zlen x <= t <= zlen x) by (intros t Ht; apply in_arange in Ht; lia).
    assert (D := rspec_defaults x None None None). cbn [rs_ts rs_n] in D.
    destruct (c36_outcome x (arange 0 (zlen x)) (zlen x) (rs_w x None)) as (_ & O). rewrite LW in O. destruct (O HO (regular_arange _) ltac:(lia) NE) as [_ O']. destruct (O' RNG HK) as [o EO].
    destruct o as [[[tfr rtfr] vec]|].
    + rewrite <- D in EO. exists tfr, rtfr, vec. split; [exact EO|]. destruct (c36_entries _ _ _ _ _ _ _ EO) as (S1 & S2 & _). cbn [rs_ts rs_n] in S1, S2. rewrite arange_zlen in S1, S2. rewrite Z.max_r in S1, S2 by lia. rewrite Z.sub_0_r in S1, S2. auto.
    + exfalso. apply (c36_nan x (arange 0 (zlen x)) (zlen x) (rs_w x None)) in EO; auto; [|rewrite LW; exact HO|apply regular_arange|lia].
      destruct EO as (ti & Hti & NT & Z). destruct (rs_tau (zlen x) (rs_w x None) (zlen x) ti) as [|t0 r] eqn:ET; [congruence|]. specialize (Z t0 ltac:(left; reflexivity)).
      assert (IT : In t0 (rs_tau (zlen x) (rs_w x None) (zlen x) ti)) by (rewrite ET; left; reflexivity). apply rs_tau_in in IT. destruct IT as (I1 & _).
      assert (WL := odd_lh (rs_w x None) ltac:(rewrite LW; exact HO)). rewrite LW in WL. cbn [rs_w] in Z. unfold cnth in Z. rewrite map_nth in Z. apply RtoC_inj in Z.
      assert (Q := hamming_range k (win_lh (rs_w x None) + t0) ltac:(lia)). unfold rnth in Q. fold k in Z. cbn [rs_w] in Q. fold k in Q. rewrite Z in Q. lra.
  - destruct (c17_spectrogram_default_window x (arange 0 (zlen x)) (zlen x) ltac:(lia)) as (m & E & L & V). exists m. split; [exact E|]. rewrite arange_zlen in L. split; [lia|exact V].
Qed.

(** plot_4_3_2: the ideal representation marks both laws in every column. *)
Lemma c131_hybrid : forall n, 8 <= n ->
  exists x l1 l2, hybrid n = Ok (Some (x, [map Some l1; map Some l2])) /\ zlen x = n /\ zlen l1 = n /\ zlen l2 = n /\
  (exists tfr rtfr vec, rspec x None None None = Ok (Some (tfr, rtfr, vec)) /\ shape rtfr n n) /\
  (exists m, spectrogram x None None None = Ok m /\ zlen m = n) /\
  exists m freqs, ideal_tfr [map Some l1; map Some l2] None None = Ok (m, arange 0 n, freqs) /\ grid m n n /\
  forall c, 0 <= c < n -> (forall f, f = rnth l1 c \/ f = rnth l2 c -> let r := ZnearestE (2 * f * IZR (n - 1)) in 0 <= r < n /\ cell None m r c = Some 1%R).
Proof.
  intros n Hn.
  destruct (c57_fmsin n (15 / 100) (45 / 100) 100 1 (4 / 10) (-1) ltac:(lra) ltac:(lra) ltac:(lra) ltac:(auto)) as (E1 & _ & B1 & _). set (law1 := sin_law _ _ _ _ _) in *. set (p := sin_p _ _ _ _ _) in *.
  destruct (c57_fmhyp n 1 (1 / 2) 32 (5 / 100) ltac:(lra) ltac:(lra) ltac:(lra)) as (E2 & _). cbv zeta in E2.
  set (c := ((5 / 100 - 1 / 2) / (1 / 32 - 1 / 1))%R) in *. assert (EC : c = (144 / 310)%R) by (unfold c; field). set (f0 := (1 / 2 - c / 1)%R) in *. assert (EF : f0 = (11 / 310)%R) by (unfold f0; rewrite EC; field).
  set (x1 := map _ (arange 0 n)) in E1. set (l1 := map _ (arange 0 n)) in E1. set (x2 := map _ (arange 1 (n + 1))) in E2. set (l2 := map _ (arange 1 (n + 1))) in E2.
  assert (LX1 : zlen x1 = n) by (unfold x1; rewrite zlen_map_arange; lia). assert (LL1 : zlen l1 = n) by (unfold l1; rewrite zlen_map_arange; lia).
  assert (LX2 : zlen x2 = n) by (unfold x2; rewrite zlen_map_arange; lia). assert (LL2 : zlen l2 = n) by (unfold l2; rewrite zlen_map_arange; lia).
  set (x := csum2 x1 x2). assert (LX : zlen x = n) by (unfold x; rewrite csum2_zlen; lia).
  exists x, l1, l2. split. { unfold hybrid. rewrite E1. cbn [bind]. rewrite E2. reflexivity. }
  split; [exact LX|]. split; [exact LL1|]. split; [exact LL2|]. destruct (c131_reassigned x ltac:(lia)) as [(tfr & rtfr & vec & ER & _ & SR) (m & ES & LM & _)]. rewrite LX in SR, LM.
  split; [exists tfr, rtfr, vec; auto|]. split; [exists m; auto|]. clear m ES LM tfr rtfr vec ER SR.
  assert (G1 : forall v, In v l1 -> (0 <= v <= 1 / 2)%R). { intros v Hv. unfold l1 in Hv. apply in_map_iff in Hv. destruct Hv as (k & <- & _). specialize (B1 (IZR k - 1)%R). lra. }
  assert (G2 : forall v, In v l2 -> (0 <= v <= 1 / 2)%R).
  { intros v Hv. unfold l2 in Hv. apply in_map_iff in Hv. destruct Hv as (k & <- & Hk). apply in_arange in Hk. assert (1 <= IZR k)%R by (apply IZR_le; lia). assert (Q := Rinv_0_lt_compat (IZR k) ltac:(lra)).
    assert (/ IZR k <= 1)%R by (rewrite <- Rinv_1; apply Rinv_le_contravar; lra). rewrite EF, EC. unfold Rdiv at 2. nra. }
  assert (D := c44_default [map Some l1; map Some l2] (map Some l1) eq_refl). rewrite zlen_map, LL1 in D.
  destruct (c44_marks [map Some l1; map Some l2] (arange 0 n) n n ltac:(lia) ltac:(lia)) as (m & freqs & EM & GM & _ & MK & NF).
  - intros law [<-|[<-|[]]]; rewrite zlen_map; (split; [assumption|]); intros v Hv; apply in_map_iff in Hv; destruct Hv as (f & <- & Hf); exists f; auto.
  - intros t Ht. apply in_arange in Ht. lia.
  - assert (ZA : zlen (arange 0 n) = n) by (rewrite arange_zlen; lia). rewrite ZA in *. exists m, freqs. rewrite D. split; [exact EM|]. split; [exact GM|].
    intros cc Hc f Hf r. assert (HF : (0 <= f <= 1 / 2)%R) by (destruct Hf as [->| ->]; [apply G1|apply G2]; unfold rnth; apply nth_In; unfold zlen in *; lia).
    destruct (NF f HF) as [HR _]. fold r in HR. split; [exact HR|]. destruct (MK r cc HR Hc) as [[M _]|[_ NM]]; [exact M|exfalso]. apply NM.
    assert (NT : nth (Z.to_nat cc) (arange 0 n) 0 = cc) by (assert (Q := nth_map_arange (fun k => k) 0 n cc 0 ltac:(lia)); rewrite map_id in Q; rewrite Q; lia).
    assert (GT : forall l, zlen l = n -> get (map Some l) (nth (Z.to_nat cc) (arange 0 n) 0) = Ok (Some (rnth l cc))).
    { intros l HL. rewrite NT. rewrite (get_ok None) by (rewrite zlen_map; lia). f_equal. rewrite (nth_indep _ None (Some 0%R)) by (rewrite map_length; unfold zlen in HL; lia). rewrite map_nth. reflexivity. }
    destruct Hf as [Hf|Hf]; [exists (map Some l1), f|exists (map Some l2), f]; (split; [cbn; auto|]); rewrite GT by assumption; rewrite <- Hf; split; reflexivity.
Qed.

(** plot_1_3_3_transient*.py *)
Lemma c131_transient : forall rand m a b p r, sampler rand -> 1 <= m -> 0 <= a -> 0 <= b -> a + m + b = 2 ^ p -> 2 <= p -> rstd (rand (2 ^ p)) <> 0%R ->
  exists x, transient rand m a b r = Ok (Some x) /\ zlen x = 2 ^ p /\ shown x /\
  forall n w, 1 <= n -> exists t, spectrogram x None (Some n) (Some w) = Ok t /\ zlen t = 2 ^ p.
Proof.
  intros rand m a b p r HS Hm Ha Hb HE Hp HR. destruct (noise_energy rand p HS Hp HR) as (z & EZ & LZ & NZ). destruct (pow2_mod4 p Hp) as [P4 PM].
  destruct (tone_ok m (1 / 4) Hm ltac:(rewrite Rabs_right; lra)) as (y & l & E1 & L1 & _).
  assert (SQ := sqrt_lt_R0 (IZR m) ltac:(apply IZR_lt; lia)). destruct (c53_amexpos_unilateral m (IZR (half_round m)) (2 * sqrt (IZR m))%R ltac:(lia) ltac:(lra)) as (e & EE & LE & _).
  assert (EA : amexpos m None None false = Ok (map Some e)) by (rewrite <- EE; unfold amexpos; rewrite !am_args_ok by lia; reflexivity).
  unfold transient. rewrite EA. cbn [bind]. rewrite E1. cbn [bind]. rewrite HE, EZ. cbn [bind]. rewrite all_some_map. rewrite modulated_ok by lia. set (y' := map _ (arange 0 (zlen y))).
  assert (LY : zlen (zeros a ++ y' ++ zeros b) = 2 ^ p) by (rewrite !zlen_app, !zeros_zlen by lia; unfold y'; rewrite zlen_map, arange_zlen; lia).
  set (s := zeros a ++ y' ++ zeros b) in *. destruct (c61_outcome s z r) as (O & _). destruct (O ltac:(lia) NZ) as [x EX]. exists x. destruct (c61_ratio s z r x ltac:(lia) EX) as (LX & _).
  split; [exact EX|]. split; [lia|]. split. { apply shown_ok; rewrite LX, LY; [lia|]. rewrite PM. discriminate. }
  intros n w Hw. destruct (c17_spectrogram_total x (arange 0 (zlen x)) n w Hw) as (t & ET & LT & _). exists t. split; [exact ET|]. rewrite LT, arange_zlen. lia.
Qed.

(** plot_4_1_2_sin_gauss_wv.py, plot_4_1_2_sin_gauss_pwv.py: a list of floats as
    timestamps is only counted by PseudoWignerVilleDistribution. *)
Lemma pwvd_default x l : 8 <= zlen x -> exists o b, pwvd x (Some (TsF l)) None None = Ok (o, b).
Proof.
  intros HN. change (pwvd x (Some (TsF l)) None None) with (pwvd x (Some (TsF l)) (Some (zlen x)) (Some (map RtoC (make_window (zlen x))))).
  apply c28_pwvd_short_window_total; [lia|]. destruct (c08_default_window (zlen x) ltac:(lia)) as (_ & B & _). rewrite zlen_map. assert (H := round_half_bounds (zlen x)). Z.to_euclidean_division_equations; lia.
Qed.
Lemma c131_tone_and_packet : forall n f g, 8 <= n -> (Rabs f <= 1 / 2)%R -> (Rabs g <= 1 / 2)%R ->
  exists x, tone_and_packet n f g = Ok (Some x) /\ zlen x = n /\ (n mod 4 <> 1 -> shown x) /\
  forall l, exists o b, pwvd x (Some (TsF l)) None None = Ok (o, b).
Proof.
  intros n f g Hn Hf Hg. destruct (tone_ok n f ltac:(lia) Hf) as (y & ly & E1 & L1 & _). destruct (tone_ok n g ltac:(lia) Hg) as (z & lz & E2 & L2 & _).
  assert (SQ := sqrt_lt_R0 (IZR n) ltac:(apply IZR_lt; lia)). destruct (c53_amgauss n (IZR (half_round n)) (2 * sqrt (IZR n))%R ltac:(lia) ltac:(lra)) as (e & EE & LE & _).
  assert (EA : amgauss n None None = Ok (map Some e)) by (rewrite <- EE; unfold amgauss; rewrite !am_args_ok by lia; reflexivity).
  unfold tone_and_packet. rewrite E1. cbn [bind]. rewrite EA. cbn [bind]. rewrite E2. cbn [bind]. rewrite !all_some_map, modulated_ok by lia. cbn [option_map]. set (z' := map _ (arange 0 (zlen z))).
  assert (LZ : zlen z' = n) by (unfold z'; rewrite zlen_map, arange_zlen; lia). assert (LX : zlen (csum2 y z') = n) by (rewrite csum2_zlen; lia).
  exists (csum2 y z'). split; [reflexivity|]. split; [exact LX|]. split; [intros HM; apply shown_ok; rewrite LX; auto; lia|]. intros l. apply pwvd_default. lia.
Qed.

(** plot_3_4_1_*.py, plot_2_7_*.py *)
Lemma c131_chirp_sum : forall n a b c d, 2 <= n -> (Rabs a <= 1 / 2)%R -> (Rabs b <= 1 / 2)%R -> (Rabs c <= 1 / 2)%R -> (Rabs d <= 1 / 2)%R ->
  exists x, chirp_sum n a b c d = Ok x /\ zlen x = n /\
  (forall k w, 1 <= k -> exists t, spectrogram x None (Some k) (Some w) = Ok t /\ zlen t = n) /\
  (forall k w, 1 <= k -> exists o, stft x None (Some k) (Some w) = Ok o /\ zlen (r_tfr o) = n /\ forall col, In col (r_tfr o) -> zlen col = k) /\
  (forall ang, exists fs, inst_freq ang x None = Ok (fs, arange 2 n) /\ zlen fs = n - 2) /\
  (forall fs, exists v, group_delay x (Some fs) = Ok v /\ zlen v = zlen fs).
Proof.
  intros n a b c d Hn Ha Hb Hc Hd. destruct (chirp_ok n a b Hn Ha Hb) as (x & l & E & L & _). destruct (chirp_ok n c d Hn Hc Hd) as (y & l' & E' & L' & _).
  exists (csum2 x y). assert (LX : zlen (csum2 x y) = n) by (rewrite csum2_zlen; lia). split; [unfold chirp_sum; rewrite E; cbn [bind]; rewrite E'; reflexivity|]. split; [exact LX|]. set (s := csum2 x y) in *. split; [|split; [|split]].
  - intros k w Hk. destruct (c17_spectrogram_total s (arange 0 (zlen s)) k w Hk) as (t & ET & LT & _). exists t. split; [exact ET|]. rewrite LT, arange_zlen. lia.
  - intros k w Hk. destruct (c09_stft_total s (TsI (arange 0 (zlen s))) k w Hk) as (o & EO & _ & LO & CO). exists o. split; [exact EO|]. split; [|exact CO]. rewrite LO. cbn [ts_len]. rewrite arange_zlen. lia.
  - intros ang. destruct (c51_default ang s) as (fs & EF & LF). exists fs. rewrite LX in *. split; [exact EF|lia].
  - intros fs. rewrite c52_formula. eexists. split; [reflexivity|]. apply zlen_map.
Qed.

(** plot_4_1_3_*.py *)
Lemma c131_packets : forall n a b c d, 2 <= n -> (Rabs a <= 1 / 2)%R -> (Rabs b <= 1 / 2)%R -> (Rabs c <= 1 / 2)%R -> (Rabs d <= 1 / 2)%R ->
  exists x, packets n a b c d = Ok (Some x) /\ zlen x = 2 * n /\ shown x /\ exists r, narrow_band x None None = Ok r.
Proof.
  intros n a b c d Hn Ha Hb Hc Hd. destruct (gauss_chirp_ok n a b None None Hn Ha Hb ltac:(discriminate)) as (x & ? & ? & ? & E & _ & L & _). destruct (gauss_chirp_ok n c d None None Hn Hc Hd ltac:(discriminate)) as (y & ? & ? & ? & E' & _ & L' & _).
  exists (x ++ y). assert (LX : zlen (x ++ y) = 2 * n) by (rewrite zlen_app; lia). split; [unfold packets; rewrite E; cbn [bind]; rewrite E'; reflexivity|]. split; [exact LX|].
  split; [apply shown_ok; rewrite LX; [lia|Z.to_euclidean_division_equations; lia]|]. rewrite (proj1 (c33_default (x ++ y))). apply c33_total; lia.
Qed.

(** plot_4_1_1_doppler_wigner_ville.py, with the contour in logarithmic scale. *)
Lemma c131_doppler : forall n sf f0 dist v c, 3 <= n -> (0 < dist)%R -> (0 < sf)%R -> (bpow radix2 (-52) <= f0 <= sf / 2)%R -> (0 <= v)%R -> c <> 0%R -> n mod 4 <> 1 ->
  exists x o, doppler_sound n sf f0 dist v c = Ok x /\ zlen x = n /\ (forall k, 0 <= k < n -> cnth x k <> RtoC 0) /\ wvd x None None = Ok o /\
  forall k tf sq th, (0 < th < 1)%R -> exists p, wvd_picture_log k tf sq th o = Ok p.
Proof.
  intros n sf f0 dist v c Hn Hd Hs Hf Hv Hc HM. assert (BP := bpow_gt_0 radix2 (-52)).
  assert (DV : doppler_valid n sf f0 dist v (IZR n / 2)). { unfold doppler_valid. assert (3 <= IZR n)%R by (apply IZR_le; lia). repeat split; lra. }
  destruct (c63_signal n sf f0 dist v (IZR n / 2)%R c DV Hs Hc) as (fm & am & law & E & L & _ & V & A). destruct am as [am|]; [|lra]. destruct A as (_ & LA & VA).
  set (x := zipw (fun z a => z * RtoC a)%C fm am). assert (LX : zlen x = n) by (unfold x; rewrite zipw_zlen; lia).
  assert (EX : forall k, 0 <= k < n -> cnth x k = (cnth fm k * RtoC (rnth am k))%C).
  { assert (XM : x = map (fun k => cnth fm k * RtoC (rnth am k))%C (arange 0 n)) by (unfold x; rewrite (list_as_map fm) at 1; rewrite (list_nth_map am 0%R) at 1; rewrite L, LA, zipw_map; reflexivity).
    intros k Hk. rewrite XM. unfold cnth at 1. rewrite nth_map_arange by lia. reflexivity. }
  assert (NZ : forall k, 0 <= k < n -> cnth x k <> RtoC 0).
  { intros k Hk Q. rewrite EX in Q by auto. apply (f_equal Cmod) in Q. destruct (V k Hk) as (_ & M & _). destruct (VA k Hk) as [P _]. rewrite Cmod_mult, Cmod_R, Cmod_0, M, Rabs_right in Q by lra. lra. }
  destruct (c21_wvd_default x ltac:(intros Z; rewrite Z in LX; unfold zlen in LX; cbn in LX; lia)) as [_ D]. destruct D as [o O]; [rewrite LX; tauto|].
  exists x, o. split; [unfold doppler_sound; rewrite c63_default, E; reflexivity|]. split; [exact LX|]. split; [exact NZ|]. split; [exact O|].
  intros k tf sq th Ht. apply (c99_wvd_default x o k tf sq th); auto; [lia|]. exists 0. split; [lia|]. apply NZ. lia.
Qed.
