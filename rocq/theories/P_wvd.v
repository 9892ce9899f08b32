(** Proofs about the Wigner-Ville model. *)
From Coq Require Import Reals ZArith List Lia Lra Bool Permutation.
From Coquelicot Require Import Coquelicot.
From Verif Require Import Py Scalars CSum DFT Spec M_base M_stft M_cohen P_base P_stft.
Import ListNotations.
Local Open Scope Z_scope.

Definition wvd_taus (N n c : Z) : list Z :=
  let m := Z.min (Z.min c (N - c - 1)) (round_half n - 1) in arange (- m) (m + 1).
Definition wvd_val (x : list C) (c t : Z) : C := (cnth x (c + t) * Cconj (cnth x (c - t)))%C.

(** Column [c] triggers the failing branch. *)
Definition wvd_bad (N n c : Z) : bool := (c <=? N - round_half n) && (round_half n + 1 <=? c).

Lemma wvd_col_ok x n c col : 0 < n -> zlen col = n -> 0 <= c < zlen x ->
  wvd_col false x n c col =
  if wvd_bad (zlen x) n c then Raise IndexError
  else Ok (puts col (map (fun t => ((n + t) mod n, wvd_val x c t)) (wvd_taus (zlen x) n c))).
Proof.
  intros Hn Hc Hi. unfold wvd_col. fold (wvd_taus (zlen x) n c).
  rewrite (take_ok (RtoC 0)).
  2:{ intros i Hi'. apply in_map_iff in Hi'. destruct Hi' as [t [<- Ht]].
      unfold wvd_taus in Ht. apply in_arange in Ht. lia. }
  cbn [bind]. rewrite (take_ok (RtoC 0)).
  2:{ intros i Hi'. apply in_map_iff in Hi'. destruct Hi' as [t [<- Ht]].
      rewrite zlen_map. unfold wvd_taus in Ht. apply in_arange in Ht. lia. }
  cbn [bind]. rewrite !map_map, bcast_map. cbn [bind]. rewrite map_map.
  rewrite put_map_ok.
  2:{ intros t _. rewrite Hc. apply Z.mod_pos_bound. lia. }
  cbn [bind]. fold (wvd_bad (zlen x) n c). destruct (wvd_bad (zlen x) n c); auto.
  do 2 f_equal. apply map_ext. intros t. f_equal. unfold wvd_val, ncast. cbn [nmul nconj NumC].
  f_equal. apply (cnth_conj x).
Qed.

Definition wvd_raw (x : list C) (n c : Z) : list C := scatter n (wvd_taus (zlen x) n c) (wvd_val x c).

Lemma wvd_cplx_fresh x n : 0 < n ->
  (forall c, 0 <= c < zlen x -> wvd_bad (zlen x) n c = false) ->
  wvd_cplx false x (zlen x) n (zeros2 n (zlen x)) =
  Ok (map (fun c => fft (wvd_raw x n c)) (arange 0 (zlen x))).
Proof.
  intros Hn Hb. unfold wvd_cplx. rewrite Z.eqb_refl, zeros2_enum, mapM_map.
  rewrite (mapM_ok _ (fun c => wvd_raw x n c)).
  - cbn [bind]. now rewrite map_map.
  - intros c Hc. apply in_arange in Hc. rewrite wvd_col_ok; auto; [|apply zeros_zlen; lia].
    now rewrite Hb by auto.
Qed.

Lemma wvd_tfr_fresh x n : 0 < n ->
  (forall c, 0 <= c < zlen x -> wvd_bad (zlen x) n c = false) ->
  wvd_tfr false x (zlen x) n (zeros2 n (zlen x)) =
  Ok (map (fun c => map nre (fft (wvd_raw x n c))) (arange 0 (zlen x))).
Proof.
  intros Hn Hb. unfold wvd_tfr. rewrite wvd_cplx_fresh by auto. cbn [bind]. now rewrite map_map.
Qed.

Lemma wvd_tfr_raise (x : list C) n : 0 < n ->
  (exists c, 0 <= c < zlen x /\ wvd_bad (zlen x) n c = true) ->
  wvd_tfr false x (zlen x) n (zeros2 n (zlen x)) = Raise IndexError.
Proof.
  intros Hn [c [Hc Hb]]. unfold wvd_tfr, wvd_cplx. rewrite Z.eqb_refl, zeros2_enum, mapM_map.
  rewrite (mapM_raise _ _ IndexError); [reflexivity| |].
  - intros i Hi. apply in_arange in Hi. rewrite wvd_col_ok; auto; [|apply zeros_zlen; lia].
    destruct (wvd_bad (zlen x) n i); eauto.
  - exists c. split; [apply in_arange; auto|].
    rewrite wvd_col_ok; auto; [|apply zeros_zlen; lia]. now rewrite Hb.
Qed.

(** When some column is bad. *)
Definition wvd_fails (N n : Z) : bool :=
  (2 * round_half n + 1 <=? N) && ((1 <=? round_half n) || (2 <=? N)).

Lemma wvd_fails_spec N n : 0 < n -> 0 <= N ->
  (wvd_fails N n = true <-> exists c, 0 <= c < N /\ wvd_bad N n c = true).
Proof.
  intros Hn HN. unfold wvd_fails, wvd_bad.
  assert (Hh := round_half_bounds n). set (h := round_half n) in *.
  split.
  - intros H. exists (h + 1).
    rewrite !andb_true_iff, orb_true_iff, !Z.leb_le in *. lia.
  - intros [c [Hc Hb]]. rewrite !andb_true_iff, orb_true_iff, !Z.leb_le in *. lia.
Qed.

Lemma wvd_fails_false N n : 0 < n -> 0 <= N -> wvd_fails N n = false ->
  forall c, 0 <= c < N -> wvd_bad N n c = false.
Proof.
  intros Hn HN H c Hc. destruct (wvd_bad N n c) eqn:E; auto.
  exfalso. assert (wvd_fails N n = true); [|congruence].
  apply wvd_fails_spec; eauto.
Qed.

(** In a run that returns (n >= 2) the lag limit never binds. *)
Lemma wvd_taus_full N n c : 2 <= n -> wvd_fails N n = false -> 0 <= c < N ->
  wvd_taus N n c = (let m := Z.min c (N - c - 1) in arange (- m) (m + 1)).
Proof.
  intros Hn Hf Hc. unfold wvd_fails in Hf. unfold wvd_taus.
  assert (Hh := round_half_bounds n). set (h := round_half n) in *.
  apply andb_false_iff in Hf. rewrite orb_false_iff, !Z.leb_gt in Hf.
  replace (Z.min (Z.min c (N - c - 1)) (h - 1)) with (Z.min c (N - c - 1)) by lia.
  reflexivity.
Qed.

Lemma wvd_taus_nodup N n c : 0 < n -> NoDup (map (fun t => t mod n) (wvd_taus N n c)).
Proof.
  intros Hn. apply NoDup_mod_arange; auto. generalize (round_half_bounds n). lia.
Qed.

(** Closed form of the complex matrix. *)
Lemma wvd_raw_entry x n f c : 0 < n -> 0 <= f < n ->
  cnth (fft (wvd_raw x n c)) f = esum n (wvd_taus (zlen x) n c) (wvd_val x c) f.
Proof. intros. apply scatter_fft; auto. apply wvd_taus_nodup; auto. Qed.

Lemma wvd_esum_real x n N c f : Cconj (esum n (wvd_taus N n c) (wvd_val x c) f)
  = esum n (wvd_taus N n c) (wvd_val x c) f.
Proof.
  unfold esum. rewrite csum_conj. unfold wvd_taus.
  set (m := Z.min (Z.min c (N - c - 1)) (round_half n - 1)).
  rewrite (csum_arange_sym m (fun t => (wvd_val x c t * root n (- (f * t)))%C)).
  apply csum_ext. intros t _. unfold wvd_val.
  rewrite !Cconj_mult, Cconj_invol, root_conj.
  replace (c + - t) with (c - t) by lia. replace (c - - t) with (c + t) by lia.
  replace (f * - t) with (- (f * t)) by ring. ring.
Qed.

Lemma WV_taus x n f t : 0 <= t < zlen x ->
  WV x n f t = esum n (let m := Z.min t (zlen x - t - 1) in arange (- m) (m + 1)) (wvd_val x t) f.
Proof.
  intros Ht. unfold WV, esum.
  set (m := Z.min t (zlen x - t - 1)). cbn zeta.
  rewrite (csum_incl (arange (- m) (m + 1))).
  - apply csum_ext. intros tau Htau. apply in_arange in Htau.
    rewrite !sigf_in by lia. reflexivity.
  - apply NoDup_arange.
  - apply NoDup_arange.
  - intros k Hk. apply in_arange in Hk. apply in_arange. lia.
  - intros k Hk Hk'. rewrite in_arange in Hk, Hk'.
    assert (D : (t + k < 0 \/ zlen x <= t + k) \/ (t - k < 0 \/ zlen x <= t - k)) by lia.
    destruct D as [D|D]; rewrite (sigf_out x _ D); [|rewrite Cconj_R]; ring.
Qed.

Lemma cnth_map_re l f : 0 <= f < zlen l -> cnth (map nre l) f = RtoC (Re (cnth l f)).
Proof.
  intros H. unfold cnth. rewrite (nth_indep _ _ (nre (RtoC 0))) by (rewrite map_length; unfold zlen in H; lia).
  rewrite (map_nth nre). reflexivity.
Qed.

(** The returned matrix is the textbook distribution. *)
Lemma wvd_closed x n tfr f t : 2 <= n ->
  wvd_tfr false x (zlen x) n (zeros2 n (zlen x)) = Ok tfr ->
  0 <= f < n -> 0 <= t < zlen x -> at2 tfr f t = WV x n f t.
Proof.
  intros Hn H Hf Ht.
  destruct (wvd_fails (zlen x) n) eqn:E.
  - exfalso. apply wvd_fails_spec in E; [|lia|lia].
    rewrite wvd_tfr_raise in H by (auto; lia). discriminate.
  - rewrite wvd_tfr_fresh in H by (auto; try lia; apply wvd_fails_false; auto; lia).
    injection H as <-. rewrite at2_map by auto.
    rewrite cnth_map_re by (rewrite fft_zlen; unfold wvd_raw; rewrite scatter_zlen; lia).
    rewrite wvd_raw_entry by (auto; lia).
    rewrite <- conj_real by apply wvd_esum_real.
    rewrite wvd_taus_full by auto. symmetry. apply WV_taus; auto.
Qed.

Lemma WV_real x n f t : 0 <= t < zlen x -> Im (WV x n f t) = 0%R.
Proof.
  intros Ht. rewrite WV_taus by auto. apply conj_Im0.
  unfold esum. rewrite csum_conj. cbn zeta.
  set (m := Z.min t (zlen x - t - 1)).
  rewrite (csum_arange_sym m (fun k => (wvd_val x t k * root n (- (f * k)))%C)).
  apply csum_ext. intros k _. unfold wvd_val.
  rewrite !Cconj_mult, Cconj_invol, root_conj.
  replace (t + - k) with (t - k) by lia. replace (t - - k) with (t + k) by lia.
  replace (f * - k) with (- (f * k)) by ring. ring.
Qed.

(** Lags used at time [t] fit below n when the run returns. *)
Lemma wvd_m_lt N n t : 2 <= n -> wvd_fails N n = false -> 0 <= t < N ->
  2 * Z.min t (N - t - 1) < n.
Proof.
  intros Hn Hf Ht. unfold wvd_fails in Hf.
  assert (Hh := round_half_bounds n). set (h := round_half n) in *.
  apply andb_false_iff in Hf. rewrite orb_false_iff, !Z.leb_gt in Hf. lia.
Qed.

Lemma WV_time_marginal x n t : 2 <= n -> wvd_fails (zlen x) n = false -> 0 <= t < zlen x ->
  csum (arange 0 n) (fun f => WV x n f t) = RtoC (IZR n * Cmod (cnth x t) ^ 2).
Proof.
  intros Hn Hf Ht. assert (Hm := wvd_m_lt _ _ _ Hn Hf Ht).
  rewrite (csum_ext _ _ _ (fun f _ => WV_taus x n f t Ht)). cbn zeta.
  rewrite esum_total by lia. rewrite RtoC_mult. f_equal.
  rewrite (csum_single _ 0).
  - rewrite Z.mod_0_l by lia. cbn [Z.eqb]. unfold wvd_val.
    rewrite Z.add_0_r, Z.sub_0_r. now rewrite Cmod2_conj.
  - apply NoDup_arange.
  - apply in_arange. lia.
  - intros k Hk Hne. apply in_arange in Hk. destruct (Z.eqb_spec (k mod n) 0) as [E|E]; auto.
    exfalso. apply Z.mod_divide in E; [|lia]. destruct E as [q E].
    assert (q = 0) by nia. subst. lia.
Qed.

(** ** Change of variables (t, tau) -> (t + tau, t - tau) *)
Lemma csum_pairs {A B} (l : list A) (l' : A -> list B) (f : A -> B -> C) :
  csum l (fun a => csum (l' a) (f a)) =
  csum (flat_map (fun a => map (fun b => (a, b)) (l' a)) l) (fun p => f (fst p) (snd p)).
Proof.
  induction l as [|a l IH]; cbn [flat_map]; [reflexivity|].
  rewrite csum_cons, csum_app, IH, csum_map. reflexivity.
Qed.

Lemma NoDup_pairs {A B} (l : list A) (l' : A -> list B) :
  NoDup l -> (forall a, In a l -> NoDup (l' a)) ->
  NoDup (flat_map (fun a => map (fun b => (a, b)) (l' a)) l).
Proof.
  induction l as [|a l IH]; intros Hl Hl'; cbn; [constructor|].
  inversion_clear Hl as [|? ? Ha Hl2].
  assert (H1 : NoDup (map (fun b => (a, b)) (l' a))).
  { apply NoDup_map_inj; [intros x y _ _ [= ->]; auto|apply Hl'; left; auto]. }
  assert (H2 := IH Hl2 (fun b Hb => Hl' b (or_intror Hb))).
  revert H1. generalize (l' a) as m. induction m as [|b m IHm]; cbn; auto.
  intros H1. inversion_clear H1 as [|? ? Hb Hm]. constructor; auto.
  rewrite in_app_iff. intros [H|H]; auto.
  apply in_flat_map in H. destruct H as [a' [Ha' H]]. apply in_map_iff in H.
  destruct H as [b' [[= -> _] _]]. contradiction.
Qed.

Lemma in_pairs {A B} (l : list A) (l' : A -> list B) a b :
  In (a, b) (flat_map (fun a => map (fun b => (a, b)) (l' a)) l) <-> In a l /\ In b (l' a).
Proof.
  rewrite in_flat_map. split.
  - intros [x [Hx H]]. apply in_map_iff in H. destruct H as [y [[= -> ->] H]]. auto.
  - intros [Ha Hb]. exists a. split; auto. apply in_map_iff. eauto.
Qed.

Lemma wv_reindex N (F : Z -> Z -> C) : 
  csum (arange 0 N) (fun t => csum (let m := Z.min t (N - t - 1) in arange (- m) (m + 1))
                                   (fun tau => F (t + tau) (t - tau)))
  = csum (arange 0 N) (fun a => csum (arange 0 N) (fun b =>
      if Bool.eqb (Z.even a) (Z.even b) then F a b else RtoC 0)).
Proof.
  rewrite (csum_pairs (arange 0 N) (fun t => let m := Z.min t (N - t - 1) in arange (- m) (m + 1))
             (fun t tau => F (t + tau) (t - tau))).
  rewrite (csum_pairs (arange 0 N) (fun _ => arange 0 N)
     (fun a b => if Bool.eqb (Z.even a) (Z.even b) then F a b else RtoC 0)).
  set (L1 := flat_map _ _). set (L2 := flat_map _ _).
  transitivity (csum (filter (fun p => Bool.eqb (Z.even (fst p)) (Z.even (snd p))) L2)
                     (fun p => F (fst p) (snd p))).
  - transitivity (csum (map (fun p => (fst p + snd p, fst p - snd p)) L1) (fun p => F (fst p) (snd p))).
    { now rewrite csum_map. }
    apply csum_perm. apply NoDup_Permutation.
    + apply NoDup_map_inj.
      * intros [a b] [a' b'] _ _. cbn. intros [= H1 H2]. f_equal; lia.
      * apply NoDup_pairs; [apply NoDup_arange|intros; apply NoDup_arange].
    + apply NoDup_filter. apply NoDup_pairs; [apply NoDup_arange|intros; apply NoDup_arange].
    + intros [a b]. rewrite filter_In, in_map_iff. unfold L1, L2. rewrite in_pairs. cbn [fst snd].
      rewrite !in_arange, eqb_true_iff. split.
      * intros [[t tau] [[= <- <-] H]]. apply in_pairs in H. rewrite !in_arange in H. split; [lia|].
        rewrite Z.even_add, Z.even_sub. reflexivity.
      * intros [H E].
        assert (Ed : Z.even (a + b) = true) by (rewrite Z.even_add, E; destruct (Z.even b); auto).
        apply Zeven_bool_iff, Zeven_ex in Ed. destruct Ed as [t Ht].
        exists (t, a - t). split; [cbn [fst snd]; f_equal; lia|].
        apply in_pairs. rewrite !in_arange. lia.
  - rewrite csum_filter. apply csum_ext. intros [a b] _. cbn [fst snd]. reflexivity.
Qed.

Lemma even_alt k : (if Z.even k then RtoC 1 else RtoC 0) =
  ((RtoC 1 + root 2 k) / RtoC 2)%C.
Proof.
  assert (R1 : root 2 1 = (- RtoC 1)%C).
  { change 2 with (2 * 1). rewrite (root_half 1) by lia. lca. }
  destruct (Z.even k) eqn:E.
  - apply Zeven_bool_iff, Zeven_ex in E. destruct E as [m ->]. rewrite root_n by lia. unfold Cdiv.
    rewrite <- RtoC_inv by lra. apply injective_projections; cbn; field.
  - assert (O : Z.odd k = true) by (rewrite <- Z.negb_even, E; auto).
    apply Zodd_bool_iff, Zodd_ex in O. destruct O as [m ->].
    rewrite root_plus, root_n, R1 by lia. unfold Cdiv.
    rewrite <- RtoC_inv by lra. apply injective_projections; cbn; field.
Qed.

Lemma WV_freq_marginal x n k : 0 < n ->
  csum (arange 0 (zlen x)) (fun t => WV x n k t)
  = RtoC ((Cmod (DTFT x n k) ^ 2 + Cmod (DTFT x n (k + n)) ^ 2) / 2).
Proof.
  intros Hn.
  rewrite (csum_ext _ _ (fun t => csum (let m := Z.min t (zlen x - t - 1) in arange (- m) (m + 1))
     (fun tau => (fun a b => cnth x a * Cconj (cnth x b) * root (2 * n) (- (k * (a - b))))%C (t + tau) (t - tau)))).
  2:{ intros t Ht. apply in_arange in Ht. rewrite WV_taus by auto. unfold esum.
      apply csum_ext. intros tau _. unfold wvd_val. f_equal.
      replace (- (k * (t + tau - (t - tau)))) with (2 * (- (k * tau))) by ring.
      now rewrite root_double by lia. }
  rewrite (wv_reindex (zlen x)
    (fun a b => cnth x a * Cconj (cnth x b) * root (2 * n) (- (k * (a - b))))%C).
  assert (S : forall j, RtoC (Cmod (DTFT x n j) ^ 2) =
     csum (arange 0 (zlen x)) (fun a => csum (arange 0 (zlen x)) (fun b =>
       cnth x a * Cconj (cnth x b) * root (2 * n) (- (j * (a - b))))%C)).
  { intros j. rewrite Cmod2_conj. unfold DTFT. rewrite csum_conj, csum_mult.
    apply csum_ext. intros a _. apply csum_ext. intros b _.
    rewrite Cconj_mult, root_conj.
    replace (- (j * (a - b))) with (- (j * a) + - - (j * b)) by ring. rewrite root_plus. ring. }
  rewrite RtoC_div by lra. rewrite RtoC_plus, !S.
  replace ((csum (arange 0 (zlen x)) (fun a => csum (arange 0 (zlen x)) (fun b =>
       cnth x a * Cconj (cnth x b) * root (2 * n) (- (k * (a - b))))) +
    csum (arange 0 (zlen x)) (fun a => csum (arange 0 (zlen x)) (fun b =>
       cnth x a * Cconj (cnth x b) * root (2 * n) (- ((k + n) * (a - b)))))) / RtoC 2)%C
   with (RtoC (/ 2) * (csum (arange 0 (zlen x)) (fun a => csum (arange 0 (zlen x)) (fun b =>
       cnth x a * Cconj (cnth x b) * root (2 * n) (- (k * (a - b)))) +
       csum (arange 0 (zlen x)) (fun b =>
       cnth x a * Cconj (cnth x b) * root (2 * n) (- ((k + n) * (a - b)))))))%C.
  2:{ rewrite csum_plus. rewrite RtoC_inv by lra. unfold Cdiv. ring. }
  rewrite <- csum_scal_l. apply csum_ext. intros a _.
  rewrite <- csum_plus, <- csum_scal_l. apply csum_ext. intros b _.
  replace (- ((k + n) * (a - b))) with (- (k * (a - b)) + n * (b - a)) by ring.
  rewrite root_plus.
  assert (R : root (2 * n) (n * (b - a)) = root 2 (b - a)).
  { unfold root. f_equal. rewrite !mult_IZR. field. apply not_0_IZR. lia. }
  rewrite R.
  transitivity (cnth x a * Cconj (cnth x b) * root (2 * n) (- (k * (a - b))) *
     (if Z.even (b - a) then RtoC 1 else RtoC 0))%C.
  - rewrite Z.even_sub. destruct (Z.even a), (Z.even b); cbn [Bool.eqb]; ring.
  - rewrite even_alt. unfold Cdiv. rewrite RtoC_inv by lra. ring.
Qed.

Lemma inner_split x y :
  csum (arange 0 (zlen x)) (fun a => csum (arange 0 (zlen x)) (fun b =>
      if Bool.eqb (Z.even a) (Z.even b)
      then (cnth x a * Cconj (cnth y a) * (Cconj (cnth x b) * cnth y b))%C else RtoC 0))
  = RtoC (Cmod (inner_par true x y) ^ 2 + Cmod (inner_par false x y) ^ 2).
Proof.
  rewrite RtoC_plus, !Cmod2_conj. unfold inner_par. rewrite !csum_conj, !csum_mult, <- csum_plus.
  apply csum_ext. intros a _. rewrite <- csum_plus. apply csum_ext. intros b _.
  destruct (Z.even a), (Z.even b); cbn [Bool.eqb]; rewrite ?Cconj_mult, ?Cconj_invol, ?Cconj_R; ring.
Qed.

(** Moyal formula. *)
Lemma WV_moyal x y n : 2 <= n -> zlen x = zlen y -> wvd_fails (zlen x) n = false ->
  csum (arange 0 (zlen x)) (fun t => csum (arange 0 n) (fun f => WV x n f t * Cconj (WV y n f t)))%C
  = RtoC (IZR n * (Cmod (inner_par true x y) ^ 2 + Cmod (inner_par false x y) ^ 2)).
Proof.
  intros Hn E Hf. rewrite RtoC_mult, <- inner_split.
  rewrite <- (wv_reindex (zlen x)
   (fun a b => cnth x a * Cconj (cnth y a) * (Cconj (cnth x b) * cnth y b))%C).
  rewrite <- csum_scal_l. apply csum_ext. intros t Ht. apply in_arange in Ht.
  assert (Hm := wvd_m_lt _ _ _ Hn Hf Ht).
  rewrite (csum_ext _ _ (fun f => esum n (let m := Z.min t (zlen x - t - 1) in arange (- m) (m + 1)) (wvd_val x t) f
     * Cconj (esum n (let m := Z.min t (zlen x - t - 1) in arange (- m) (m + 1)) (wvd_val y t) f))%C).
  - rewrite esum_parseval; [|lia|cbn zeta; apply NoDup_mod_arange; lia].
    f_equal. apply csum_ext. intros tau _. unfold wvd_val. rewrite Cconj_mult, Cconj_invol. ring.
  - intros f _. rewrite !WV_taus by lia. now rewrite <- E.
Qed.

Lemma WV_scale c x n f t : WV (scale c x) n f t = (RtoC (Cmod c ^ 2) * WV x n f t)%C.
Proof.
  unfold WV. rewrite scale_zlen, <- csum_scal_l. apply csum_ext. intros tau _.
  assert (S : forall k, sigf (scale c x) k = (c * sigf x k)%C).
  { intros k. unfold sigf. rewrite scale_zlen. destruct (0 <=? k) eqn:E1, (k <? zlen x) eqn:E2; cbn [andb]; try ring.
    rewrite Z.leb_le in E1. rewrite Z.ltb_lt in E2. apply scale_nth. lia. }
  rewrite !S, Cconj_mult, Cmod2_conj. ring.
Qed.

Lemma sigf_modulate n m x k : sigf (modulate n m x) k = (sigf x k * root n (m * k))%C.
Proof.
  unfold sigf. rewrite modulate_zlen. destruct (0 <=? k) eqn:E1, (k <? zlen x) eqn:E2; cbn [andb]; try ring.
  rewrite Z.leb_le in E1. rewrite Z.ltb_lt in E2. apply modulate_nth. lia.
Qed.

Lemma WV_modulate n m x f t : n <> 0 -> WV (modulate (2 * n) m x) n f t = WV x n (f - m) t.
Proof.
  intros Hn. unfold WV. rewrite modulate_zlen. apply csum_ext. intros tau _.
  rewrite !sigf_modulate, Cconj_mult, root_conj.
  transitivity (sigf x (t + tau) * Cconj (sigf x (t - tau)) *
     (root (2 * n) (m * (t + tau)) * root (2 * n) (- (m * (t - tau))) * root n (- (f * tau))))%C; [ring|].
  f_equal. rewrite <- root_plus.
  replace (m * (t + tau) + - (m * (t - tau))) with (2 * (m * tau)) by ring.
  rewrite root_double, <- root_plus by auto. f_equal. ring.
Qed.

Lemma WV_period x n f t j : n <> 0 -> WV x n (f + n * j) t = WV x n f t.
Proof.
  intros Hn. unfold WV. apply csum_ext. intros tau _. f_equal.
  replace (- ((f + n * j) * tau)) with (- (f * tau) + n * (- (j * tau))) by ring.
  apply root_period. auto.
Qed.

Lemma sigf_lincomb a b x y k : zlen x = zlen y ->
  sigf (lincomb a b x y) k = (a * sigf x k + b * sigf y k)%C.
Proof.
  intros E. unfold sigf. rewrite lincomb_zlen, <- E by auto.
  destruct (0 <=? k) eqn:E1, (k <? zlen x) eqn:E2; cbn [andb]; try ring.
  rewrite Z.leb_le in E1. rewrite Z.ltb_lt in E2. apply lincomb_nth; auto; lia.
Qed.

Lemma WV_parallelogram x y n f t : zlen x = zlen y ->
  (WV (lincomb (RtoC 1) (RtoC 1) x y) n f t + WV (lincomb (RtoC 1) (RtoC (-1)) x y) n f t)%C
  = (RtoC 2 * WV x n f t + RtoC 2 * WV y n f t)%C.
Proof.
  intros E. unfold WV. rewrite !lincomb_zlen, <- E by auto.
  rewrite <- !csum_scal_l, <- !csum_plus. apply csum_ext. intros tau _.
  rewrite !sigf_lincomb by auto. rewrite !Cconj_plus, !Cconj_mult, !Cconj_R.
  replace (RtoC 2) with (RtoC 1 + RtoC 1)%C by (rewrite <- RtoC_plus; f_equal; ring).
  replace (RtoC (-1)) with (- RtoC 1)%C by (rewrite <- RtoC_opp; f_equal; ring). ring.
Qed.

Lemma WV_support_lo x n f t a : (forall k, 0 <= k < a -> cnth x k = RtoC 0) -> t < a ->
  WV x n f t = RtoC 0.
Proof.
  intros Hx Ht. unfold WV. apply csum_0. intros tau _.
  assert (Z0 : forall k, k < a -> sigf x k = RtoC 0).
  { intros k Hk. unfold sigf. destruct (Z.leb_spec 0 k), (Z.ltb_spec k (zlen x)); cbn [andb]; auto. }
  destruct (Z.le_ge_cases 0 tau) as [H|H].
  - rewrite (Z0 (t - tau)) by lia. rewrite Cconj_R. ring.
  - rewrite (Z0 (t + tau)) by lia. ring.
Qed.

Lemma WV_support_hi x n f t a : (forall k, a <= k < zlen x -> cnth x k = RtoC 0) -> a <= t ->
  WV x n f t = RtoC 0.
Proof.
  intros Hx Ht. unfold WV. apply csum_0. intros tau _.
  assert (Z0 : forall k, a <= k -> sigf x k = RtoC 0).
  { intros k Hk. unfold sigf. destruct (Z.leb_spec 0 k), (Z.ltb_spec k (zlen x)); cbn [andb]; auto. }
  destruct (Z.le_ge_cases 0 tau) as [H|H].
  - rewrite (Z0 (t + tau)) by lia. ring.
  - rewrite (Z0 (t - tau)) by lia. rewrite Cconj_R. ring.
Qed.
