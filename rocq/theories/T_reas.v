(** C36-C40, C76: reassigned representations. *)
From Coq Require Import Reals ZArith List Lia Lra Bool.
From Coquelicot Require Import Coquelicot.
From Flocq Require Import Core.
From Verif Require Import Py Scalars CSum DFT Spec M_base M_stft M_cohen M_putils M_reas P_base P_stft P_spec T_putils.
Import ListNotations.
Local Open Scope Z_scope.

(** *** The accumulation loop *)
Definition shape (m : list (list R)) (n T : Z) : Prop := zlen m = T /\ forall c, In c m -> zlen c = n.

Lemma upd_in {A} (l : list A) k v a : In a (upd l k v) -> In a l \/ a = v.
Proof.
  revert k. induction l as [|b l IH]; intros [|k]; cbn; auto.
  - intros [H|H]; auto.
  - intros [H|H]; auto. destruct (IH k H); auto.
Qed.

Lemma add2_ok m n T r c v : shape m n T -> 0 <= r < n -> 0 <= c < T ->
  exists m', add2 m r c v = Ok m' /\ shape m' n T /\
  forall r' c', 0 <= r' < n -> 0 <= c' < T ->
   rent m' r' c' = (rent m r' c' + (if (r =? r') && (c =? c') then v else 0))%R.
Proof.
  intros [L S] Hr Hc. unfold add2. rewrite (get_ok []) by lia. cbn [bind].
  assert (Hi : In (nth (Z.to_nat c) m []) m) by (apply nth_In; unfold zlen in L; lia).
  assert (Lc := S _ Hi). rewrite (get_ok 0%R) by lia. cbn [bind]. rewrite set_ok by lia. cbn [bind].
  rewrite set_ok by lia. eexists. split; [reflexivity|]. split.
  - split; [rewrite upd_zlen; auto|]. intros col H. apply upd_in in H. destruct H as [H| ->]; [auto|]. rewrite upd_zlen. auto.
  - intros r' c' Hr' Hc'. unfold rent. destruct (Z.eqb_spec c c') as [->|N].
    + rewrite nth_upd_eq by (unfold zlen in L; lia). unfold rnth. destruct (Z.eqb_spec r r') as [->|N].
      * rewrite nth_upd_eq by (unfold zlen in Lc; lia). reflexivity.
      * rewrite nth_upd_neq by lia. cbn [andb]. ring.
    + rewrite nth_upd_neq by lia. rewrite andb_false_r. ring.
Qed.

Lemma fold_add (tg : Z * Z -> Z * Z) (v : Z * Z -> R) n T step cells :
  (forall ij, In ij cells -> 0 <= fst (tg ij) < n /\ 0 <= snd (tg ij) < T) ->
  (forall m ij, In ij cells -> step m ij = add2 m (fst (tg ij)) (snd (tg ij)) (v ij)) ->
  forall m, shape m n T -> exists m', foldM step cells m = Ok m' /\ shape m' n T /\
   forall r c, 0 <= r < n -> 0 <= c < T ->
    rent m' r c = (rent m r c + rsum cells (fun ij => if (fst (tg ij) =? r) && (snd (tg ij) =? c) then v ij else 0))%R.
Proof.
  induction cells as [|a cells IH]; intros Ht Hs m Hm.
  - exists m. split; [reflexivity|]. split; auto. intros. rewrite rsum_nil. ring.
  - cbn [foldM]. rewrite Hs by (left; auto). destruct (Ht a (or_introl eq_refl)) as [H1 H2].
    destruct (add2_ok m n T _ _ (v a) Hm H1 H2) as (m1 & E1 & S1 & F1). rewrite E1. cbn [bind].
    destruct (IH (fun ij H => Ht ij (or_intror H)) (fun m ij H => Hs m ij (or_intror H)) m1 S1) as (m2 & E2 & S2 & F2).
    exists m2. split; auto. split; auto. intros r c Hr Hc. rewrite F2, F1, rsum_cons by auto. ring.
Qed.

Lemma rent_zero n T r c : rent (repeat (repeat 0%R n) T) r c = 0%R.
Proof.
  unfold rent, rnth. destruct (nth_in_or_default (Z.to_nat c) (repeat (repeat 0%R n) T) []) as [H|H].
  - apply repeat_spec in H. rewrite H. destruct (nth_in_or_default (Z.to_nat r) (repeat 0%R n) 0%R) as [H'|H']; auto. now apply repeat_spec in H'.
  - rewrite H. destruct (Z.to_nat r); reflexivity.
Qed.

Lemma zero_shape n T : 0 <= n -> 0 <= T -> shape (repeat (repeat 0%R (Z.to_nat n)) (Z.to_nat T)) n T.
Proof.
  intros. split; [unfold zlen; rewrite repeat_length; lia|]. intros c Hc. apply repeat_spec in Hc. subst. unfold zlen. rewrite repeat_length. lia.
Qed.

Lemma rsum_list_prod {A B} (l : list A) (l' : list B) (f : A -> B -> R) :
  rsum (list_prod l l') (fun p => f (fst p) (snd p)) = rsum l (fun a => rsum l' (fun b => f a b)).
Proof.
  induction l as [|a l IH]; [reflexivity|]. cbn [list_prod]. rewrite rsum_app, rsum_map, rsum_cons, IH. reflexivity.
Qed.

(** [reassign] when every destination is in range: entry (r, c) receives exactly
    the cells sent there. *)
Lemma reassign_ok tfr n T thr hat (tg : Z -> Z -> Z * Z) : 0 <= n -> 0 <= T ->
  (forall i j, 0 <= i < T -> 0 <= j < n -> 0 <= fst (tg i j) < n /\ 0 <= snd (tg i j) < T) ->
  (forall i j, 0 <= i < T -> 0 <= j < n ->
     if above thr (rent tfr j i) then hat i j = Ok (tg i j) else tg i j = (j, i)) ->
  exists m, reassign tfr n T thr hat = Ok m /\ shape m n T /\
  forall r c, 0 <= r < n -> 0 <= c < T ->
    rent m r c = rsum (arange 0 T) (fun i => rsum (arange 0 n) (fun j =>
      if (fst (tg i j) =? r) && (snd (tg i j) =? c) then rent tfr j i else 0%R)).
Proof.
  intros Hn HT Hr Ht. unfold reassign.
  destruct (fold_add (fun ij => tg (fst ij) (snd ij)) (fun ij => rent tfr (snd ij) (fst ij)) n T
     (reassign_step tfr thr hat) (list_prod (arange 0 T) (arange 0 n))) with (m := repeat (repeat 0%R (Z.to_nat n)) (Z.to_nat T)) as (m & E & S & F).
  - intros [i j] H. apply in_prod_iff in H. destruct H as [H1 H2]. apply in_arange in H1, H2. cbn [fst snd]. auto.
  - intros m [i j] H. apply in_prod_iff in H. destruct H as [H1 H2]. apply in_arange in H1, H2. cbn [fst snd reassign_step].
    specialize (Ht i j ltac:(lia) ltac:(lia)). destruct (above thr (rent tfr j i)).
    + rewrite Ht. destruct (tg i j). reflexivity.
    + rewrite Ht. reflexivity.
  - apply zero_shape; auto.
  - exists m. split; auto. split; auto. intros r c H1 H2. rewrite F, rent_zero by auto. rewrite Rplus_0_l.
    exact (rsum_list_prod (arange 0 T) (arange 0 n) (fun i j => if (fst (tg i j) =? r) && (snd (tg i j) =? c) then rent tfr j i else 0%R)).
Qed.

(** Sums of the scattered entries give back the total. *)
Lemma rsum_pick n a (v : R) : 0 <= a < n -> rsum (arange 0 n) (fun r => if a =? r then v else 0%R) = v.
Proof.
  intros H. rewrite (rsum_single _ a).
  - now rewrite Z.eqb_refl.
  - apply NoDup_arange.
  - apply in_arange. lia.
  - intros b _ Hb. destruct (Z.eqb_spec a b); congruence.
Qed.

Lemma scatter_total n T (tg : Z -> Z -> Z * Z) (v : Z -> Z -> R) :
  (forall i j, 0 <= i < T -> 0 <= j < n -> 0 <= fst (tg i j) < n /\ 0 <= snd (tg i j) < T) ->
  rsum (arange 0 T) (fun c => rsum (arange 0 n) (fun r =>
     rsum (arange 0 T) (fun i => rsum (arange 0 n) (fun j => if (fst (tg i j) =? r) && (snd (tg i j) =? c) then v i j else 0%R))))
  = rsum (arange 0 T) (fun i => rsum (arange 0 n) (fun j => v i j)).
Proof.
  intros Hr.
  rewrite (rsum_ext _ _ (fun c => rsum (arange 0 T) (fun i => rsum (arange 0 n) (fun j => if snd (tg i j) =? c then v i j else 0%R)))).
  - rewrite rsum_swap. apply rsum_ext. intros i Hi. rewrite rsum_swap. apply rsum_ext. intros j Hj. apply in_arange in Hi, Hj.
    apply rsum_pick. apply Hr; lia.
  - intros c _. rewrite rsum_swap. apply rsum_ext. intros i Hi. rewrite rsum_swap. apply rsum_ext. intros j Hj. apply in_arange in Hi, Hj.
    destruct (snd (tg i j) =? c).
    + rewrite (rsum_ext _ _ (fun r => if fst (tg i j) =? r then v i j else 0%R)) by (intros; now rewrite andb_true_r).
      apply rsum_pick. apply Hr; lia.
    + apply rsum_0. intros. now rewrite andb_false_r.
Qed.

(** *** Columns of the reassigned spectrogram *)
Definition rs_ts (x : list C) (ts : option (list Z)) : list Z := match ts with None => arange 0 (zlen x) | Some l => l end.
Definition rs_n (x : list C) (n : option Z) : Z := match n with Some n => n | None => zlen x end.
Definition rs_w (x : list C) (w : option (list C)) : list C :=
  match w with Some w => w | None => map RtoC (hamming (let h := zlen x / 4 in h + (1 - h mod 2))) end.
(** Python's view of sample k: -1 is the last sample. *)
Definition xwrap (x : list C) (k : Z) : C := cnth x (if k <? 0 then k + zlen x else k).
Definition rs_nrm (x w : list C) (n ti : Z) : R := norm2 (map (fun t => cnth w (win_lh w + t)) (rs_tau (zlen x) w n ti)).
Definition rs_raw (x w g : list C) (n ti t : Z) : C := (xwrap x (ti + t - 1) * Cconj (cnth g (win_lh w + t)))%C.
Definition rs_mat (x w g : list C) (n ti : Z) : list C :=
  scatter n (rs_tau (zlen x) w n ti) (fun t => rs_raw x w g n ti t / RtoC (rs_nrm x w n ti))%C.
Definition rs_nan (x w : list C) (n ti : Z) : Prop := rs_tau (zlen x) w n ti <> [] /\ rs_nrm x w n ti = 0%R.

Lemma odd_lh {A} (w : list A) : zlen w mod 2 <> 0 -> zlen w = 2 * win_lh w + 1.
Proof. unfold win_lh. generalize (zlen_nonneg w). intros. Z.to_euclidean_division_equations. lia. Qed.

Lemma rs_tau_in N w n ti t : In t (rs_tau N w n ti) ->
  - win_lh w <= t <= win_lh w /\ - 1 <= ti + t - 1 < N /\ - (round_half n - 1) <= t <= round_half n - 1.
Proof. unfold rs_tau. rewrite in_arange. lia. Qed.
Lemma rs_tau_nodup N w n ti : 0 < n -> NoDup (map (fun t => t mod n) (rs_tau N w n ti)).
Proof. intros Hn. apply NoDup_mod_arange; auto. generalize (round_half_bounds n). lia. Qed.

Lemma take_wrap (x : list C) (l : list Z) : (forall k, In k l -> - zlen x <= k < zlen x) ->
  take x l = Ok (map (xwrap x) l).
Proof.
  intros H. apply mapM_ok. intros k Hk. specialize (H k Hk). unfold xwrap, cnth. destruct (Z.ltb_spec k 0).
  - apply get_neg. lia.
  - apply get_ok. lia.
Qed.

Lemma zlen1_nil {A} (l : list A) : zlen l = 0 -> l = [].
Proof. destruct l; auto. unfold zlen. cbn. lia. Qed.

Lemma rs_col_ok x w g n ti : 0 < n -> 1 <= zlen x -> zlen w mod 2 <> 0 -> zlen g = zlen w ->
  rs_col x w g n ti =
  Ok (match rs_tau (zlen x) w n ti with
      | [] => Some (rs_mat x w g n ti)
      | _ => if Req_EM_T (rs_nrm x w n ti) 0 then None else Some (rs_mat x w g n ti)
      end).
Proof.
  intros Hn Hx Ho Hg. apply odd_lh in Ho. unfold rs_col.
  rewrite (take_ok (RtoC 0)).
  2:{ intros i Hi. apply in_map_iff in Hi. destruct Hi as [t [<- Ht]]. apply rs_tau_in in Ht. lia. }
  cbn [bind]. rewrite take_wrap.
  2:{ intros i Hi. apply in_map_iff in Hi. destruct Hi as [t [<- Ht]]. apply rs_tau_in in Ht. lia. }
  cbn [bind]. rewrite (take_ok (RtoC 0)).
  2:{ intros i Hi. apply in_map_iff in Hi. destruct Hi as [t [<- Ht]]. rewrite zlen_map. apply rs_tau_in in Ht. lia. }
  cbn [bind]. rewrite !map_map, bcast_map. cbn [bind]. rewrite map_map.
  rewrite (put_map_ok (zeros n) (remainder n)).
  2:{ intros t _. rewrite zeros_zlen by lia. apply Z.mod_pos_bound. lia. }
  cbn [bind]. f_equal.
  set (p := puts _ _). replace p with (rs_mat x w g n ti).
  - reflexivity.
  - unfold p, rs_mat, scatter. f_equal. apply map_ext. intros t. unfold remainder. f_equal.
    unfold rs_raw. do 3 f_equal. symmetry. apply (cnth_conj g).
Qed.

Lemma th_zlen (w : list C) : zlen w mod 2 <> 0 ->
  zlen (zipw (fun a t => a * RtoC (IZR t))%C w (arange (- win_lh w) (win_lh w + 1))) = zlen w.
Proof. intros H. apply odd_lh in H. apply zipw_zlen. rewrite arange_zlen. generalize (zlen_nonneg w). lia. Qed.

Lemma rs_mat_zlen x w g n ti : 0 <= n -> zlen (rs_mat x w g n ti) = n.
Proof. intros. apply scatter_zlen. auto. Qed.

(** Entry j of the transform of a column. *)
Definition rS (x w g : list C) (n ti j : Z) : C :=
  csum (rs_tau (zlen x) w n ti) (fun t => rs_raw x w g n ti t * root n (- (j * t)))%C.
Lemma rs_mat_fft x w g n ti j : 0 < n -> 0 <= j < n ->
  cnth (fft (rs_mat x w g n ti)) j = (rS x w g n ti j / RtoC (rs_nrm x w n ti))%C.
Proof.
  intros Hn Hj. unfold rs_mat. rewrite scatter_fft by (auto; now apply rs_tau_nodup). unfold esum, rS, Cdiv.
  rewrite <- csum_scal_r. apply csum_ext. intros. ring.
Qed.

Lemma bind_ok_inv {A B} (m : res A) (f : A -> res B) r : bind m f = Ok r -> exists a, m = Ok a /\ f a = Ok r.
Proof. destruct m; cbn; [eauto|discriminate]. Qed.

Lemma all_some_map {A B} (f : A -> option B) (g : A -> B) l r :
  (forall a, In a l -> f a = None \/ f a = Some (g a)) -> all_some (map f l) = Some r -> r = map g l /\ forall a, In a l -> f a = Some (g a).
Proof.
  revert r. induction l as [|a l IH]; intros r H; cbn.
  - intros [= <-]. split; auto. intros a [].
  - destruct (H a (or_introl eq_refl)) as [E|E]; rewrite E; [discriminate|].
    destruct (all_some (map f l)) as [r'|] eqn:E'; [|discriminate]. intros [= <-].
    destruct (IH r' (fun b Hb => H b (or_intror Hb)) eq_refl) as [-> H2]. split; auto. intros b [<-|Hb]; auto.
Qed.
Lemma all_some_ok {A B} (f : A -> option B) (g : A -> B) l :
  (forall a, In a l -> f a = Some (g a)) -> all_some (map f l) = Some (map g l).
Proof. induction l as [|a l IH]; intros H; cbn; auto. rewrite H by (left; auto). rewrite IH; auto. intros; apply H; right; auto. Qed.
Lemma all_some_none {A B} (f : A -> option B) l : (exists a, In a l /\ f a = None) -> all_some (map f l) = None.
Proof.
  intros (a & Ha & E). induction l as [|b l IH]; [destruct Ha|]. cbn. destruct Ha as [->|Ha]; [now rewrite E|].
  rewrite IH by auto. destruct (f b); auto.
Qed.

Lemma fold_min_spec l a : (fold_left Z.min l a <= a /\ (forall b, In b l -> fold_left Z.min l a <= b) /\ (fold_left Z.min l a = a \/ In (fold_left Z.min l a) l)).
Proof.
  revert a. induction l as [|b l IH]; intros a; cbn.
  - split; [lia|]. split; [intros b []|auto].
  - destruct (IH (Z.min a b)) as (H1 & H2 & H3). split; [lia|]. split.
    + intros c [<-|Hc]; [lia|auto].
    + destruct H3 as [H3|H3]; auto. rewrite H3. destruct (Z.min_spec a b) as [[? ->]|[? ->]]; auto.
Qed.
Lemma fold_max_spec l a : (a <= fold_left Z.max l a /\ (forall b, In b l -> b <= fold_left Z.max l a) /\ (fold_left Z.max l a = a \/ In (fold_left Z.max l a) l)).
Proof.
  revert a. induction l as [|b l IH]; intros a; cbn.
  - split; [lia|]. split; [intros b []|auto].
  - destruct (IH (Z.max a b)) as (H1 & H2 & H3). split; [lia|]. split.
    + intros c [<-|Hc]; [lia|auto].
    + destruct H3 as [H3|H3]; auto. rewrite H3. destruct (Z.max_spec a b) as [[? ->]|[? ->]]; auto.
Qed.
Lemma zmin_spec l m : zmin l = Ok m <-> In m l /\ forall b, In b l -> m <= b.
Proof.
  destruct l as [|a l]; cbn [zmin].
  - split; [discriminate|intros [[] _]].
  - destruct (fold_min_spec l a) as (H1 & H2 & H3). split.
    + intros [= <-]. split; [destruct H3 as [->|]; [left|right]; auto|]. intros b [<-|Hb]; auto.
    + intros [Hm Hb]. f_equal. apply Z.le_antisymm.
      * destruct Hm as [<-|Hm]; auto.
      * apply Hb. destruct H3 as [->|]; [left|right]; auto.
Qed.
Lemma zmax_spec l m : zmax l = Ok m <-> In m l /\ forall b, In b l -> b <= m.
Proof.
  destruct l as [|a l]; cbn [zmax].
  - split; [discriminate|intros [[] _]].
  - destruct (fold_max_spec l a) as (H1 & H2 & H3). split.
    + intros [= <-]. split; [destruct H3 as [->|]; [left|right]; auto|]. intros b [<-|Hb]; auto.
    + intros [Hm Hb]. f_equal. apply Z.le_antisymm.
      * apply Hb. destruct H3 as [->|]; [left|right]; auto.
      * destruct Hm as [<-|Hm]; auto.
Qed.
Lemma zmin_ok l : l <> [] -> exists m, zmin l = Ok m.
Proof. destruct l; [congruence|]. cbn. eauto. Qed.
Lemma zmax_ok l : l <> [] -> exists m, zmax l = Ok m.
Proof. destruct l; [congruence|]. cbn. eauto. Qed.

Lemma derive_window_cases w : 1 <= zlen w -> exists od, derive_window w = Ok od /\
  match od with Some d => 2 <= zlen w /\ zlen d = zlen w | None => zlen w = 1 end.
Proof.
  intros H. destruct (Z.eq_dec (zlen w) 1) as [E|E].
  - exists None. split; auto. now apply c48_short.
  - destruct (c48_formula w ltac:(lia)) as (d & Ed & L & _). exists (Some d). split; auto. split; auto; lia.
Qed.

(** Threshold used by [rspec]. *)
Definition rs_thr (x : list C) (mn mx : Z) : R :=
  (1 / 1000000 * mean2 (map (fun k => xwrap x (k - 1)) (arange mn (mx + 1))))%R.
Definition rs_sq (x w : list C) (n ti : Z) : list R := map (fun z => Cmod z ^ 2)%R (fft (rs_mat x w w n ti)).
Definition rs_th (w : list C) : list C := zipw (fun a t => a * RtoC (IZR t))%C w (arange (- win_lh w) (win_lh w + 1)).
Definition rs_vec (x w d : list C) (n : Z) (l : list Z) (i j : Z) : Z * Z :=
  let ti := nth (Z.to_nat i) l 0 in
  rs_hat n (zlen l) i j (rs_dt (cnth (fft (rs_mat x w w n ti)) j) (cnth (fft (rs_mat x w (rs_th w) n ti)) j))
                        (rs_df n (cnth (fft (rs_mat x w w n ti)) j) (cnth (fft (rs_mat x w d n ti)) j)).

Lemma at2_fft (F : Z -> list C) l i j : 0 <= i < zlen l -> at2 (map fft (map F l)) j i = cnth (fft (F (nth (Z.to_nat i) l 0))) j.
Proof.
  intros H. unfold at2. rewrite map_map. rewrite (nth_indep _ [] ((fun t => fft (F t)) 0)) by (rewrite map_length; unfold zlen in H; lia).
  now rewrite (map_nth (fun t => fft (F t))).
Qed.

Lemma zdiffs_cons a b r : zdiffs (a :: b :: r) = (b - a) :: zdiffs (b :: r).
Proof. reflexivity. Qed.
Lemma zdiffs_arange a n : zdiffs (arange a (a + n)) = map (fun _ => 1) (arange 0 (n - 1)).
Proof.
  destruct (Z_le_gt_dec n 0).
  - rewrite !arange_empty by lia. reflexivity.
  - revert a. replace n with (Z.of_nat (Z.to_nat n)) by lia. assert (1 <= Z.to_nat n)%nat by lia.
    induction (Z.to_nat n) as [|k IH]; intros a; [lia|]. destruct k as [|k].
    + replace (Z.of_nat 1 - 1) with 0 by lia. rewrite (arange_cons a) by lia. rewrite arange_empty by lia. reflexivity.
    + rewrite (arange_cons a) by lia. rewrite (arange_cons (a + 1)) by lia. rewrite zdiffs_cons.
      specialize (IH ltac:(lia) (a + 1)). rewrite (arange_cons (a + 1)) in IH by lia.
      replace (a + 1 + Z.of_nat (S k)) with (a + Z.of_nat (S (S k))) in IH by lia. rewrite IH.
      rewrite (arange_cons 0 (Z.of_nat (S (S k)) - 1)) by lia. cbn [map]. f_equal; [lia|].
      apply list_nth_ext. intros j. rewrite !nth_error_map.
      replace (Z.of_nat (S (S k)) - 1) with (Z.of_nat (S k) - 1 + 1) by lia. rewrite arange_shift, nth_error_map.
      destruct (nth_error (arange 0 (Z.of_nat (S k) - 1)) j); reflexivity.
Qed.
Lemma regular_arange n : regular (arange 0 n) = true.
Proof.
  unfold regular. assert (E := zdiffs_arange 0 n). rewrite Z.add_0_l in E. rewrite E.
  destruct (arange 0 (n - 1)) as [|b l]; cbn; auto. apply forallb_forall. intros c Hc. apply in_map_iff in Hc. destruct Hc as [? [<- _]]. reflexivity.
Qed.

Lemma rspec_defaults x ts n w : rspec x ts n w =
  rspec x (Some (rs_ts x ts)) (Some (rs_n x n)) (Some (rs_w x w)).
Proof.
  assert (HN := zlen_nonneg x).
  assert (E2 : (zlen (map RtoC (hamming (zlen x / 4 + (1 - (zlen x / 4) mod 2)))) mod 2 =? 0) = false).
  { rewrite zlen_map, hamming_zlen by (Z.to_euclidean_division_equations; lia). apply Z.eqb_neq. Z.to_euclidean_division_equations. lia. }
  unfold rspec. destruct ts; cbn [rs_ts]; rewrite ?regular_arange; destruct w; cbn [rs_w]; cbv zeta; try rewrite E2; reflexivity.
Qed.

Lemma foldM_ext {A S} (f g : S -> A -> res S) l s : (forall s a, In a l -> f s a = g s a) -> foldM f l s = foldM g l s.
Proof.
  revert s. induction l as [|a l IH]; intros s H; cbn; auto. rewrite H by (left; auto). destruct (g s a); cbn; auto. apply IH. intros. apply H. right; auto.
Qed.

Lemma reassign_ext tfr n T thr hat hat' : (forall i j, 0 <= i < T -> 0 <= j < n -> hat i j = hat' i j) ->
  reassign tfr n T thr hat = reassign tfr n T thr hat'.
Proof.
  intros H. unfold reassign. apply foldM_ext. intros m [i j] Hij. apply in_prod_iff in Hij. destruct Hij as [H1 H2]. apply in_arange in H1, H2.
  cbn. destruct (above thr (rent tfr j i)); auto. rewrite H by lia. reflexivity.
Qed.

Definition dflt (w : list C) (dwin : option (list C)) : list C := match dwin with Some d => d | None => w end.
Definition rs_hatf (x w : list C) (dwin : option (list C)) (n : Z) (l : list Z) (i j : Z) : res (Z * Z) :=
  match dwin with
  | None => Raise ValueError
  | Some d => Ok (fst (rs_vec x w d n l i j), snd (rs_vec x w d n l i j) - 1)
  end.

Lemma rs_colf x w g n ti : 0 < n -> 1 <= zlen x -> zlen w mod 2 <> 0 -> zlen g = zlen w ->
  (rs_nan x w n ti /\ rs_col x w g n ti = Ok None) \/ (~ rs_nan x w n ti /\ rs_col x w g n ti = Ok (Some (rs_mat x w g n ti))).
Proof.
  intros H1 H2 H3 H4. rewrite rs_col_ok by auto. unfold rs_nan. destruct (rs_tau (zlen x) w n ti) eqn:E.
  - right. split; auto. intros [Q _]. auto.
  - destruct (Req_EM_T (rs_nrm x w n ti) 0); [left|right]; split; auto.
    + split; auto. discriminate.
    + intros [_ Q]. auto.
Qed.

(** Everything up to the loop. *)
Lemma rspec_eval x l n w mn mx dwin : 0 < n -> 1 <= zlen x -> zlen w mod 2 <> 0 -> regular l = true ->
  zmin l = Ok mn -> zmax l = Ok mx -> 1 - zlen x <= mn -> mx <= zlen x -> derive_window w = Ok dwin ->
  ((exists ti, In ti l /\ rs_nan x w n ti) -> rspec x (Some l) (Some n) (Some w) = Ok None) /\
  ((forall ti, In ti l -> ~ rs_nan x w n ti) ->
   let sq := map (rs_sq x w n) l in let thr := Some (rs_thr x mn mx) in
   rspec x (Some l) (Some n) (Some w) =
   (rtfr <- reassign sq n (zlen l) thr (rs_hatf x w dwin n l) ;;
    Ok (Some (sq, rtfr, map (fun i => map (fun j => if above thr (rent sq j i) then Some (rs_vec x w (dflt w dwin) n l i j) else None)
       (arange 0 n)) (arange 0 (zlen l)))))).
Proof.
  intros Hn Hx Ho Hreg Hmn Hmx Hlo Hhi Hd.
  assert (Hd' : zlen (dflt w dwin) = zlen w).
  { apply zmin_spec in Hmn. assert (1 <= zlen w) by (apply odd_lh in Ho; generalize (zlen_nonneg w); lia).
    destruct (derive_window_cases w H) as (od & E & Q). assert (od = dwin) by congruence. subst od.
    destruct dwin; cbn; [tauto|auto]. }
  unfold rspec. rewrite Hreg. cbn [bind]. rewrite (proj2 (Z.eqb_neq _ _)) by auto. cbn [bind].
  rewrite (proj2 (Z.leb_gt _ _)) by lia. rewrite Hd. cbn [bind].
  fold (rs_th w) (dflt w dwin).
  assert (M : forall g, zlen g = zlen w -> exists f, mapM (rs_col x w g n) l = Ok (map f l) /\
    forall ti, (rs_nan x w n ti /\ f ti = None) \/ (~ rs_nan x w n ti /\ f ti = Some (rs_mat x w g n ti))).
  { intros g Hg. exists (fun ti => match rs_col x w g n ti with Ok o => o | Raise _ => None end). split.
    - apply mapM_ok. intros ti _. destruct (rs_colf x w g n ti) as [[_ E]|[_ E]]; auto; rewrite E; auto.
    - intros ti. destruct (rs_colf x w g n ti) as [[Q E]|[Q E]]; auto; rewrite E; auto. }
  destruct (M w eq_refl) as (f1 & E1 & F1). destruct (M (rs_th w)) as (f2 & E2 & F2); [apply th_zlen; auto|].
  destruct (M (dflt w dwin) Hd') as (f3 & E3 & F3).
  rewrite E1, E2, E3. cbn [bind]. rewrite Hmn, Hmx. cbn [bind].
  rewrite take_wrap.
  2:{ intros k Hk. apply in_map_iff in Hk. destruct Hk as [q [<- Hq]]. apply in_arange in Hq. lia. }
  cbn [bind]. rewrite map_map. fold (rs_thr x mn mx). split.
  - intros (ti & Hi & Q). rewrite (all_some_none f1 l); auto. exists ti. split; auto. destruct (F1 ti) as [[_ E]|[Q' _]]; tauto.
  - intros Hnn. set (sq := map (rs_sq x w n) l). set (thr := Some (rs_thr x mn mx)).
    rewrite (all_some_ok f1 (rs_mat x w w n)) by (intros ti Hi; destruct (F1 ti) as [[Q _]|[_ E]]; auto; destruct (Hnn ti Hi Q)).
    rewrite (all_some_ok f2 (rs_mat x w (rs_th w) n)) by (intros ti Hi; destruct (F2 ti) as [[Q _]|[_ E]]; auto; destruct (Hnn ti Hi Q)).
    rewrite (all_some_ok f3 (rs_mat x w (dflt w dwin) n)) by (intros ti Hi; destruct (F3 ti) as [[Q _]|[_ E]]; auto; destruct (Hnn ti Hi Q)).
    assert (Esq : map (map (fun z => (Cmod z ^ 2)%R)) (map fft (map (rs_mat x w w n) l)) = sq).
    { unfold sq. rewrite !map_map. reflexivity. }
    rewrite Esq. fold thr.
    rewrite (reassign_ext sq n (zlen l) thr _ (rs_hatf x w dwin n l)).
    2:{ intros i j Hi Hj. unfold rs_hatf. destruct dwin; auto. rewrite !at2_fft by auto. reflexivity. }
    destruct (reassign sq n (zlen l) thr (rs_hatf x w dwin n l)); cbn [bind]; auto. do 3 f_equal.
    apply map_ext_in. intros i Hi. apply in_arange in Hi. apply map_ext_in. intros j _. rewrite !at2_fft by auto. reflexivity.
Qed.

Lemma get_in_range {A} (l : list A) i a : get l i = Ok a -> - zlen l <= i < zlen l.
Proof.
  intros H. destruct (Z_lt_ge_dec i (- zlen l)); [rewrite get_raise in H by lia; discriminate|].
  destruct (Z_lt_ge_dec i (zlen l)); [lia|]. rewrite get_raise in H by lia. discriminate.
Qed.
Lemma take_in_range {A} (l : list A) idx r i : take l idx = Ok r -> In i idx -> - zlen l <= i < zlen l.
Proof.
  intros H Hi. apply mapM_ok_inv in H. destruct H as [_ H]. apply In_nth_error in Hi. destruct Hi as [k Hk].
  destruct (H k i Hk) as (b & _ & E). eapply get_in_range; eauto.
Qed.

Lemma rspec_inv x l n w r : rspec x (Some l) (Some n) (Some w) = Ok r ->
  regular l = true /\ zlen w mod 2 <> 0 /\ 0 < n /\ 1 <= zlen x /\
  exists mn mx dwin, zmin l = Ok mn /\ zmax l = Ok mx /\ 1 - zlen x <= mn /\ mx <= zlen x /\ derive_window w = Ok dwin.
Proof.
  intros H. unfold rspec in H. destruct (regular l); [|discriminate]. cbn [bind] in H.
  destruct (Z.eqb_spec (zlen w mod 2) 0) as [|Ho]; [discriminate|]. cbn [bind] in H.
  destruct (Z.leb_spec n 0); [discriminate|].
  apply bind_ok_inv in H. destruct H as (dwin & Hd & H).
  apply bind_ok_inv in H. destruct H as (c1 & _ & H).
  apply bind_ok_inv in H. destruct H as (c2 & _ & H).
  apply bind_ok_inv in H. destruct H as (c3 & _ & H).
  apply bind_ok_inv in H. destruct H as (mn & Hmn & H).
  apply bind_ok_inv in H. destruct H as (mx & Hmx & H).
  apply bind_ok_inv in H. destruct H as (xs & Hxs & _).
  assert (Q : mn <= mx). { apply zmin_spec in Hmn. apply zmax_spec in Hmx. destruct Hmn as [A _], Hmx as [_ B]. auto. }
  assert (A := take_in_range x _ _ (mn - 1) Hxs). assert (B := take_in_range x _ _ (mx - 1) Hxs).
  assert (A' : In (mn - 1) (map (fun k => k - 1) (arange mn (mx + 1)))) by (apply (in_map (fun k => k - 1)), in_arange; lia).
  assert (B' : In (mx - 1) (map (fun k => k - 1) (arange mn (mx + 1)))) by (apply (in_map (fun k => k - 1)), in_arange; lia).
  specialize (A A'). specialize (B B'). repeat split; auto; try lia. exists mn, mx, dwin. repeat split; auto; lia.
Qed.

(** Reassignment vector returned for row [j], column [i], and the matrix
    position it points to (None: inf, the cell stays). *)
Definition vent {A} (vec : list (list (option A))) (j i : Z) : option A := nth (Z.to_nat j) (nth (Z.to_nat i) vec []) None.
Definition dest (vec : list (list (option (Z * Z)))) (j i : Z) : Z * Z :=
  match vent vec j i with Some (r, c) => (r, c - 1) | None => (j, i) end.

Lemma vent_map2 {A} (F : Z -> Z -> option A) n T j i : 0 <= j < n -> 0 <= i < T ->
  vent (map (fun i => map (fun j => F i j) (arange 0 n)) (arange 0 T)) j i = F i j.
Proof.
  intros Hj Hi. unfold vent. rewrite nth_map_arange by lia. rewrite nth_map_arange by lia. now rewrite !Z.add_0_l.
Qed.

Lemma rs_sq_shape x w n l : 0 < n -> shape (map (rs_sq x w n) l) n (zlen l).
Proof.
  intros Hn. split; [apply zlen_map|]. intros c Hc. apply in_map_iff in Hc. destruct Hc as [ti [<- _]].
  unfold rs_sq. rewrite zlen_map, fft_zlen. apply rs_mat_zlen. lia.
Qed.

Lemma rs_hat_range n T i j dt df : 0 < n -> 1 <= T -> 0 <= fst (rs_hat n T i j dt df) < n /\ 1 <= snd (rs_hat n T i j dt df) <= T.
Proof. intros Hn HT. unfold rs_hat. cbn [fst snd]. split; [apply Z.mod_pos_bound; lia|lia]. Qed.

Lemma nonempty_T {A} (l : list A) a : In a l -> 1 <= zlen l.
Proof. destruct l; [intros []|]. unfold zlen. cbn [length]. lia. Qed.

(** Full description of a successful run. *)
Lemma rspec_run x ts n w tfr rtfr vec : rspec x ts n w = Ok (Some (tfr, rtfr, vec)) ->
  let l := rs_ts x ts in let n := rs_n x n in let w := rs_w x w in
  0 < n /\ 1 <= zlen x /\ 1 <= zlen l /\ zlen w mod 2 <> 0 /\ (forall ti, In ti l -> ~ rs_nan x w n ti /\ 1 - zlen x <= ti <= zlen x) /\
  tfr = map (rs_sq x w n) l /\ shape rtfr n (zlen l) /\
  exists mn mx dwin, zmin l = Ok mn /\ zmax l = Ok mx /\ derive_window w = Ok dwin /\
  (forall j i, 0 <= j < n -> 0 <= i < zlen l -> vent vec j i =
      if above (Some (rs_thr x mn mx)) (rent tfr j i) then Some (rs_vec x w (dflt w dwin) n l i j) else None) /\
  (dwin = None -> forall j i, 0 <= j < n -> 0 <= i < zlen l -> above (Some (rs_thr x mn mx)) (rent tfr j i) = false) /\
  (forall r c, 0 <= r < n -> 0 <= c < zlen l ->
    rent rtfr r c = rsum (arange 0 (zlen l)) (fun i => rsum (arange 0 n) (fun j =>
      if (fst (dest vec j i) =? r) && (snd (dest vec j i) =? c) then rent tfr j i else 0%R))).
Proof.
  rewrite rspec_defaults. set (l := rs_ts x ts). set (n' := rs_n x n). set (w' := rs_w x w). clearbody l n' w'. clear ts n w.
  intros H. cbv zeta.
  destruct (rspec_inv _ _ _ _ _ H) as (Hreg & Ho & Hn & Hx & mn & mx & dwin & Hmn & Hmx & Hlo & Hhi & Hd).
  destruct (rspec_eval x l n' w' mn mx dwin Hn Hx Ho Hreg Hmn Hmx Hlo Hhi Hd) as [HN HO].
  destruct (proj1 (zmin_spec _ _) Hmn) as [Hin Hmin]. destruct (proj1 (zmax_spec _ _) Hmx) as [_ Hmax].
  assert (HT := nonempty_T _ _ Hin).
  assert (Hnn : forall ti, In ti l -> ~ rs_nan x w' n' ti).
  { intros ti Hi Q. rewrite HN in H by eauto. discriminate. }
  specialize (HO Hnn). cbv zeta in HO. rewrite HO in H. clear HN HO.
  set (sq := map (rs_sq x w' n') l) in *. set (thr := Some (rs_thr x mn mx)) in *.
  apply bind_ok_inv in H. destruct H as (m & Em & H).
  assert (E1 : sq = tfr) by congruence. assert (E2 : m = rtfr) by congruence. subst m. rewrite <- E1.
  assert (E3 : map (fun i => map (fun j => if above thr (rent sq j i) then Some (rs_vec x w' (dflt w' dwin) n' l i j) else None) (arange 0 n')) (arange 0 (zlen l)) = vec) by congruence.
  clear H.
  assert (Hv : forall j i, 0 <= j < n' -> 0 <= i < zlen l -> vent vec j i =
      if above thr (rent sq j i) then Some (rs_vec x w' (dflt w' dwin) n' l i j) else None).
  { intros j i Hj Hi. rewrite <- E3. now rewrite (vent_map2 (fun i j => if above thr (rent sq j i) then Some (rs_vec x w' (dflt w' dwin) n' l i j) else None)). }
  assert (Hdn : dwin = None -> forall j i, 0 <= j < n' -> 0 <= i < zlen l -> above thr (rent sq j i) = false).
  { intros -> j i Hj Hi. destruct (above thr (rent sq j i)) eqn:Ea; auto. exfalso.
    assert (Q : foldM (reassign_step sq thr (rs_hatf x w' None n' l)) (list_prod (arange 0 (zlen l)) (arange 0 n')) (repeat (repeat 0%R (Z.to_nat n')) (Z.to_nat (zlen l))) = Ok rtfr) by exact Em.
    assert (Hij : In (i, j) (list_prod (arange 0 (zlen l)) (arange 0 n'))) by (apply in_prod; apply in_arange; lia).
    revert Q Hij. generalize (repeat (repeat 0%R (Z.to_nat n')) (Z.to_nat (zlen l))). generalize (list_prod (arange 0 (zlen l)) (arange 0 n')).
    induction l0 as [|a cells IH]; intros m0 Q Hij; [destruct Hij|]. cbn [foldM] in Q. apply bind_ok_inv in Q. destruct Q as (s & Es & Q).
    destruct Hij as [->|Hij]; [|eapply IH; eauto]. cbn [reassign_step] in Es. rewrite Ea in Es. discriminate. }
  assert (Hr : forall i j, 0 <= i < zlen l -> 0 <= j < n' -> 0 <= fst (dest vec j i) < n' /\ 0 <= snd (dest vec j i) < zlen l).
  { intros i j Hi Hj. unfold dest. rewrite Hv by auto. destruct (above thr (rent sq j i)); cbn [fst snd]; [|auto].
    unfold rs_vec. generalize (rs_hat_range n' (zlen l) i j (rs_dt (cnth (fft (rs_mat x w' w' n' (nth (Z.to_nat i) l 0))) j) (cnth (fft (rs_mat x w' (rs_th w') n' (nth (Z.to_nat i) l 0))) j))
      (rs_df n' (cnth (fft (rs_mat x w' w' n' (nth (Z.to_nat i) l 0))) j) (cnth (fft (rs_mat x w' (dflt w' dwin) n' (nth (Z.to_nat i) l 0))) j)) Hn HT).
    destruct (rs_hat _ _ _ _ _ _); cbn [fst snd]. lia. }
  destruct (reassign_ok sq n' (zlen l) thr (rs_hatf x w' dwin n' l) (fun i j => dest vec j i)) as (m & Em' & Sm & Fm); try lia; auto.
  { intros i j Hi Hj. destruct (above thr (rent sq j i)) eqn:Ea.
    - destruct dwin as [d|]; [|rewrite Hdn in Ea by auto; discriminate]. unfold rs_hatf, dest. rewrite Hv by auto. rewrite Ea. cbn [dflt].
      destruct (rs_vec x w' d n' l i j); reflexivity.
    - unfold dest. rewrite Hv by auto. now rewrite Ea. }
  assert (m = rtfr) by congruence. subst m.
  split; [auto|]. split; [auto|]. split; [auto|]. split; [auto|]. split.
  { intros ti Hi. split; [auto|]. specialize (Hmin ti Hi). specialize (Hmax ti Hi). lia. }
  split; [auto|]. split; [auto|]. exists mn, mx, dwin. repeat (split; [solve [auto]|]). exact Fm.
Qed.

(** *** C36 *)
(** Every entry of the reassigned matrix is the sum of the cells whose returned
    vector points to it; destinations are always inside the matrix. *)
Lemma c36_entries : forall x ts n w tfr rtfr vec, rspec x ts n w = Ok (Some (tfr, rtfr, vec)) ->
  let T := zlen (rs_ts x ts) in let n := rs_n x n in
  shape tfr n T /\ shape rtfr n T /\
  (forall j i, 0 <= j < n -> 0 <= i < T -> 0 <= fst (dest vec j i) < n /\ 0 <= snd (dest vec j i) < T) /\
  (forall r c, 0 <= r < n -> 0 <= c < T ->
    rent rtfr r c = rsum (arange 0 T) (fun i => rsum (arange 0 n) (fun j =>
      if (fst (dest vec j i) =? r) && (snd (dest vec j i) =? c) then rent tfr j i else 0%R))).
Proof.
  intros x ts n w tfr rtfr vec H. apply rspec_run in H. cbv zeta in *.
  destruct H as (Hn & Hx & HT & Ho & Hl & Et & Sr & mn & mx & dwin & _ & _ & _ & Hv & _ & Hr).
  split; [rewrite Et; now apply rs_sq_shape|]. split; [auto|]. split; [|auto].
  intros j i Hj Hi. unfold dest. rewrite Hv by auto. destruct (above _ _); cbn [fst snd]; [|auto].
  unfold rs_vec. match goal with |- context [rs_hat ?a ?b ?c ?d ?e ?f] => generalize (rs_hat_range a b c d e f Hn HT); destruct (rs_hat a b c d e f) end.
  cbn [fst snd]. lia.
Qed.

Lemma c36_mass : forall x ts n w tfr rtfr vec, rspec x ts n w = Ok (Some (tfr, rtfr, vec)) ->
  let T := zlen (rs_ts x ts) in let n := rs_n x n in
  rsum (arange 0 T) (fun c => rsum (arange 0 n) (fun r => rent rtfr r c)) =
  rsum (arange 0 T) (fun i => rsum (arange 0 n) (fun j => rent tfr j i)).
Proof.
  intros x ts n w tfr rtfr vec H. destruct (c36_entries _ _ _ _ _ _ _ H) as (S1 & S2 & R & F). cbv zeta in *.
  set (T := zlen (rs_ts x ts)) in *. set (n' := rs_n x n) in *.
  rewrite <- (scatter_total n' T (fun i j => dest vec j i) (fun i j => rent tfr j i)) by (intros; apply R; auto).
  apply rsum_ext. intros c Hc. apply rsum_ext. intros r Hr. apply in_arange in Hc, Hr. rewrite F by lia. reflexivity.
Qed.

Lemma rs_sq_nonneg x w n l j i : 0 <= j < n -> 0 <= i < zlen l -> (0 <= rent (map (rs_sq x w n) l) j i)%R.
Proof.
  intros Hj Hi. unfold rent. rewrite (nth_indep _ [] (rs_sq x w n 0)) by (rewrite map_length; unfold zlen in Hi; lia).
  rewrite map_nth. unfold rs_sq, rnth.
  rewrite (nth_indep _ 0%R ((fun z => Cmod z ^ 2)%R (RtoC 0))).
  - rewrite (map_nth (fun z => Cmod z ^ 2)%R). apply pow2_ge_0.
  - rewrite map_length, fft_length. assert (E := rs_mat_zlen x w w n (nth (Z.to_nat i) l 0) ltac:(lia)). unfold zlen in E. lia.
Qed.

Lemma c36_nonneg : forall x ts n w tfr rtfr vec r c, rspec x ts n w = Ok (Some (tfr, rtfr, vec)) ->
  0 <= r < rs_n x n -> 0 <= c < zlen (rs_ts x ts) -> (0 <= rent tfr r c)%R /\ (0 <= rent rtfr r c)%R.
Proof.
  intros x ts n w tfr rtfr vec r c H Hr Hc. destruct (c36_entries _ _ _ _ _ _ _ H) as (S1 & S2 & R & F). cbv zeta in *.
  apply rspec_run in H. cbv zeta in H. destruct H as (_ & _ & _ & _ & _ & Et & _).
  split.
  - rewrite Et. apply rs_sq_nonneg; auto.
  - rewrite F by auto. apply rsum_nonneg. intros i Hi. apply rsum_nonneg. intros j Hj. apply in_arange in Hi, Hj.
    destruct (_ && _); [|lra]. rewrite Et. apply rs_sq_nonneg; lia.
Qed.

Lemma rs_col_empty_sig (w g : list C) n ti : 0 < n -> zlen w mod 2 <> 0 ->
  (exists o, rs_col [] w g n ti = Ok o) \/ rs_col [] w g n ti = Raise IndexError.
Proof.
  intros Hn Ho. apply odd_lh in Ho. unfold rs_col. rewrite (take_ok (RtoC 0)).
  2:{ intros i Hi. apply in_map_iff in Hi. destruct Hi as [t [<- Ht]]. apply rs_tau_in in Ht. lia. }
  cbn [bind]. destruct (rs_tau (zlen []) w n ti) as [|a l]; [left; cbn; eauto|right]. cbn. unfold get. rewrite pyidx_none by (cbn; lia). reflexivity.
Qed.

Lemma mapM_cases {A B} (f : A -> res B) l e : (forall a, In a l -> (exists b, f a = Ok b) \/ f a = Raise e) ->
  (exists r, mapM f l = Ok r) \/ mapM f l = Raise e.
Proof.
  induction l as [|a l IH]; intros H; cbn; [eauto|]. destruct (H a (or_introl eq_refl)) as [[b ->]| ->]; [|auto]. cbn.
  destruct (IH (fun c Hc => H c (or_intror Hc))) as [[r ->]| ->]; cbn; eauto.
Qed.

(** Which calls return: exactly these, whatever the signal and the
    displacements. *)
Lemma c36_outcome : forall x l n w,
  let r := rspec x (Some l) (Some n) (Some w) in
  (zlen w mod 2 = 0 \/ regular l = false \/ n <= 0 \/ l = [] -> r = Raise ValueError) /\
  (zlen w mod 2 <> 0 -> regular l = true -> 0 < n -> l <> [] ->
     ((exists t, In t l /\ ~ 1 - zlen x <= t <= zlen x) -> r = Raise IndexError) /\
     ((forall t, In t l -> 1 - zlen x <= t <= zlen x) -> 3 <= zlen w -> exists o, r = Ok o)).
Proof.
  intros x l n w r. unfold r. clear r. split.
  - intros H. unfold rspec. destruct (regular l) eqn:Er; [|reflexivity]. cbn [bind].
    destruct (Z.eqb_spec (zlen w mod 2) 0) as [|Ho]; [reflexivity|]. cbn [bind]. destruct (Z.leb_spec n 0); [reflexivity|].
    destruct H as [H|[H|[H|H]]]; try lia; try discriminate. subst l.
    destruct (derive_window_cases w) as (od & E & _). { apply odd_lh in Ho. generalize (zlen_nonneg w). lia. }
    rewrite E. reflexivity.
  - intros Ho Hreg Hn Hl. destruct (zmin_ok l Hl) as [mn Hmn]. destruct (zmax_ok l Hl) as [mx Hmx].
    destruct (proj1 (zmin_spec _ _) Hmn) as [Hin Hmin]. destruct (proj1 (zmax_spec _ _) Hmx) as [Hax Hmax].
    assert (Hw : 1 <= zlen w) by (apply odd_lh in Ho; generalize (zlen_nonneg w); lia).
    destruct (derive_window_cases w Hw) as (od & Ed & Hod).
    assert (Hd' : zlen (dflt w od) = zlen w) by (destruct od; cbn; tauto).
    split.
    + intros (t & Ht & Hbad). unfold rspec. rewrite Hreg. cbn [bind]. rewrite (proj2 (Z.eqb_neq _ _)) by auto. cbn [bind].
      rewrite (proj2 (Z.leb_gt _ _)) by lia. rewrite Ed. cbn [bind]. fold (rs_th w) (dflt w od).
      assert (M : forall g, zlen g = zlen w -> (exists c, mapM (rs_col x w g n) l = Ok c) \/ mapM (rs_col x w g n) l = Raise IndexError).
      { intros g Hg. apply mapM_cases. intros ti _. destruct (Z.eq_dec (zlen x) 0) as [E0|E0].
        - apply zlen1_nil in E0. subst x. apply rs_col_empty_sig; auto.
        - rewrite rs_col_ok; auto; [eauto|]. generalize (zlen_nonneg x). lia. }
      destruct (M w eq_refl) as [[c1 E1]|E1]; rewrite E1; cbn [bind]; [|reflexivity].
      destruct (M (rs_th w) (th_zlen w Ho)) as [[c2 E2]|E2]; rewrite E2; cbn [bind]; [|reflexivity].
      destruct (M _ Hd') as [[c3 E3]|E3]; rewrite E3; cbn [bind]; [|reflexivity].
      rewrite Hmn, Hmx. cbn [bind]. unfold take. rewrite mapM_raise with (e := IndexError); [reflexivity| |].
      * intros a _. destruct (get_cases x a) as [[b E]|E]; eauto.
      * assert (Q1 := Hmin _ Ht). assert (Q2 := Hmax _ Ht). exists (t - 1). split.
        -- apply (in_map (fun k => k - 1)), in_arange. lia.
        -- apply get_raise. lia.
    + intros Hr H3.
      assert (R1 := Hr _ Hin). assert (R2 := Hr _ Hax).
      destruct (rspec_eval x l n w mn mx od) as [HN HO]; auto; try lia.
      assert (Dec : (exists ti, In ti l /\ rs_nan x w n ti) \/ (forall ti, In ti l -> ~ rs_nan x w n ti)).
      { clear. induction l as [|a l IH]; [right; intros ti []|].
        assert (D : rs_nan x w n a \/ ~ rs_nan x w n a).
        { unfold rs_nan. destruct (rs_tau (zlen x) w n a); [right; tauto|]. destruct (Req_EM_T (rs_nrm x w n a) 0); [left; split; auto; discriminate|right; tauto]. }
        destruct D as [D|D]; [left; exists a; split; auto; left; auto|]. destruct IH as [(b & Hb & Q)|IH].
        - left. exists b. split; auto. right; auto.
        - right. intros b [<-|Hb]; auto. }
      destruct Dec as [D|D].
      * exists None. auto.
      * rewrite (HO D). cbv zeta. destruct od as [d|]; [|lia].
        set (sq := map (rs_sq x w n) l). set (thr := Some (rs_thr x mn mx)).
        destruct (reassign_ok sq n (zlen l) thr (rs_hatf x w (Some d) n l)
          (fun i j => if above thr (rent sq j i) then (fst (rs_vec x w d n l i j), snd (rs_vec x w d n l i j) - 1) else (j, i))) as (m & Em & _).
        -- lia.
        -- apply zlen_nonneg.
        -- intros i j Hi Hj. destruct (above thr (rent sq j i)); cbn [fst snd]; [|auto]. unfold rs_vec.
           match goal with |- context [rs_hat ?a ?b ?c ?d ?e ?f] => generalize (rs_hat_range a b c d e f Hn (nonempty_T _ _ Hin)) end. lia.
        -- intros i j Hi Hj. destruct (above thr (rent sq j i)); reflexivity.
        -- rewrite Em. cbn [bind]. eauto.
Qed.

(** NaN is returned exactly when a window section in use is zero. *)
Lemma norm2_0 l : norm2 l = 0%R <-> forall z, In z l -> z = RtoC 0.
Proof.
  unfold norm2. split.
  - intros H z Hz. apply sqrt_eq_0 in H; [|apply rsum_nonneg; intros; apply pow2_ge_0].
    assert (Q : (Cmod z ^ 2 = 0)%R). { apply (rsum_nonneg_0 l (fun z => Cmod z ^ 2)%R); auto. intros; apply pow2_ge_0. }
    apply Cmod_eq_0. nra.
  - intros H. rewrite rsum_0; [apply sqrt_0|]. intros z Hz. rewrite (H z Hz), Cmod_0. ring.
Qed.
Lemma c36_nan : forall x l n w, zlen w mod 2 <> 0 -> regular l = true -> 0 < n -> l <> [] ->
  (forall t, In t l -> 1 - zlen x <= t <= zlen x) ->
  (rspec x (Some l) (Some n) (Some w) = Ok None <->
   exists ti, In ti l /\ rs_tau (zlen x) w n ti <> [] /\ forall t, In t (rs_tau (zlen x) w n ti) -> cnth w (win_lh w + t) = RtoC 0).
Proof.
  intros x l n w Ho Hreg Hn Hl Hr. destruct (zmin_ok l Hl) as [mn Hmn]. destruct (zmax_ok l Hl) as [mx Hmx].
  destruct (proj1 (zmin_spec _ _) Hmn) as [Hin Hmin]. destruct (proj1 (zmax_spec _ _) Hmx) as [Hax Hmax].
  assert (Hw : 1 <= zlen w) by (apply odd_lh in Ho; generalize (zlen_nonneg w); lia).
  destruct (derive_window_cases w Hw) as (od & Ed & Hod). assert (R1 := Hr _ Hin). assert (R2 := Hr _ Hax).
  destruct (rspec_eval x l n w mn mx od) as [HN HO]; auto; try lia.
  assert (Q : forall ti, rs_nan x w n ti <-> rs_tau (zlen x) w n ti <> [] /\ forall t, In t (rs_tau (zlen x) w n ti) -> cnth w (win_lh w + t) = RtoC 0).
  { intros ti. unfold rs_nan, rs_nrm. rewrite norm2_0. split; intros [A B]; split; auto.
    - intros t Ht. apply B. apply (in_map (fun t => cnth w (win_lh w + t))). auto.
    - intros z Hz. apply in_map_iff in Hz. destruct Hz as [t [<- Ht]]. auto. }
  split.
  - intros H. destruct (Classical_Prop.classic (exists ti, In ti l /\ rs_nan x w n ti)) as [(ti & Hi & D)|D].
    + exists ti. split; auto. now apply Q.
    + rewrite HO in H by (intros ti Hi Z; apply D; eauto). cbv zeta in H. apply bind_ok_inv in H. destruct H as (m & _ & H). discriminate.
  - intros (ti & Hi & D). apply HN. exists ti. split; auto. now apply Q.
Qed.

(** *** C37 *)
(** Displacements in units of samples and bins, for the window v on the lags in
    use: the time-weighted and derivative-weighted transforms divided by the
    plain one. *)
Definition trans (x w : list C) (v : Z -> C) (n ti j : Z) : C :=
  csum (rs_tau (zlen x) w n ti) (fun t => xwrap x (ti + t - 1) * Cconj (v t) * root n (- (j * t)))%C.
Definition disp_t (x w : list C) (n ti j : Z) : Z :=
  let h t := cnth w (win_lh w + t) in
  ZnearestE (Re (trans x w (fun t => h t * RtoC (IZR t))%C n ti j / trans x w h n ti j)%C).
Definition disp_f (x w d : list C) (n ti j : Z) : Z :=
  ZnearestE (Im (RtoC (IZR n) * trans x w (fun t => cnth d (win_lh w + t)) n ti j / trans x w (fun t => cnth w (win_lh w + t)) n ti j / RtoC (2 * PI))%C).

Lemma rS_trans x w g n ti j : rS x w g n ti j = trans x w (fun t => cnth g (win_lh w + t)) n ti j.
Proof. reflexivity. Qed.
Lemma rS_th x w n ti j : zlen w mod 2 <> 0 -> rS x w (rs_th w) n ti j = trans x w (fun t => cnth w (win_lh w + t) * RtoC (IZR t))%C n ti j.
Proof.
  intros Ho. apply odd_lh in Ho. apply csum_ext. intros t Ht. apply rs_tau_in in Ht. unfold rs_raw. do 3 f_equal.
  unfold rs_th, cnth at 1. rewrite (nth_zipw _ _ _ _ (RtoC 0) 0).
  - unfold cnth. f_equal. do 2 f_equal. transitivity (nth (Z.to_nat (win_lh w + t)) (map (fun k => k) (arange (- win_lh w) (win_lh w + 1))) 0).
    + now rewrite map_id.
    + rewrite nth_map_arange by lia. lia.
  - unfold zlen in Ho. lia.
  - rewrite arange_length. lia.
Qed.

Lemma ratio_cancel (a b c : C) : c <> RtoC 0 -> ((a / c) / (b / c) = a / b)%C.
Proof.
  intros Hc. destruct (Ceq_dec b (RtoC 0)) as [->|Hb].
  - unfold Cdiv. replace (RtoC 0 * / c)%C with (RtoC 0) by ring. 
    replace (/ RtoC 0)%C with (RtoC 0). ring. unfold Cinv, RtoC. cbn. apply injective_projections; cbn; unfold Rdiv; ring.
  - field. auto.
Qed.

(** Where the cells above the threshold go. *)
Lemma c37_vectors : forall x ts n w tfr rtfr vec, rspec x ts n w = Ok (Some (tfr, rtfr, vec)) ->
  let l := rs_ts x ts in let n := rs_n x n in let w := rs_w x w in
  (3 <= zlen w -> exists d, derive_window w = Ok (Some d) /\
   forall j i r c, 0 <= j < n -> 0 <= i < zlen l -> vent vec j i = Some (r, c) ->
    let ti := nth (Z.to_nat i) l 0 in
    r = (j - disp_f x w d n ti j - 1) mod n /\ c = Z.min (Z.max (i + disp_t x w n ti j) 1) (zlen l)) /\
  (zlen w = 1 -> forall j i, 0 <= j < n -> 0 <= i < zlen l -> vent vec j i = None).
Proof.
  intros x ts n w tfr rtfr vec H. apply rspec_run in H. cbv zeta in *.
  destruct H as (Hn & Hx & HT & Ho & Hl & Et & Sr & mn & mx & dwin & Hmn & Hmx & Hd & Hv & Hdn & Hr).
  set (l := rs_ts x ts) in *. set (n' := rs_n x n) in *. set (w' := rs_w x w) in *.
  destruct (derive_window_cases w') as (od & E & Q). { apply odd_lh in Ho. generalize (zlen_nonneg w'). lia. }
  assert (od = dwin) by congruence. subst od. clear E. split.
  - intros H3. destruct dwin as [d|]; [|lia]. exists d. split; auto. intros j i r c Hj Hi Hvc.
    rewrite Hv in Hvc by auto. destruct (above _ _) eqn:Ea; [|discriminate]. cbn [dflt] in Hvc.
    assert (Hvc' : rs_vec x w' d n' l i j = (r, c)) by congruence. clear Hvc. unfold rs_vec in Hvc'.
    set (ti := nth (Z.to_nat i) l 0) in *. rewrite !rs_mat_fft in Hvc' by auto.
    assert (Hti : In ti l) by (apply nth_In; unfold zlen in Hi; lia).
    assert (Hnz : rs_nrm x w' n' ti <> 0%R \/ rs_tau (zlen x) w' n' ti = []).
    { destruct (Req_EM_T (rs_nrm x w' n' ti) 0); [|auto]. right. destruct (Hl ti Hti) as [Nn _]. unfold rs_nan in Nn.
      destruct (rs_tau (zlen x) w' n' ti); auto. exfalso. apply Nn. split; auto. discriminate. }
    rewrite rS_th in Hvc' by auto. rewrite !rS_trans in Hvc'.
    assert (Cz : RtoC (rs_nrm x w' n' ti) <> RtoC 0 \/ rs_tau (zlen x) w' n' ti = []).
    { destruct Hnz as [N|N]; auto. left. intros Z. apply N. now apply RtoC_inj. }
    destruct Cz as [Cz|Cz].
    + unfold rs_hat, rs_dt, rs_df in Hvc'. 
      assert (Ez : forall a b : C, (RtoC (IZR n') * (a / RtoC (rs_nrm x w' n' ti)) / (b / RtoC (rs_nrm x w' n' ti)))%C = (RtoC (IZR n') * a / b)%C).
      { intros a b. rewrite <- (ratio_cancel (RtoC (IZR n') * a)%C b _ Cz). f_equal. unfold Cdiv. ring. }
      rewrite ratio_cancel, Ez in Hvc' by auto.
      fold (disp_t x w' n' ti j) in Hvc'. fold (disp_f x w' d n' ti j) in Hvc'.
      assert (E1 := f_equal fst Hvc'). assert (E2 := f_equal snd Hvc'). cbn [fst snd] in E1, E2. rewrite <- E1, <- E2. split; auto.
      rewrite <- Z.add_mod_idemp_r, Z.mod_same, Z.add_0_r, Z.mod_mod by lia. reflexivity.
    + (* no sample used: the cell is 0, never above the threshold *)
      exfalso. assert (R0 : rent tfr j i = 0%R).
      { rewrite Et. unfold rent. rewrite (nth_indep _ [] (rs_sq x w' n' 0)) by (rewrite map_length; unfold zlen in Hi; lia).
        rewrite map_nth. fold ti. unfold rs_sq, rnth. rewrite (nth_indep _ 0%R ((fun z => Cmod z ^ 2)%R (RtoC 0))).
        - rewrite (map_nth (fun z => Cmod z ^ 2)%R). fold (cnth (fft (rs_mat x w' w' n' ti)) j). rewrite rs_mat_fft by auto.
          unfold rS. rewrite Cz, csum_nil. unfold Cdiv. rewrite Cmult_0_l, Cmod_0. ring.
        - rewrite map_length, fft_length. assert (E := rs_mat_zlen x w' w' n' ti ltac:(lia)). unfold zlen in E. lia. }
      rewrite R0 in Ea. unfold above in Ea. rewrite Rabs_R0 in Ea. destruct (Rlt_dec _ _) as [Z|]; [|discriminate].
      unfold rs_thr, mean2 in Z. 
      assert (0 <= rsum (map (fun k => xwrap x (k - 1)) (arange mn (mx + 1))) (fun z => Cmod z ^ 2) / IZR (zlen (map (fun k => xwrap x (k - 1)) (arange mn (mx + 1)))))%R.
      { unfold Rdiv. apply Rmult_le_pos; [apply rsum_nonneg; intros; apply pow2_ge_0|].
        destruct (Req_dec (IZR (zlen (map (fun k => xwrap x (k - 1)) (arange mn (mx + 1))))) 0) as [E|E]; [rewrite E, Rinv_0; lra|].
        left. apply Rinv_0_lt_compat. assert (0 <= IZR (zlen (map (fun k => xwrap x (k - 1)) (arange mn (mx + 1)))))%R by (apply IZR_le, zlen_nonneg). lra. }
      lra.
  - intros H1 j i Hj Hi. destruct dwin; [lia|]. rewrite Hv by auto. now rewrite Hdn.
Qed.

(** A cell with zero displacement goes one row up and one column to the left (the
    first column stays), so with two bins or more it never stays. *)
Lemma c37_undisplaced : forall x ts n w tfr rtfr vec d j i, rspec x ts n w = Ok (Some (tfr, rtfr, vec)) ->
  3 <= zlen (rs_w x w) -> derive_window (rs_w x w) = Ok (Some d) ->
  0 <= j < rs_n x n -> 0 <= i < zlen (rs_ts x ts) -> vent vec j i <> None ->
  disp_t x (rs_w x w) (rs_n x n) (nth (Z.to_nat i) (rs_ts x ts) 0) j = 0 ->
  disp_f x (rs_w x w) d (rs_n x n) (nth (Z.to_nat i) (rs_ts x ts) 0) j = 0 ->
  dest vec j i = ((j - 1) mod rs_n x n, Z.max 0 (i - 1)) /\ (2 <= rs_n x n -> fst (dest vec j i) <> j).
Proof.
  intros x ts n w tfr rtfr vec d j i H H3 Hd Hj Hi Hv Ht Hf. destruct (c37_vectors _ _ _ _ _ _ _ H) as [V _]. cbv zeta in V.
  destruct (V H3) as (d' & Hd' & V'). assert (d' = d) by congruence. subst d'. clear V.
  unfold dest. destruct (vent vec j i) as [[r c]|] eqn:E; [|congruence]. destruct (V' j i r c Hj Hi E) as [-> ->].
  rewrite Ht, Hf. rewrite Z.sub_0_r, Z.add_0_r. split; [f_equal; lia|]. cbn [fst]. intros H2 Q.
  destruct (Z.eq_dec j 0) as [->|N0].
  - replace ((0 - 1) mod rs_n x n) with (rs_n x n - 1) in Q; [lia|]. 
    replace (0 - 1) with (rs_n x n - 1 + (-1) * rs_n x n) by lia. rewrite Z.mod_add by lia. symmetry. apply Z.mod_small. lia.
  - rewrite Z.mod_small in Q by lia. lia.
Qed.
