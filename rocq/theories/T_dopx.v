(** C60: dopnoise with zero sampling frequency, distance or wave speed. *)
From Coq Require Import Reals ZArith List Lia Lra Bool.
From Coquelicot Require Import Coquelicot.
From Flocq Require Import Core.
From Verif Require Import Py Scalars CSum DFT Spec M_base M_utils M_putils M_dom M_gen1 M_gen2 M_gen3 M_over M_ext M_alt M_dopx P_base T_utils T_putils T_dom T_gen1 T_gen2 T_hil T_misc2 T_noise T_alt.
Import ListNotations.
Local Open Scope Z_scope.

Lemma arx_fin x : forall law x2 x1 y2 y1, ar_filter_x (map Fin x) (map Fin law) (Fin x2) (Fin x1) (Fin y2) (Fin y1) = map Fin (ar_filter x law x2 x1 y2 y1).
Proof.
  induction x as [|v x IH]; intros [|f law] x2 x1 y2 y1; try reflexivity. cbn [map ar_filter_x ar_filter].
  cbn [xadd xmul xcos xsub xneg]. f_equal. rewrite IH. reflexivity.
Qed.
Lemma arx_length x : forall law x2 x1 y2 y1, length law = length x -> length (ar_filter_x x law x2 x1 y2 y1) = length x.
Proof.
  induction x as [|v x IH]; intros [|f law] x2 x1 y2 y1 H; try discriminate; [reflexivity|]. cbn [ar_filter_x length]. f_equal. apply IH. now injection H.
Qed.
Lemma xmul_nan_r a : xmul a NaN = NaN.
Proof. now destruct a. Qed.
Lemma xadd_nan_r a : xadd a NaN = NaN.
Proof. now destruct a. Qed.
Lemma arx_nan x : forall law x2 x1 y2 j, length law = length x -> (j < length x)%nat -> nth j (ar_filter_x x law x2 x1 y2 NaN) (Fin 0) = NaN.
Proof.
  induction x as [|v x IH]; intros [|f law] x2 x1 y2 j H Hj; try discriminate; [cbn in Hj; lia|]. cbn [ar_filter_x]. rewrite xmul_nan_r, xadd_nan_r.
  destruct j as [|j]; [reflexivity|]. cbn [nth]. apply IH; [now injection H|cbn in Hj; lia].
Qed.
Lemma arx_bad x : forall law x2 x1 y2 y1 i j, length law = length x -> (i <= j < length x)%nat -> finite (nth i law (Fin 0)) = None ->
  nth j (ar_filter_x x law x2 x1 y2 y1) (Fin 0) = NaN.
Proof.
  induction x as [|v x IH]; intros [|f law] x2 x1 y2 y1 i j H Hj Hf; try discriminate; [cbn in Hj; lia|]. cbn [ar_filter_x]. destruct i as [|i].
  - cbn [nth] in Hf. assert (E : xcos (xmul (Fin (2 * PI)) f) = NaN).
    { destruct f as [w|s|]; [discriminate| |reflexivity]. cbn. destruct (Req_EM_T (2 * PI) 0); reflexivity. }
    rewrite E, xmul_nan_r. change (xmul NaN y1) with NaN. rewrite xadd_nan_r. destruct j as [|j]; [reflexivity|]. cbn [nth]. apply arx_nan; [now injection H|cbn in Hj; lia].
  - destruct j as [|j]; [lia|]. cbn [nth]. apply (IH _ _ _ _ _ i); [now injection H|cbn in Hj; lia|exact Hf].
Qed.
Lemma all_finite_map (l : list R) : all_finite (map Fin l) = Some l.
Proof. induction l as [|a l IH]; [reflexivity|]. cbn. now rewrite IH. Qed.
Lemma all_finite_bad l a : In a l -> finite a = None -> all_finite l = None.
Proof.
  induction l as [|b l IH]; [intros []|]. intros [->|H] Ha; cbn [all_finite]; [now rewrite Ha|]. rewrite (IH H Ha). now destruct (finite b).
Qed.
Lemma zipw_maps {A B D E} (f : B -> D -> E) (g : A -> B) (h : A -> D) l : zipw f (map g l) (map h l) = map (fun a => f (g a) (h a)) l.
Proof. induction l as [|a l IH]; [reflexivity|]. cbn. now rewrite IH. Qed.

(** Sample i of the law cannot be computed. *)
Definition law_undefined (n : Z) (sf dist v tc c : R) (i : Z) : Prop :=
  sf = 0%R \/ c = 0%R \/ (dist = 0%R /\ (v * (IZR (i + 1) - tc - IZR n) = 0)%R).
Definition lawx (n : Z) (sf ft dist v tc c : R) (i : Z) : xnum :=
  let t := xquot (Fin (IZR (i + 1) - tc - IZR n)) (Fin sf) in dop_law sf ft v c t (M_ext.dop_dist dist v t).
Lemma dist_sq_0 a b : sqrt (a ^ 2 + b * b) = 0%R <-> a = 0%R /\ b = 0%R.
Proof.
  split.
  - intros H. assert (P : (a ^ 2 + b * b = 0)%R) by (apply sqrt_eq_0; nra). split; nra.
  - intros [-> ->]. replace (0 ^ 2 + 0 * 0)%R with 0%R by ring. apply sqrt_0.
Qed.
Lemma ext_dist_fin dist v t : M_ext.dop_dist dist v (Fin t) = Fin (sqrt (dist ^ 2 + v * t * (v * t))).
Proof. unfold M_ext.dop_dist. cbn [xmul xadd]. apply xsqrt_fin. nra. Qed.
Lemma vt_0 v a sf : sf <> 0%R -> (v * (a / sf) = 0)%R <-> (v * a = 0)%R.
Proof.
  intros Hs. split; intros H.
  - replace (v * a)%R with (v * (a / sf) * sf)%R by (field; auto). rewrite H. ring.
  - replace (v * (a / sf))%R with (v * a / sf)%R by (field; auto). rewrite H. unfold Rdiv. ring.
Qed.
Lemma lawx_bad n sf ft dist v tc c i : law_undefined n sf dist v tc c i -> finite (lawx n sf ft dist v tc c i) = None.
Proof.
  intros H. unfold lawx, dop_law. set (a := (IZR (i + 1) - tc - IZR n)%R) in *. destruct (Req_EM_T sf 0) as [->|Hs].
  - assert (E : xquot (xmul (Fin (v ^ 2)) (xquot (Fin a) (Fin 0))) (M_ext.dop_dist dist v (xquot (Fin a) (Fin 0))) = NaN).
    { assert (ET : xquot (Fin a) (Fin 0) = NaN \/ exists s, xquot (Fin a) (Fin 0) = Inf s) by (cbn; unfold xdiv; dec; eauto).
      destruct ET as [->|[s ->]]; [reflexivity|]. cbn. destruct (Req_EM_T (v * (v * 1)) 0); [reflexivity|]. unfold M_ext.dop_dist. cbn.
      destruct (Req_EM_T v 0) as [->|]; [exfalso; apply n0; ring|]. cbn. destruct (xorb s (negb_of v)); reflexivity. }
    rewrite E. reflexivity.
  - destruct H as [H|H]; [contradiction|]. rewrite xquot_fin by auto. rewrite ext_dist_fin. cbn [xmul].
    destruct (Req_EM_T (sqrt (dist ^ 2 + v * (a / sf) * (v * (a / sf)))) 0) as [D0|D0].
    + rewrite D0. apply dist_sq_0 in D0. destruct D0 as [_ V0]. replace (v ^ 2 * (a / sf))%R with (v * (v * (a / sf)))%R by ring. rewrite V0, Rmult_0_r. cbn. unfold xdiv. dec. reflexivity.
    + destruct H as [->|[-> V0]].
      * rewrite xquot_fin by auto. cbn [xquot]. unfold xdiv. destruct (Req_EM_T 0 0); [|lra]. destruct (Req_EM_T _ 0); [reflexivity|]. cbn. destruct (Req_EM_T ft 0); [reflexivity|]. reflexivity.
      * exfalso. apply D0. apply dist_sq_0. split; [reflexivity|]. now apply vt_0.
Qed.
Lemma lawx_ok n sf ft dist v tc c i : ~ law_undefined n sf dist v tc c i ->
  lawx n sf ft dist v tc c i = Fin ((1 - v ^ 2 * ((IZR (i + 1) - tc - IZR n) / sf) / sqrt (dist ^ 2 + (v * ((IZR (i + 1) - tc - IZR n) / sf)) ^ 2) / c) * ft / sf).
Proof.
  intros H. unfold lawx, dop_law. unfold law_undefined in H. set (a := (IZR (i + 1) - tc - IZR n)%R) in *.
  assert (Hs : sf <> 0%R) by (intros Q; apply H; auto). assert (Hc : c <> 0%R) by (intros Q; apply H; auto).
  rewrite xquot_fin by auto. rewrite ext_dist_fin. cbn [xmul].
  assert (D0 : sqrt (dist ^ 2 + v * (a / sf) * (v * (a / sf))) <> 0%R).
  { intros Q. apply dist_sq_0 in Q. destruct Q as [Q1 Q2]. apply H. right. right. split; [auto|]. now apply vt_0 in Q2. }
  rewrite !xquot_fin by auto. cbn [xsub xneg xadd xmul]. rewrite xquot_fin by auto. f_equal. replace ((v * (a / sf)) ^ 2)%R with (v * (a / sf) * (v * (a / sf)))%R by ring. reflexivity.
Qed.
Lemma slice_tail {A} (g : Z -> A) n : 2 <= n -> slice (map g (arange 0 (2 * n))) (n + 1) (2 * n + 1) = map g (arange (n + 1) (2 * n)).
Proof.
  intros Hn. unfold slice. replace (Z.to_nat (n + 1)) with (Z.to_nat (n + 1 - 0)) by lia. rewrite skipn_map_arange by lia. apply firstn_all2. rewrite map_length, arange_length. lia.
Qed.
Lemma skipn2_map {A} (g : Z -> A) m : 2 <= m -> skipn 2 (map g (arange 0 m)) = map g (arange 2 m).
Proof. intros H. change 2%nat with (Z.to_nat (2 - 0)). now rewrite skipn_map_arange by lia. Qed.

Lemma c60_dopnoise_zero : forall rand n sf ft dist v tc c, sampler rand -> 2 <= n ->
  (forall i, 2 <= i < 2 * n -> ~ law_undefined n sf dist v tc c i) ->
  dopnoise_x rand n sf ft dist v (Some tc) c = (r <- dopnoise rand n sf ft dist v (Some tc) c ;; Ok (fst r, map Fin (snd r))).
Proof.
  intros rand n sf ft dist v tc c HS Hn H. unfold dopnoise_x, dopnoise, draw. destruct (Z.ltb_spec (2 * n) 0); [lia|]. cbn [bind]. cbv zeta.
  assert (LX := HS (2 * n) ltac:(lia)). set (x := rand (2 * n)) in *.
  assert (Hs : sf <> 0%R) by (intros Q; apply (H 2 ltac:(lia)); unfold law_undefined; auto).
  replace (arange 1 (2 * n + 1)) with (map (fun k => k + 1) (arange 0 (2 * n))) by (symmetry; exact (arange_shift 0 (2 * n) 1)). rewrite !map_map.
  rewrite zipw_maps.
  set (L := fun i : Z => ((1 - v ^ 2 * ((IZR (i + 1) - tc - IZR n) / sf) / sqrt (dist ^ 2 + (v * ((IZR (i + 1) - tc - IZR n) / sf)) ^ 2) / c) * ft / sf)%R).
  set (D := fun i : Z => sqrt (dist ^ 2 + (v * ((IZR (i + 1) - tc - IZR n) / sf)) ^ 2)).
  change (map (fun a => dop_law sf ft v c _ _) _) with (map (lawx n sf ft dist v tc c) (arange 0 (2 * n))).
  rewrite !slice_tail, !skipn2_map by lia.
  assert (EL : forall a, 2 <= a -> map (lawx n sf ft dist v tc c) (arange a (2 * n)) = map Fin (map L (arange a (2 * n)))).
  { intros a Ha. rewrite map_map. apply map_ext_in. intros i Hi. apply in_arange in Hi. apply lawx_ok. apply H. lia. }
  rewrite !EL by lia.
  assert (ED : map (fun i => M_ext.dop_dist dist v (xquot (Fin (IZR (i + 1) - tc - IZR n)) (Fin sf))) (arange (n + 1) (2 * n)) = map Fin (map D (arange (n + 1) (2 * n)))).
  { rewrite map_map. apply map_ext. intros i. rewrite xquot_fin by auto. rewrite ext_dist_fin. unfold D. do 2 f_equal. ring. }
  rewrite ED, all_finite_map.
  destruct x as [|x0 [|x1 x']]; [unfold zlen in LX; cbn [length] in LX; lia|unfold zlen in LX; cbn [length] in LX; lia|].
  cbn [map]. rewrite arx_fin.
  change (Fin 0 :: Fin 0 :: map Fin (ar_filter x' (map L (arange 2 (2 * n))) x0 x1 0 0)) with (map Fin (0%R :: 0%R :: ar_filter x' (map L (arange 2 (2 * n))) x0 x1 0 0)).
  set (y := 0%R :: 0%R :: _). unfold slice. rewrite skipn_map, firstn_map. unfold hilbert_x. rewrite all_finite_map.
  destruct (hilbert _) as [z|e]; [|reflexivity]. cbn [bind]. destruct (bcast _ z _); reflexivity.
Qed.
Lemma c60_dopnoise_nan : forall rand n sf ft dist v tc c, sampler rand -> 2 <= n ->
  (exists i, 2 <= i < 2 * n /\ law_undefined n sf dist v tc c i) ->
  exists law, dopnoise_x rand n sf ft dist v (Some tc) c = Ok (None, law) /\ zlen law = n - 1 /\
  forall k, 0 <= k < n - 1 -> (finite (nth (Z.to_nat k) law NaN) = None <-> law_undefined n sf dist v tc c (n + 1 + k)).
Proof.
  intros rand n sf ft dist v tc c HS Hn (i & Hi & HB). unfold dopnoise_x, draw. destruct (Z.ltb_spec (2 * n) 0); [lia|]. cbn [bind]. cbv zeta.
  assert (LX := HS (2 * n) ltac:(lia)). set (x := rand (2 * n)) in *.
  replace (arange 1 (2 * n + 1)) with (map (fun k => k + 1) (arange 0 (2 * n))) by (symmetry; exact (arange_shift 0 (2 * n) 1)). rewrite !map_map.
  rewrite zipw_maps. change (map (fun a => dop_law sf ft v c _ _) _) with (map (lawx n sf ft dist v tc c) (arange 0 (2 * n))).
  rewrite !slice_tail, !skipn2_map by lia.
  destruct x as [|x0 [|x1 x']]; [unfold zlen in LX; cbn [length] in LX; lia|unfold zlen in LX; cbn [length] in LX; lia|].
  assert (LX' : Z.of_nat (length x') = 2 * n - 2) by (unfold zlen in LX; cbn [length] in LX; lia).
  cbn [map]. set (F := ar_filter_x _ _ _ _ _ _).
  assert (LF : length F = length x') by (unfold F; rewrite arx_length; rewrite !map_length; [reflexivity|rewrite arange_length; lia]).
  assert (NF : nth (Z.to_nat (2 * n - 3)) F (Fin 0) = NaN).
  { unfold F. apply (arx_bad _ _ _ _ _ _ (Z.to_nat (i - 2))); rewrite ?map_length, ?arange_length; [lia|lia|].
    rewrite nth_map_arange by lia. replace (2 + (i - 2)) with i by lia. now apply lawx_bad. }
  assert (IN : In NaN (slice (Fin 0 :: Fin 0 :: F) (n + 1) (2 * n + 1))).
  { unfold slice. rewrite firstn_all2 by (rewrite skipn_length; cbn [length]; lia). rewrite <- NF. replace (Z.to_nat (n + 1)) with (S (S (Z.to_nat (n - 1)))) by lia. cbn [skipn].
    assert (EN : nth (Z.to_nat (2 * n - 3)) F (Fin 0) = nth (Z.to_nat (n - 2)) (skipn (Z.to_nat (n - 1)) F) (Fin 0)) by (rewrite nth_skipn; f_equal; lia).
    rewrite EN. apply nth_In. rewrite skipn_length. lia. }
  unfold hilbert_x. rewrite (all_finite_bad _ NaN IN eq_refl). cbn [bind]. eexists. split; [reflexivity|]. split; [rewrite zlen_map_arange by lia; lia|].
  intros k Hk. rewrite nth_map_arange by lia. split; [|apply lawx_bad].
  intros Q. destruct (Req_EM_T sf 0) as [Z1|N1]; [left; auto|]. destruct (Req_EM_T c 0) as [Z2|N2]; [right; left; auto|].
  destruct (Req_EM_T dist 0) as [Z3|N3]; [destruct (Req_EM_T (v * (IZR (n + 1 + k + 1) - tc - IZR n)) 0) as [Z4|N4]; [right; right; auto|]|];
    (rewrite lawx_ok in Q; [discriminate|]; intros [?|[?|[? ?]]]; contradiction).
Qed.
Lemma c60_dopnoise_few : forall rand n sf ft dist v tc c, sampler rand -> n <= 1 -> dopnoise_x rand n sf ft dist v tc c = Raise ValueError.
Proof.
  intros rand n sf ft dist v tc c HR Hn. unfold dopnoise_x, draw. destruct (Z.ltb_spec (2 * n) 0); [reflexivity|]. cbn [bind]. cbv zeta. assert (LX := HR (2 * n) ltac:(lia)).
  match goal with |- (_ <- hilbert_x (slice ?Y ?a ?b) ;; _) = _ => assert (LS : slice Y a b = []) end.
  { unfold slice. match goal with |- firstn _ (skipn ?a ?Y) = _ => assert (LY : (length Y <= Z.to_nat (2 * n))%nat) end.
    - unfold zlen in LX. destruct (rand (2 * n)) as [|x0 [|x1 x']]; cbn [length map] in *; try lia.
      assert (E : n = 1) by lia. subst n. destruct x'; cbn in LX |- *; lia.
    - rewrite skipn_all2 by lia. apply firstn_nil. }
  rewrite LS. reflexivity.
Qed.
(** A source that passes through the observer at a sample spoils the whole signal; a
    centre between samples does not. *)
Example c60_dopnoise_nan_example : exists law, dopnoise_x (fun m => repeat 1%R (Z.to_nat m)) 4 200 60 0 70 None 340 = Ok (None, law) /\ zlen law = 3 /\ nth 1 law NaN <> NaN.
Proof.
  assert (S : sampler (fun m => repeat 1%R (Z.to_nat m))) by (intros m Hm; unfold zlen; rewrite repeat_length; lia).
  assert (E : dopnoise_x (fun m => repeat 1%R (Z.to_nat m)) 4 200 60 0 70 None 340 = dopnoise_x (fun m => repeat 1%R (Z.to_nat m)) 4 200 60 0 70 (Some 2%R) 340).
  { unfold dopnoise_x. replace (IZR (Zfloor (4 / 2))) with 2%R; [reflexivity|]. replace (4 / 2)%R with (IZR 2) by (cbn; lra). now rewrite Zfloor_IZR. }
  rewrite E. destruct (c60_dopnoise_nan _ 4 200 60 0 70 2 340 S) as (law & H & L & V); [lia|exists 5; split; [lia|]; right; right; split; [reflexivity|]; cbn; lra|].
  exists law. split; [exact H|]. split; [exact L|]. destruct (V 1 ltac:(lia)) as [V0 _]. change (Z.to_nat 1) with 1%nat in V0. intros Q. rewrite Q in V0. destruct (V0 eq_refl) as [Z0|[Z0|[_ Z0]]]; cbn in Z0; lra.
Qed.
