(** C140: what the thresholds of the gallery programs remove. *)
From Coq Require Import Reals ZArith List Lia Lra Psatz Bool.
From Coquelicot Require Import Coquelicot.
From Verif Require Import Py Scalars CSum DFT Spec M_base M_utils M_post M_thr T_post T_plot T_plot2.
Import ListNotations.
Local Open Scope Z_scope.

Definition on_entries {A B} (f : A -> B) (m : list (list A)) : list (list B) := map (map f) m.
Lemma on_comp {A B D} (f : A -> B) (g : B -> D) m : on_entries g (on_entries f m) = on_entries (fun v => g (f v)) m.
Proof. unfold on_entries. rewrite map_map. apply map_ext. intros r. apply map_map. Qed.
Lemma on_ext {A B} (f g : A -> B) m : (forall v, In v (concat m) -> f v = g v) -> on_entries f m = on_entries g m.
Proof. intros H. unfold on_entries. apply map_ext_in. intros r Hr. apply map_ext_in. intros v Hv. apply H. apply in_concat. eauto. Qed.
Lemma on_id {A} (m : list (list A)) : on_entries (fun v => v) m = m.
Proof. unfold on_entries. rewrite <- (map_id m) at 2. apply map_ext. intros r. apply map_id. Qed.
Lemma on_concat {A B} (f : A -> B) m : concat (on_entries f m) = map f (concat m).
Proof. unfold on_entries. symmetry. apply concat_map. Qed.
Lemma cut_on {A} (z : A) mag lim m : thr_cut z mag lim m = on_entries (fun v => if Rle_dec (mag v) (lim v) then z else v) m.
Proof. reflexivity. Qed.
Lemma greatest_fun l m m' : greatest l m -> greatest l m' -> m = m'.
Proof. intros [I L] [I' L']. specialize (L _ I'). specialize (L' _ I). lra. Qed.

(** The outcomes, with the greatest value named: only an empty matrix raises. *)
Lemma c140_outcome : forall c (m : list (list C)) (r : list (list R)),
  (concat m = [] -> thr_mod c m = Raise ValueError /\ thr_sq c m = Raise ValueError) /\ (concat r = [] -> thr_real c r = Raise ValueError) /\
  (concat m <> [] -> exists g, greatest (map Cmod (concat m)) g /\
     thr_mod c m = Ok (on_entries (fun v => if Rle_dec (Cmod v) (g * c) then RtoC 0 else v) m) /\
     thr_sq c m = Ok (on_entries (fun v => if Rle_dec (Cmod v ^ 2) (g ^ 2 * c) then RtoC 0 else v) m)) /\
  (concat r <> [] -> exists g, greatest (concat r) g /\ thr_real c r = Ok (on_entries (fun v => if Rle_dec v (g * c) then 0%R else v) r)).
Proof.
  intros c m r. repeat split.
  - unfold thr_mod. now rewrite H.
  - unfold thr_sq. now rewrite H.
  - intros H. unfold thr_real. now rewrite H.
  - intros H. destruct (rmax_ok (map Cmod (concat m))) as [g E]; [intros N; apply map_eq_nil in N; auto|]. exists g. assert (G := rmax_list_spec' _ _ E). split; [exact G|]. unfold thr_mod, thr_sq. rewrite E. split; [reflexivity|].
    rewrite (rmax_is _ (g ^ 2)); [reflexivity|]. destruct G as [I L]. apply in_map_iff in I. destruct I as (v & <- & Hv). split; [apply in_map_iff; eauto|]. intros w Hw. apply in_map_iff in Hw. destruct Hw as (u & <- & Hu).
    apply pow_incr. split; [apply Cmod_ge_0|]. apply L. apply in_map. exact Hu.
  - intros H. destruct (rmax_ok (concat r)) as [g E]; [exact H|]. exists g. split; [now apply rmax_list_spec'|]. unfold thr_real. now rewrite E.
Qed.
(** An array of thresholds, each a fraction of its own entry, removes nothing. *)
Lemma c140_own : forall c (m : list (list C)), (c < 1)%R -> thr_own c m = m.
Proof.
  intros c m Hc. unfold thr_own. rewrite cut_on, <- (on_id m) at 1. rewrite on_comp. rewrite <- (on_id m) at 2. apply on_ext. intros v _. assert (Q := Cmod_ge_0 v). destruct (Rle_dec (Cmod v) (Cmod v * c)) as [L|L]; [|reflexivity].
  symmetry. apply Cmod_eq_0. nra.
Qed.
(** A threshold on the squares at c is a threshold on the moduli at sqrt c. *)
Lemma c140_squares : forall c (m : list (list C)), (0 <= c)%R -> thr_sq c m = thr_mod (sqrt c) m.
Proof.
  intros c m Hc. destruct (concat m) as [|a l] eqn:E; [destruct (c140_outcome c m []) as (Q1 & _); destruct (c140_outcome (sqrt c) m []) as (Q2 & _); specialize (Q1 E); specialize (Q2 E); destruct Q1 as [_ ->], Q2 as [-> _]; reflexivity|].
  assert (NE : concat m <> []) by (rewrite E; discriminate).
  destruct (c140_outcome c m []) as (_ & _ & Q1 & _). destruct (c140_outcome (sqrt c) m []) as (_ & _ & Q2 & _). destruct (Q1 NE) as (g & G & _ & ->). destruct (Q2 NE) as (g' & G' & -> & _).
  rewrite (greatest_fun _ _ _ G' G). f_equal. apply on_ext. intros v Hv. assert (P := Cmod_ge_0 v). assert (G0 : (0 <= g)%R) by (destruct G as [I _]; apply in_map_iff in I; destruct I as (u & <- & _); apply Cmod_ge_0). assert (S0 := sqrt_pos c). assert (S2 := sqrt_sqrt c Hc).
  destruct (Rle_dec (Cmod v ^ 2) (g ^ 2 * c)) as [L|L], (Rle_dec (Cmod v) (g * sqrt c)) as [L'|L']; try reflexivity; exfalso.
  - assert (LT : (g * sqrt c < Cmod v)%R) by lra. assert (GS : (0 <= g * sqrt c)%R) by (apply Rmult_le_pos; assumption). replace (g ^ 2 * c)%R with ((g * sqrt c) ^ 2)%R in L by (rewrite Rpow_mult_distr; cbn; nra). cbn in L. nra.
  - apply L. replace (g ^ 2 * c)%R with ((g * sqrt c) ^ 2)%R by (rewrite Rpow_mult_distr; cbn; nra). apply pow_incr. split; assumption.
Qed.

(** What is kept: everything above c times the greatest modulus, unchanged; in particular the
    greatest entries. *)
Lemma c140_kept : forall c (m t : list (list C)), (0 <= c < 1)%R -> thr_mod c m = Ok t ->
  exists g, greatest (map Cmod (concat m)) g /\ greatest (map Cmod (concat t)) g /\ zlen t = zlen m /\
    forall i j, let v := nth j (nth i m []) (RtoC 0) in let w := nth j (nth i t []) (RtoC 0) in
      ((g * c < Cmod v)%R -> w = v) /\ ((Cmod v <= g * c)%R -> w = RtoC 0).
Proof.
  intros c m t Hc H. destruct (concat m) as [|a l] eqn:E; [destruct (c140_outcome c m []) as (Q & _); specialize (Q E); destruct Q as [Q _]; congruence|].
  assert (NE : concat m <> []) by (rewrite E; discriminate). destruct (c140_outcome c m []) as (_ & _ & Q & _). destruct (Q NE) as (g & G & Q1 & _). rewrite Q1 in H. injection H as <-. rewrite <- E. exists g. split; [exact G|].
  assert (G0 : (0 <= g)%R) by (destruct G as [I _]; apply in_map_iff in I; destruct I as (u & <- & _); apply Cmod_ge_0). split; [|split].
  - rewrite on_concat, map_map. destruct G as [I L]. apply in_map_iff in I. destruct I as (v & V & Hv). split.
    + apply in_map_iff. exists v. split; [|exact Hv]. destruct (Rle_dec (Cmod v) (g * c)) as [Q'|Q']; [|exact V]. rewrite Cmod_0. rewrite V in Q'. nra.
    + intros w Hw. apply in_map_iff in Hw. destruct Hw as (u & <- & Hu). destruct (Rle_dec _ _); [rewrite Cmod_0; exact G0|]. apply L, in_map, Hu.
  - unfold on_entries. apply zlen_map.
  - intros i j. cbv zeta. set (f := fun v : C => if Rle_dec (Cmod v) (g * c) then RtoC 0 else v). unfold on_entries. assert (R' : nth i (map (map f) m) [] = map f (nth i m [])) by (change (@nil C) with (map f []) at 1; apply map_nth). rewrite R'.
    assert (F0 : f (RtoC 0) = RtoC 0) by (unfold f; destruct (Rle_dec _ _); reflexivity).
    assert (W : forall l : list C, nth j (map f l) (RtoC 0) = f (nth j l (RtoC 0))) by (intros l'; rewrite <- F0 at 1; apply map_nth). rewrite W. unfold f. split; intros Q'; destruct (Rle_dec _ _); try reflexivity; exfalso; lra.
Qed.
(** Thresholding again, at the same or a lower level, changes nothing; at a higher level it is the
    higher level alone that counts. *)
Lemma c140_again : forall c d (m t : list (list C)), (0 <= c < 1)%R -> (0 <= d < 1)%R -> thr_mod c m = Ok t -> thr_mod d t = thr_mod (Rmax c d) m.
Proof.
  intros c d m t Hc Hd H. destruct (c140_kept c m t Hc H) as (g & G & GT & _ & _). assert (NE : concat m <> []) by (intros N; rewrite N in G; destruct G as [[] _]).
  assert (NT : concat t <> []) by (intros N; rewrite N in GT; destruct GT as [[] _]).
  destruct (c140_outcome c m []) as (_ & _ & Q & _). destruct (Q NE) as (g1 & G1 & Q1 & _). rewrite (greatest_fun _ _ _ G1 G) in Q1. rewrite Q1 in H. injection H as <-.
  destruct (c140_outcome d (on_entries (fun v : C => if Rle_dec (Cmod v) (g * c) then RtoC 0 else v) m) []) as (_ & _ & Q2 & _). destruct (Q2 NT) as (g2 & G2 & -> & _). destruct (c140_outcome (Rmax c d) m []) as (_ & _ & Q3 & _). destruct (Q3 NE) as (g3 & G3 & -> & _).
  rewrite (greatest_fun _ _ _ G2 GT), (greatest_fun _ _ _ G3 G), on_comp. f_equal. apply on_ext. intros v _.
  assert (G0 : (0 <= g)%R) by (destruct G as [I _]; apply in_map_iff in I; destruct I as (u & <- & _); apply Cmod_ge_0).
  assert (M : (g * Rmax c d = Rmax (g * c) (g * d))%R) by (symmetry; apply RmaxRmult; exact G0). rewrite M. assert (A1 := Rmax_l (g * c) (g * d)). assert (A2 := Rmax_r (g * c) (g * d)).
  destruct (Rle_dec (Cmod v) (g * c)) as [L|L].
  - destruct (Rle_dec (Cmod v) (Rmax _ _)) as [_|L']; [|lra]. destruct (Rle_dec _ _); reflexivity.
  - destruct (Rle_dec (Cmod v) (g * d)) as [L'|L']; destruct (Rle_dec (Cmod v) (Rmax _ _)) as [L2|L2]; try reflexivity; [lra|]. exfalso. unfold Rmax in L2. destruct (Rle_dec (g * c) (g * d)); lra.
Qed.
(** Scaling the matrix by any complex number scales the result. *)
Lemma c140_scaling : forall c z (m : list (list C)), z <> RtoC 0 -> thr_mod c (on_entries (Cmult z) m) = (t <- thr_mod c m ;; Ok (on_entries (Cmult z) t)).
Proof.
  intros c z m Hz. destruct (concat m) as [|a l] eqn:E.
  - assert (E' : concat (on_entries (Cmult z) m) = []) by (rewrite on_concat, E; reflexivity). destruct (c140_outcome c m []) as (Q & _). destruct (c140_outcome c (on_entries (Cmult z) m) []) as (Q' & _). destruct (Q E) as [-> _]. destruct (Q' E') as [-> _]. reflexivity.
  - assert (NE : concat m <> []) by (rewrite E; discriminate). assert (NE' : concat (on_entries (Cmult z) m) <> []) by (rewrite on_concat, E; discriminate).
    destruct (c140_outcome c m []) as (_ & _ & Q & _). destruct (Q NE) as (g & G & -> & _). destruct (c140_outcome c (on_entries (Cmult z) m) []) as (_ & _ & Q' & _). destruct (Q' NE') as (g' & G' & -> & _).
    assert (Z0 := Cmod_gt_0 z). assert (P : (0 < Cmod z)%R) by (apply Z0; exact Hz).
    assert (GE : g' = (Cmod z * g)%R).
    { apply (greatest_fun _ _ _ G'). rewrite on_concat, map_map. destruct G as [I L]. apply in_map_iff in I. destruct I as (v & <- & Hv). split; [apply in_map_iff; exists v; split; [apply Cmod_mult|exact Hv]|].
      intros w Hw. apply in_map_iff in Hw. destruct Hw as (u & <- & Hu). rewrite Cmod_mult. apply Rmult_le_compat_l; [lra|]. apply L, in_map, Hu. }
    cbn [bind]. f_equal. rewrite !on_comp. apply on_ext. intros v _. rewrite Cmod_mult, GE, Rmult_assoc. destruct (Rle_dec (Cmod v) (g * c)) as [L|L], (Rle_dec (Cmod z * Cmod v) (Cmod z * (g * c))) as [L'|L']; try reflexivity.
    + symmetry. apply Cmult_0_r.
    + exfalso. apply L', Rmult_le_compat_l; lra.
    + exfalso. apply L. apply Rmult_le_reg_l with (Cmod z); lra.
Qed.
(** The energy removed is at most c^2 g^2 per entry. *)
Lemma c140_lost : forall c (m t : list (list C)), (0 <= c < 1)%R -> thr_mod c m = Ok t -> exists g, greatest (map Cmod (concat m)) g /\
  (rsum (concat m) (fun v => Cmod v ^ 2) - INR (length (concat m)) * (g * c) ^ 2 <= rsum (concat t) (fun v => Cmod v ^ 2) <= rsum (concat m) (fun v => Cmod v ^ 2))%R.
Proof.
  intros c m t Hc H. destruct (c140_kept c m t Hc H) as (g & G & _). exists g. split; [exact G|]. assert (NE : concat m <> []) by (intros N; rewrite N in G; destruct G as [[] _]).
  destruct (c140_outcome c m []) as (_ & _ & Q & _). destruct (Q NE) as (g1 & G1 & Q1 & _). rewrite (greatest_fun _ _ _ G1 G) in Q1. rewrite Q1 in H. injection H as <-. rewrite on_concat, rsum_map.
  rewrite <- rsum_const, <- rsum_minus. split; apply rsum_le; intros v _; destruct (Rle_dec (Cmod v) (g * c)) as [L|L].
  - rewrite Cmod_0. assert (Cmod v ^ 2 <= (g * c) ^ 2)%R by (apply pow_incr; split; [apply Cmod_ge_0|exact L]). lra.
  - assert (0 <= (g * c) ^ 2)%R by apply pow2_ge_0. lra.
  - rewrite Cmod_0. assert (0 <= Cmod v ^ 2)%R by apply pow2_ge_0. lra.
  - lra.
Qed.
(** The real threshold leaves no negative entry, unless all entries are negative and then it leaves zeros only. *)
Lemma c140_real : forall c (m t : list (list R)), (0 <= c <= 1)%R -> thr_real c m = Ok t -> (forall v, In v (concat t) -> (0 <= v)%R) /\
  ((forall v, In v (concat m) -> (v <= 0)%R) -> forall v, In v (concat t) -> v = 0%R).
Proof.
  intros c m t Hc H. destruct (concat m) as [|a l] eqn:E; [destruct (c140_outcome c [] m) as (_ & Q & _); rewrite (Q E) in H; discriminate|]. assert (NE : concat m <> []) by (rewrite E; discriminate).
  destruct (c140_outcome c [] m) as (_ & _ & _ & Q). destruct (Q NE) as (g & [I L] & Q1). rewrite Q1 in H. injection H as <-. rewrite <- E. rewrite on_concat. split; [|intros NG]; intros v Hv; apply in_map_iff in Hv; destruct Hv as (u & <- & Hu); destruct (Rle_dec u (g * c)) as [B|B]; try lra; specialize (L _ Hu).
  - destruct (Rle_dec 0 g); [assert (0 <= g * c)%R by (apply Rmult_le_pos; lra); lra|]. exfalso. apply B. nra.
  - exfalso. apply B. specialize (NG _ I). nra.
Qed.
(** The fourth picture of noplot_4_3_5_page_margenau_hill.py is a function of the third one: the squares of
    its entries, cut at sqrt c instead of c. *)
Lemma c140_fourth : forall c (m : list (list C)), (0 <= c < 1)%R -> fourth_picture c m = (t <- thr_real (sqrt c) (energy m) ;; Ok (on_entries (fun v => v ^ 2)%R t)).
Proof.
  intros c m Hc. unfold fourth_picture, third_picture. set (e := energy m). assert (EN : forall v, In v (concat e) -> (0 <= v)%R) by (intros v Hv; unfold e, energy in Hv; rewrite <- concat_map in Hv; apply in_map_iff in Hv; destruct Hv as (u & <- & _); apply pow2_ge_0).
  destruct (concat e) as [|a l] eqn:E; [destruct (c140_outcome c [] e) as (_ & Q & _); destruct (c140_outcome (sqrt c) [] e) as (_ & Q' & _); rewrite (Q E), (Q' E); reflexivity|]. rewrite <- E in EN. assert (NE : concat e <> []) by (rewrite E; discriminate).
  destruct (c140_outcome c [] e) as (_ & _ & _ & Q). destruct (Q NE) as (g & G & ->). destruct (c140_outcome (sqrt c) [] e) as (_ & _ & _ & Q'). destruct (Q' NE) as (g' & G' & ->). rewrite (greatest_fun _ _ _ G' G). clear g' G' Q Q'. cbn [bind].
  change (map (map (fun v => (Rabs v ^ 2)%R))) with (on_entries (fun v => (Rabs v ^ 2)%R)). rewrite on_comp. set (h := fun v => (Rabs (if Rle_dec v (g * c) then 0 else v) ^ 2)%R).
  assert (G0 : (0 <= g)%R) by (apply EN, G). assert (H0 : forall v, In v (concat e) -> h v = if Rle_dec v (g * c) then 0%R else (v ^ 2)%R).
  { intros v Hv. unfold h. destruct (Rle_dec _ _); [rewrite Rabs_R0; ring|]. rewrite Rabs_right by (apply Rle_ge, EN, Hv). reflexivity. }
  assert (S0 := sqrt_pos c). assert (S2 := sqrt_sqrt c (proj1 Hc)). assert (S1 : (sqrt c < 1)%R) by (rewrite <- sqrt_1; apply sqrt_lt_1; lra). assert (SC : (c <= sqrt c)%R) by nra.
  assert (GH : greatest (concat (on_entries h e)) (g ^ 2)).
  { rewrite on_concat. destruct G as [I L]. split.
    - apply in_map_iff. exists g. split; [|exact I]. rewrite H0 by exact I. destruct (Rle_dec g (g * c)) as [B|B]; [|reflexivity]. assert (g = 0)%R by nra. subst g. cbn. ring.
    - intros w Hw. apply in_map_iff in Hw. destruct Hw as (u & <- & Hu). rewrite H0 by exact Hu. destruct (Rle_dec _ _); [apply pow2_ge_0|]. apply pow_incr. split; [apply EN, Hu|apply L, Hu]. }
  unfold thr_real. rewrite (rmax_is _ _ GH). cbn [bind]. f_equal. rewrite cut_on, !on_comp. apply on_ext. intros v Hv. rewrite H0 by exact Hv. assert (V0 := EN v Hv).
  assert (K : (g ^ 2 * c = (g * sqrt c) ^ 2)%R) by (rewrite Rpow_mult_distr; cbn; nra). assert (GS : (0 <= g * sqrt c)%R) by (apply Rmult_le_pos; assumption). rewrite K.
  destruct (Rle_dec v (g * sqrt c)) as [B|B].
  - replace (0 ^ 2)%R with 0%R by ring. destruct (Rle_dec v (g * c)); [destruct (Rle_dec 0 _); reflexivity|]. destruct (Rle_dec (v ^ 2) _) as [|N]; [reflexivity|]. exfalso. apply N. apply pow_incr. split; assumption.
  - destruct (Rle_dec v (g * c)) as [B'|B']; [exfalso; apply B; nra|]. destruct (Rle_dec (v ^ 2) _) as [N|]; [|reflexivity]. exfalso. apply B. cbn in N. nra.
Qed.
(** A small matrix: the middle entry survives 5% of the modulus, not 5% of the square. *)
Example c140_example : thr_mod (5 / 100) [[RtoC 10; RtoC 1]; [RtoC 0; RtoC (1 / 10)]] = Ok [[RtoC 10; RtoC 1]; [RtoC 0; RtoC 0]] /\
  thr_sq (5 / 100) [[RtoC 10; RtoC 1]; [RtoC 0; RtoC (1 / 10)]] = Ok [[RtoC 10; RtoC 0]; [RtoC 0; RtoC 0]] /\
  thr_own (5 / 100) [[RtoC 10; RtoC 1]; [RtoC 0; RtoC (1 / 10)]] = [[RtoC 10; RtoC 1]; [RtoC 0; RtoC (1 / 10)]].
Proof.
  assert (G : greatest (map Cmod (concat [[RtoC 10; RtoC 1]; [RtoC 0; RtoC (1 / 10)]])) 10).
  { cbn [concat app map]. rewrite !Cmod_R, (Rabs_right 10), (Rabs_right 1), (Rabs_right 0), (Rabs_right (1 / 10)) by lra. split; [now left|]. intros v [<-|[<-|[<-|[<-|[]]]]]; lra. }
  destruct (c140_outcome (5 / 100) [[RtoC 10; RtoC 1]; [RtoC 0; RtoC (1 / 10)]] []) as (_ & _ & Q & _). destruct (Q ltac:(discriminate)) as (g & G' & -> & ->). rewrite (greatest_fun _ _ _ G' G).
  unfold on_entries. cbn [map]. rewrite !Cmod_R, (Rabs_right 10), (Rabs_right 1), (Rabs_right 0), (Rabs_right (1 / 10)) by lra. split; [|split].
  - repeat (destruct (Rle_dec _ _)); try reflexivity; try lra.
  - repeat (destruct (Rle_dec _ _)); try reflexivity; try lra.
  - apply c140_own. lra.
Qed.
