(** Lemmas for the plots (C78). *)
From Coq Require Import List ZArith Reals Lra Lia Psatz Bool Arith Permutation.
From Verif.Model Require Import Base Hull Tree Plots.
From Verif.Spec Require Import Plots Hull.
From Verif.Proof Require Import BaseLemmas Hull.
Import ListNotations.
Local Open Scope R_scope.
Local Notation length := List.length.

(** ** Samples *)
Lemma masked_picked {A B} (P : B -> Prop) (f : B -> bool) (x : list A) : (forall b, f b = true <-> P b) ->
  forall y, length y = length x -> exists part, masked (map f y) x = Ok part /\ picked P x y part.
Proof.
  intros Hf. unfold masked. induction x as [|a x IH]; intros y L; (destruct y as [|b y]; try discriminate).
  - exists []. split; [reflexivity|constructor].
  - cbn [length] in L. injection L as L. destruct (IH y L) as (part & E & Hp). rewrite map_length in *.
    cbn [map length combine filter fst]. cbn [Nat.eqb]. rewrite L in *. rewrite Nat.eqb_refl in *. injection E as E.
    destruct (f b) eqn:Fb.
    + exists (a :: part). split; [cbn [map snd]; now rewrite E|]. constructor; [now apply Hf|exact Hp].
    + exists part. split; [now rewrite E|]. constructor; [|exact Hp]. intros H. apply Hf in H. congruence.
Qed.
Lemma masked_length {A B} (f : B -> bool) (x : list A) y : length y <> length x -> masked (map f y) x = Err IndexError.
Proof. intros H. unfold masked. rewrite map_length. now destruct (Nat.eqb_spec (length y) (length x)). Qed.

Lemma picked_fun {A B} (P : B -> Prop) (x : list A) y p q : picked P x y p -> picked P x y q -> p = q.
Proof. intros H. revert q. induction H; intros q H'; inversion H'; subst; try contradiction; auto. f_equal. auto. Qed.
Lemma picked_ext {A B} (P Q : B -> Prop) (x : list A) y p : (forall b, P b <-> Q b) -> picked P x y p -> picked Q x y p.
Proof. intros E. induction 1; constructor; auto; rewrite <- E; auto. Qed.
Lemma picked_In {A B} (P : B -> Prop) (x : list A) y p : picked P x y p -> forall a, In a p <-> exists i b, nth_error x i = Some a /\ nth_error y i = Some b /\ P b.
Proof.
  induction 1 as [|a b x y part Hb H IH|a b x y part Hb H IH]; intros c.
  - split; [intros []|intros ([|i] & b & E & _); discriminate].
  - split.
    + intros [<-|Hc]; [exists 0%nat, b; auto|]. apply IH in Hc. destruct Hc as (i & d & E). exists (S i), d. exact E.
    + intros ([|i] & d & E1 & E2 & Hd); cbn in E1, E2; [injection E1 as <-; now left|]. right. apply IH. eauto.
  - split.
    + intros Hc. apply IH in Hc. destruct Hc as (i & d & E). exists (S i), d. exact E.
    + intros ([|i] & d & E1 & E2 & Hd); cbn in E1, E2; [injection E2 as <-; contradiction|]. apply IH. eauto.
Qed.
Lemma picked_length {A B} (P : B -> Prop) (x : list A) y p : picked P x y p -> length x = length y.
Proof. induction 1; simpl; auto. Qed.
Lemma picked_total {A B} (P Q : B -> Prop) (x : list A) y p q : picked P x y p -> picked Q x y q -> (forall b, In b y -> P b \/ Q b) -> (forall b, ~ (P b /\ Q b)) ->
  Permutation (p ++ q) x.
Proof.
  intros H. revert q. induction H as [|a b x y part Hb H IH|a b x y part Hb H IH]; intros q H' T D; inversion H'; subst.
  - constructor.
  - elim (D b); auto.
  - cbn. constructor. apply IH; auto. intros; apply T; now right.
  - apply Permutation_sym, Permutation_cons_app, Permutation_sym. apply IH; auto. intros; apply T; now right.
  - destruct (T b (or_introl eq_refl)); contradiction.
Qed.
Lemma picked_bound {A B} (P Q : B -> Prop) (x : list A) y p q : picked P x y p -> picked Q x y q -> (forall b, ~ (P b /\ Q b)) ->
  (length p + length q <= length x)%nat /\ ((exists b, In b y /\ ~ P b /\ ~ Q b) -> (length p + length q < length x)%nat).
Proof.
  intros H. revert q. induction H as [|a b x y part Hb H IH|a b x y part Hb H IH]; intros q H' D; inversion H'; subst.
  - split; [simpl; lia|intros (b & [] & _)].
  - elim (D b); auto.
  - match goal with Hq : picked Q x y ?q |- _ => destruct (IH _ Hq D) as [L S1] end. cbn [length]. split; [lia|].
    intros (c & [<-|Hc] & N1 & N2); [contradiction|]. enough (length part + length q < length x)%nat by lia. apply S1. eauto.
  - match goal with Hq : picked Q x y ?q |- _ => destruct (IH _ Hq D) as [L S1] end. cbn [length]. split; [lia|].
    intros (c & [<-|Hc] & N1 & N2); [contradiction|]. match goal with Hq : picked Q x y ?q |- _ => enough (length part + length q < length x)%nat by lia end. apply S1. eauto.
  - destruct (IH _ H6 D) as [L S1]. cbn [length]. split; lia.
Qed.

Lemma scatter_spec neg x y : length y = length x -> exists a b, scatter neg x y = Ok (a, b) /\
  picked (fun l => l = neg) x y a /\ picked (fun l => l = 1%Z) x y b.
Proof.
  intros L. destruct (masked_picked (fun l => l = neg) (Z.eqb neg) x (fun b => conj (fun H => eq_sym (proj1 (Z.eqb_eq _ _) H)) (fun H => proj2 (Z.eqb_eq _ _) (eq_sym H))) y L) as (a & Ea & Ha).
  destruct (masked_picked (fun l => l = 1%Z) (Z.eqb 1) x (fun b => conj (fun H => eq_sym (proj1 (Z.eqb_eq _ _) H)) (fun H => proj2 (Z.eqb_eq _ _) (eq_sym H))) y L) as (b & Eb & Hb).
  exists a, b. unfold scatter. rewrite Ea, Eb. cbn [bind]. auto.
Qed.
Lemma scatter_fails neg x y : length y <> length x -> scatter neg x y = Err IndexError.
Proof. intros H. unfold scatter. now rewrite masked_length. Qed.
Lemma scatter_Ok neg x y a b : scatter neg x y = Ok (a, b) -> length y = length x /\ picked (fun l => l = neg) x y a /\ picked (fun l => l = 1%Z) x y b.
Proof.
  intros E. destruct (Nat.eq_dec (length y) (length x)) as [L|L]; [|rewrite scatter_fails in E by exact L; discriminate].
  destruct (scatter_spec neg x y L) as (a' & b' & E' & H). rewrite E in E'. injection E' as -> ->. auto.
Qed.

(** ** Grids *)
Lemma grid_length x0 x1 : length (grid x0 x1) = (length x1 * length x0)%nat.
Proof. unfold grid, Hull.point. induction x1 as [|v x1 IH]; [reflexivity|]. cbn [flat_map length]. rewrite app_length, map_length, IH. lia. Qed.
Lemma grid_nth x0 x1 : forall i j u v, nth_error x0 j = Some u -> nth_error x1 i = Some v ->
  nth_error (grid x0 x1) (i * length x0 + j) = Some (u, v).
Proof.
  unfold grid. induction x1 as [|w x1 IH]; intros i j u v Hu Hv; [destruct i; discriminate|].
  assert (Hj : (j < length x0)%nat) by (apply nth_error_Some; congruence).
  destruct i as [|i]; cbn in Hv.
  - injection Hv as ->. cbn [flat_map]. rewrite nth_error_app1 by (rewrite map_length; lia). cbn [Nat.mul Nat.add]. rewrite nth_error_map, Hu. reflexivity.
  - cbn [flat_map]. rewrite nth_error_app2; rewrite map_length; [|cbn; lia]. rewrite <- (IH i j u v Hu Hv). f_equal. cbn. lia.
Qed.
Lemma nth_error_firstn {A} (l : list A) : forall n k, (k < n)%nat -> nth_error (firstn n l) k = nth_error l k.
Proof. induction l as [|a l IH]; intros n k H; [now rewrite firstn_nil|]. destruct n; [lia|]. destruct k; [reflexivity|]. cbn. apply IH. lia. Qed.
Lemma nth_error_skipn {A} : forall n (l : list A) k, nth_error (skipn n l) k = nth_error l (n + k).
Proof. induction n as [|n IH]; intros l k; [reflexivity|]. destruct l as [|a l]; [destruct k; reflexivity|]. apply IH. Qed.
Lemma rows_shape {A} c : forall r (l : list A), length l = (r * c)%nat -> length (rows_of r c l) = r /\ forall row, In row (rows_of r c l) -> length row = c.
Proof.
  induction r as [|r IH]; intros l L; [split; [reflexivity|intros row []]|]. cbn [rows_of length].
  assert (Ls : length (skipn c l) = (r * c)%nat) by (rewrite skipn_length; lia). destruct (IH _ Ls) as [E1 E2]. split; [lia|].
  intros row [<-|H]; [rewrite firstn_length; lia|auto].
Qed.
Lemma rows_nth {A} c : forall r (l : list A) i j y, (i < r)%nat -> (j < c)%nat -> nth_error l (i * c + j) = Some y ->
  exists row, nth_error (rows_of r c l) i = Some row /\ nth_error row j = Some y.
Proof.
  induction r as [|r IH]; intros l i j y Hi Hj E; [lia|]. destruct i as [|i]; cbn [rows_of nth_error].
  - exists (firstn c l). split; [reflexivity|]. rewrite nth_error_firstn by exact Hj. exact E.
  - apply IH; [lia|exact Hj|]. rewrite nth_error_skipn. rewrite <- E. f_equal. cbn. lia.
Qed.
Lemma mapM_nth {A B} (f : A -> result B) : forall l ys i a, mapM f l = Ok ys -> nth_error l i = Some a -> exists y, nth_error ys i = Some y /\ f a = Ok y.
Proof.
  induction l as [|b l IH]; intros ys i a E H; [destruct i; discriminate|]. cbn [mapM] in E. apply bind_Ok in E. destruct E as (y & Ey & E).
  apply bind_Ok in E. destruct E as (ys' & E' & E). injection E as <-. destruct i as [|i]; cbn in *; [injection H as ->; eauto|eauto].
Qed.
Lemma mapM_length {A B} (f : A -> result B) : forall l ys, mapM f l = Ok ys -> length ys = length l.
Proof.
  induction l as [|b l IH]; intros ys E; [injection E as <-; reflexivity|]. cbn [mapM] in E. apply bind_Ok in E. destruct E as (y & Ey & E).
  apply bind_Ok in E. destruct E as (ys' & E' & E). injection E as <-. cbn. f_equal. auto.
Qed.
Lemma background_shows {A} (f : point -> result A) predict x0 x1 g : row_by_row f predict -> background predict x0 x1 = Ok g -> shows f x0 x1 g.
Proof.
  intros R E. unfold background in E. rewrite R in E. apply bind_Ok in E. destruct E as (ys & E & H). pose proof (mapM_length _ _ _ E) as L.
  rewrite grid_length in L. unfold reshape in H. rewrite L, Nat.eqb_refl in H. injection H as <-.
  destruct (rows_shape (length x0) (length x1) ys L) as [S1 S2]. split; [exact S1|]. split; [exact S2|].
  intros i j u v Hu Hv. destruct (mapM_nth _ _ _ _ _ E (grid_nth x0 x1 i j u v Hu Hv)) as (y & Ey & Ef).
  destruct (rows_nth (length x0) (length x1) ys i j y) as (row & R1 & R2).
  - apply nth_error_Some. congruence.
  - apply nth_error_Some. congruence.
  - exact Ey.
  - exists row, y. auto.
Qed.
Lemma background_total {A} (f : point -> result A) predict x0 x1 : row_by_row f predict ->
  (forall u v, In u x0 -> In v x1 -> exists y, f (u, v) = Ok y) -> exists g, background predict x0 x1 = Ok g.
Proof.
  intros R T. unfold background. rewrite R.
  assert (X : exists ys, mapM f (grid x0 x1) = Ok ys).
  { assert (G : forall p, In p (grid x0 x1) -> exists y, f p = Ok y).
    { intros p Hp. unfold grid in Hp. apply in_flat_map in Hp. destruct Hp as (v & Hv & Hp). apply in_map_iff in Hp. destruct Hp as (u & <- & Hu). auto. }
    induction (grid x0 x1) as [|p l IH]; [exists []; reflexivity|]. destruct (G p (or_introl eq_refl)) as (y & Ey).
    destruct IH as (ys & Eys); [intros; apply G; now right|]. exists (y :: ys). cbn [mapM]. now rewrite Ey, Eys. }
  destruct X as (ys & E). rewrite E. cbn [bind]. unfold reshape. rewrite (mapM_length _ _ _ E), grid_length, Nat.eqb_refl. eauto.
Qed.

(** ** Coordinates *)
Lemma linspace_nth a b n i : (i < n)%nat -> nth_error (linspace a b n) i = Some (a + INR i * ((b - a) / INR (n - 1))).
Proof. intros H. unfold linspace. rewrite nth_error_map. rewrite (nth_error_nth' _ 0%nat) by now rewrite seq_length. rewrite seq_nth by exact H. reflexivity. Qed.
Lemma linspace_evenly a b n : (2 <= n)%nat -> evenly a b n (linspace a b n).
Proof.
  intros Hn. assert (Hp : INR (n - 1) <> 0) by (apply not_0_INR; lia). assert (L : length (linspace a b n) = n) by (unfold linspace; now rewrite map_length, seq_length).
  split; [exact L|]. split; [rewrite linspace_nth by lia; f_equal; cbn; ring|]. split; [rewrite linspace_nth by lia; f_equal; field; exact Hp|].
  intros i u v Hu Hv. assert (Hi : (S i < n)%nat) by (rewrite <- L; apply nth_error_Some; congruence).
  rewrite linspace_nth in Hu by lia. rewrite linspace_nth in Hv by lia. rewrite S_INR in Hv. injection Hu as <-. injection Hv as <-. ring.
Qed.
Lemma linspace_In a b n u : (2 <= n)%nat -> a <= b -> In u (linspace a b n) -> a <= u <= b.
Proof.
  intros Hn Hab H. unfold linspace in H. apply in_map_iff in H. destruct H as (i & <- & Hi). apply in_seq in Hi.
  assert (Hp : 0 < INR (n - 1)) by (apply lt_0_INR; lia). assert (Hi' : INR i <= INR (n - 1)) by (apply le_INR; lia). pose proof (pos_INR i) as Hi0.
  assert (E : INR i * ((b - a) / INR (n - 1)) = (b - a) * (INR i / INR (n - 1))) by (field; lra). rewrite E.
  assert (0 <= INR i / INR (n - 1) <= 1).
  { split; [apply Rmult_le_pos; [lra|left; now apply Rinv_0_lt_compat]|]. apply (Rmult_le_reg_r (INR (n - 1))); [exact Hp|]. field_simplify; lra. }
  nra.
Qed.
Lemma linspace_near a b n p : (2 <= n)%nat -> a <= p <= b -> exists u, In u (linspace a b n) /\ Rabs (u - p) <= (b - a) / INR (n - 1) / 2.
Proof.
  intros Hn Hp. assert (Hq : 0 < INR (n - 1)) by (apply lt_0_INR; lia). set (h := (b - a) / INR (n - 1)).
  assert (Hba : b - a = h * INR (n - 1)) by (unfold h; field; lra).
  destruct (Req_dec h 0) as [Z0|N0].
  - exists a. split; [eapply nth_error_In; apply (proj1 (proj2 (linspace_evenly a b n Hn)))|]. rewrite Z0 in *. replace (a - p) with 0 by lra. rewrite Rabs_R0. lra.
  - assert (Hh : 0 < h).
    { assert (0 <= h); [|lra]. apply Rmult_le_pos; [lra|left; now apply Rinv_0_lt_compat]. }
    set (t := (p - a) / h). assert (Et : p = a + t * h) by (unfold t; field; lra).
    assert (Ht : 0 <= t <= INR (n - 1)) by (split; [unfold t; apply Rmult_le_pos; [lra|left; now apply Rinv_0_lt_compat]|apply (Rmult_le_reg_r h); lra]).
    destruct (archimed (t - 1 / 2)) as [U1 U2]. set (z := up (t - 1 / 2)) in *.
    assert (Hz0 : (0 <= z)%Z) by (apply le_IZR; apply Rnot_lt_le; intros Hlt; assert (z <= -1)%Z by (apply lt_IZR in Hlt; lia); apply IZR_le in H; lra).
    assert (Hz1 : (z <= Z.of_nat (n - 1))%Z).
    { apply Znot_gt_le. intros G. assert (Z.of_nat (n - 1) + 1 <= z)%Z by lia. apply IZR_le in H. rewrite plus_IZR, <- INR_IZR_INZ in H. lra. }
    exists (a + INR (Z.to_nat z) * h). split.
    + unfold linspace. fold h. apply in_map_iff. exists (Z.to_nat z). split; [reflexivity|]. apply in_seq. lia.
    + rewrite INR_IZR_INZ, Z2Nat.id by exact Hz0. rewrite Et. replace (a + IZR z * h - (a + t * h)) with ((IZR z - t) * h) by ring.
      rewrite Rabs_mult, (Rabs_right h) by lra. assert (Rabs (IZR z - t) <= 1 / 2) by (apply Rabs_le; lra). nra.
Qed.

(** ** Projections *)
Lemma unit_spec w u : unit_of w = Some u -> exists k, 0 < k /\ w = times k u /\ scalar u u = 1.
Proof.
  unfold unit_of. set (s := fst w * fst w + snd w * snd w). set (n := sqrt s). unfold Reqb. destruct (Req_EM_T n 0) as [E|E]; [discriminate|]. intros H. injection H as <-.
  assert (Hs : 0 <= s) by (unfold s; nra). assert (Hn : 0 <= n) by apply sqrt_pos. assert (Hq : n * n = s) by now apply sqrt_sqrt.
  exists n. split; [lra|]. split.
  - unfold times. cbn. destruct w as [a b]. cbn. f_equal; field; exact E.
  - unfold scalar. cbn. unfold s in Hq. apply (Rmult_eq_reg_r (n * n)); [|nra]. rewrite Rmult_1_l. rewrite Hq at 2. field. exact E.
Qed.
Lemma unit_none w : unit_of w = None <-> w = (0, 0).
Proof.
  unfold unit_of, Reqb. destruct w as [a b]. cbn [fst snd]. split.
  - destruct (Req_EM_T _ 0) as [E|E]; [|discriminate]. intros _. apply sqrt_eq_0 in E; [|nra]. f_equal; nra.
  - intros H. injection H as -> ->. rewrite !Rmult_0_l, Rplus_0_l, sqrt_0. now destruct (Req_EM_T 0 0).
Qed.
Lemma projected_spec u p : projected u p = times (scalar p u) u.
Proof. unfold projected, times, scalar. f_equal; ring. Qed.
Lemma projected_foot w u p : unit_of w = Some u -> foot w p (projected u p).
Proof.
  intros H. destruct (unit_spec w u H) as (k & Hk & Ew & Eu). split.
  - exists (scalar p u / k). rewrite projected_spec, Ew. unfold times. cbn. f_equal; field; lra.
  - rewrite projected_spec, Ew. unfold scalar, times in *. cbn [fst snd] in *.
    replace ((fst p - (fst p * fst u + snd p * snd u) * fst u) * (k * fst u) + (snd p - (fst p * fst u + snd p * snd u) * snd u) * (k * snd u))
      with (k * (fst p * fst u + snd p * snd u) * (1 - (fst u * fst u + snd u * snd u))) by ring. rewrite Eu. ring.
Qed.
Lemma foot_nearest w p q : foot w p q -> forall k, square_distance p q <= square_distance p (times k w).
Proof.
  intros ((c & ->) & E) k. unfold scalar, square_distance, times in *. cbn [fst snd] in *.
  assert (X : (fst p - k * fst w) * (fst p - k * fst w) + (snd p - k * snd w) * (snd p - k * snd w) =
     ((fst p - c * fst w) * (fst p - c * fst w) + (snd p - c * snd w) * (snd p - c * snd w)) +
     2 * (c - k) * ((fst p - c * fst w) * fst w + (snd p - c * snd w) * snd w) + (c - k) * (c - k) * (fst w * fst w + snd w * snd w)) by ring.
  rewrite X, E. pose proof (Rle_0_sqr (c - k)) as A1. pose proof (Rle_0_sqr (fst w)) as A2. pose proof (Rle_0_sqr (snd w)) as A3. unfold Rsqr in *.
  pose proof (Rmult_le_pos _ _ A1 (Rplus_le_le_0_compat _ _ A2 A3)). lra.
Qed.
Lemma foot_same w p q : foot w p q -> scalar q w = scalar p w.
Proof.
  intros (_ & E). symmetry. apply Rminus_diag_uniq. unfold scalar in *. cbn [fst snd] in E. rewrite <- E. ring.
Qed.

(** ** Columns *)
Lemma numbers_spec c l : numbers c = Some l <-> c = map Num l.
Proof.
  revert l. induction c as [|v c IH]; intros l; cbn [numbers fold_right].
  - split; [intros E; injection E as <-; reflexivity|]. destruct l; [reflexivity|discriminate].
  - fold (numbers c). destruct v as [x|s].
    + destruct (numbers c) as [l'|] eqn:E.
      * split; [intros H; injection H as <-; cbn; f_equal; now apply IH|]. destruct l as [|y l]; [discriminate|]. intros H. injection H as -> H.
        apply IH in H. congruence.
      * split; [discriminate|]. destruct l as [|y l]; [discriminate|]. intros H. injection H as -> H. apply IH in H. discriminate.
    + split; [discriminate|]. destruct l; discriminate.
Qed.
Lemma fold_min l : forall x, fold_left Rmin l x <= x /\ forall z, In z l -> fold_left Rmin l x <= z.
Proof.
  induction l as [|y l IH]; intros x; [split; [cbn; lra|intros z []]|]. cbn [fold_left]. destruct (IH (Rmin x y)) as [H1 H2]. split.
  - pose proof (Rmin_l x y). lra.
  - intros z [<-|Hz]; [pose proof (Rmin_r x y); lra|auto].
Qed.
Lemma fold_max l : forall x, x <= fold_left Rmax l x /\ forall z, In z l -> z <= fold_left Rmax l x.
Proof.
  induction l as [|y l IH]; intros x; [split; [cbn; lra|intros z []]|]. cbn [fold_left]. destruct (IH (Rmax x y)) as [H1 H2]. split.
  - pose proof (Rmax_l x y). lra.
  - intros z [<-|Hz]; [pose proof (Rmax_r x y); lra|auto].
Qed.
Lemma range_spec c r : axis_range c = Ok r -> exists l, c = map Num l /\ l <> [] /\ forall x, In x l -> fst r + 1/10 <= x <= snd r - 1/10.
Proof.
  unfold axis_range. destruct c as [|v c]; [discriminate|]. destruct (numbers (v :: c)) as [[|x l]|] eqn:E; try discriminate. intros H. injection H as <-.
  apply numbers_spec in E. exists (x :: l). split; [exact E|]. split; [discriminate|]. cbn [fst snd]. intros z Hz.
  destruct (fold_min l x) as [A B]. destruct (fold_max l x) as [C D]. destruct Hz as [<-|Hz]; [lra|]. specialize (B z Hz). specialize (D z Hz). lra.
Qed.
Lemma range_text c : c <> [] -> (exists s, In (Txt s) c) -> axis_range c = Err TypeError.
Proof.
  intros N (s & Hs). unfold axis_range. destruct c as [|v c]; [congruence|]. destruct (numbers (v :: c)) as [l|] eqn:E; [|reflexivity].
  apply numbers_spec in E. rewrite E in Hs. apply in_map_iff in Hs. destruct Hs as (x & Ex & _). discriminate.
Qed.

(** ** Clusters *)
Lemma cluster_mask k (x : list point) cl : length cl = length x -> exists c, masked (map (Nat.eqb k) cl) x = Ok c /\ picked (fun l => l = k) x cl c.
Proof. intros L. apply masked_picked; [|exact L]. intros b. rewrite Nat.eqb_eq. split; congruence. Qed.
Lemma picked_count k (x : list point) cl c : picked (fun l => l = k) x cl c -> length c = count_occ Nat.eq_dec cl k.
Proof. induction 1; cbn [length count_occ]; auto; destruct (Nat.eq_dec b k); congruence. Qed.
Lemma groups_cover (x : list point) cl n gs : length cl = length x -> (forall l, In l cl -> (l < n)%nat) ->
  mapM (fun k => masked (map (Nat.eqb k) cl) x) (seq 0 n) = Ok gs -> Permutation (concat gs) x.
Proof.
  intros L B E.
  assert (G : forall m a gs, mapM (fun k => masked (map (Nat.eqb k) cl) x) (seq a m) = Ok gs ->
     exists c, picked (fun l => (a <= l < a + m)%nat) x cl c /\ Permutation (concat gs) c).
  { clear gs E. induction m as [|m IH]; intros a gs E; cbn [seq mapM] in E.
    - injection E as <-. exists []. split; [|constructor]. clear B. revert cl L. induction x as [|p x IHx]; intros [|b cl] L; try discriminate; constructor; [lia|]. apply IHx. now injection L.
    - destruct (cluster_mask a x cl L) as (c1 & E1 & P1). rewrite E1 in E. cbn [bind] in E. apply bind_Ok in E. destruct E as (gs' & E2 & E). injection E as <-.
      destruct (IH (S a) gs' E2) as (c2 & P2 & Q2). cbn [concat].
      assert (X : forall (x : list point) cl c1 c2, picked (fun l => l = a) x cl c1 -> picked (fun l => (S a <= l < S a + m)%nat) x cl c2 ->
         exists c, picked (fun l => (a <= l < a + S m)%nat) x cl c /\ Permutation (c1 ++ c2) c).
      { clear. intros x cl c1 c2 P1. revert c2. induction P1 as [|p b x y part Hb H IH|p b x y part Hb H IH]; intros c2 P2; inversion P2; subst.
        - exists []. split; constructor.
        - lia.
        - destruct (IH _ H6) as (c & Pc & Qc). exists (p :: c). split; [constructor; [lia|exact Pc]|]. cbn. now constructor.
        - destruct (IH _ H6) as (c & Pc & Qc). exists (p :: c). split; [constructor; [lia|exact Pc]|]. apply Permutation_sym, Permutation_cons_app, Permutation_sym. exact Qc.
        - destruct (IH _ H6) as (c & Pc & Qc). exists c. split; [constructor; [lia|exact Pc]|exact Qc]. }
      destruct (X x cl c1 c2 P1 P2) as (c & Pc & Qc). exists c. split; [exact Pc|]. eapply perm_trans; [|exact Qc]. now apply Permutation_app_head. }
  destruct (G n 0%nat gs E) as (c & Pc & Qc). eapply perm_trans; [exact Qc|]. clear Qc G E gs L.
  induction Pc as [|p b x y part Hb H IH|p b x y part Hb H IH]; [constructor|constructor; apply IH; intros; apply B; now right|].
  specialize (B b (or_introl eq_refl)). lia.
Qed.
Lemma seq_mapM_nth {B} (f : nat -> result B) n gs k : mapM f (seq 0 n) = Ok gs -> (k < n)%nat -> exists g, nth_error gs k = Some g /\ f k = Ok g.
Proof.
  intros E Hk. apply (mapM_nth f (seq 0 n) gs k k E). rewrite (nth_error_nth' _ 0%nat) by now rewrite seq_length. rewrite seq_nth by exact Hk. reflexivity.
Qed.
Lemma mapM_total {A B} (f : A -> result B) l : (forall a, In a l -> exists b, f a = Ok b) -> exists bs, mapM f l = Ok bs.
Proof.
  induction l as [|a l IH]; intros H; [exists []; reflexivity|]. destruct (H a (or_introl eq_refl)) as (b & E). destruct IH as (bs & E'); [intros; apply H; now right|].
  exists (b :: bs). cbn [mapM]. now rewrite E, E'.
Qed.
Lemma mapM_error {A B} (f : A -> result B) e l : (forall a, In a l -> (exists b, f a = Ok b) \/ f a = Err e) -> (exists a, In a l /\ f a = Err e) -> mapM f l = Err e.
Proof.
  induction l as [|a l IH]; intros H (a0 & Hi & E0); [destruct Hi|]. cbn [mapM]. destruct (H a (or_introl eq_refl)) as [(b & E)|E].
  - rewrite E. cbn [bind]. destruct Hi as [<-|Hi]; [congruence|]. rewrite IH; [reflexivity|intros; apply H; now right|eauto].
  - now rewrite E.
Qed.
