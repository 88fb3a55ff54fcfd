(** Lemmas for C73 to C75. *)
From Coq Require Import List ZArith Reals Lra Lia Bool Arith.
From Verif.Model Require Import Base Network Rbf Initializers.
From Verif.Spec Require Import Common Network Initializers.
From Verif.Proof Require Import BaseLemmas.
Import ListNotations.
Local Open Scope R_scope.

Lemma state_after_add {G A} (draw : G -> A * G) : forall k m g, state_after draw (state_after draw g k) m = state_after draw g (k + m).
Proof. induction k as [|k IH]; intros m g; simpl; [reflexivity|apply IH]. Qed.
Lemma value_after {G A} (draw : G -> A * G) : forall k m g, value_number draw (state_after draw g k) m = value_number draw g (k + m).
Proof. intros. unfold value_number. now rewrite state_after_add. Qed.

Lemma draw_list_spec {G} (draw : G -> R * G) : forall n g,
  draw_list draw n g = (map (value_number draw g) (seq 0 n), state_after draw g n).
Proof.
  induction n as [|n IH]; intros g; [reflexivity|]. cbn [draw_list]. destruct (draw g) as [v g1] eqn:E. rewrite IH.
  cbn [seq map state_after]. rewrite <- seq_shift, map_map. f_equal.
  - f_equal; [unfold value_number; simpl; now rewrite E|]. apply map_ext. intros k. unfold value_number. simpl. now rewrite E.
  - now rewrite E.
Qed.

Lemma rows_of_seq {A} (f : nat -> A) c : forall r s,
  rows_of r c (map f (seq s (r * c))) = map (fun i => map f (seq (s + i * c) c)) (seq 0 r).
Proof.
  induction r as [|r IH]; intros s; [reflexivity|]. cbn [rows_of Nat.mul]. rewrite seq_app, map_app.
  rewrite firstn_app, skipn_app. rewrite map_length, seq_length, Nat.sub_diag. cbn [firstn skipn].
  rewrite firstn_all2 by (rewrite map_length, seq_length; lia). rewrite skipn_all2 by (rewrite map_length, seq_length; lia).
  rewrite app_nil_r. cbn [app]. rewrite IH. cbn [seq map]. f_equal; [now rewrite Nat.add_0_r|].
  rewrite <- seq_shift, map_map. apply map_ext. intros i. f_equal. f_equal. lia.
Qed.

Lemma nth_map_seq {A} (f : nat -> A) d : forall n s i, (i < n)%nat -> nth i (map f (seq s n)) d = f (s + i)%nat.
Proof.
  intros n s i H. rewrite (nth_indep _ d (f 0%nat)) by (now rewrite map_length, seq_length). rewrite map_nth. now rewrite seq_nth.
Qed.

Section Py.
Variable G : Type.
Variable gauss : G -> R * G.
Lemma randn_spec r c g : randn G gauss r c g =
  (map (fun i => map (value_number gauss g) (seq (i * c) c)) (seq 0 r), state_after gauss g (r * c)).
Proof. unfold randn. rewrite draw_list_spec, rows_of_seq. reflexivity. Qed.

Lemma scaled_rows k (m : list (list R)) d : Forall (fun r => length r = d) m -> Forall (fun r => length r = d) (scaled k m).
Proof. unfold scaled. intros F. apply Forall_forall. intros r Hr. apply in_map_iff in Hr. destruct Hr as (q & <- & Hq). rewrite map_length. rewrite Forall_forall in F. now apply F. Qed.

Lemma nth_scaled k m i j : (i < length m)%nat -> (j < length (nth i m []))%nat -> nth j (nth i (scaled k m) []) 0 = nth j (nth i m []) 0 * k.
Proof.
  intros Hi Hj. unfold scaled. rewrite (nth_indep _ [] (map (fun v => v * k) [])) by now rewrite map_length.
  rewrite map_nth. rewrite (nth_indep _ 0 (0 * k)) by now rewrite map_length. now rewrite (map_nth (fun v => v * k)).
Qed.

Lemma init_layers_step f i o s g : init_layers G gauss f (i :: o :: s) g =
  (let '(ls, g2) := init_layers G gauss f (o :: s) (state_after gauss g (o * i)) in
   ((scaled (layer_factor f i o) (map (fun q => map (value_number gauss g) (seq (q * i) i)) (seq 0 o)), repeat 0 o) :: ls, g2)).
Proof.
  change (init_layers G gauss f (i :: o :: s) g) with
    (let '(m, g1) := randn G gauss o i g in let '(ls, g2) := init_layers G gauss f (o :: s) g1 in
     ((scaled (layer_factor f i o) m, repeat 0 o) :: ls, g2)). now rewrite randn_spec.
Qed.
Lemma init_layers_state f : forall s g, snd (init_layers G gauss f s g) = state_after gauss g (weights_before s (length s)).
Proof.
  induction s as [|i s IH]; intros g; [reflexivity|]. destruct s as [|o s]; [reflexivity|].
  rewrite init_layers_step. destruct (init_layers G gauss f (o :: s) (state_after gauss g (o * i))) as [ls g2] eqn:E.
  cbn [snd]. pose proof (IH (state_after gauss g (o * i))) as H. rewrite E in H. cbn [snd] in H. rewrite H, state_after_add.
  reflexivity.
Qed.

Lemma init_layers_shape f : forall s d c g, s <> [] -> Forall (fun n => (1 <= n)%nat) s -> last s 0%nat = c ->
  wired d (fst (init_layers G gauss f (d :: s) g)) c.
Proof.
  induction s as [|o s IH]; intros d c g Hs F L; [congruence|]. inversion F as [|? ? Ho Fs]; subst.
  rewrite init_layers_step.
  destruct (init_layers G gauss f (o :: s) (state_after gauss g (o * d))) as [ls g2] eqn:E. cbn [fst wired snd].
  assert (Lw : length (scaled (layer_factor f d o) (map (fun i => map (value_number gauss g) (seq (i * d) d)) (seq 0 o))) = o)
    by (unfold scaled; now rewrite !map_length, seq_length).
  split; [intros E0; rewrite E0 in Lw; simpl in Lw; lia|]. split.
  - apply scaled_rows. apply Forall_forall. intros r Hr. apply in_map_iff in Hr. destruct Hr as (q & <- & _). now rewrite map_length, seq_length.
  - split; [now rewrite repeat_length, Lw|]. destruct s as [|o2 s].
    + simpl in E. injection E as <- <-. exact Lw.
    + rewrite Lw. assert (H := IH o (last (o2 :: s) 0%nat) (state_after gauss g (o * d)) ltac:(discriminate) Fs eq_refl).
      rewrite E in H. cbn [fst] in H. destruct ls as [|l ls]; [contradiction|]. exact H.
Qed.

Lemma init_layers_values f : forall s g k i j, (S k < length s)%nat -> (i < nth (S k) s 0)%nat ->
  at_place (Bias k i) (fst (init_layers G gauss f s g)) = 0 /\
  ((j < nth k s 0)%nat -> at_place (Weight k i j) (fst (init_layers G gauss f s g)) =
     value_number gauss g (weights_before s k + (i * nth k s 0 + j))%nat * layer_factor f (nth k s 0%nat) (nth (S k) s 0%nat)).
Proof.
  induction s as [|a s IH]; intros g k i j Hk Hi; [simpl in Hk; lia|]. destruct s as [|o s]; [simpl in Hk; lia|].
  rewrite init_layers_step.
  destruct (init_layers G gauss f (o :: s) (state_after gauss g (o * a))) as [ls g2] eqn:E. cbn [fst].
  destruct k as [|k].
  - cbn [nth at_place fst snd weights_before] in *. split.
    + apply nth_repeat.
    + intros Hj. rewrite nth_scaled.
      * rewrite (nth_map_seq (fun i0 => map (value_number gauss g) (seq (i0 * a) a)) []) by lia.
        rewrite nth_map_seq by lia. reflexivity.
      * now rewrite map_length, seq_length.
      * rewrite (nth_map_seq (fun i0 => map (value_number gauss g) (seq (i0 * a) a)) []) by lia. now rewrite map_length, seq_length.
  - assert (H := IH (state_after gauss g (o * a)) k i j ltac:(simpl in *; lia) Hi). rewrite E in H. cbn [fst] in H.
    destruct H as [HB HW]. split; [exact HB|]. intros Hj. specialize (HW Hj). etransitivity; [exact HW|].
    rewrite value_after. f_equal. f_equal. cbn [weights_before nth]. destruct s; cbn; lia.
Qed.

Lemma concat_singletons {A B} (h : A -> B) l : concat (map (fun i => [h i]) l) = map h l.
Proof. induction l as [|a l IH]; [reflexivity|]. simpl. now rewrite IH. Qed.
Lemma init_vector_spec f n g k : vector_factor f n = Ok k ->
  init_vector G gauss f n g = Ok (map (fun i => value_number gauss g i * k) (seq 0 (S n)), state_after gauss g (S n)).
Proof.
  intros E. unfold init_vector. rewrite E. cbn [bind]. rewrite randn_spec. f_equal. f_equal; [|f_equal; lia].
  unfold scaled. rewrite map_map. rewrite <- (concat_singletons (fun i => value_number gauss g i * k)). f_equal. apply map_ext. intros i. rewrite Nat.mul_1_r. reflexivity.
Qed.
End Py.

(** ** Seeds *)
Section Seeds.
Variable G : Type.
Variable seeded : Z -> G.
Variable gauss uniform : G -> R * G.
Notation acts := (acts G seeded gauss uniform).
Notation act := (act G seeded gauss uniform).

Definition no_fresh (a : action G) : Prop := a <> Build None.

Lemma acts_app : forall p q w, acts w (p ++ q) =
  (fst (acts (fst (acts w p)) q), snd (acts w p) ++ snd (acts (fst (acts w p)) q)).
Proof.
  induction p as [|a p IH]; intros q w; [simpl; now destruct (acts w q)|].
  cbn [app Initializers.acts]. destruct (act w a) as [w1 o]. rewrite IH. destruct (acts w1 p) as [w2 os]. cbn [fst snd].
  f_equal. destruct o; reflexivity.
Qed.

Lemma act_gen : forall w w' a, no_fresh a -> gen w = gen w' -> gen (fst (act w a)) = gen (fst (act w' a)) /\ snd (act w a) = snd (act w' a).
Proof.
  intros w w' a F E. destruct a as [[s|]|f n|f s|h|d]; simpl; try rewrite <- E.
  - split; reflexivity.
  - now destruct F.
  - destruct (init_vector G gauss f n (gen w)) as [[v g]|e]; simpl; [split; reflexivity|split; [exact E|reflexivity]].
  - destruct (init_layers G gauss f s (gen w)); split; reflexivity.
  - destruct (init_rbf G gauss uniform h (gen w)); split; reflexivity.
  - split; reflexivity.
Qed.
Lemma acts_gen : forall p w w', Forall no_fresh p -> gen w = gen w' -> snd (acts w p) = snd (acts w' p).
Proof.
  induction p as [|a p IH]; intros w w' F E; [reflexivity|]. inversion F; subst. cbn [Initializers.acts].
  destruct (act_gen w w' a) as [E1 E2]; [assumption|exact E|]. destruct (act w a) as [w1 o], (act w' a) as [w1' o']. cbn [fst snd] in *. subst o'.
  specialize (IH w1 w1' H2 E1). destruct (acts w1 p), (acts w1' p). cbn [snd] in *. now rewrite IH.
Qed.
Lemma acts_entropy : forall p w w', gen w = gen w' -> entropy w = entropy w' -> acts w p = acts w' p.
Proof. intros p [g e] [g' e'] E1 E2. simpl in *. now subst. Qed.

Lemma seed_wins : forall p q s w w0, Forall no_fresh q ->
  snd (acts w (p ++ Build (Some s) :: q)) = snd (acts w p) ++ snd (acts w0 (Build (Some s) :: q)).
Proof.
  intros p q s w w0 F. rewrite acts_app. cbn [snd]. f_equal. cbn [Initializers.acts Initializers.act].
  assert (H := acts_gen q {| gen := seeded s; entropy := entropy (fst (acts w p)) |} {| gen := seeded s; entropy := entropy w0 |} F eq_refl).
  destruct (acts {| gen := seeded s; entropy := entropy (fst (acts w p)) |} q), (acts {| gen := seeded s; entropy := entropy w0 |} q). exact H.
Qed.
Lemma unseeded_forgets : forall q g g' e, snd (acts {| gen := g; entropy := e |} (Build None :: q)) = snd (acts {| gen := g'; entropy := e |} (Build None :: q)).
Proof. reflexivity. Qed.
End Seeds.

(** Different weights come from different draws. *)
Lemma weights_before_step : forall s k, (S k < length s)%nat -> weights_before s (S k) = (weights_before s k + nth (S k) s 0 * nth k s 0)%nat.
Proof.
  induction s as [|a s IH]; intros k Hk; [simpl in Hk; lia|]. destruct s as [|o s]; [simpl in Hk; lia|].
  destruct k as [|k].
  - cbn. destruct s; lia.
  - assert (H := IH k ltac:(simpl in *; lia)). change (weights_before (a :: o :: s) (S (S k))) with (o * a + weights_before (o :: s) (S k))%nat.
    rewrite H. change (weights_before (a :: o :: s) (S k)) with (o * a + weights_before (o :: s) k)%nat. cbn [nth]. lia.
Qed.
Lemma weights_before_mono : forall s m k, (k <= m)%nat -> (m < length s)%nat -> (weights_before s k <= weights_before s m)%nat.
Proof.
  induction m as [|m IH]; intros k H Hm; [now replace k with 0%nat by lia|].
  destruct (Nat.eq_dec k (S m)) as [->|N]; [lia|]. specialize (IH k ltac:(lia) ltac:(lia)).
  rewrite weights_before_step by lia. lia.
Qed.
Lemma draw_number_inj : forall s k i j k' i' j',
  (S k < length s)%nat -> (i < nth (S k) s 0)%nat -> (j < nth k s 0)%nat ->
  (S k' < length s)%nat -> (i' < nth (S k') s 0)%nat -> (j' < nth k' s 0)%nat ->
  (weights_before s k + (i * nth k s 0 + j) = weights_before s k' + (i' * nth k' s 0 + j'))%nat -> k = k' /\ i = i' /\ j = j'.
Proof.
  intros s k i j k' i' j' Hk Hi Hj Hk' Hi' Hj' E.
  assert (B : forall k i j, (S k < length s)%nat -> (i < nth (S k) s 0)%nat -> (j < nth k s 0)%nat ->
     (weights_before s k + (i * nth k s 0 + j) < weights_before s (S k))%nat).
  { intros q a b Hq Ha Hb. rewrite weights_before_step by lia. nia. }
  assert (k = k').
  { destruct (Nat.lt_trichotomy k k') as [L|[L|L]]; [|exact L|].
    - pose proof (B k i j Hk Hi Hj). pose proof (weights_before_mono s k' (S k) ltac:(lia) ltac:(lia)). lia.
    - pose proof (B k' i' j' Hk' Hi' Hj'). pose proof (weights_before_mono s k (S k') ltac:(lia) ltac:(lia)). lia. }
  subst k'. split; [reflexivity|]. assert (E2 : (i * nth k s 0 + j = i' * nth k s 0 + j')%nat) by lia.
  assert (i = i') by nia. subst i'. split; [reflexivity|lia].
Qed.

(** ** C++ *)
Section Cc.
Variable E : Type.
Variable engine : Z -> E.
Variable polar : E -> R * R * E.

(** Without a spare value the draws are the values of the rounds in order. *)
Lemma paired_step e m : paired_value polar e (S (S m)) = paired_value polar (snd (polar e)) m.
Proof.
  unfold paired_value. replace (S (S m) / 2)%nat with (S (m / 2)) by (rewrite (Nat.div_add_l 1 2 m) || (change (S (S m)) with (1 * 2 + m)%nat; rewrite Nat.div_add_l by lia; reflexivity)).
  cbn [state_after Nat.even]. reflexivity.
Qed.
Lemma two_draws : forall n e, draw_list (normal_draw E polar) (S (S n)) (e, None) =
  (let '(a, b, e') := polar e in let '(l, st) := draw_list (normal_draw E polar) n (e', None) in (a :: b :: l, st)).
Proof.
  intros n e. cbn [draw_list].
  assert (N : normal_draw E polar (e, None) = (let '(a, b, e') := polar e in (a, (e', Some b)))) by reflexivity. rewrite N.
  destruct (polar e) as [[a b] e']. change (normal_draw E polar (e', Some b)) with (b, (e', @None R)). cbv beta iota.
  destruct (draw_list (normal_draw E polar) n (e', None)). reflexivity.
Qed.
Lemma fresh_draws : forall n e, exists e', draw_list (normal_draw E polar) n (e, None) =
  (map (paired_value polar e) (seq 0 n), (e', if Nat.even n then None else Some (paired_value polar e n))).
Proof.
  intros n. induction n as [n IH] using (well_founded_induction lt_wf). intros e.
  destruct n as [|[|n]].
  - exists e. reflexivity.
  - cbn [draw_list normal_draw Nat.even]. unfold paired_value. cbn. destruct (polar e) as [[a b] e'] eqn:P. exists e'. reflexivity.
  - destruct (IH n ltac:(lia) (snd (polar e))) as (e' & H). exists e'. rewrite two_draws.
    pose proof (paired_step e) as Q.
    destruct (polar e) as [[a b] e1] eqn:P. cbn [snd] in *. rewrite H. cbn [Nat.even seq map]. f_equal.
    + f_equal; [unfold paired_value; cbn; now rewrite P|]. f_equal; [unfold paired_value; cbn; now rewrite P|].
      rewrite <- !seq_shift, !map_map. apply map_ext. intros m. symmetry. apply Q.
    + rewrite Q. reflexivity.
Qed.
Lemma spare_draws : forall n e v, exists e', draw_list (normal_draw E polar) (S n) (e, Some v) =
  (v :: map (paired_value polar e) (seq 0 n), (e', if Nat.even n then None else Some (paired_value polar e n))).
Proof.
  intros n e v. cbn [draw_list normal_draw]. destruct (fresh_draws n e) as (e' & H). rewrite H. now exists e'.
Qed.

(** Draw number [m] of a matrix, given the spare value from before. *)
Definition matrix_draw (seed : Z) (spare : option R) (m : nat) : R :=
  match spare, m with
  | None, _ => paired_value polar (engine seed) m
  | Some v, O => v
  | Some _, S m' => paired_value polar (engine seed) m'
  end.
Lemma cc_normal_matrix_spec r c seed spare : (0 < r * c)%nat ->
  cc_normal_matrix E engine polar r c seed spare =
  (map (fun i => map (fun j => matrix_draw seed spare (j * r + i)) (seq 0 c)) (seq 0 r),
   if Nat.even (r * c) then match spare with None => None | Some _ => Some (paired_value polar (engine seed) (r * c - 1)) end
   else match spare with None => Some (paired_value polar (engine seed) (r * c)) | Some _ => None end).
Proof.
  intros Hn. unfold cc_normal_matrix.
  assert (H : exists e', draw_list (normal_draw E polar) (r * c) (engine seed, spare) =
    (map (matrix_draw seed spare) (seq 0 (r * c)),
     (e', if Nat.even (r * c) then match spare with None => None | Some _ => Some (paired_value polar (engine seed) (r * c - 1)) end
          else match spare with None => Some (paired_value polar (engine seed) (r * c)) | Some _ => None end))).
  { destruct spare as [v|].
    - destruct (r * c)%nat as [|n] eqn:En; [lia|]. destruct (spare_draws n (engine seed) v) as (e' & H). exists e'. rewrite H.
      f_equal.
      + cbn [seq map matrix_draw]. rewrite <- seq_shift, map_map. reflexivity.
      + f_equal. replace (S n - 1)%nat with n by lia. rewrite Nat.even_succ, <- Nat.negb_even. destruct (Nat.even n); reflexivity.
    - destruct (fresh_draws (r * c) (engine seed)) as (e' & H). exists e'. rewrite H. reflexivity. }
  destruct H as (e' & ->). cbn [snd]. f_equal. unfold rows_of_columns. apply map_ext_in. intros i Hi. apply map_ext_in. intros j Hj.
  apply in_seq in Hi, Hj. rewrite nth_map_seq by nia. reflexivity.
Qed.

Lemma cc_layers_step f i o s seed spare : cc_init_layers E engine polar f (i :: o :: s) seed spare =
  (let '(m, sp1) := cc_normal_matrix E engine polar o i seed spare in
   let '(ls, sp2) := cc_init_layers E engine polar f (o :: s) seed sp1 in
   ((scaled (layer_factor f i o) m, repeat 0 o) :: ls, sp2)).
Proof. reflexivity. Qed.

Definition is_some {A} (o : option A) : bool := match o with Some _ => true | None => false end.
Lemma cc_matrix_spare r c seed spare : (0 < r * c)%nat ->
  is_some (snd (cc_normal_matrix E engine polar r c seed spare)) = xorb (is_some spare) (Nat.odd (r * c)).
Proof.
  intros H. rewrite cc_normal_matrix_spec by exact H. cbn [snd]. rewrite <- Nat.negb_even.
  destruct (Nat.even (r * c)), spare; reflexivity.
Qed.

Lemma xorb_even a b c : xorb (xorb a (Nat.odd b)) (Nat.odd c) = xorb a (Nat.odd (b + c)).
Proof. rewrite Nat.odd_add. destruct a, (Nat.odd b), (Nat.odd c); reflexivity. Qed.

Lemma cc_layers_spare f : forall s seed spare, Forall (fun n => (1 <= n)%nat) s ->
  is_some (snd (cc_init_layers E engine polar f s seed spare)) = xorb (is_some spare) (Nat.odd (weights_before s (length s))).
Proof.
  induction s as [|a s IH]; intros seed spare F; [simpl; now rewrite xorb_false_r|]. destruct s as [|o s]; [simpl; now rewrite xorb_false_r|].
  inversion F as [|? ? Ha F']; subst. inversion F' as [|? ? Ho F'']; subst.
  rewrite cc_layers_step. pose proof (cc_matrix_spare o a seed spare ltac:(nia)) as Sp.
  destruct (cc_normal_matrix E engine polar o a seed spare) as [m sp1]. cbn [snd] in Sp.
  pose proof (IH seed sp1 F') as H. destruct (cc_init_layers E engine polar f (o :: s) seed sp1) as [ls sp2]. cbn [snd] in *.
  rewrite H, Sp, xorb_even. reflexivity.
Qed.

Lemma cc_layers_values f : forall s seed spare k i j, Forall (fun n => (1 <= n)%nat) s -> (S k < length s)%nat -> (i < nth (S k) s 0)%nat -> (j < nth k s 0)%nat ->
  let ls := fst (cc_init_layers E engine polar f s seed spare) in
  let m := (j * nth (S k) s 0 + i)%nat in
  at_place (Bias k i) ls = 0 /\
  exists sp, is_some sp = xorb (is_some spare) (Nat.odd (weights_before s k)) /\ (k = 0%nat -> sp = spare) /\
    at_place (Weight k i j) ls = matrix_draw seed sp m * layer_factor f (nth k s 0%nat) (nth (S k) s 0%nat).
Proof.
  induction s as [|a s IH]; intros seed spare k i j F Hk Hi Hj; [simpl in Hk; lia|]. destruct s as [|o s]; [simpl in Hk; lia|].
  inversion F as [|? ? Ha F']; subst. inversion F' as [|? ? Ho F'']; subst. intros ls m. subst ls. rewrite cc_layers_step.
  pose proof (cc_matrix_spare o a seed spare ltac:(nia)) as Sp. pose proof (cc_normal_matrix_spec o a seed spare ltac:(nia)) as Mx.
  destruct (cc_normal_matrix E engine polar o a seed spare) as [mm sp1]. cbn [snd] in Sp.
  destruct (cc_init_layers E engine polar f (o :: s) seed sp1) as [ls sp2] eqn:EL. cbn [fst].
  destruct k as [|k].
  - injection Mx as Mx _. subst mm m. cbn [nth at_place fst snd weights_before] in *. split; [apply nth_repeat|].
    exists spare. split; [simpl; now rewrite xorb_false_r|]. split; [reflexivity|].
    rewrite nth_scaled.
    + rewrite (nth_map_seq (fun i0 => map (fun j0 => matrix_draw seed spare (j0 * o + i0)) (seq 0 a)) []) by lia.
      rewrite nth_map_seq by lia. reflexivity.
    + now rewrite map_length, seq_length.
    + rewrite (nth_map_seq (fun i0 => map (fun j0 => matrix_draw seed spare (j0 * o + i0)) (seq 0 a)) []) by lia. now rewrite map_length, seq_length.
  - destruct (IH seed sp1 k i j F' ltac:(simpl in *; lia) Hi Hj) as (HB & sp & H1 & _ & H2). rewrite EL in HB, H2. cbn [fst] in HB, H2.
    split; [exact HB|]. exists sp. split; [|split; [discriminate|exact H2]].
    rewrite H1, Sp, xorb_even. reflexivity.
Qed.

Lemma cc_layers_none f s seed k i j : Forall (fun n => (1 <= n)%nat) s -> (S k < length s)%nat -> (i < nth (S k) s 0)%nat -> (j < nth k s 0)%nat ->
  Nat.even (weights_before s k) = true ->
  at_place (Weight k i j) (fst (cc_init_layers E engine polar f s seed None)) =
  paired_value polar (engine seed) (j * nth (S k) s 0 + i)%nat * layer_factor f (nth k s 0%nat) (nth (S k) s 0%nat).
Proof.
  intros F Hk Hi Hj Ev. destruct (cc_layers_values f s seed None k i j F Hk Hi Hj) as (_ & sp & H1 & _ & H2).
  rewrite <- Nat.negb_even, Ev in H1. destruct sp; [discriminate|]. exact H2.
Qed.

Lemma cc_layers_shape f : forall s d c seed spare, s <> [] -> Forall (fun n => (1 <= n)%nat) (d :: s) -> last s 0%nat = c ->
  wired d (fst (cc_init_layers E engine polar f (d :: s) seed spare)) c.
Proof.
  induction s as [|o s IH]; intros d c seed spare Hs F L; [congruence|]. inversion F as [|? ? Hd F']; subst. inversion F' as [|? ? Ho Fs]; subst.
  rewrite cc_layers_step. pose proof (cc_normal_matrix_spec o d seed spare ltac:(nia)) as Mx.
  destruct (cc_normal_matrix E engine polar o d seed spare) as [mm sp1]. injection Mx as Mx _. subst mm.
  destruct (cc_init_layers E engine polar f (o :: s) seed sp1) as [ls sp2] eqn:EL. cbn [fst wired snd].
  match goal with |- context [scaled ?k ?m] => assert (Lw : length (scaled k m) = o) by (unfold scaled; now rewrite !map_length, seq_length) end.
  split; [intros E0; rewrite E0 in Lw; simpl in Lw; lia|]. split.
  - apply scaled_rows. apply Forall_forall. intros r Hr. apply in_map_iff in Hr. destruct Hr as (q & <- & _). now rewrite map_length, seq_length.
  - split; [now rewrite repeat_length, Lw|]. destruct s as [|o2 s].
    + simpl in EL. injection EL as <- <-. exact Lw.
    + rewrite Lw. assert (H := IH o (last (o2 :: s) 0%nat) seed sp1 ltac:(discriminate) F' eq_refl).
      rewrite EL in H. cbn [fst] in H. destruct ls as [|l ls]; [contradiction|]. exact H.
Qed.
End Cc.


(** ** The radial basis function network *)
Lemma rand_spec G uniform r c g : rand G uniform r c g =
  (map (fun i => map (value_number uniform g) (seq (i * c) c)) (seq 0 r), state_after uniform g (r * c)).
Proof. unfold rand. rewrite draw_list_spec, rows_of_seq. reflexivity. Qed.
Lemma dot_zeros : forall n l, dot l (repeat 0 n) = 0.
Proof. induction n as [|n IH]; intros [|v l]; simpl; try reflexivity. rewrite IH. lra. Qed.
(** Zero weights predict zero, whatever the centres and widths are. *)
Lemma zero_weights_predict h (cs : list (list R)) (beta : list R) : length beta = h -> Forall (fun c => length c = 2%nat) cs -> length cs = h ->
  forall x, Forall (fun r => length r = 2%nat) x -> rbf_predict {| rw := repeat 0 h; rb := 0; rc := cs; rbeta := beta |} x = Ok (map (fun _ => 0) x).
Proof.
  intros Lb Fc Lc x Fx. set (p := {| rw := repeat 0 h; rb := 0; rc := cs; rbeta := beta |}).
  assert (D : forall r, length r = 2%nat -> exists rho xci, forward_row p r = Ok (0, rho, xci)).
  { intros r Lr. unfold forward_row. cbn [rw rc rbeta rb p]. rewrite repeat_length, Lc, Lb, !Nat.eqb_refl. cbn [andb negb].
    assert (X : exists xci, x_ci_row cs r = Ok xci).
    { unfold x_ci_row. clear -Fc Lr. induction Fc as [|c cs Hc Fc IH]; [now exists []|]. destruct IH as (t & IH).
      cbn [mapM]. unfold broadcast_sub at 1. rewrite Lr, Hc. cbn [Nat.eqb bind]. rewrite IH. cbn [bind]. eexists. reflexivity. }
    destruct X as (xci & ->). cbn [bind]. rewrite dot_zeros. eexists _, _. f_equal. f_equal. f_equal. lra. }
  unfold rbf_predict, rbf_forward. assert (M : exists rows, mapM (forward_row p) x = Ok rows /\ map (fun t => fst (fst t)) rows = map (fun _ => 0) x).
  { clear -D Fx. induction Fx as [|r x Hr Fx IH]; [now exists []|]. destruct IH as (rows & E1 & E2). destruct (D r Hr) as (rho & xci & E).
    exists ((0, rho, xci) :: rows). cbn [mapM]. rewrite E. cbn [bind]. rewrite E1. cbn [bind map fst]. now rewrite E2. }
  destruct M as (rows & -> & E). cbn [bind]. now rewrite E.
Qed.
Lemma init_rbf_spec : forall G gauss uniform h g,
  let p := fst (init_rbf G gauss uniform h g) in
  length (rw p) = h /\ (forall i, nth i (rw p) 0 = 0) /\ rb p = 0 /\
  length (rc p) = h /\ length (rbeta p) = h /\
  (forall i j, (i < h)%nat -> (j < 2)%nat -> nth j (nth i (rc p) []) 0 = value_number uniform g (i * 2 + j)) /\
  (forall i, (i < h)%nat -> nth i (rbeta p) 0 = value_number gauss (state_after uniform g (h * 2)) i) /\
  (forall x, Forall (fun r => length r = 2%nat) x -> rbf_predict p x = Ok (map (fun _ => 0) x)).
Proof.
  intros G gauss uniform h g p. subst p. unfold init_rbf. rewrite rand_spec, randn_spec. cbn [fst rw rb rc rbeta].
  set (cs := map (fun i => map (value_number uniform g) (seq (i * 2) 2)) (seq 0 h)).
  replace (concat (map (fun i => map (value_number gauss (state_after uniform g (h * 2))) (seq (i * h) h)) (seq 0 1)))
    with (map (value_number gauss (state_after uniform g (h * 2))) (seq 0 h)) by (cbn [seq map concat Nat.mul]; now rewrite app_nil_r).
  set (beta := map _ (seq 0 h)).
  assert (Lb : length beta = h) by (unfold beta; now rewrite map_length, seq_length).
  assert (Lc : length cs = h) by (unfold cs; now rewrite map_length, seq_length).
  assert (Fc : Forall (fun c => length c = 2%nat) cs).
  { apply Forall_forall. intros c Hc. apply in_map_iff in Hc. destruct Hc as (q & <- & _). now rewrite map_length, seq_length. }
  split; [apply repeat_length|]. split; [intros i; apply nth_repeat|]. split; [reflexivity|]. split; [exact Lc|]. split; [exact Lb|]. split; [|split].
  - intros i j Hi Hj. unfold cs. rewrite (nth_map_seq (fun i0 => map (value_number uniform g) (seq (i0 * 2) 2)) []) by lia. now rewrite nth_map_seq by lia.
  - intros i Hi. unfold beta. now rewrite nth_map_seq by lia.
  - intros x Fx. now apply zero_weights_predict.
Qed.
