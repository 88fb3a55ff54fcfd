(** C49 and C50: gradients of the layered network, and Adam. *)
From Coq Require Import List Reals Bool Arith Lia Lra.
From Verif.Model Require Import Base Activations Network.
From Verif.Spec Require Import Common Smo Network.
From Verif.Proof Require Import BaseLemmas Smo Activations Network NetworkMain NetworkGrad NetworkStep Adam.
Import ListNotations.
Local Open Scope R_scope.

(** ** C49 *)
(** Two or more outputs: the loss that is reported is the mean cross-entropy of
    the softmax probabilities, and the back pass returns its gradient. *)
Theorem C49_softmax_gradient : forall d c ls x y, wired d ls c -> (2 <= c)%nat ->
  x <> [] -> Forall (fun r => length r = d) x -> length y = length x -> Forall (label_row c) y -> Forall (away_from_kinks ls) x ->
  exists p cs g, forward ls x = Ok (p, cs) /\ crossentropy c p y = Ok (mean_loss class_loss ls x y) /\
    backward p y cs = Ok g /\ gradient_of (fun ls => mean_loss class_loss ls x y) ls g.
Proof.
  intros d c ls x y W Hc Hx Fx Ly Fy K. destruct (multi_gradient d c ls x y W Hx Fx Ly Hc Fy K) as (p & cs & g & E & B & G).
  exists p, cs, g. split; [exact E|]. split; [|split; [exact B|exact G]]. apply (multi_loss d c ls x y W Hx Fx Ly Hc) with (cs := cs); auto.
  eapply Forall_impl; [|exact Fy]. now intros r [L _].
Qed.
Print Assumptions C49_softmax_gradient.

(** One output: the back pass returns the gradient of another function, the
    reported loss minus half of the mean squared prediction. *)
Theorem C49_sigmoid_gradient : forall d ls x y, wired d ls 1 ->
  x <> [] -> Forall (fun r => length r = d) x -> length y = length x -> Forall (fun r => length r = 1%nat) y -> Forall (away_from_kinks ls) x ->
  exists p cs g, forward ls x = Ok (p, cs) /\ crossentropy 1 p y = Ok (mean_loss two_class_loss ls x y) /\
    backward p y cs = Ok g /\ gradient_of (fun ls => mean_loss two_class_loss ls x y - mean_loss half_square ls x y) ls g.
Proof.
  intros d ls x y W Hx Fx Ly Fy K. destruct (single_gradient d 1 ls x y W Hx Fx Ly eq_refl Fy K) as (p & cs & g & E & B & G).
  exists p, cs, g. split; [exact E|]. split; [|split; [exact B|exact G]]. now apply (single_loss d 1 ls x y W Hx Fx Ly eq_refl) with (cs := cs).
Qed.
Print Assumptions C49_sigmoid_gradient.

(** For one sample with label 0 or 1 that is the gradient of the loss up to a
    factor between 3/4 and 2. *)
Theorem C49_sigmoid_sample_factor : forall d ls u y, wired d ls 1 -> length u = d -> y = 0 \/ y = 1 -> away_from_kinks ls u ->
  exists p cs g k, forward ls [u] = Ok (p, cs) /\ backward p [[y]] cs = Ok g /\ 3 / 4 <= k < 2 /\
    gradient_of (fun ls => k * mean_loss two_class_loss ls [u] [[y]]) ls g.
Proof. exact single_factor. Qed.
Print Assumptions C49_sigmoid_sample_factor.

(** So an epoch of stochastic gradient descent with a small enough rate lowers the
    loss of the drawn sample, unless all its gradients are 0. *)
Theorem C49_step_lowers_sample_loss : forall d c ls x y i g, wired d ls c -> (i < length x)%nat -> length y = length x ->
  Forall (fun r => length r = d) x -> away_from_kinks ls (nth i x []) ->
  sample_gradient x y ls i = Ok g -> pairing g g <> 0 ->
  forall loss, (2 <= c)%nat /\ Forall (label_row c) y /\ loss = class_loss \/
               c = 1%nat /\ Forall (fun r => r = [0] \/ r = [1]) y /\ loss = two_class_loss ->
  exists eps, 0 < eps /\ forall rate, 0 < rate < eps -> exists ls', sgd_epoch rate x y ls i = Ok ls' /\
    mean_loss loss ls' [nth i x []] [nth i y []] < mean_loss loss ls [nth i x []] [nth i y []].
Proof.
  intros d c ls x y i g W Hi Ly Fx K E P loss Cases.
  pose proof (pairing_self_nonneg g) as NN. assert (P' : 0 < pairing g g) by (unfold neurons, grad in *; lra). clear P NN.
  assert (Hiy : (i < length y)%nat) by lia.
  assert (Fi : length (nth i x []) = d) by (rewrite Forall_forall in Fx; now apply Fx, nth_In).
  assert (Eg := E). unfold sample_gradient in E. unfold get_at in E. rewrite (nth_error_nth' x [] Hi), (nth_error_nth' y [] Hiy) in E. cbn [bind] in E.
  apply bind_Ok in E. destruct E as ([p0 cs0] & E1 & E2). cbn [fst snd] in E2.
  assert (D : exists k, 0 < k /\ gradient_of (fun ls => k * mean_loss loss ls [nth i x []] [nth i y []]) ls g).
  { destruct Cases as [(Hc & Fy & ->)|(-> & Fy & ->)].
    - assert (Yi : label_row c (nth i y [])) by (rewrite Forall_forall in Fy; now apply Fy, nth_In).
      destruct (multi_gradient d c ls [nth i x []] [nth i y []] W ltac:(discriminate) ltac:(auto) eq_refl Hc ltac:(auto) ltac:(auto)) as (p & cs & g' & F1 & F2 & G).
      exists 1. split; [lra|]. rewrite F1 in E1. injection E1 as <- <-. rewrite F2 in E2. injection E2 as <-.
      destruct G as [S G]. split; [exact S|]. intros dd Sd. specialize (G dd Sd).
      eapply derivable_pt_lim_ext; [|exact G]. intros t. cbv beta. now rewrite Rmult_1_l.
    - assert (Yi : nth i y [] = [0] \/ nth i y [] = [1]) by (rewrite Forall_forall in Fy; now apply Fy, nth_In).
      assert (exists l, nth i y [] = [l] /\ (l = 0 \/ l = 1)) as (l & El & Hl) by (destruct Yi as [->| ->]; eauto).
      rewrite El in *. destruct (single_factor d ls (nth i x []) l W Fi Hl K) as (p & cs & g' & k & F1 & F2 & Hk & G).
      exists k. split; [lra|]. rewrite F1 in E1. injection E1 as <- <-. rewrite F2 in E2. injection E2 as <-. exact G. }
  destruct D as (k & Hk & G). destruct (descent_step _ ls g G P') as (eps & He & H). exists eps. split; [exact He|]. intros rate Hr.
  exists (sgd_update rate ls g). split; [unfold sgd_epoch; now rewrite Eg|]. specialize (H rate Hr). cbv beta in H.
  now apply Rmult_lt_reg_l in H.
Qed.
Print Assumptions C49_step_lowers_sample_loss.

(** Class numbers instead of one-hot rows are accepted with two or more outputs;
    then the scores of all classes are pushed the same way, up if the labels are
    at least 1, down if they are 0, whatever the predictions are. *)
Theorem C49_class_numbers_push_all_classes : forall d c ls x y, wired d ls c -> x <> [] -> Forall (fun r => length r = d) x ->
  length y = length x -> (2 <= c)%nat -> Forall (fun r => length r = 1%nat) y ->
  exists p cs g, forward ls x = Ok (p, cs) /\ backward p y cs = Ok g /\
   (Forall (fun r => 1 <= nth 0 r 0) y -> forall k, (k < c)%nat -> nth k (snd (last g ([], []))) 0 < 0) /\
   (Forall (fun r => nth 0 r 0 = 0) y -> forall k, (k < c)%nat -> 0 < nth k (snd (last g ([], []))) 0).
Proof. exact number_sign. Qed.
Print Assumptions C49_class_numbers_push_all_classes.

(** Training never fails and never changes the shape of the network. *)
Theorem C49_sgd_run_keeps_shape : forall rate d c w x y draws ls, Forall (fun r => length r = d) x -> length y = length x ->
  w = 1%nat \/ w = c -> Forall (fun r => length r = w) y -> wired d ls c -> Forall (fun i => (i < length x)%nat) draws ->
  exists ls', sgd_run rate x y ls draws = Ok ls' /\ same_network ls ls' /\ wired d ls' c.
Proof. intros rate d c w x y draws ls Fx Ly Hw Fy W F. now apply (sgd_run_total rate d c w x y). Qed.
Print Assumptions C49_sgd_run_keeps_shape.

(** A hidden layer of two neurons, of which one is off for the first row. *)
Definition net2 : list neurons := [([[1]; [-1]], [/ 2; / 2]); ([[1; 0]; [0; 1]], [0; 0])].
Definition net1 : list neurons := [([[1]; [-1]], [/ 2; / 2]); ([[1; 2]], [0])].
Lemma net2_away : Forall (away_from_kinks net2) [[1]; [- / 4]].
Proof.
  repeat constructor; cbn; lra.
Qed.
Example C49_ex : wired 1 net2 2 /\ wired 1 net1 1 /\ Forall (away_from_kinks net2) [[1]; [- / 4]] /\ away_from_kinks net1 [1] /\
  Forall (label_row 2) [[1; 0]; [0; 1]].
Proof.
  split; [cbn; repeat split; try discriminate; repeat constructor|]. split; [cbn; repeat split; try discriminate; repeat constructor|].
  split; [apply net2_away|]. split; [repeat constructor; cbn; lra|]. repeat constructor; cbn; lra.
Qed.
(** Its gradient for the first row is not 0. *)
Example C49_ex_gradient : exists g, sample_gradient [[1]; [- / 4]] [[1]; [0]] net1 0 = Ok g /\ pairing g g <> 0.
Proof.
  eexists. split.
  - unfold sample_gradient. cbn -[Rmult Rplus Rinv Rdiv Ropp Rminus sigmoid relu sigmoid_diff INR]. reflexivity.
  - cbn -[Rmult Rplus Rinv Rdiv Ropp Rminus sigmoid relu relu_diff sigmoid_diff INR].
    match goal with |- context [sigmoid ?z] => pose proof (sigmoid_range z) as Q; set (q := sigmoid z) in * end.
    match goal with |- context [sigmoid_diff ?a ?b ?c] => set (s := sigmoid_diff a b c) end.
    assert (Hs : s < 0).
    { unfold s, sigmoid_diff. replace (q * (1 - q) * (- (1 / q - (1 - 1) / (1 - q)) - q)) with (- ((1 - q) * (1 + q ^ 2))) by (field; lra). nra. }
    clearbody s. clear Q q. change (INR 1) with 1. unfold Rdiv. rewrite Rinv_1.
    set (r1 := relu_diff _ _). set (r2 := relu_diff _ _). clearbody r1 r2. set (r3 := relu _). set (r4 := relu _). clearbody r3 r4.
    assert (Z : 0 < s * s) by nra. pose proof (Rle_0_sqr r1). pose proof (Rle_0_sqr r2). pose proof (Rle_0_sqr (s * r3)). pose proof (Rle_0_sqr (s * r4)). unfold Rsqr in *. nra.
Qed.

(** ** C50 *)
(** Every update is defined for every sequence of gradients, and the moments are
    decayed averages of the gradients and of their squares; so the second moments
    are never negative. *)
Theorem C50_moments : forall o ls gs, 0 <= beta_1 o < 1 -> 0 <= beta_2 o < 1 -> 0 < epsilon o -> Forall (same_network ls) gs ->
  exists s, adam_updates o gs (adam_init ls) = Ok s /\ same_network ls (params s) /\ forall q, inside q ls ->
    at_place q (m_state s) = decayed (beta_1 o) (map (at_place q) gs) /\
    at_place q (v_state s) = decayed (beta_2 o) (map (fun g => at_place q g ^ 2) gs) /\
    0 <= at_place q (v_state s).
Proof.
  intros o ls gs H1 H2 H3 F. destruct (adam_total o ls gs (conj H1 (conj H2 H3)) F) as (s & E & _). exists s. split; [exact E|].
  destruct (adam_invariant o ls gs s F E) as (S & _ & _ & I). split; [exact S|]. intros q Hq. destruct (I q Hq) as [A B]. split; [exact A|]. split; [exact B|].
  rewrite B. apply decayed_nonneg; [lra|]. apply Forall_forall. intros v Hv. apply in_map_iff in Hv. destruct Hv as (g & <- & _). apply pow2_ge_0.
Qed.
Print Assumptions C50_moments.

(** The weights of a decayed average of t values sum to 1 - b^t: the corrected
    average lies between the smallest and the largest value. *)
Theorem C50_corrected_average : forall b gs lo hi, 0 <= b < 1 -> gs <> [] -> Forall (fun g => lo <= g <= hi) gs ->
  lo <= decayed b gs / (1 - b ^ length gs) <= hi.
Proof.
  intros b gs lo hi Hb N F. assert (Hn : (1 <= length gs)%nat) by (destruct gs; [congruence|simpl; lia]).
  destruct (correction_pos b (length gs) Hb Hn) as [C _]. destruct (decayed_bounds b gs lo hi ltac:(lra) F) as [A B].
  split; apply (Rmult_le_reg_r (1 - b ^ length gs)); try lra; unfold Rdiv; rewrite Rmult_assoc, Rinv_l by lra; lra.
Qed.
Print Assumptions C50_corrected_average.

(** The last update, from the whole history of gradients. *)
Theorem C50_update : forall o ls gs g s', 0 <= beta_1 o < 1 -> 0 <= beta_2 o < 1 -> 0 < epsilon o ->
  Forall (same_network ls) (gs ++ [g]) -> adam_updates o (gs ++ [g]) (adam_init ls) = Ok s' ->
  exists s, adam_updates o gs (adam_init ls) = Ok s /\ forall q, inside q ls ->
    let t := S (length gs) in
    let m := decayed (beta_1 o) (map (at_place q) (gs ++ [g])) in
    let v := decayed (beta_2 o) (map (fun g => at_place q g ^ 2) (gs ++ [g])) in
    at_place q (params s') = at_place q (params s) - rate o * (m / (1 - beta_1 o ^ t)) / (sqrt (v / (1 - beta_2 o ^ t)) + epsilon o).
Proof.
  intros o ls gs g s' H1 H2 H3 F E. destruct (adam_last o ls gs g s' (conj H1 (conj H2 H3)) F E) as (s & E0 & H).
  exists s. split; [exact E0|]. intros q Hq. now destruct (H q Hq) as [_ ->].
Qed.
Print Assumptions C50_update.

(** If the gradient of a parameter is the same in all epochs, its estimate is exact:
    the parameter moves by rate * g / (|g| + epsilon) in every epoch. *)
Theorem C50_constant_gradient : forall o ls gs g s s' q c, 0 <= beta_1 o < 1 -> 0 <= beta_2 o < 1 -> 0 < epsilon o ->
  Forall (same_network ls) (gs ++ [g]) -> adam_updates o gs (adam_init ls) = Ok s -> adam_updates o (gs ++ [g]) (adam_init ls) = Ok s' ->
  inside q ls -> Forall (fun g => at_place q g = c) (gs ++ [g]) ->
  at_place q (params s') = at_place q (params s) - rate o * c / (Rabs c + epsilon o).
Proof.
  intros o ls gs g s s' q c H1 H2 H3 F E E' Hq K. destruct (adam_last o ls gs g s' (conj H1 (conj H2 H3)) F E') as (s0 & E0 & H).
  assert (s0 = s) by congruence. subst s0. destruct (H q Hq) as [_ ->].
  assert (L : length (gs ++ [g]) = S (length gs)) by (rewrite app_length; simpl; lia).
  assert (R1 : forall (f : R -> R) v, Forall (fun g => f (at_place q g) = v) (gs ++ [g]) -> map (fun g => f (at_place q g)) (gs ++ [g]) = repeat v (S (length gs))).
  { intros f v. rewrite <- L. generalize (gs ++ [g]) as l. induction l as [|a l IH]; intros Fl; [reflexivity|]. inversion Fl; subst. cbn [map length repeat]. now rewrite IH. }
  assert (R0' : map (at_place q) (gs ++ [g]) = repeat c (S (length gs))) by exact (R1 (fun v => v) c K). rewrite R0'. rewrite (R1 (fun v => v ^ 2) (c ^ 2)) by (eapply Forall_impl; [|exact K]; intros a Ha; cbv beta in *; now rewrite Ha).
  rewrite !decayed_const. destruct (correction_pos _ (S (length gs)) H1 ltac:(lia)) as [C1 _]. destruct (correction_pos _ (S (length gs)) H2 ltac:(lia)) as [C2 _].
  replace ((1 - beta_1 o ^ S (length gs)) * c / (1 - beta_1 o ^ S (length gs))) with c by (field; lra).
  replace ((1 - beta_2 o ^ S (length gs)) * c ^ 2 / (1 - beta_2 o ^ S (length gs))) with (c ^ 2) by (field; lra).
  rewrite <- Rsqr_pow2, sqrt_Rsqr_abs. reflexivity.
Qed.
Print Assumptions C50_constant_gradient.

(** However large the gradients are, no parameter moves further than a fixed
    multiple of the rate in one epoch. *)
Theorem C50_step_bound : forall o ls gs g s s' q, 0 <= rate o -> 0 <= beta_1 o <= beta_2 o -> 0 < beta_2 o < 1 -> 0 < epsilon o ->
  Forall (same_network ls) (gs ++ [g]) -> adam_updates o gs (adam_init ls) = Ok s -> adam_updates o (gs ++ [g]) (adam_init ls) = Ok s' ->
  inside q ls ->
  Rabs (at_place q (params s') - at_place q (params s)) <=
  rate o * sqrt ((1 - beta_1 o) * beta_2 o / ((1 - beta_2 o) * (beta_2 o - beta_1 o ^ 2))).
Proof.
  intros o ls gs g s s' q Hr H1 H2 H3 F E E' Hq.
  destruct (adam_last o ls gs g s' ltac:(repeat split; lra) F E') as (s0 & E0 & H). assert (s0 = s) by congruence. subst s0.
  destruct (H q Hq) as [V ->]. match goal with |- Rabs (?a - ?b - ?a) <= _ => replace (a - b - a) with (- b) by ring end. rewrite Rabs_Ropp.
  apply step_size; try lra; [lia|].
  pose proof (moments_bound (beta_1 o) (beta_2 o) (map (at_place q) (gs ++ [g])) ltac:(lra) ltac:(nra) ltac:(lra)) as B.
  rewrite map_map in B. exact B.
Qed.
Print Assumptions C50_step_bound.

(** Training is the updates with the gradients of the drawn samples, each taken at
    the parameters of its time, and it never fails. *)
Lemma firstn_S_nth {A} (l : list A) d : forall j, (j < length l)%nat -> firstn (S j) l = firstn j l ++ [nth j l d].
Proof. induction l as [|a l IH]; intros j Hj; simpl in Hj; [lia|]. destruct j; [reflexivity|]. cbn [firstn nth app]. f_equal. apply (IH j). lia. Qed.
Theorem C50_run : forall o d c w x y ls draws, 0 <= beta_1 o < 1 -> 0 <= beta_2 o < 1 -> 0 < epsilon o ->
  Forall (fun r => length r = d) x -> length y = length x -> w = 1%nat \/ w = c -> Forall (fun r => length r = w) y ->
  wired d ls c -> Forall (fun i => (i < length x)%nat) draws ->
  exists gs s, adam_run o x y ls draws = Ok (params s) /\ adam_updates o gs (adam_init ls) = Ok s /\
    length gs = length draws /\ Forall (same_network ls) gs /\ same_network ls (params s) /\
    forall k, (k < length draws)%nat -> exists sk, adam_updates o (firstn k gs) (adam_init ls) = Ok sk /\
      sample_gradient x y (params sk) (nth k draws 0%nat) = Ok (nth k gs []).
Proof.
  intros o d c w x y ls draws H1 H2 H3 Fx Ly Hw Fy W F.
  destruct (adam_run_total o d c w x y ls (conj H1 (conj H2 H3)) Fx Ly Hw Fy W draws F) as (s & gs0 & E & U & L0 & F0 & SN).
  destruct (adam_run_updates o x y draws (adam_init ls) s E) as (gs & L & U2 & G).
  exists gs, s. split; [unfold adam_run; now rewrite E|]. split; [exact U2|]. split; [exact L|]. split; [|split; [exact SN|exact G]].
  apply Forall_forall. intros g Hg. apply In_nth with (d := []) in Hg. destruct Hg as (k & Hk & <-).
  assert (Step : forall j, (j <= length draws)%nat -> Forall (same_network ls) (firstn j gs)).
  { induction j as [|j IH]; intros Hj; [constructor|].
    assert (FS : firstn (S j) gs = firstn j gs ++ [nth j gs []]) by (apply firstn_S_nth; lia). rewrite FS. apply Forall_app. split; [apply IH; lia|]. constructor; [|constructor].
    destruct (G j ltac:(lia)) as (sk & Ek & Eg). destruct (adam_invariant o ls _ sk (IH ltac:(lia)) Ek) as (Sk & _).
    destruct (sample_gradient_total d c w (params sk) x y (nth j draws 0%nat)) as (g' & Eg' & Sg); auto; [now apply (wired_same c ls)| |].
    - rewrite Forall_forall in F. apply F, nth_In. lia.
    - rewrite Eg in Eg'. injection Eg' as <-. now apply (same_network_trans _ (params sk)). }
  specialize (Step (length draws) (le_n _)). rewrite <- L, firstn_all in Step. rewrite Forall_forall in Step. now apply Step, nth_In.
Qed.
Print Assumptions C50_run.

(** The default options; three epochs on the example network. *)
Definition default_options : adam_options := {| rate := 1 / 1000; beta_1 := 9 / 10; beta_2 := 999 / 1000; epsilon := 1 / 10000000 |}.
Example C50_ex : 0 <= beta_1 default_options <= beta_2 default_options /\ 0 < beta_2 default_options < 1 /\ 0 < epsilon default_options /\
  inside (Weight 1 0 1) net1 /\ exists gs, length gs = 3%nat /\ Forall (same_network net1) gs /\
  (exists s, adam_run default_options [[1]; [- / 4]] [[1]; [0]] net1 [0; 1; 0]%nat = Ok (params s) /\ adam_updates default_options gs (adam_init net1) = Ok s).
Proof.
  split; [cbn; lra|]. split; [cbn; lra|]. split; [cbn; lra|]. split; [cbn; lia|].
  destruct (C50_run default_options 1 1 1 [[1]; [- / 4]] [[1]; [0]] net1 [0; 1; 0]%nat) as (gs & s & A & B & C & D & _);
    [cbn; lra|cbn; lra|cbn; lra|repeat constructor|reflexivity|now left|repeat constructor|cbn; repeat split; try discriminate; repeat constructor|repeat constructor; simpl; lia|].
  exists gs. split; [exact C|]. split; [exact D|]. now exists s.
Qed.
