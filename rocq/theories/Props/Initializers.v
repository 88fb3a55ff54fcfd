(** Property theorems C73-C75: initial parameters
    (classicML/backend/python/initializers.py, classicML/backend/cc/initializers). *)
From Coq Require Import List ZArith Reals Lra Lia Bool Arith.
From Verif.Model Require Import Base Network Rbf Initializers.
From Verif.Spec Require Import Common Network Initializers.
From Verif.Proof Require Import BaseLemmas Initializers NetworkStep NetworkMain.
Import ListNotations.
Local Open Scope R_scope.

(** ** C73: seeds *)

(** What is made after building an instance with a seed depends on that seed and
    on the calls after it, on nothing that happened before: not on earlier seeds,
    and not on which instance is called. *)
Theorem C73_last_seed_decides : forall G seeded gauss uniform (p q : list (action G)) s w w0,
  Forall (fun a => a <> Build None) q ->
  snd (acts G seeded gauss uniform w (p ++ Build (Some s) :: q)) =
  snd (acts G seeded gauss uniform w p) ++ snd (acts G seeded gauss uniform w0 (Build (Some s) :: q)).
Proof. exact seed_wins. Qed.
Print Assumptions C73_last_seed_decides.

(** Building an instance without seed discards a seed set before. *)
Theorem C73_unseeded_discards_seed : forall G seeded gauss uniform (q : list (action G)) s s' w,
  snd (acts G seeded gauss uniform w (Build (Some s) :: Build None :: q)) =
  snd (acts G seeded gauss uniform w (Build (Some s') :: Build None :: q)).
Proof. reflexivity. Qed.
Print Assumptions C73_unseeded_discards_seed.

(** A second call goes on in the sequence of draws where the first stopped. *)
Theorem C73_calls_continue : forall G seeded gauss uniform f s f' n k s0 w,
  vector_factor f' n = Ok k ->
  exists ls v, snd (acts G seeded gauss uniform w [Build (Some s0); Layers f s; Vector f' n]) = [Ok (MadeLayers ls); Ok (MadeVector v)] /\
    length v = S n /\ forall i, (i <= n)%nat -> nth i v 0 = value_number gauss (seeded s0) (weights_before s (length s) + i) * k.
Proof.
  intros G seeded gauss uniform f s f' n k s0 w E. cbn [acts act gen].
  pose proof (init_layers_state G gauss f s (seeded s0)) as St. destruct (init_layers G gauss f s (seeded s0)) as [ls g]. cbn [snd gen] in *.
  rewrite (init_vector_spec G gauss f' n g k E). eexists ls, _. split; [reflexivity|]. split; [now rewrite map_length, seq_length|].
  intros i Hi. rewrite nth_map_seq by lia. cbn [Nat.add]. subst g. now rewrite value_after.
Qed.
Print Assumptions C73_calls_continue.

(** The claim that an instance makes the parameters of its own seed fails as soon as
    another instance is built in between: a generator whose state is its last value. *)
Definition counter (g : Z) : R * Z := (IZR g, (g + 1)%Z).
Theorem C73_own_seed_refuted : exists s other, snd (acts Z (fun s => s) counter counter {| gen := 0%Z; entropy := [] |} [Build (Some s); Vector Plain 1]) <>
  snd (acts Z (fun s => s) counter counter {| gen := 0%Z; entropy := [] |} [Build (Some s); Build (Some other); Vector Plain 1]).
Proof.
  exists 1%Z, 5%Z. cbn. intros E. injection E as E _. rewrite !Rmult_1_r in E. apply eq_IZR in E. discriminate.
Qed.
Print Assumptions C73_own_seed_refuted.

Example C73_ex : snd (acts Z (fun s => s) counter counter {| gen := 9%Z; entropy := [] |}
    [Other (fun g => (g + 1)%Z); Build (Some 2%Z); Layers Plain [2; 1]%nat; Vector Plain 1]) =
  [Ok (MadeLayers [([[2 * 1; 3 * 1]], [0])]); Ok (MadeVector [4 * 1; 5 * 1])].
Proof. reflexivity. Qed.

(** ** C74: the initial parameters *)

(** A weight matrix has one row for each neuron and one column for each input, the
    biases are 0, and weight (i, j) of layer k is its own draw times the factor of
    the layer. *)
Theorem C74_layers : forall G gauss f s g k i j, (S k < length s)%nat -> (i < nth (S k) s 0)%nat -> (j < nth k s 0)%nat ->
  let ls := fst (init_layers G gauss f s g) in
  let n_in := nth k s 0%nat in let n_out := nth (S k) s 0%nat in
  at_place (Bias k i) ls = 0 /\
  at_place (Weight k i j) ls = value_number gauss g (weights_before s k + (i * n_in + j)) *
    match f with Plain => 1 | He => sqrt (2 / INR n_in) | Xavier => sqrt (2 / (INR n_in + INR n_out)) end.
Proof.
  intros G gauss f s g k i j Hk Hi Hj. destruct (init_layers_values G gauss f s g k i j Hk Hi) as [B W]. cbv zeta. split; [exact B|].
  rewrite (W Hj). reflexivity.
Qed.
Print Assumptions C74_layers.

(** Different weights use different draws. *)
Theorem C74_distinct_draws : forall s k i j k' i' j',
  (S k < length s)%nat -> (i < nth (S k) s 0)%nat -> (j < nth k s 0)%nat ->
  (S k' < length s)%nat -> (i' < nth (S k') s 0)%nat -> (j' < nth k' s 0)%nat ->
  (weights_before s k + (i * nth k s 0 + j) = weights_before s k' + (i' * nth k' s 0 + j'))%nat -> k = k' /\ i = i' /\ j = j'.
Proof. exact draw_number_inj. Qed.
Print Assumptions C74_distinct_draws.

(** The network fits every input of the declared width, and no number of training
    epochs can fail on it. *)
Theorem C74_training_runs : forall G gauss f g d hidden c rate w x y draws, hidden <> [] -> Forall (fun n => (1 <= n)%nat) hidden -> last hidden 0%nat = c ->
  Forall (fun r => length r = d) x -> length y = length x -> w = 1%nat \/ w = c -> Forall (fun r => length r = w) y ->
  Forall (fun i => (i < length x)%nat) draws ->
  let ls := fst (init_layers G gauss f (d :: hidden) g) in
  wired d ls c /\ exists ls', sgd_run rate x y ls draws = Ok ls' /\ wired d ls' c.
Proof.
  intros G gauss f g d hidden c rate w x y draws Hh F L Fx Ly Hw Fy Fd ls. assert (W : wired d ls c) by now apply init_layers_shape.
  split; [exact W|]. destruct (sgd_run_total rate d c w x y Fx Ly Hw Fy draws ls W Fd) as (ls' & E & _ & W'). now exists ls'.
Qed.
Print Assumptions C74_training_runs.

(** The start vector of logistic regression: one parameter for each attribute and
    the constant. *)
Theorem C74_vector : forall G gauss f n g, (1 <= n)%nat -> exists v g', init_vector G gauss f n g = Ok (v, g') /\ length v = S n /\
  forall i, (i <= n)%nat -> nth i v 0 = value_number gauss g i * match f with Plain => 1 | He => sqrt (2 / INR n) | Xavier => sqrt (INR n) end.
Proof.
  intros G gauss f n g Hn.
  assert (E : vector_factor f n = Ok match f with Plain => 1 | He => sqrt (2 / INR n) | Xavier => sqrt (INR n) end).
  { destruct f; simpl; try reflexivity. destruct n; [lia|reflexivity]. }
  eexists _, _. split; [exact (init_vector_spec G gauss f n g _ E)|]. split; [now rewrite map_length, seq_length|].
  intros i Hi. rewrite nth_map_seq by lia. reflexivity.
Qed.
Print Assumptions C74_vector.

(** So the Xavier start vector grows with the number of attributes, while the same
    draws as the weights of a single neuron shrink: the two forms of one
    initializer disagree. *)
Theorem C74_xavier_forms_differ : forall G gauss n g v g' i, (2 <= n)%nat -> (i < n)%nat -> init_vector G gauss Xavier n g = Ok (v, g') ->
  let w := at_place (Weight 0 0 i) (fst (init_layers G gauss Xavier [n; 1]%nat g)) in
  nth i v 0 <> 0 -> w * nth i v 0 > 0 /\ Rabs w < Rabs (value_number gauss g i) < Rabs (nth i v 0).
Proof.
  intros G gauss n g v g' i Hn Hi E w Nz. destruct (C74_vector G gauss Xavier n g ltac:(lia)) as (v0 & g0 & E0 & _ & V). rewrite E in E0. injection E0 as <- <-.
  rewrite V in * by lia. assert (Ew : w = value_number gauss g i * sqrt (2 / (INR n + 1))).
  { unfold w. destruct (C74_layers G gauss Xavier [n; 1]%nat g 0 0 i) as [_ H]; [simpl; lia|simpl; lia|simpl; lia|]. exact H. }
  rewrite Ew. set (t := value_number gauss g i) in *. apply (le_INR 2 n) in Hn. change (INR 2) with 2 in Hn.
  assert (P : 0 < 2 / (INR n + 1)) by (apply Rmult_lt_0_compat; [lra|apply Rinv_0_lt_compat; lra]).
  assert (Q : 2 / (INR n + 1) < 1) by (apply (Rmult_lt_reg_r (INR n + 1)); [lra|]; unfold Rdiv; rewrite Rmult_assoc, Rinv_l by lra; lra).
  assert (A : sqrt (2 / (INR n + 1)) < sqrt 1) by (apply sqrt_lt_1; lra).
  assert (B : sqrt 1 < sqrt (INR n)) by (apply sqrt_lt_1; lra). rewrite sqrt_1 in A, B.
  pose proof (sqrt_lt_R0 _ P) as P'. assert (Nt : t <> 0) by (intros ->; apply Nz; ring).
  pose proof (Rabs_pos_lt t Nt) as At. assert (T2 : 0 < t * t) by nra.
  rewrite !Rabs_mult, (Rabs_right (sqrt (2 / (INR n + 1)))), (Rabs_right (sqrt (INR n))) by lra. split; [|split; nra].
  replace (t * sqrt (2 / (INR n + 1)) * (t * sqrt (INR n))) with (t * t * (sqrt (2 / (INR n + 1)) * sqrt (INR n))) by ring.
  apply Rmult_lt_0_compat; [exact T2|]. apply Rmult_lt_0_compat; lra.
Qed.
Print Assumptions C74_xavier_forms_differ.

(** The start of the radial basis function network: zero output whatever the
    draws, two-dimensional centres, one width for each. *)
Theorem C74_rbf : forall G gauss uniform h g,
  let p := fst (init_rbf G gauss uniform h g) in
  length (rw p) = h /\ (forall i, nth i (rw p) 0 = 0) /\ rb p = 0 /\
  length (rc p) = h /\ length (rbeta p) = h /\
  (forall i j, (i < h)%nat -> (j < 2)%nat -> nth j (nth i (rc p) []) 0 = value_number uniform g (i * 2 + j)) /\
  (forall i, (i < h)%nat -> nth i (rbeta p) 0 = value_number gauss (state_after uniform g (h * 2)) i) /\
  (forall x, Forall (fun r => length r = 2%nat) x -> rbf_predict p x = Ok (map (fun _ => 0) x)).
Proof. exact init_rbf_spec. Qed.
Print Assumptions C74_rbf.

Example C74_ex : fst (init_layers Z counter Plain [1; 2; 1]%nat 3%Z) = [([[3 * 1]; [4 * 1]], [0; 0]); ([[5 * 1; 6 * 1]], [0])] /\
  wired 1 (fst (init_layers Z counter He [1; 2; 1]%nat 3%Z)) 1.
Proof. split; [reflexivity|]. apply (init_layers_shape Z counter He [2; 1]%nat 1 1 3%Z); [discriminate| |reflexivity]. repeat constructor. Qed.

(** ** C75: the C++ initializers *)

(** Every layer restarts the sequence of the seed.  Without a value left over by the
    previous matrix, weight (i, j) of any layer is draw number j * n_out + i. *)
Theorem C75_layers : forall E engine polar f s seed k i j, Forall (fun n => (1 <= n)%nat) s ->
  (S k < length s)%nat -> (i < nth (S k) s 0)%nat -> (j < nth k s 0)%nat -> Nat.even (weights_before s k) = true ->
  let n_in := nth k s 0%nat in let n_out := nth (S k) s 0%nat in
  at_place (Weight k i j) (fst (cc_init_layers E engine polar f s seed None)) =
  paired_value polar (engine seed) (j * n_out + i) *
    match f with Plain => 1 | He => sqrt (2 / INR n_in) | Xavier => sqrt (2 / (INR n_in + INR n_out)) end.
Proof. intros. subst n_in n_out. rewrite cc_layers_none by assumption. reflexivity. Qed.
Print Assumptions C75_layers.

(** A value is left over when an odd number of weights precedes: then the draws are
    shifted by one place, and the first one comes from the matrix before. *)
Theorem C75_layers_shifted : forall E engine polar f s seed k i j, Forall (fun n => (1 <= n)%nat) s ->
  (S k < length s)%nat -> (i < nth (S k) s 0)%nat -> (j < nth k s 0)%nat -> Nat.even (weights_before s k) = false ->
  let n_in := nth k s 0%nat in let n_out := nth (S k) s 0%nat in
  (0 < j * n_out + i)%nat ->
  at_place (Weight k i j) (fst (cc_init_layers E engine polar f s seed None)) =
  paired_value polar (engine seed) (j * n_out + i - 1) *
    match f with Plain => 1 | He => sqrt (2 / INR n_in) | Xavier => sqrt (2 / (INR n_in + INR n_out)) end.
Proof.
  intros E engine polar f s seed k i j F Hk Hi Hj Ev n_in n_out Hm.
  destruct (cc_layers_values E engine polar f s seed None k i j F Hk Hi Hj) as (_ & sp & H1 & _ & H2).
  rewrite <- Nat.negb_even, Ev in H1. destruct sp as [v|]; [|discriminate]. rewrite H2.
  unfold matrix_draw. fold n_out. destruct (j * n_out + i)%nat as [|q]; [lia|]. replace (S q - 1)%nat with q by lia. reflexivity.
Qed.
Print Assumptions C75_layers_shifted.

(** So two layers of the same shape start with the same weights. *)
Theorem C75_equal_layers : forall E engine polar f s seed k k', Forall (fun n => (1 <= n)%nat) s ->
  (S k < length s)%nat -> (S k' < length s)%nat -> nth k s 0%nat = nth k' s 0%nat -> nth (S k) s 0%nat = nth (S k') s 0%nat ->
  Nat.even (weights_before s k) = true -> Nat.even (weights_before s k') = true ->
  forall i j, (i < nth (S k) s 0)%nat -> (j < nth k s 0)%nat ->
  let ls := fst (cc_init_layers E engine polar f s seed None) in
  at_place (Weight k i j) ls = at_place (Weight k' i j) ls /\ at_place (Bias k i) ls = at_place (Bias k' i) ls.
Proof.
  intros E engine polar f s seed k k' F Hk Hk' E1 E2 V V' i j Hi Hj ls. subst ls. split.
  - rewrite cc_layers_none by assumption. rewrite E1, E2. rewrite cc_layers_none; [reflexivity|assumption|assumption|congruence|congruence|assumption].
  - destruct (cc_layers_values E engine polar f s seed None k i j F Hk Hi Hj) as [-> _].
    destruct (cc_layers_values E engine polar f s seed None k' i j F Hk' ltac:(lia) ltac:(lia)) as [-> _]. reflexivity.
Qed.
Print Assumptions C75_equal_layers.

(** The vector form: with nothing left over from before, value [i] is draw [i] of the
    seed; a value left over comes first and shifts the draws.  The parity decides what is
    left over for the next call. *)
Theorem C75_vector : forall E engine polar f n seed spare, (1 <= n)%nat ->
  exists v, cc_init_vector E engine polar f n seed spare = Ok (v, match spare with
       | None => if Nat.even n then Some (paired_value polar (engine seed) (S n)) else None
       | Some _ => if Nat.even n then None else Some (paired_value polar (engine seed) n)
       end) /\ length v = S n /\
    forall i, (i <= n)%nat -> nth i v 0 =
      match spare, i with None, _ => paired_value polar (engine seed) i | Some s, O => s | Some _, S j => paired_value polar (engine seed) j end *
      match f with Plain => 1 | He => sqrt (2 / INR n) | Xavier => sqrt (INR n) end.
Proof.
  intros E engine polar f n seed spare Hn. unfold cc_init_vector.
  assert (Ek : vector_factor f n = Ok match f with Plain => 1 | He => sqrt (2 / INR n) | Xavier => sqrt (INR n) end).
  { destruct f; simpl; try reflexivity. destruct n; [lia|reflexivity]. }
  rewrite Ek. cbn [bind]. rewrite cc_normal_matrix_spec by lia. set (k := match f with Plain => 1 | He => _ | Xavier => _ end).
  exists (map (fun i => matrix_draw E engine polar seed spare i * k) (seq 0 (S n))). split; [|split].
  - f_equal. f_equal.
    + rewrite <- (concat_singletons (fun i => matrix_draw E engine polar seed spare i * k)). f_equal. unfold scaled. rewrite map_map. apply map_ext.
      intros i. reflexivity.
    + rewrite Nat.mul_1_r, Nat.even_succ, <- Nat.negb_even. destruct (Nat.even n), spare; cbn [negb]; auto. now rewrite Nat.sub_succ, Nat.sub_0_r.
  - now rewrite map_length, seq_length.
  - intros i Hi. rewrite (nth_map_seq (fun i => matrix_draw E engine polar seed spare i * k) 0) by lia. unfold matrix_draw. destruct spare, i; reflexivity.
Qed.
Print Assumptions C75_vector.

(** The radial basis form.  The centres are filled column by column, and the widths
    restart the same seed. *)
Theorem C75_rbf : forall E engine polar real h seed spare, (1 <= h)%nat ->
  let p := fst (cc_init_rbf E engine polar real h seed spare) in
  rw p = repeat 0 h /\ rb p = 0 /\ length (rc p) = h /\ length (rbeta p) = h /\
  (forall i j, (i < h)%nat -> (j < 2)%nat -> nth j (nth i (rc p) []) 0 = value_number real (engine seed) (j * h + i)%nat) /\
  (forall i, (i < h)%nat -> nth i (rbeta p) 0 =
     match spare, i with None, _ => paired_value polar (engine seed) i | Some s, O => s | Some _, S j => paired_value polar (engine seed) j end) /\
  (forall x, Forall (fun r => length r = 2%nat) x -> rbf_predict p x = Ok (map (fun _ => 0) x)).
Proof.
  intros E engine polar real h seed spare Hh p. subst p. unfold cc_init_rbf. rewrite cc_normal_matrix_spec by lia. cbn [fst rw rb rc rbeta].
  assert (Eb : concat (map (fun i => map (fun j => matrix_draw E engine polar seed spare (j * 1 + i)%nat) (seq 0 h)) (seq 0 1)) =
               map (matrix_draw E engine polar seed spare) (seq 0 h)).
  { cbn [seq map concat]. rewrite app_nil_r. apply map_ext. intros j. f_equal. lia. }
  rewrite Eb. clear Eb.
  set (cs := cc_uniform_matrix E engine real h 2 seed).
  assert (Ec : cs = map (fun i => map (fun j => value_number real (engine seed) (j * h + i)%nat) (seq 0 2)) (seq 0 h)).
  { unfold cs, cc_uniform_matrix. rewrite draw_list_spec. cbn [fst]. unfold rows_of_columns. apply map_ext_in. intros i Hi. apply map_ext_in. intros j Hj.
    apply in_seq in Hi, Hj. now rewrite nth_map_seq by nia. }
  split; [reflexivity|]. split; [reflexivity|]. split; [now rewrite Ec, map_length, seq_length|]. split; [now rewrite map_length, seq_length|]. split; [|split].
  - intros i j Hi Hj. rewrite Ec. rewrite (nth_map_seq (fun i => map (fun j => value_number real (engine seed) (j * h + i)%nat) (seq 0 2)) []) by lia.
    now rewrite (nth_map_seq (fun j => value_number real (engine seed) (j * h + i)%nat) 0) by lia.
  - intros i Hi. rewrite (nth_map_seq (matrix_draw E engine polar seed spare) 0) by lia. unfold matrix_draw. destruct spare, i; reflexivity.
  - apply zero_weights_predict.
    + now rewrite map_length, seq_length.
    + rewrite Ec. apply Forall_forall. intros c Hc. apply in_map_iff in Hc. destruct Hc as (q & <- & _). now rewrite map_length, seq_length.
    + now rewrite Ec, map_length, seq_length.
Qed.
Print Assumptions C75_rbf.

Example C75_vector_example : exists v sp, cc_init_vector nat Z.to_nat (fun n => (1, 2, S n)) Plain 2 7 (Some 5) = Ok (v, sp) /\ v = [5 * 1; 1 * 1; 2 * 1].
Proof. eexists _, _. split; [reflexivity|]. reflexivity. Qed.

(** The shapes are those of the Python backend. *)
Theorem C75_shapes : forall E engine polar f d hidden c seed spare, hidden <> [] -> Forall (fun n => (1 <= n)%nat) (d :: hidden) -> last hidden 0%nat = c ->
  wired d (fst (cc_init_layers E engine polar f (d :: hidden) seed spare)) c.
Proof. intros. now apply cc_layers_shape. Qed.
Print Assumptions C75_shapes.

(** A call repeated with the same seed makes the same network if the network has an
    even number of weights. *)
Theorem C75_repeat : forall E engine polar f s seed ls spare, Forall (fun n => (1 <= n)%nat) s ->
  Nat.even (weights_before s (length s)) = true ->
  cc_init_layers E engine polar f s seed None = (ls, spare) -> cc_init_layers E engine polar f s seed spare = (ls, spare).
Proof.
  intros E engine polar f s seed ls spare F V H. pose proof (cc_layers_spare E engine polar f s seed None F) as Sp.
  rewrite H in Sp. rewrite <- Nat.negb_even, V in Sp. destruct spare; [discriminate|]. exact H.
Qed.
Print Assumptions C75_repeat.

(** With an odd number it does not: the second network starts with the value the
    first one left over. *)
Theorem C75_repeat_refuted : exists (engine : Z -> nat) polar ls spare, 
  cc_init_layers nat engine polar Plain [1; 1]%nat 7 None = (ls, spare) /\ fst (cc_init_layers nat engine polar Plain [1; 1]%nat 7 spare) <> ls.
Proof.
  exists Z.to_nat, (fun n => (1, 2, S n)). eexists _, _. split; [reflexivity|]. cbn. intros H. injection H as H. lra.
Qed.
Print Assumptions C75_repeat_refuted.

(** Three layers of one shape: 2 inputs, 2 neurons, 2 neurons. *)
Example C75_ex : let s := [2; 2; 2]%nat in Forall (fun n => (1 <= n)%nat) s /\ Nat.even (weights_before s 0) = true /\ Nat.even (weights_before s 1) = true /\
  Nat.even (weights_before s 3) = true /\ Nat.even (weights_before [1; 1; 1]%nat 1) = false /\
  fst (cc_init_layers nat Z.to_nat (fun n => (INR n, INR (S n), S (S n))) Plain s 1 None) =
    [([[1 * 1; (1 + 1 + 1) * 1]; [(1 + 1) * 1; (1 + 1 + 1 + 1) * 1]], [0; 0]); ([[1 * 1; (1 + 1 + 1) * 1]; [(1 + 1) * 1; (1 + 1 + 1 + 1) * 1]], [0; 0])].
Proof. cbv zeta. repeat split; repeat constructor. Qed.
