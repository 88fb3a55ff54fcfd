(** Proofs about the choice among compiled overloads. *)
From Coq Require Import List ZArith Bool Arith Lia.
From Verif.Model Require Import Base Dispatch.
From Verif.Spec Require Import Dispatch.
Import ListNotations.

Lemma load_matrix_convert ti ai w v : load ti ai true (matrix w) v = true <-> usable v.
Proof.
  unfold load, matrix, usable; cbn [orb]. rewrite andb_true_iff. destruct v; cbn.
  - destruct shape as [| a [| b [| c s]]]; cbn; intuition (try discriminate; try lia).
  - destruct shape as [| a [| b [| c s]]]; cbn; intuition (try discriminate; try lia).
  - intuition discriminate. 
  - intuition discriminate.
  - intuition discriminate.
  - intuition discriminate.
  - intuition discriminate.
  - intuition discriminate.
  - intuition discriminate.
Qed.
Lemma load_matrix_strict ti ai w v :
  load ti ai false (matrix w) v = true <-> usable v /\ array_of (real_dtype w) v.
Proof.
  split.
  - intros H. assert (U : load ti ai true (matrix w) v = true).
    { unfold load, matrix in *. apply andb_prop in H as [H F]. apply andb_prop in H as [_ N]. now rewrite N, F. }
    apply load_matrix_convert in U. split; auto.
    unfold load, matrix in H. apply andb_prop in H as [H _]. apply andb_prop in H as [H _]. cbn [orb] in H.
    destruct v; try discriminate. exists shape. destruct w, t; cbn in H; try discriminate; reflexivity.
  - intros [U [s ->]]. apply (load_matrix_convert ti ai w) in U. unfold load, matrix in *. cbn [orb andb] in *.
    rewrite <- U. destruct w; reflexivity.
Qed.
Lemma accepts_repeat ti ai conv p k vs :
  accepts ti ai conv false (repeat p k) vs = true <-> length vs = k /\ Forall (fun v => load ti ai conv p v = true) vs.
Proof.
  revert vs; induction k as [| k IH]; intros [| v vs]; cbn.
  - intuition.
  - intuition discriminate.
  - intuition discriminate.
  - rewrite andb_true_iff, IH. split.
    + intros (A & B & C). split; [lia | constructor; auto].
    + intros [A B]. inversion B; subst. auto.
Qed.
Lemma exclusive v : array_of Float32 v -> array_of Float64 v -> False.
Proof. intros [s ->] [s' E]. discriminate. Qed.

Lemma dispatch_matrices ti ai k vs : (0 < k)%nat ->
  let os := both (fun w => repeat (matrix w) k) in
  (length vs = k -> Forall usable vs -> Forall (array_of Float64) vs -> dispatch ti ai os vs = Ok (1, Double)) /\
  (length vs = k -> Forall usable vs -> ~ Forall (array_of Float64) vs -> dispatch ti ai os vs = Ok (1, Single)) /\
  (length vs <> k \/ ~ Forall usable vs -> dispatch ti ai os vs = Err TypeError).
Proof.
  intros K os.
  assert (A : forall conv w, accepts ti ai conv false (repeat (matrix w) k) vs = true <->
    length vs = k /\ Forall usable vs /\ (conv = true \/ Forall (array_of (real_dtype w)) vs)).
  { intros conv w. rewrite accepts_repeat. split; intros [L H].
    - split; auto. destruct conv.
      + split; auto. revert H. apply Forall_impl. intros v. apply load_matrix_convert.
      + split; [| right]; revert H; apply Forall_impl; intros v H; now apply load_matrix_strict in H.
    - split; auto. destruct H as [U H]. destruct conv.
      + revert U. apply Forall_impl. intros v. apply load_matrix_convert.
      + destruct H as [H | H]; [discriminate |]. rewrite Forall_forall in *. intros v I.
        apply load_matrix_strict. auto. }
  assert (F : forall (b : bool) (P : Prop), (b = true <-> P) -> ~ P -> b = false).
  { intros [] P E N; auto. destruct N. now apply E. }
  unfold dispatch, first_match, os, both, plain; cbn [find params variadic variant wide].
  split; [| split].
  - intros L U D. rewrite (F _ _ (A false Single)).
    + assert (E := proj2 (A false Double) (conj L (conj U (or_intror D)))). now rewrite E.
    + intros (_ & _ & [C | C]); [discriminate |]. destruct vs as [| v vs]; [cbn in L; lia |].
      inversion C; inversion D; subst. now apply (exclusive v).
  - intros L U D. destruct (accepts ti ai false false (repeat (matrix Single) k) vs) eqn:E; [reflexivity |].
    rewrite (F _ _ (A false Double)).
    + assert (E' := proj2 (A true Single) (conj L (conj U (or_introl eq_refl)))). now rewrite E'.
    + intros (_ & _ & [C | C]); [discriminate | auto].
  - intros H. rewrite !(F _ _ (A _ _)); [reflexivity | ..]; intros (L & U & _); tauto.
Qed.

Lemma dispatch_matrix_functions ti ai os k vs : In (os, k) matrix_functions ->
  (length vs = k -> Forall usable vs -> Forall (array_of Float64) vs -> dispatch ti ai os vs = Ok (1, Double)) /\
  (length vs = k -> Forall usable vs -> ~ Forall (array_of Float64) vs -> dispatch ti ai os vs = Ok (1, Single)) /\
  (length vs <> k \/ ~ Forall usable vs -> dispatch ti ai os vs = Err TypeError).
Proof.
  intros I. cbn in I.
  repeat (destruct I as [I | I]; [injection I as <- <-; apply dispatch_matrices; lia |]). destruct I.
Qed.

Lemma dispatch_loss ti ai a b more :
  (usable a -> usable b -> array_of Float64 a -> array_of Float64 b ->
   dispatch ti ai loss (a :: b :: more) = Ok (1, Double)) /\
  (usable a -> usable b -> ~ (array_of Float64 a /\ array_of Float64 b) ->
   dispatch ti ai loss (a :: b :: more) = Ok (1, Single)) /\
  (~ usable a \/ ~ usable b -> dispatch ti ai loss (a :: b :: more) = Err TypeError).
Proof.
  assert (A : forall conv w, accepts ti ai conv true [matrix w; matrix w] (a :: b :: more) =
                             load ti ai conv (matrix w) a && load ti ai conv (matrix w) b).
  { intros. cbn [accepts]. destruct more; now rewrite andb_true_r. }
  unfold dispatch, first_match, loss; cbn [map find params variadic variant wide]. rewrite !A.
  assert (F : forall (b : bool) (P : Prop), (b = true <-> P) -> ~ P -> b = false).
  { intros [] P E N; auto. destruct N. now apply E. }
  split; [| split].
  - intros Ua Ub Da Db.
    rewrite (F _ _ (load_matrix_strict ti ai Single a)) by (intros [_ S]; now apply (exclusive a)). cbn [andb].
    now rewrite (proj2 (load_matrix_strict ti ai Double a)), (proj2 (load_matrix_strict ti ai Double b)) by auto.
  - intros Ua Ub N. destruct (load ti ai false (matrix Single) a && _); [reflexivity |].
    assert (E : load ti ai false (matrix Double) a && load ti ai false (matrix Double) b = false).
    { apply not_true_is_false. rewrite andb_true_iff, !load_matrix_strict. cbn. tauto. }
    rewrite E. now rewrite !(proj2 (load_matrix_convert ti ai Single _)) by auto.
  - intros N.
    assert (E : forall conv w, load ti ai conv (matrix w) a && load ti ai conv (matrix w) b = false).
    { intros conv w. apply not_true_is_false. rewrite andb_true_iff.
      destruct conv; rewrite ?load_matrix_convert, ?load_matrix_strict; tauto. }
    now rewrite !E.
Qed.
Lemma dispatch_loss_short ti ai vs : (length vs < 2)%nat -> dispatch ti ai loss vs = Err TypeError.
Proof.
  destruct vs as [| a [| b vs]]; cbn [length]; intros; try lia; unfold dispatch, first_match, loss;
    cbn [map find params variadic variant wide accepts]; rewrite ?andb_false_r; reflexivity.
Qed.

(** Bootstrap samples. *)
Lemma load_seed ti ai conv v : plain_seed v -> load ti ai conv COptUInt v = true.
Proof.
  intros [-> | (z & -> & H)]; [reflexivity |]. cbn. unfold in_range. apply andb_true_intro.
  rewrite Z.leb_le, Z.ltb_lt. exact H.
Qed.
Lemma load_ints_strict ti ai t v : t = Int32 \/ t = Int64 ->
  load ti ai false (Dense t AnyShape) v = true <-> usable v /\ array_of t v.
Proof.
  intros T. unfold load; cbn [orb]. split.
  - intros H. apply andb_prop in H as [H F]. apply andb_prop in H as [H N].
    destruct v as [t' s | | | | | | | |]; try discriminate.
    assert (E : t' = t) by (destruct T as [-> | ->], t'; try discriminate; reflexivity). subst t'.
    split; [| now exists s]. split; [exact N |]. destruct s as [| a [| b [| c s]]]; cbn in *; try discriminate; auto.
  - intros [U [s ->]]. destruct U as [N L]. cbn [exactly numbers shape_of].
    rewrite N. destruct T as [-> | ->]; cbn [same_dtype andb];
      destruct s as [| a [| b [| c s]]]; cbn in *; try reflexivity; exfalso; lia.
Qed.
Lemma load_ints_convert ti ai t v : load ti ai true (Dense t AnyShape) v = true <-> usable v.
Proof. change (load ti ai true (Dense t AnyShape) v) with (load ti ai true (matrix Single) v). apply load_matrix_convert. Qed.

Definition decided (b : bool) (P : Prop) : Prop := b = true <-> P.
Lemma decided_true b P : decided b P -> P -> b = true.
Proof. unfold decided; tauto. Qed.
Lemma decided_false b P : decided b P -> ~ P -> b = false.
Proof. unfold decided. intros E N. apply not_true_is_false. tauto. Qed.

Lemma usable_dec v : usable v \/ ~ usable v.
Proof.
  destruct (load true (fun _ _ _ => true) true (matrix Single) v) eqn:E.
  - left. now apply load_matrix_convert in E.
  - right. intros U. apply (load_matrix_convert true (fun _ _ _ => true) Single) in U. congruence.
Qed.
Lemma array_of_dec t v : t <> OtherDtype true -> t <> OtherDtype false -> array_of t v \/ ~ array_of t v.
Proof.
  intros. destruct v as [t' s | | | | | | | |]; try (right; intros [? E]; discriminate).
  destruct t, t'; try (left; exists s; reflexivity); try (right; intros [? E]; congruence);
    destruct numeric; congruence.
Qed.

Lemma bootstrap_shape ti ai x y seed : plain_seed seed ->
  dispatch ti ai bootstrap_sampling [x; y; seed] =
  let s w := load ti ai false (matrix w) x in
  let c w := load ti ai true (matrix w) x in
  if s Single && load ti ai false (matrix Single) y then Ok (1, Single) else
  if s Double && load ti ai false (matrix Double) y then Ok (1, Double) else
  if s Single && load ti ai false (Dense Int32 AnyShape) y then Ok (1, Single) else
  if s Double && load ti ai false (Dense Int64 AnyShape) y then Ok (1, Double) else
  if s Single then Ok (2, Single) else if s Double then Ok (2, Double) else
  if c Single && load ti ai true (matrix Single) y then Ok (1, Single) else
  if c Double && load ti ai true (matrix Double) y then Ok (1, Double) else
  if c Single && load ti ai true (Dense Int32 AnyShape) y then Ok (1, Single) else
  if c Double && load ti ai true (Dense Int64 AnyShape) y then Ok (1, Double) else
  if c Single then Ok (2, Single) else if c Double then Ok (2, Double) else Err TypeError.
Proof.
  intros S. unfold dispatch, first_match, bootstrap_sampling. cbn [find params variadic accepts].
  rewrite !(load_seed ti ai _ _ S), !andb_true_r.
  change (load ti ai false CObject y) with true. change (load ti ai true CObject y) with true. rewrite ?andb_true_r.
  cbv zeta.
  repeat match goal with |- context [if ?b then _ else _] => destruct b; try reflexivity end.
Qed.
Lemma dispatch_bootstrap ti ai x y seed : plain_seed seed ->
  (~ usable x -> dispatch ti ai bootstrap_sampling [x; y; seed] = Err TypeError) /\
  (usable x -> array_of Float32 x ->
   dispatch ti ai bootstrap_sampling [x; y; seed] = Ok (1, Single) /\ usable y /\ (array_of Float32 y \/ array_of Int32 y) \/
   dispatch ti ai bootstrap_sampling [x; y; seed] = Ok (2, Single) /\ ~ (usable y /\ (array_of Float32 y \/ array_of Int32 y))) /\
  (usable x -> array_of Float64 x ->
   dispatch ti ai bootstrap_sampling [x; y; seed] = Ok (1, Double) /\ usable y /\ (array_of Float64 y \/ array_of Int64 y) \/
   dispatch ti ai bootstrap_sampling [x; y; seed] = Ok (2, Double) /\ ~ (usable y /\ (array_of Float64 y \/ array_of Int64 y))) /\
  (usable x -> ~ array_of Float32 x -> ~ array_of Float64 x ->
   dispatch ti ai bootstrap_sampling [x; y; seed] = Ok (1, Single) /\ usable y \/
   dispatch ti ai bootstrap_sampling [x; y; seed] = Ok (2, Single) /\ ~ usable y).
Proof.
  intros S. rewrite (bootstrap_shape _ _ _ _ _ S). cbv zeta.
  assert (Xs := fun w => load_matrix_strict ti ai w x). assert (Xc := fun w => load_matrix_convert ti ai w x).
  assert (Ys := fun w => load_matrix_strict ti ai w y). assert (Yc := fun w => load_matrix_convert ti ai w y).
  assert (Yi := fun t T => load_ints_strict ti ai t y T).
  assert (Ex := exclusive x).
  split; [| split; [| split]].
  - intros U. assert (E1 : forall w, load ti ai false (matrix w) x = false) by (intros w; apply (decided_false _ _ (Xs w)); tauto).
    assert (E2 : forall w, load ti ai true (matrix w) x = false) by (intros w; apply (decided_false _ _ (Xc w)); tauto).
    rewrite !E1, !E2. reflexivity.
  - intros U A.
    rewrite (decided_true _ _ (Xs Single)) by (split; assumption).
    rewrite (decided_false _ _ (Xs Double)) by (cbn; tauto). cbn [andb].
    destruct (load ti ai false (matrix Single) y) eqn:E1.
    { left. apply Ys in E1. cbn in E1. tauto. }
    destruct (load ti ai false (Dense Int32 AnyShape) y) eqn:E2.
    { left. apply (Yi Int32 (or_introl eq_refl)) in E2. tauto. }
    right. split; [reflexivity |]. intros [V [B | B]].
    + rewrite (decided_true _ _ (Ys Single)) in E1 by (split; assumption). discriminate.
    + rewrite (decided_true _ _ (Yi Int32 (or_introl eq_refl))) in E2 by (split; assumption). discriminate.
  - intros U A.
    rewrite (decided_true _ _ (Xs Double)) by (split; assumption).
    rewrite (decided_false _ _ (Xs Single)) by (cbn; tauto). cbn [andb].
    destruct (load ti ai false (matrix Double) y) eqn:E1.
    { left. apply Ys in E1. cbn in E1. tauto. }
    destruct (load ti ai false (Dense Int64 AnyShape) y) eqn:E2.
    { left. apply (Yi Int64 (or_intror eq_refl)) in E2. tauto. }
    right. split; [reflexivity |]. intros [V [B | B]].
    + rewrite (decided_true _ _ (Ys Double)) in E1 by (split; assumption). discriminate.
    + rewrite (decided_true _ _ (Yi Int64 (or_intror eq_refl))) in E2 by (split; assumption). discriminate.
  - intros U A B. rewrite !(decided_false _ _ (Xs _)) by (cbn; tauto). cbn [andb].
    rewrite !(decided_true _ _ (Xc _)) by assumption. cbn [andb].
    destruct (usable_dec y) as [V | V].
    + left. split; auto. now rewrite (decided_true _ _ (Yc Single)).
    + right. split; auto. rewrite !(decided_false _ _ (Yc _)) by assumption.
      rewrite !(decided_false _ _ (load_ints_convert ti ai _ y)) by assumption. reflexivity.
Qed.

(** Numbers. *)
Lemma load_float_convert ti ai v : load ti ai true CFloat v = true <-> number v.
Proof.
  destruct v as [t s | s n | t z | z | | b | n | |]; cbn; try tauto; try (split; [discriminate | tauto]).
  - rewrite andb_true_iff, Nat.eqb_eq. tauto.
  - destruct t; cbn; tauto.
Qed.
Lemma load_float_strict ti ai v : load ti ai false CFloat v = true <-> v = PyFloat \/ scalar_of Float64 v.
Proof.
  unfold scalar_of. destruct v as [t s | s n | t z | z | | b | n | |]; cbn;
    try (split; [discriminate | intros [E | [? E]]; discriminate]).
  - destruct t; cbn; split; try discriminate; try (intros [E | [? E]]; discriminate); intros _; [right; now exists z | reflexivity].
  - tauto.
Qed.
Lemma load_np ti ai conv t v : (forall n, t <> OtherDtype n) ->
  load ti ai conv (NpScalar t) v = true <-> scalar_of t v.
Proof.
  intros N. unfold scalar_of. destruct v as [t' s | s n | t' z | z | | b | n | |]; cbn;
    try (split; [discriminate | intros [? E]; discriminate]).
  split.
  - intros E. exists z. destruct t, t'; try discriminate; reflexivity.
  - intros [z' E]. injection E as -> ->. destruct t; try reflexivity. destruct (N numeric); reflexivity.
Qed.
Definition three_numbers : list overload :=
  both (fun w => [NpScalar (real_dtype w); NpScalar (real_dtype w); NpScalar (real_dtype w)]) ++
  [plain Single [CFloat; CFloat; CFloat]].
Lemma dispatch_three ti ai a b c :
  (scalar_of Float64 a -> scalar_of Float64 b -> scalar_of Float64 c ->
   dispatch ti ai three_numbers [a; b; c] = Ok (1, Double)) /\
  (number a -> number b -> number c -> ~ (scalar_of Float64 a /\ scalar_of Float64 b /\ scalar_of Float64 c) ->
   dispatch ti ai three_numbers [a; b; c] = Ok (1, Single)) /\
  (~ (number a /\ number b /\ number c) -> dispatch ti ai three_numbers [a; b; c] = Err TypeError).
Proof.
  assert (N32 : forall conv v, load ti ai conv (NpScalar Float32) v = true <-> scalar_of Float32 v)
    by (intros; apply load_np; intros ? E; discriminate).
  assert (N64 : forall conv v, load ti ai conv (NpScalar Float64) v = true <-> scalar_of Float64 v)
    by (intros; apply load_np; intros ? E; discriminate).
  assert (Cs := load_float_strict ti ai). assert (Cc := load_float_convert ti ai).
  assert (X : forall v, scalar_of Float32 v -> scalar_of Float64 v -> False)
    by (intros v [z ->] [z' E]; discriminate).
  assert (S32 : forall v, scalar_of Float32 v -> number v) by (intros v [z ->]; reflexivity).
  assert (S64 : forall v, scalar_of Float64 v -> number v) by (intros v [z ->]; reflexivity).
  assert (SP : forall v, v = PyFloat \/ scalar_of Float64 v -> number v) by (intros v [-> | H]; [exact I | auto]).
  unfold dispatch, first_match, three_numbers, both, plain. cbn [app find params variadic variant wide accepts real_dtype].
  rewrite !andb_true_r.
  set (l32 := fun conv => load ti ai conv (NpScalar Float32) a &&
                          (load ti ai conv (NpScalar Float32) b && load ti ai conv (NpScalar Float32) c)).
  set (l64 := fun conv => load ti ai conv (NpScalar Float64) a &&
                          (load ti ai conv (NpScalar Float64) b && load ti ai conv (NpScalar Float64) c)).
  set (lc := fun conv => load ti ai conv CFloat a && (load ti ai conv CFloat b && load ti ai conv CFloat c)).
  assert (D32 : forall conv, l32 conv = true <-> scalar_of Float32 a /\ scalar_of Float32 b /\ scalar_of Float32 c)
    by (intros; unfold l32; rewrite !andb_true_iff, !N32; tauto).
  assert (D64 : forall conv, l64 conv = true <-> scalar_of Float64 a /\ scalar_of Float64 b /\ scalar_of Float64 c)
    by (intros; unfold l64; rewrite !andb_true_iff, !N64; tauto).
  assert (Ds : lc false = true -> number a /\ number b /\ number c).
  { unfold lc. rewrite !andb_true_iff, !Cs. intros (A & B & C). repeat split; auto. }
  assert (Dc : lc true = true <-> number a /\ number b /\ number c)
    by (unfold lc; rewrite !andb_true_iff, !Cc; tauto).
  fold (l32 false) (l64 false) (lc false) (l32 true) (l64 true) (lc true).
  split; [| split].
  - intros A B C. rewrite (decided_false _ _ (D32 false)) by (intros (? & _); now apply (X a)).
    now rewrite (decided_true _ _ (D64 false)) by tauto.
  - intros A B C N. destruct (l32 false); [reflexivity |].
    rewrite (decided_false _ _ (D64 false)) by tauto.
    destruct (lc false); [reflexivity |]. destruct (l32 true); [reflexivity |].
    rewrite (decided_false _ _ (D64 true)) by tauto. now rewrite (decided_true _ _ Dc) by tauto.
  - intros N.
    rewrite (decided_false _ _ (D32 false)) by (intros (? & ? & ?); apply N; auto).
    rewrite (decided_false _ _ (D64 false)) by (intros (? & ? & ?); apply N; auto).
    destruct (lc false) eqn:E; [destruct (N (Ds eq_refl)) |].
    rewrite (decided_false _ _ (D32 true)) by (intros (? & ? & ?); apply N; auto).
    rewrite (decided_false _ _ (D64 true)) by (intros (? & ? & ?); apply N; auto).
    now rewrite (decided_false _ _ Dc) by tauto.
Qed.

(** Comparisons with a threshold. *)
Lemma load_tensor_convert ti ai t v : load ti ai true (Tensor t) v = true <-> fillable v.
Proof. unfold load, fillable; cbn [orb andb]. destruct v; cbn; try tauto; intuition discriminate. Qed.
Lemma load_tensor_strict ti ai w v :
  load ti ai false (Tensor (real_dtype w)) v = true <-> array_of (real_dtype w) v.
Proof.
  unfold load, array_of; cbn [orb]. rewrite andb_true_iff. split.
  - intros [E _]. destruct v as [t s | | | | | | | |]; try discriminate. exists s. destruct w, t; try discriminate; reflexivity.
  - intros [s ->]. destruct w; auto.
Qed.
Lemma usable_fillable v : usable v -> fillable v.
Proof. destruct v; cbn; tauto. Qed.
Lemma array_fillable w v : array_of (real_dtype w) v -> fillable v.
Proof. intros [s ->]. destruct w; reflexivity. Qed.

Lemma compare_shape ti ai a b tol :
  dispatch ti ai compare_differences [a; b; tol] =
  let m conv w := load ti ai conv (matrix w) a && load ti ai conv (matrix w) b in
  let t conv w := load ti ai conv (Tensor (real_dtype w)) a && load ti ai conv (Tensor (real_dtype w)) b in
  let n conv w := load ti ai conv (NpScalar (real_dtype w)) tol in
  let pass conv other :=
    if m conv Single && n conv Single then Ok (1, Single) else
    if m conv Double && n conv Double then Ok (1, Double) else
    if m conv Single && load ti ai conv CFloat tol then Ok (1, Single) else
    if t conv Single && n conv Single then Ok (2, Single) else
    if t conv Double && n conv Double then Ok (2, Double) else
    if t conv Single && load ti ai conv CFloat tol then Ok (2, Single) else other in
  pass false (pass true (Err TypeError)).
Proof.
  unfold dispatch, first_match, compare_differences, both, plain.
  cbn [app find params variadic variant wide accepts]. rewrite !andb_true_r. cbv zeta.
  change Float32 with (real_dtype Single). change Float64 with (real_dtype Double). rewrite !andb_assoc.
  repeat match goal with |- context [if ?b then _ else _] => destruct b; try reflexivity end.
Qed.
Section Compare.
Variables (ti : bool) (ai : bool -> dtype -> list nat -> bool) (a b tol : value).
Let m conv w := load ti ai conv (matrix w) a && load ti ai conv (matrix w) b.
Let t conv w := load ti ai conv (Tensor (real_dtype w)) a && load ti ai conv (Tensor (real_dtype w)) b.
Let n conv w := load ti ai conv (NpScalar (real_dtype w)) tol.
Let f conv := load ti ai conv CFloat tol.
Let pass conv other : result (nat * width) :=
    if m conv Single && n conv Single then Ok (1, Single) else
    if m conv Double && n conv Double then Ok (1, Double) else
    if m conv Single && f conv then Ok (1, Single) else
    if t conv Single && n conv Single then Ok (2, Single) else
    if t conv Double && n conv Double then Ok (2, Double) else
    if t conv Single && f conv then Ok (2, Single) else other.
Lemma compare_passes : dispatch ti ai compare_differences [a; b; tol] = pass false (pass true (Err TypeError)).
Proof. exact (compare_shape ti ai a b tol). Qed.
Lemma m_usable conv w : m conv w = true -> usable a /\ usable b.
Proof.
  unfold m. rewrite andb_true_iff. destruct conv; rewrite ?load_matrix_convert, ?load_matrix_strict; tauto.
Qed.
Lemma t_fillable conv w : t conv w = true -> fillable a /\ fillable b.
Proof.
  unfold t. rewrite andb_true_iff. destruct conv; rewrite ?load_tensor_convert, ?load_tensor_strict; [auto |].
  intros [A B]. split; eapply array_fillable; eauto.
Qed.
Lemma t_strict w : t false w = true -> array_of (real_dtype w) a /\ array_of (real_dtype w) b.
Proof. unfold t. now rewrite andb_true_iff, !load_tensor_strict. Qed.
Lemma m_strict w : m false w = true -> array_of (real_dtype w) a /\ array_of (real_dtype w) b.
Proof. unfold m. rewrite andb_true_iff, !load_matrix_strict. tauto. Qed.
Lemma t_of_strict w : usable a /\ usable b -> t false w = true -> m false w = true.
Proof.
  intros [A B] T. apply t_strict in T as [C D]. unfold m. now rewrite andb_true_iff, !load_matrix_strict.
Qed.
Lemma m_convert w : usable a -> usable b -> m true w = true.
Proof. intros. unfold m. now rewrite andb_true_iff, !load_matrix_convert. Qed.
Lemma t_convert w : fillable a -> fillable b -> t true w = true.
Proof. intros. unfold t. now rewrite andb_true_iff, !load_tensor_convert. Qed.
Lemma n_scalar conv w : n conv w = true <-> scalar_of (real_dtype w) tol.
Proof. apply load_np. destruct w; intros ? E; discriminate. Qed.
Lemma n_number conv w : n conv w = true -> number tol.
Proof. intros H. apply n_scalar in H as [z ->]. destruct w; reflexivity. Qed.
Lemma f_number conv : f conv = true -> number tol.
Proof.
  unfold f. destruct conv; rewrite ?load_float_convert, ?load_float_strict; auto.
  intros [-> | [z ->]]; [exact I | reflexivity].
Qed.

Lemma compare_usable_single : number tol -> ~ scalar_of Float64 tol -> usable a -> usable b ->
  pass false (pass true (Err TypeError)) = Ok (1, Single).
Proof.
  intros F S A B. unfold pass.
  assert (N : forall conv, n conv Double = false).
  { intros conv. apply not_true_is_false. rewrite n_scalar. exact S. }
  rewrite !N, !andb_false_r.
  assert (T : t false Single = true -> m false Single = true) by (apply t_of_strict; auto).
  destruct (m false Single && n false Single) eqn:E1; [reflexivity |].
  destruct (m false Single && f false) eqn:E2; [reflexivity |].
  destruct (t false Single) eqn:E3.
  - rewrite (T eq_refl) in E1, E2. cbn [andb] in *. rewrite E1, E2. cbn [andb].
    destruct (n true Single) eqn:E4; rewrite !(m_convert _ A B); [reflexivity |].
    cbn [andb]. unfold f. now rewrite (proj2 (load_float_convert ti ai tol) F).
  - cbn [andb]. rewrite !(m_convert _ A B). cbn [andb]. destruct (n true Single); [reflexivity |].
    unfold f. now rewrite (proj2 (load_float_convert ti ai tol) F).
Qed.
Lemma compare_filled_single : number tol -> ~ scalar_of Float64 tol -> fillable a -> fillable b -> ~ (usable a /\ usable b) ->
  pass false (pass true (Err TypeError)) = Ok (2, Single).
Proof.
  intros F S A B U. unfold pass.
  assert (N : forall conv, n conv Double = false).
  { intros conv. apply not_true_is_false. rewrite n_scalar. exact S. }
  assert (M : forall conv w, m conv w = false).
  { intros conv w. apply not_true_is_false. intros H. exact (U (m_usable _ _ H)). }
  rewrite !N, !M, !andb_false_r. cbn [andb].
  destruct (t false Single && n false Single); [reflexivity |].
  destruct (t false Single && f false); [reflexivity |].
  rewrite !(t_convert _ A B). cbn [andb]. destruct (n true Single); [reflexivity |].
  unfold f. now rewrite (proj2 (load_float_convert ti ai tol) F).
Qed.
Lemma single_false : scalar_of Float64 tol -> forall conv, n conv Single = false.
Proof. intros [z E] conv. apply not_true_is_false. rewrite n_scalar, E. intros [z' E']. discriminate. Qed.
Lemma double_true : scalar_of Float64 tol -> forall conv, n conv Double = true.
Proof. intros H conv. now apply n_scalar. Qed.
Lemma compare_usable_double : scalar_of Float64 tol -> ~ (array_of Float32 a /\ array_of Float32 b) -> usable a -> usable b ->
  pass false (pass true (Err TypeError)) = Ok (1, Double).
Proof.
  intros S X A B. unfold pass. rewrite !(single_false S), !(double_true S), !andb_false_r, !andb_true_r.
  assert (M : m false Single = false) by (apply not_true_is_false; intros H; exact (X (m_strict _ H))).
  assert (T : t false Single = false) by (apply not_true_is_false; intros H; exact (X (t_strict _ H))).
  rewrite M, T. cbn [andb]. destruct (m false Double) eqn:E; [reflexivity |].
  destruct (t false Double) eqn:E'; [apply t_of_strict in E'; [congruence | auto] |].
  now rewrite !(m_convert _ A B).
Qed.
Lemma compare_filled_double : scalar_of Float64 tol -> ~ (array_of Float32 a /\ array_of Float32 b) ->
  fillable a -> fillable b -> ~ (usable a /\ usable b) -> pass false (pass true (Err TypeError)) = Ok (2, Double).
Proof.
  intros S X A B U. unfold pass. rewrite !(single_false S), !(double_true S), !andb_false_r, !andb_true_r.
  assert (M : forall conv w, m conv w = false).
  { intros conv w. apply not_true_is_false. intros H. exact (U (m_usable _ _ H)). }
  assert (T : t false Single = false) by (apply not_true_is_false; intros H; exact (X (t_strict _ H))).
  rewrite !M, T. cbn [andb]. destruct (t false Double); [reflexivity |]. now rewrite !(t_convert _ A B).
Qed.
Lemma compare_single_arrays : scalar_of Float64 tol -> array_of Float32 a -> array_of Float32 b ->
  exists k, pass false (pass true (Err TypeError)) = Ok (k, Single).
Proof.
  intros S A B. unfold pass. rewrite !(single_false S), !(double_true S), !andb_false_r, !andb_true_r.
  assert (D : t false Single = true) by (unfold t; rewrite andb_true_iff, !load_tensor_strict; auto).
  assert (X : forall u, u = m false Double \/ u = t false Double -> u = false).
  { intros u H. apply not_true_is_false. intros ->. destruct H as [H | H]; symmetry in H;
      [apply m_strict in H as [H _] | apply t_strict in H as [H _]]; exact (exclusive a A H). }
  rewrite (X (m false Double)), (X (t false Double)), D by auto. cbn [andb].
  assert (G : f false = true) by (unfold f; rewrite load_float_strict; auto). rewrite G.
  destruct (m false Single); eexists; reflexivity.
Qed.
Lemma compare_refused : ~ number tol \/ ~ fillable a \/ ~ fillable b -> pass false (pass true (Err TypeError)) = Err TypeError.
Proof.
  intros H. unfold pass.
  assert (G : forall (u v : bool), (u = true -> fillable a /\ fillable b) -> (v = true -> number tol) -> u && v = false).
  { intros u v U V. apply not_true_is_false. rewrite andb_true_iff. intros [E E']. specialize (U E). specialize (V E'). tauto. }
  assert (M : forall conv w, m conv w = true -> fillable a /\ fillable b).
  { intros conv w E. apply m_usable in E as [E E']. split; now apply usable_fillable. }
  rewrite !(G (m _ _) _) by first [apply M | apply n_number | apply f_number].
  rewrite !(G (t _ _) _) by first [apply t_fillable | apply n_number | apply f_number]. reflexivity.
Qed.
End Compare.

(** Centroids: the clusters are 32 bit integers in both variants. *)
Lemma load_row_strict ti ai t v : t = Int32 \/ t = Int64 ->
  load ti ai false (Dense t OneRow) v = true -> array_of t v.
Proof.
  intros T H. unfold load in H. cbn [orb] in H. apply andb_prop in H as [H _]. apply andb_prop in H as [H _].
  destruct v as [t' s | | | | | | | |]; try discriminate. exists s. destruct T as [-> | ->], t'; try discriminate; reflexivity.
Qed.
Lemma dispatch_centroids ti ai x c : usable x ->
  (exists n, c = Array Int32 [n] \/ c = Array Int32 [1; n]) ->
  dispatch ti ai calculate_centroids [x; c] =
  Ok (1, match x with Array Float64 _ => Double | _ => Single end).
Proof.
  intros U [n C]. unfold dispatch, first_match, calculate_centroids, both, plain.
  cbn [find params variadic variant wide accepts]. rewrite !andb_true_r.
  assert (L : forall conv, load ti ai conv (int_row Single) c = true) by (intros []; destruct C as [-> | ->]; reflexivity).
  rewrite !L, !andb_true_r.
  destruct (load ti ai false (matrix Single) x) eqn:E1.
  { apply load_matrix_strict in E1 as [_ [s ->]]. reflexivity. }
  destruct (load ti ai false (matrix Double) x) eqn:E2.
  { apply load_matrix_strict in E2 as [_ [s ->]]. reflexivity. }
  rewrite (proj2 (load_matrix_convert ti ai Single x) U).
  destruct x as [[] s | | | | | | | |]; try reflexivity.
  exfalso. rewrite (proj2 (load_matrix_strict ti ai Double _)) in E2; [discriminate |]. split; [exact U |]. now exists s.
Qed.
Lemma dispatch_centroids_other ti ai x c : usable x -> load ti ai true (int_row Single) c = true -> ~ array_of Int32 c ->
  dispatch ti ai calculate_centroids [x; c] = Ok (1, Single).
Proof.
  intros U C N. unfold dispatch, first_match, calculate_centroids, both, plain.
  cbn [find params variadic variant wide accepts]. rewrite !andb_true_r.
  assert (L : load ti ai false (int_row Single) c = false).
  { apply not_true_is_false. intros H. apply N. apply (load_row_strict ti ai); auto. }
  rewrite L, !andb_false_r, C. now rewrite (proj2 (load_matrix_convert ti ai Single x) U).
Qed.

(** Counts. *)
Lemma load_small ti ai conv v : small_int v -> load ti ai conv (CUInt 32) v = true.
Proof. intros (z & -> & H). cbn. unfold in_range. now rewrite andb_true_iff, Z.leb_le, Z.ltb_lt. Qed.
Lemma load_bool_strict ti ai v : load ti ai false CBool v = true <-> boolean v.
Proof.
  unfold boolean, scalar_of. destruct v as [t s | s n | t z | z | | b | n | |]; cbn;
    try (split; [discriminate | intros [[? E] | [? E]]; discriminate]).
  - destruct t; cbn; split; try discriminate; try (intros [[? E] | [? E]]; discriminate); try reflexivity.
    intros _. right. now exists z.
  - split; auto. left. now exists b.
Qed.
Lemma float_no_count ti ai conv v : v = PyFloat \/ scalar_of Float64 v -> load ti ai conv (CUInt 32) v = false.
Proof. intros [-> | [z ->]]; reflexivity. Qed.
Lemma float_no_np ti ai conv t v : t = UInt32 \/ t = UInt64 -> v = PyFloat \/ scalar_of Float64 v ->
  load ti ai conv (NpScalar t) v = false.
Proof. intros [-> | ->] [-> | [z ->]]; reflexivity. Qed.
Lemma counts_floats ti ai a b c s : In PyFloat [a; b; c] \/ (exists v, In v [a; b; c] /\ scalar_of Float64 v) ->
  dispatch ti ai get_conditional_probability [a; b; c; s] = Err TypeError.
Proof.
  intros H.
  assert (G : exists v, In v [a; b; c] /\ (v = PyFloat \/ scalar_of Float64 v)).
  { destruct H as [H | (v & I & S)]; [exists PyFloat | exists v]; auto. }
  destruct G as (v & I & V).
  unfold dispatch, first_match, get_conditional_probability, plain. cbn [find params variadic variant wide accepts].
  assert (E : forall conv p, p = NpScalar UInt32 \/ p = NpScalar UInt64 \/ p = CUInt 32 ->
     load ti ai conv p a && (load ti ai conv p b && (load ti ai conv p c && (load ti ai conv CBool s && true))) = false).
  { intros conv p P. assert (F : load ti ai conv p v = false).
    { destruct P as [-> | [-> | ->]]; [apply float_no_np; auto | apply float_no_np; auto | now apply float_no_count]. }
    cbn [In] in I. destruct I as [-> | [-> | [-> | []]]]; rewrite F, ?andb_false_r; reflexivity. }
  rewrite !E by auto. reflexivity.
Qed.
Lemma counts_python ti ai a b c s : small_int a -> small_int b -> small_int c -> load ti ai true CBool s = true ->
  dispatch ti ai get_conditional_probability [a; b; c; s] = Ok (1, Single).
Proof.
  intros A B C S. unfold dispatch, first_match, get_conditional_probability, plain.
  cbn [find params variadic variant wide accepts].
  rewrite !(load_small ti ai _ a A), !(load_small ti ai _ b B), !(load_small ti ai _ c C), S.
  destruct A as (za & -> & _). cbn [load andb].
  destruct (match s with PyBool _ | Scalar Boolean _ => true | _ => false end || _); reflexivity.
Qed.
