(** Lemmas for C112: hidden neurons that are alike, and silent ones. *)
From Coq Require Import List Reals Arith Lia Lra Bool.
From Verif.Model Require Import Base Activations Network.
From Verif.Spec Require Import Common Smo Activations Network Twins.
From Verif.Proof Require Import BaseLemmas Smo Kernels Gmm KMeans Activations Logistic Network NetworkMain NetworkStep Adam ColumnsNet.
Import ListNotations.
Local Open Scope R_scope.

(** ** Positions *)
Lemma Forall2_nth_in {A B} (P : A -> B -> Prop) l r d d' : length l = length r -> (forall q, (q < length l)%nat -> P (nth q l d) (nth q r d')) -> Forall2 P l r.
Proof.
  revert r. induction l as [|a l IH]; intros [|b r] L H; try discriminate; constructor; [exact (H 0%nat ltac:(cbn; lia))|].
  apply IH; [now injection L|]. intros q Hq. exact (H (S q) ltac:(cbn; lia)).
Qed.
Lemma nth_zip2_lt f a b i : (i < length a)%nat -> (i < length b)%nat -> nth i (zip2 f a b) 0 = f (nth i a 0) (nth i b 0).
Proof.
  intros Ha Hb. unfold zip2. rewrite (nth_map_in _ (combine a b) i 0 (0, 0)) by (rewrite combine_length; lia).
  revert b i Ha Hb. induction a as [|u a IH]; intros [|v b] [|i] Ha Hb; cbn in *; try lia; [reflexivity|]. apply IH; lia.
Qed.
Lemma zip2_len f a b : length (zip2 f a b) = Nat.min (length a) (length b).
Proof. unfold zip2. now rewrite map_length, combine_length. Qed.
Lemma nth_mzip f a b i : (i < length a)%nat -> (i < length b)%nat -> nth i (mzip f a b) [] = zip2 f (nth i a []) (nth i b []).
Proof.
  intros Ha Hb. unfold mzip. rewrite (nth_map_in _ (combine a b) i [] ([], [])) by (rewrite combine_length; lia).
  revert b i Ha Hb. induction a as [|u a IH]; intros [|v b] [|i] Ha Hb; cbn in *; try lia; [reflexivity|]. apply IH; lia.
Qed.
Lemma mzip_len f a b : length (mzip f a b) = Nat.min (length a) (length b).
Proof. unfold mzip. now rewrite map_length, combine_length. Qed.
Lemma nth_error_combine {A B} (a : list A) (b : list B) k u v : nth_error a k = Some u -> nth_error b k = Some v -> nth_error (combine a b) k = Some (u, v).
Proof. revert b k. induction a as [|x a IH]; intros [|y b] [|k] Ha Hb; cbn in *; try discriminate; [congruence|now apply IH]. Qed.

(** ** Element-wise operations keep neurons alike *)
Lemma alike_lzip f k i j a g : alike k i j a -> alike k i j g -> alike k i j (lzip f a g).
Proof.
  intros (w & b & w' & b' & E1 & E2 & Hi & Hj & Bi & Bj & Hw & Hb & F) (v & c & v' & c' & G1 & G2 & Gi & Gj & Ci & Cj & Hv & Hc & F').
  exists (mzip f w v), (zip2 f b c), (mzip f w' v'), (zip2 f b' c'). unfold lzip.
  rewrite (map_nth_error _ _ _ (nth_error_combine _ _ _ _ _ E1 G1)), (map_nth_error _ _ _ (nth_error_combine _ _ _ _ _ E2 G2)).
  rewrite mzip_len, zip2_len. repeat split; auto; try lia.
  - rewrite !nth_mzip by auto. congruence.
  - rewrite !nth_zip2_lt by auto. congruence.
  - apply Forall_forall. intros r I. unfold mzip in I. apply in_map_iff in I as ([p q] & <- & I). rewrite Forall_forall in F, F'.
    destruct (F p (in_combine_l _ _ _ _ I)) as (? & ? & ?), (F' q (in_combine_r _ _ _ _ I)) as (? & ? & ?). cbn [fst snd].
    rewrite zip2_len. repeat split; try lia. rewrite !nth_zip2_lt by auto. congruence.
Qed.
Lemma alike_lmap f k i j a : alike k i j a -> alike k i j (lmap f a).
Proof.
  intros (w & b & w' & b' & E1 & E2 & Hi & Hj & Bi & Bj & Hw & Hb & F).
  exists (mmap f w), (map f b), (mmap f w'), (map f b'). unfold lmap. rewrite (map_nth_error _ _ _ E1), (map_nth_error _ _ _ E2).
  unfold mmap. rewrite !map_length. repeat split; auto.
  - rewrite !(nth_map_in (map f) w _ [] []) by auto. congruence.
  - rewrite !(nth_map_in f b _ 0 0) by auto. congruence.
  - apply Forall_forall. intros r I. apply in_map_iff in I as (p & <- & I). rewrite Forall_forall in F. destruct (F p I) as (? & ? & E). rewrite map_length.
    repeat split; auto. rewrite !(nth_map_in f p _ 0 0) by auto. congruence.
Qed.
(** The values of a step taken entry by entry. *)
Definition ok_of (f : R -> R -> result R) (u v : R) : R := match f u v with Ok r => r | Err _ => 0 end.
Lemma mapM_pairs f l r : mapM (fun e : R * R => f (fst e) (snd e)) l = Ok r -> r = map (fun e => ok_of f (fst e) (snd e)) l.
Proof.
  revert r. induction l as [|e l IH]; intros r E; cbn [mapM] in E; [now injection E as <-|].
  destruct (f (fst e) (snd e)) as [u|] eqn:Ef; [|discriminate]. cbn [bind] in E. destruct (mapM _ l) as [us|]; [|discriminate]. cbn [bind] in E. injection E as <-.
  cbn [map]. f_equal; [unfold ok_of; now rewrite Ef|now apply IH].
Qed.
Lemma mapM_as_map {A B} (g : A -> result B) (h : A -> B) l r : (forall a b, g a = Ok b -> b = h a) -> mapM g l = Ok r -> r = map h l.
Proof.
  intros H. revert r. induction l as [|e l IH]; intros r E; cbn [mapM] in E; [now injection E as <-|].
  destruct (g e) as [u|] eqn:Ef; [|discriminate]. cbn [bind] in E. destruct (mapM g l) as [us|]; [|discriminate]. cbn [bind] in E. injection E as <-.
  cbn [map]. f_equal; [now apply H|now apply IH].
Qed.
Lemma lzipM_is f a b r : lzipM f a b = Ok r -> r = lzip (ok_of f) a b.
Proof.
  unfold lzipM, lzip. apply mapM_as_map. intros [[w u] [v c]] [dw db]. cbn [fst snd].
  destruct (mapM _ (combine w v)) as [x|] eqn:E1; [|discriminate]. cbn [bind]. destruct (mapM _ (combine u c)) as [y|] eqn:E2; [|discriminate]. cbn [bind].
  intros E. injection E as <- <-. f_equal.
  - unfold mzip. revert E1. apply mapM_as_map. intros [p q] s Es. cbn [fst snd] in *. exact (mapM_pairs f _ _ Es).
  - exact (mapM_pairs f _ _ E2).
Qed.

(** ** The gradient of a training row *)
Lemma backward_rec yp yt cs g : backward yp yt cs = Ok g -> exists da, cs <> [] /\ g = fst (back_rec (length yt) cs da).
Proof.
  intros E. assert (Hc : cs <> []) by (intros ->; discriminate E).
  destruct (exists_last Hc) as (pre & c & Ec).
  assert (S : exists da, output_signal yp yt (snd (last cs ([], [], []))) = Ok da /\ yt <> []).
  { rewrite Ec in E |- *. rewrite last_last. unfold backward in E. rewrite rev_app_distr in E. cbn [rev app] in E. destruct c as [[x w] a]. cbn [snd].
    destruct (output_signal yp yt a) as [da|]; [|discriminate]. cbn [bind] in E. destruct yt; [discriminate|]. now exists da. }
  destruct S as (da & S & Hy). exists da. split; [exact Hc|]. rewrite (backward_is_rec yp yt cs da Hc Hy S) in E. congruence.
Qed.
(** What reaches a layer from behind came out of [get_grad] of that layer. *)
Lemma back_rec_head n da c cs : exists delta, fst (back_rec n (c :: cs) da) = fst (get_grad n delta c) :: fst (back_rec n cs da) /\
  snd (back_rec n (c :: cs) da) = snd (get_grad n delta c).
Proof.
  destruct cs as [|c' cs].
  - exists da. split; reflexivity.
  - rewrite back_rec_cons by discriminate. unfold step_back. cbn [fst snd]. eexists. split; reflexivity.
Qed.
(** The first cache of the forward pass. *)
Lemma forward_first l ls x r : forward (l :: ls) x = Ok r -> exists a (cs : list cache), snd r = ((x, fst l, a) : cache) :: cs /\
  exists z, affine l x = Ok z /\ (ls <> [] -> a = mmap relu z /\ exists r', forward ls a = Ok r' /\ snd r' = cs).
Proof.
  cbn [forward]. destruct (affine l x) as [z|]; [|discriminate]. cbn [bind]. destruct ls as [|l' ls].
  - destruct (output_activation (fst l) z) as [p|]; [|discriminate]. cbn [bind]. intros E. injection E as <-. exists p, []. split; [reflexivity|]. exists z. now split.
  - destruct (forward (l' :: ls) (mmap relu z)) as [q|] eqn:F; [|discriminate]. cbn [bind]. intros E. injection E as <-. exists (mmap relu z), (snd q). split; [reflexivity|].
    exists z. split; [reflexivity|]. intros _. split; [reflexivity|]. exists q. auto.
Qed.
Lemma affine_rows l x z : affine l x = Ok z -> Forall2 (fun r s => length (fst l) = length (snd l) /\ Forall (fun u => length u = length r) (fst l) /\
  s = zip2 Rplus (map (dot r) (fst l)) (snd l)) x z.
Proof.
  unfold affine. revert z. induction x as [|r x IH]; intros z E; cbn [mapM] in E; [injection E as <-; constructor|].
  unfold affine_row at 1 in E. destruct (forallb (fun u => (length u =? length r)%nat) (fst l)) eqn:F; cbn [andb] in E; [|discriminate].
  destruct (Nat.eqb_spec (length (fst l)) (length (snd l))) as [H|]; cbn [bind] in E; [|discriminate].
  destruct (mapM (affine_row l) x) as [t|]; [|discriminate]. cbn [bind] in E. injection E as <-. constructor; [|now apply IH].
  split; [exact H|]. split; [|reflexivity]. apply Forall_forall. intros u I. rewrite forallb_forall in F. now apply Nat.eqb_eq, F.
Qed.
Lemma hidden_rows l x z : affine l x = Ok z -> Forall (fun s => length s = length (fst l) /\ length (snd l) = length (fst l)) (mmap relu z).
Proof.
  intros A. apply affine_rows in A. unfold mmap. induction A as [|r s x z (L & _ & ->) A IH]; [constructor|]. cbn [map]. constructor; [|exact IH].
  rewrite map_length, zip2_len, map_length. lia.
Qed.

Section Alike.
Variables (i j : nat).
Lemma hidden_alike l x z : affine l x = Ok z -> (i < length (fst l))%nat -> (j < length (fst l))%nat ->
  nth i (fst l) [] = nth j (fst l) [] -> nth i (snd l) 0 = nth j (snd l) 0 ->
  Forall (fun s => (i < length s)%nat /\ (j < length s)%nat /\ nth i s 0 = nth j s 0) (mmap relu z).
Proof.
  intros A Hi Hj Hw Hb. apply affine_rows in A. unfold mmap. induction A as [|r s x z (L & _ & ->) A IH]; [constructor|]. cbn [map]. constructor; [|exact IH].
  rewrite map_length, zip2_len, map_length. split; [lia|]. split; [lia|].
  rewrite !(nth_map_in relu _ _ 0 0) by (rewrite zip2_len, map_length; lia). rewrite !nth_zip2_lt by (rewrite ?map_length; lia).
  rewrite !(nth_map_in (dot r) (fst l) _ 0 []) by auto. congruence.
Qed.
Lemma gradient_alike n da : forall k ls x r, x <> [] -> forward ls x = Ok r -> alike k i j ls -> alike k i j (fst (back_rec n (snd r) da)).
Proof.
  induction k as [|k IH]; intros ls x r Hx E (w & b & w' & b' & E1 & E2 & Hi & Hj & Bi & Bj & Hw & Hb & F).
  - destruct ls as [|l1 [|l2 ls]]; try discriminate. cbn in E1, E2. injection E1 as ->. injection E2 as ->.
    destruct (forward_first _ _ _ _ E) as (a & cs & Er & z & A & K). destruct (K ltac:(discriminate)) as (Ea & r' & E' & Ecs).
    destruct (forward_first _ _ _ _ E') as (a' & cs' & Er' & _). cbn [fst snd] in *. rewrite Er. rewrite Er' in Ecs. subst cs.
    assert (Al : Forall (fun s => (i < length s)%nat /\ (j < length s)%nat /\ nth i s 0 = nth j s 0) a) by (rewrite Ea; exact (hidden_alike (w, b) x z A Hi Hj Hw Hb)).
    rewrite back_rec_cons by discriminate. unfold step_back. cbn [fst snd]. destruct (back_rec_head n da (a, w', a') cs') as (de & H1 & H2). rewrite H1, H2.
    set (out := snd (get_grad n de (a, w', a'))). set (D := mzip relu_diff out a).
    assert (Ho : Forall (fun s => nth i s 0 = nth j s 0) D).
    { unfold D, mzip. apply Forall_forall. intros s I. apply in_map_iff in I as ([p q] & <- & I). cbn [fst snd].
      pose proof (in_combine_r _ _ _ _ I) as Iq. apply in_combine_l in I. rewrite Forall_forall in Al. destruct (Al q Iq) as (Qi & Qj & Qe).
      unfold out, get_grad in I. cbn [snd] in I. apply in_map_iff in I as (t & <- & _).
      destruct w' as [|r0 w'].
      - cbn. destruct i, j; reflexivity.
      - inversion F as [|? ? (Li & Lj & _) _]; subst. cbn [width]. rewrite !nth_zip2_lt by (rewrite ?map_length, ?seq_length; auto).
        rewrite !nth_map_seq by auto. f_equal; [|exact Qe]. f_equal. unfold column. apply map_ext_in. intros u Iu. rewrite Forall_forall in F. now apply F. }
    unfold get_grad at 1 2. cbn [fst snd]. do 4 eexists. split; [reflexivity|]. split; [reflexivity|]. rewrite !map_length, !seq_length.
    split; [exact Hi|]. split; [exact Hj|]. split; [exact Hi|]. split; [exact Hj|].
    assert (S : forall (h : R -> list R -> R), map (fun t => h (nth i (fst t) 0) (snd t)) (combine D x) = map (fun t => h (nth j (fst t) 0) (snd t)) (combine D x)).
    { intros h. apply map_ext_in. intros [p q] I. cbn [fst snd]. apply in_combine_l in I. rewrite Forall_forall in Ho. now rewrite (Ho p I). }
    split; [|split].
    + rewrite !nth_map_seq by auto. apply map_ext. intros q. f_equal. f_equal. exact (S (fun u v => u * nth q v 0)).
    + rewrite !nth_map_seq by auto. f_equal. f_equal. apply map_ext_in. intros p I. rewrite Forall_forall in Ho. now apply Ho.
    + apply Forall_forall. intros s I. apply in_map_iff in I as (q & <- & I). rewrite map_length, seq_length.
      assert (Wa : (i < width a)%nat /\ (j < width a)%nat).
      { destruct a as [|a0 a]; [|inversion Al as [|? ? (? & ? & _) _]; subst; now split]. apply affine_rows in A. destruct A as [|? ? ? ? _ A]; [easy|discriminate Ea]. }
      destruct Wa as (Wi & Wj). split; [exact Wi|]. split; [exact Wj|]. rewrite !nth_map_seq by auto. f_equal. f_equal. apply map_ext_in. intros [p t] It. cbn [fst snd].
      apply in_combine_r in It. rewrite Forall_forall in Al. destruct (Al t It) as (_ & _ & Et). now rewrite Et.
  - destruct ls as [|l1 ls]; [destruct k; discriminate|]. cbn [nth_error] in E1, E2.
    destruct (forward_first _ _ _ _ E) as (a & cs & Er & z & A & K). destruct ls as [|l2 ls]; [destruct k; discriminate|].
    destruct (K ltac:(discriminate)) as (Ea & r' & E' & Ecs). rewrite Er.
    assert (Ha : a <> []) by (apply affine_rows in A; destruct A as [|? ? ? ? _ A]; [easy|rewrite Ea; discriminate]).
    assert (Al : alike k i j (l2 :: ls)) by (exists w, b, w', b'; auto 12). specialize (IH (l2 :: ls) a r' Ha E' Al). rewrite Ecs in IH.
    destruct (forward_first _ _ _ _ E') as (a' & cs' & Er' & _). rewrite Er' in Ecs. subst cs. rewrite back_rec_cons by discriminate. unfold step_back. cbn [fst snd].
    destruct IH as (v & c & v' & c' & IH). exists v, c, v', c'. exact IH.
Qed.
Lemma sample_alike k x y ls m g : sample_gradient x y ls m = Ok g -> alike k i j ls -> alike k i j g.
Proof.
  unfold sample_gradient. destruct (get_at x m) as [xi|]; [|discriminate]. cbn [bind]. destruct (get_at y m) as [yi|]; [|discriminate]. cbn [bind].
  destruct (forward ls [xi]) as [r|] eqn:F; [|discriminate]. cbn [bind]. intros E A. destruct (backward_rec _ _ _ _ E) as (da & _ & ->).
  apply (gradient_alike (length [yi]) da k ls [xi] r); auto. discriminate.
Qed.
Lemma sgd_alike k rate x y draws : forall ls ls', sgd_run rate x y ls draws = Ok ls' -> alike k i j ls -> alike k i j ls'.
Proof.
  unfold sgd_run. induction draws as [|m draws IH]; intros ls ls' E A; cbn [foldM] in E; [now injection E as <-|].
  unfold sgd_epoch at 1 in E. destruct (sample_gradient x y ls m) as [g|] eqn:G; [|discriminate]. cbn [bind] in E. apply (IH _ _ E).
  apply alike_lzip; [exact A|exact (sample_alike k x y ls m g G A)].
Qed.
Lemma adam_alike k o x y draws ls ls' : adam_run o x y ls draws = Ok ls' -> alike k i j ls -> alike k i j ls'.
Proof.
  unfold adam_run. intros E A. destruct (foldM _ _ _) as [s|] eqn:F; [|discriminate]. cbn [bind] in E. injection E as <-.
  assert (I0 : alike k i j (params (adam_init ls)) /\ alike k i j (m_state (adam_init ls)) /\ alike k i j (v_state (adam_init ls))).
  { cbn. split; [exact A|]. split; now apply alike_lmap. }
  revert F I0. generalize (adam_init ls). generalize (combine (seq 1 (length draws)) draws). intros l. induction l as [|e l IH]; intros t F (P & M & V); cbn [foldM] in F; [now injection F as <-|].
  unfold adam_epoch at 1 in F. destruct (sample_gradient x y (params t) (snd e)) as [g|] eqn:G; [|discriminate]. cbn [bind] in F.
  apply (sample_alike k) in G; [|exact P]. unfold adam_update in F. destruct (lzipM _ _ _) as [st|] eqn:L; [|discriminate]. cbn [bind] in F. apply (IH _ F). cbn [params m_state v_state].
  apply lzipM_is in L. split; [|split]; try (apply alike_lzip; auto). subst st. repeat apply alike_lzip; auto.
Qed.
End Alike.

(** ** Shapes *)
Lemma gradient_shape n da : forall ls x r, x <> [] -> forward ls x = Ok r -> same_network ls (fst (back_rec n (snd r) da)).
Proof.
  induction ls as [|l ls IH]; intros x r Hx E; [discriminate|].
  assert (H0 : forall delta a z, affine l x = Ok z -> Forall2 (fun r s => length r = length s) (fst l) (fst (fst (get_grad n delta (x, fst l, a)))) /\
    length (snd l) = length (snd (fst (get_grad n delta (x, fst l, a))))).
  { intros delta a z A. apply affine_rows in A. destruct A as [|x0 z0 x z (L & F & _) _]; [easy|]. unfold get_grad. cbn [fst snd width]. rewrite map_length, seq_length. split; [|congruence].
    apply Forall2_nth_in with (d := []) (d' := []); rewrite ?map_length, ?seq_length; [reflexivity|]. intros q Hq. rewrite nth_map_seq by auto. rewrite map_length, seq_length.
    rewrite Forall_forall in F. apply F, nth_In, Hq. }
  destruct (forward_first _ _ _ _ E) as (a & cs & Er & z & A & K). rewrite Er.
  destruct ls as [|l2 ls].
  - cbn [forward] in E. rewrite A in E. cbn [bind] in E. destruct (output_activation (fst l) z); [|discriminate]. cbn [bind] in E. injection E as <-. cbn [snd] in Er. injection Er as <- <-.
    cbn [back_rec fst]. constructor; [|constructor]. eapply H0; eauto.
  - destruct (K ltac:(discriminate)) as (Ea & r' & E' & Ecs).
    assert (Ha : a <> []) by (pose proof (affine_rows _ _ _ A) as A'; destruct A' as [|? ? ? ? _ A']; [easy|rewrite Ea; discriminate]).
    destruct (back_rec_head n da (x, fst l, a) cs) as (de & H1 & _). rewrite H1. constructor; [eapply H0; eauto|]. rewrite <- Ecs. exact (IH a r' Ha E').
Qed.
Lemma sample_shape x y ls m g : sample_gradient x y ls m = Ok g -> same_network ls g.
Proof.
  unfold sample_gradient. destruct (get_at x m) as [xi|]; [|discriminate]. cbn [bind]. destruct (get_at y m) as [yi|]; [|discriminate]. cbn [bind].
  destruct (forward ls [xi]) as [r|] eqn:F; [|discriminate]. cbn [bind]. intros E. destruct (backward_rec _ _ _ _ E) as (da & _ & ->).
  apply (gradient_shape (length [yi]) da ls [xi] r); auto. discriminate.
Qed.

(** ** Silent neurons *)
Section Silent.
Variable i : nat.
(** All entries that belong to neuron [i] are zero. *)
Definition quiet (g : list layer) : Prop := exists l l' rest, g = l :: l' :: rest /\
  Forall (fun t => t = 0) (nth i (fst l) []) /\ nth i (snd l) 0 = 0 /\ Forall (fun r => nth i r 0 = 0) (fst l').
Lemma nth_zip2_quiet f a b : f 0 0 = 0 -> nth i a 0 = 0 -> nth i b 0 = 0 -> nth i (zip2 f a b) 0 = 0.
Proof.
  intros H A B. destruct (Nat.lt_ge_cases i (Nat.min (length a) (length b))) as [L|L]; [|apply nth_overflow; rewrite zip2_len; exact L].
  rewrite nth_zip2_lt by lia. now rewrite A, B.
Qed.
Lemma zip2_zeros f a b : f 0 0 = 0 -> Forall (fun t => t = 0) a -> Forall (fun t => t = 0) b -> Forall (fun t => t = 0) (zip2 f a b).
Proof.
  intros H A B. unfold zip2. apply Forall_forall. intros t I. apply in_map_iff in I as ([u v] & <- & I). rewrite Forall_forall in A, B.
  cbn [fst snd]. now rewrite (A u (in_combine_l _ _ _ _ I)), (B v (in_combine_r _ _ _ _ I)).
Qed.
Lemma quiet_lzip f a b : f 0 0 = 0 -> quiet a -> quiet b -> quiet (lzip f a b).
Proof.
  intros H (l & l' & t & -> & A1 & A2 & A3) (k & k' & s & -> & B1 & B2 & B3). unfold lzip. cbn [combine map fst snd]. do 3 eexists. split; [reflexivity|]. cbn [fst snd].
  split; [|split].
  - destruct (Nat.lt_ge_cases i (Nat.min (length (fst l)) (length (fst k)))) as [L|L].
    + rewrite nth_mzip by lia. now apply zip2_zeros.
    + rewrite nth_overflow by (rewrite mzip_len; exact L). constructor.
  - now apply nth_zip2_quiet.
  - unfold mzip. apply Forall_forall. intros r I. apply in_map_iff in I as ([u v] & <- & I). rewrite Forall_forall in A3, B3. cbn [fst snd].
    apply nth_zip2_quiet; [exact H|exact (A3 u (in_combine_l _ _ _ _ I))|exact (B3 v (in_combine_r _ _ _ _ I))].
Qed.
Lemma quiet_zeros l l' rest : quiet (lmap (fun _ => 0) (l :: l' :: rest)).
Proof.
  unfold lmap. cbn [map]. do 3 eexists. split; [reflexivity|]. cbn [fst snd]. assert (Z : forall a : list R, nth i (map (fun _ => 0) a) 0 = 0) by (intros a; revert i; induction a as [|? a IH]; intros [|q]; cbn; auto).
  split; [|split].
  - unfold mmap. destruct (Nat.lt_ge_cases i (length (fst l))) as [L|L].
    + rewrite (nth_map_in _ _ _ [] []) by auto. apply Forall_forall. intros t I. now apply in_map_iff in I as (? & <- & _).
    + rewrite nth_overflow by (rewrite map_length; exact L). constructor.
  - apply Z.
  - unfold mmap. apply Forall_forall. intros r I. apply in_map_iff in I as (? & <- & _). apply Z.
Qed.
Lemma keep_row f u s : (forall p, f p 0 = p) -> length u = length s -> Forall (fun t => t = 0) s -> zip2 f u s = u.
Proof. intros H. unfold zip2. revert s. induction u as [|a u IH]; intros [|b s] L F; try discriminate; [reflexivity|]. inversion F; subst. cbn [combine map fst snd]. rewrite H. f_equal. apply IH; [now injection L|auto]. Qed.
Lemma keep_neuron f ls g q : (forall p, f p 0 = p) -> same_network ls g -> quiet g -> neuron i ls = Some q -> neuron i (lzip f ls g) = Some q.
Proof.
  intros H S (k & k' & s & -> & B1 & B2 & B3) E. inversion S as [|l ? ls' ? (R1 & L1) S']; subst. inversion S' as [|l' ? ls'' ? (R2 & L2) _]; subst.
  unfold lzip. cbn [combine map fst snd neuron] in *. destruct (nth_error (fst l) i) as [u|] eqn:Eu; [|discriminate]. destruct (nth_error (snd l) i) as [b|] eqn:Eb; [|discriminate]. injection E as <-.
  assert (Lu : (i < length (fst l))%nat) by (apply nth_error_Some; congruence). assert (Lb : (i < length (snd l))%nat) by (apply nth_error_Some; congruence).
  pose proof (Forall2_len _ _ _ R1) as Lk.
  assert (N1 : nth_error (mzip f (fst l) (fst k)) i = Some u).
  { rewrite (nth_error_nth' _ [] (n := i)) by (rewrite mzip_len; lia). rewrite nth_mzip by lia. f_equal. rewrite (nth_error_nth _ _ [] Eu).
    apply keep_row; auto. rewrite <- (nth_error_nth _ _ [] Eu). clear -R1 Lu. revert i Lu. induction R1 as [|? ? ? ? E R IH]; intros [|q] L; cbn in *; try lia; auto. apply IH. lia. }
  assert (N2 : nth_error (zip2 f (snd l) (snd k)) i = Some b).
  { rewrite (nth_error_nth' _ 0 (n := i)) by (rewrite zip2_len; lia). rewrite nth_zip2_lt by lia. rewrite B2, H. f_equal. exact (nth_error_nth _ _ 0 Eb). }
  rewrite N1, N2. f_equal. f_equal. clear -R2 B3 H. unfold mzip. induction R2 as [|r v w w' L R IH]; [reflexivity|]. inversion B3 as [|? ? Bv B]; subst. cbn [combine map fst snd]. f_equal; [|now apply IH].
  destruct (Nat.lt_ge_cases i (length r)) as [Hi|Hi].
  - rewrite nth_zip2_lt by lia. now rewrite Bv, H.
  - rewrite !nth_overflow; auto. rewrite zip2_len. lia.
Qed.
Lemma gradient_quiet n da ls x r : x <> [] -> forward ls x = Ok r -> silent i x ls -> quiet (fst (back_rec n (snd r) da)).
Proof.
  intros Hx E (u & b & v & En & Hs). destruct ls as [|l [|l' ls]]; try discriminate. cbn [neuron] in En.
  destruct (nth_error (fst l) i) as [u0|] eqn:Eu; [|discriminate]. destruct (nth_error (snd l) i) as [b0|] eqn:Eb; [|discriminate]. injection En as -> -> _.
  assert (Lu : (i < length (fst l))%nat) by (apply nth_error_Some; congruence). assert (Lb : (i < length (snd l))%nat) by (apply nth_error_Some; congruence).
  destruct (forward_first _ _ _ _ E) as (a & cs & Er & z & A & K). destruct (K ltac:(discriminate)) as (Ea & r' & E' & Ecs).
  destruct (forward_first _ _ _ _ E') as (a' & cs' & Er' & _). rewrite Er. rewrite Er' in Ecs. subst cs.
  assert (Az : Forall (fun s => nth i s 0 = 0) a).
  { rewrite Ea. apply affine_rows in A. unfold mmap. clear -A Hs Eu Eb Lu Lb. induction A as [|t s x z (L & _ & ->) A IH]; [constructor|]. cbn [map]. constructor; [|apply IH; intros; apply Hs; now right].
    rewrite (nth_map_in relu _ _ 0 0) by (rewrite zip2_len, map_length; lia). rewrite nth_zip2_lt by (rewrite ?map_length; lia). rewrite (nth_map_in (dot t) _ _ 0 []) by auto.
    rewrite (nth_error_nth _ _ [] Eu), (nth_error_nth _ _ 0 Eb). pose proof (Hs t (or_introl eq_refl)) as P. rewrite inner_is_dot in P. unfold relu. apply Rmax_left. lra. }
  rewrite back_rec_cons by discriminate. unfold step_back. cbn [fst snd]. destruct (back_rec_head n da (a, fst l', a') cs') as (de & H1 & H2). rewrite H1, H2.
  set (out := snd (get_grad n de (a, fst l', a'))). set (D := mzip relu_diff out a).
  assert (Dz : Forall (fun s => nth i s 0 = 0) D).
  { unfold D, mzip. apply Forall_forall. intros s I. apply in_map_iff in I as ([p q] & <- & I). cbn [fst snd]. apply in_combine_r in I. rewrite Forall_forall in Az. specialize (Az q I).
    destruct (Nat.lt_ge_cases i (Nat.min (length p) (length q))) as [L|L]; [|apply nth_overflow; rewrite zip2_len; exact L].
    rewrite nth_zip2_lt by lia. rewrite Az. unfold relu_diff. destruct (Rleb 0 0) eqn:Q; [reflexivity|]. apply Rleb_false in Q. lra. }
  assert (Z0 : forall (T : Type) (h : T -> R) l0, (forall t, In t l0 -> h t = 0) -> rsum (map h l0) / INR n = 0).
  { intros T h l0 Hh. replace (rsum (map h l0)) with 0; [unfold Rdiv; ring|]. symmetry. induction l0 as [|t l0 IH]; [reflexivity|]. cbn [map]. unfold rsum in *. cbn [fold_right]. rewrite (Hh t (or_introl eq_refl)), IH by (intros; apply Hh; now right). ring. }
  unfold get_grad at 1 2. cbn [fst snd]. do 3 eexists. split; [reflexivity|]. cbn [fst snd]. split; [|split].
  - rewrite nth_map_seq by auto. apply Forall_forall. intros t I. apply in_map_iff in I as (q & <- & _). apply Z0. intros [p s] I. cbn [fst snd]. apply in_combine_l in I. rewrite Forall_forall in Dz. rewrite (Dz p I). ring.
  - rewrite nth_map_seq by auto. apply Z0. intros s I. rewrite Forall_forall in Dz. now apply Dz.
  - apply Forall_forall. intros s I. apply in_map_iff in I as (q & <- & _). destruct (Nat.lt_ge_cases i (width a)) as [L|L]; [|apply nth_overflow; now rewrite map_length, seq_length].
    rewrite nth_map_seq by auto. apply Z0. intros [p t] I. cbn [fst snd]. apply in_combine_r in I. rewrite Forall_forall in Az. rewrite (Az t I). ring.
Qed.
Lemma sample_quiet x y ls m g : sample_gradient x y ls m = Ok g -> silent i x ls -> quiet g.
Proof.
  unfold sample_gradient. destruct (get_at x m) as [xi|] eqn:Ex; [|discriminate]. cbn [bind]. destruct (get_at y m) as [yi|]; [|discriminate]. cbn [bind].
  destruct (forward ls [xi]) as [r|] eqn:F; [|discriminate]. cbn [bind]. intros E (u & b & v & En & Hs). destruct (backward_rec _ _ _ _ E) as (da & _ & ->).
  apply (gradient_quiet (length [yi]) da ls [xi] r); auto; [discriminate|]. exists u, b, v. split; [exact En|]. intros t [<-|[]]. apply Hs.
  unfold get_at in Ex. destruct (nth_error x m) eqn:Em; [|discriminate]. injection Ex as <-. exact (nth_error_In _ _ Em).
Qed.
Lemma silent_same x ls ls' : neuron i ls' = neuron i ls -> silent i x ls -> silent i x ls'.
Proof. intros E (u & b & v & En & Hs). exists u, b, v. split; [congruence|exact Hs]. Qed.
Lemma sgd_silent rate x y draws : forall ls ls', sgd_run rate x y ls draws = Ok ls' -> silent i x ls -> neuron i ls' = neuron i ls.
Proof.
  unfold sgd_run. induction draws as [|m draws IH]; intros ls ls' E S; cbn [foldM] in E; [now injection E as <-|].
  unfold sgd_epoch at 1 in E. destruct (sample_gradient x y ls m) as [g|] eqn:G; [|discriminate]. cbn [bind] in E.
  assert (K : neuron i (sgd_update rate ls g) = neuron i ls).
  { pose proof S as (u & b & v & En & _). rewrite En. unfold sgd_update. apply keep_neuron; auto; [intros; ring|exact (sample_shape x y ls m g G)|exact (sample_quiet x y ls m g G S)]. }
  rewrite <- K. apply (IH _ _ E). exact (silent_same x ls _ K S).
Qed.
Lemma adam_silent o x y draws ls ls' : adam_run o x y ls draws = Ok ls' -> silent i x ls -> neuron i ls' = neuron i ls.
Proof.
  unfold adam_run. intros E S. destruct (foldM _ _ _) as [s|] eqn:F; [|discriminate]. cbn [bind] in E. injection E as <-.
  assert (I0 : neuron i (params (adam_init ls)) = neuron i ls /\ quiet (m_state (adam_init ls)) /\ quiet (v_state (adam_init ls)) /\
    same_network (params (adam_init ls)) (m_state (adam_init ls)) /\ same_network (params (adam_init ls)) (v_state (adam_init ls))).
  { cbn. split; [reflexivity|]. destruct S as (u & b & v & En & _). destruct ls as [|l [|l' rest]]; try discriminate. split; [apply quiet_zeros|]. split; [apply quiet_zeros|].
    assert (Z : forall a : list layer, same_network a (lmap (fun _ => 0) a)).
    { intros a. unfold lmap. induction a as [|[w c] a IH]; cbn [map]; constructor; auto. cbn [fst snd]. rewrite map_length. split; [|reflexivity]. unfold mmap. induction w as [|t w IHw]; cbn [map]; constructor; auto. now rewrite map_length. }
    split; apply Z. }
  revert F I0. generalize (adam_init ls). generalize (combine (seq 1 (length draws)) draws). intros l. induction l as [|e l IH]; intros t F (P & M & V & SM & SV); cbn [foldM] in F; [now injection F as <-|].
  unfold adam_epoch at 1 in F. destruct (sample_gradient x y (params t) (snd e)) as [g|] eqn:G; [|discriminate]. cbn [bind] in F.
  pose proof (silent_same x ls (params t) P S) as S'. pose proof (sample_quiet x y _ _ _ G S') as Qg. pose proof (sample_shape _ _ _ _ _ G) as Sg.
  unfold adam_update in F. destruct (lzipM _ _ _) as [st|] eqn:L; [|discriminate]. cbn [bind] in F. apply (IH _ F). cbn [params m_state v_state].
  apply lzipM_is in L.
  assert (Q1 : quiet (lzip (moment_1 o) (m_state t) g)) by (apply quiet_lzip; auto; unfold moment_1; ring).
  assert (Q2 : quiet (lzip (moment_2 o) (v_state t) g)) by (apply quiet_lzip; auto; unfold moment_2; ring).
  assert (H1 : same_network (params t) (lzip (moment_1 o) (m_state t) g)).
  { apply (same_network_trans _ (m_state t)); [exact SM|]. apply lzip_shape. apply (same_network_trans _ (params t)); [now apply same_network_sym|exact Sg]. }
  assert (H2 : same_network (params t) (lzip (moment_2 o) (v_state t) g)).
  { apply (same_network_trans _ (v_state t)); [exact SV|]. apply lzip_shape. apply (same_network_trans _ (params t)); [now apply same_network_sym|exact Sg]. }
  assert (Q3 : quiet st).
  { subst st. apply quiet_lzip; auto. unfold ok_of, adam_step. destruct (_ || _); [reflexivity|]. destruct (Rltb _ _); [reflexivity|]. destruct (Reqb _ _); [reflexivity|]. unfold Rdiv. ring. }
  assert (H3 : same_network (params t) st).
  { subst st. apply (same_network_trans _ (lzip (moment_1 o) (m_state t) g)); [exact H1|]. apply lzip_shape. apply (same_network_trans _ (params t)); [now apply same_network_sym|exact H2]. }
  assert (H4 : same_network (params t) (lzip Rminus (params t) st)) by now apply lzip_shape.
  split; [|split; [exact Q1|split; [exact Q2|split]]].
  - rewrite <- P. destruct S' as (u & b & v & En & _). rewrite En. apply keep_neuron; auto. intros; ring.
  - apply (same_network_trans _ (params t)); [now apply same_network_sym|exact H1].
  - apply (same_network_trans _ (params t)); [now apply same_network_sym|exact H2].
Qed.
End Silent.

(** ** All neurons silent *)
Lemma sgd_shape rate x y draws : forall ls ls', sgd_run rate x y ls draws = Ok ls' -> same_network ls ls'.
Proof.
  unfold sgd_run. induction draws as [|m draws IH]; intros ls ls' E; cbn [foldM] in E; [injection E as <-; apply same_network_refl|].
  unfold sgd_epoch at 1 in E. destruct (sample_gradient x y ls m) as [g|] eqn:G; [|discriminate]. cbn [bind] in E.
  apply (same_network_trans _ (sgd_update rate ls g)); [|exact (IH _ _ E)]. apply lzip_shape. exact (sample_shape _ _ _ _ _ G).
Qed.
Lemma adam_shape o x y draws ls ls' : adam_run o x y ls draws = Ok ls' -> same_network ls ls'.
Proof.
  unfold adam_run. intros E. destruct (foldM _ _ _) as [s|] eqn:F; [|discriminate]. cbn [bind] in E. injection E as <-.
  assert (Z : forall a : list layer, same_network a (lmap (fun _ => 0) a)).
  { intros a. unfold lmap. induction a as [|[w c] a IH]; cbn [map]; constructor; auto. cbn [fst snd]. rewrite map_length. split; [|reflexivity]. unfold mmap. induction w as [|t w IHw]; cbn [map]; constructor; auto. now rewrite map_length. }
  assert (I0 : same_network ls (params (adam_init ls)) /\ same_network ls (m_state (adam_init ls)) /\ same_network ls (v_state (adam_init ls))).
  { cbn. split; [apply same_network_refl|]. split; apply Z. }
  revert F I0. generalize (adam_init ls). generalize (combine (seq 1 (length draws)) draws). intros l. induction l as [|e l IH]; intros t F (P & M & V); cbn [foldM] in F; [now injection F as <-|].
  unfold adam_epoch at 1 in F. destruct (sample_gradient x y (params t) (snd e)) as [g|] eqn:G; [|discriminate]. cbn [bind] in F. apply sample_shape in G.
  unfold adam_update in F. destruct (lzipM _ _ _) as [st|] eqn:L; [|discriminate]. cbn [bind] in F. apply (IH _ F). cbn [params m_state v_state]. apply lzipM_is in L.
  assert (C : forall f a b, same_network ls a -> same_network ls b -> same_network ls (lzip f a b)).
  { intros f a b A B. apply (same_network_trans _ a); [exact A|]. apply lzip_shape. apply (same_network_trans _ ls); [now apply same_network_sym|exact B]. }
  assert (Gs : same_network ls g) by (apply (same_network_trans _ (params t)); [exact P|exact G]).
  subst st. split; [|split]; repeat apply C; auto.
Qed.
Lemma all_silent w b w' b' rest ls' : length b = length w -> Forall (fun r => length r = length w) w' ->
  same_network ((w, b) :: (w', b') :: rest) ls' -> (forall i, (i < length w)%nat -> neuron i ls' = neuron i ((w, b) :: (w', b') :: rest)) ->
  w <> [] -> exists b'' rest', ls' = (w, b) :: (w', b'') :: rest'.
Proof.
  intros Lb F Sn N Hw. inversion Sn as [|? [w1 b1] ? ? (R1 & L1) S']; subst. inversion S' as [|? [w2 b2] ? rest' (R2 & L2) _]; subst. cbn [fst snd] in *.
  pose proof (Forall2_len _ _ _ R1) as Lw. pose proof (Forall2_len _ _ _ R2) as Lw'.
  assert (K : forall i, (i < length w)%nat -> nth_error w1 i = nth_error w i /\ nth_error b1 i = nth_error b i /\ map (fun r => nth i r 0) w2 = map (fun r => nth i r 0) w').
  { intros i Hi. specialize (N i Hi). cbn [neuron fst snd] in N.
    destruct (nth_error w i) as [u|] eqn:E1; [|apply nth_error_None in E1; lia]. destruct (nth_error b i) as [c|] eqn:E2; [|apply nth_error_None in E2; lia].
    destruct (nth_error w1 i) as [u1|]; [|discriminate]. destruct (nth_error b1 i) as [c1|]; [|discriminate]. injection N as -> -> E. auto. }
  assert (X : forall (T : Type) (p q : list T), length p = length q -> (forall i, (i < length q)%nat -> nth_error p i = nth_error q i) -> p = q).
  { intros T p. induction p as [|a p IHp]; intros [|a' q] L H; try discriminate; [reflexivity|]. pose proof (H 0%nat ltac:(cbn; lia)) as H0. cbn in H0. injection H0 as ->. f_equal. apply IHp; [now injection L|]. intros i Hi. exact (H (S i) ltac:(cbn; lia)). }
  assert (E1 : w1 = w) by (apply X; [now symmetry|]; intros i Hi; now apply K).
  assert (E2 : b1 = b) by (apply X; [now symmetry|]; intros i Hi; apply K; lia). subst w1 b1.
  assert (E3 : w2 = w').
  { apply nth_ext with (d := []) (d' := []); [now symmetry|]. intros q Hq. assert (Hq' : (q < length w')%nat) by lia.
    assert (Lq : length (nth q w2 []) = length w).
    { transitivity (length (nth q w' [])); [|rewrite Forall_forall in F; apply F, nth_In, Hq']. symmetry. clear -R2 Hq'. revert q Hq'. induction R2 as [|? ? ? ? E R IH]; intros [|q] L; cbn in *; try lia; auto. apply IH. lia. }
    assert (Lq' : length (nth q w' []) = length w) by (rewrite Forall_forall in F; apply F, nth_In, Hq').
    apply nth_ext with (d := 0) (d' := 0); [congruence|]. intros i Hi. rewrite Lq in Hi. destruct (K i Hi) as (_ & _ & E).
    apply (f_equal (fun l => nth q l 0)) in E. rewrite !(nth_map_in (fun r => nth i r 0) _ q 0 []) in E by auto. exact E. }
  subst w2. now exists b2, rest'.
Qed.
