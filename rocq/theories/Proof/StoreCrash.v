(** Proofs about interrupted saves. *)
From Coq Require Import List String Reals ZArith Bool Arith Lia.
From Verif.Model Require Import Base Network Rbf Training Store Life.
From Verif.Spec Require Import Store.
From Verif.Proof Require Import BaseLemmas Store StoreNet.
Import ListNotations.
Local Open Scope string_scope.

Section Crash.
Context {A : Type}.
Notation attrs := (@attrs A).
Notation obj := (@obj A).
Notation cls := (@cls A).
Notation op := (@op A).

(** ** Statements *)
Definition wkeys (i : obj) (w : @write A) : list (part * string) :=
  match w with
  | Put p k _ => [(p, k)]
  | PutIfSet p k _ _ => [(p, k)]
  | PutAll p fld => match field i fld with VDict d => map (fun kv => (p, fst kv)) d | _ => [] end
  end.
Definition key_of (o : op) : part * string := match o with Write p k _ => (p, k) | _ => (Compile, "") end.
Definition is_write (o : op) : Prop := match o with Write _ _ _ => True | _ => False end.

Lemma write_one_ok : forall p k r (o : op), write_one p k r = Ok o -> exists v, o = Write p k v.
Proof.
  intros p k r o H; unfold write_one in H; destruct r as [v | e]; cbn [bind] in H; [| discriminate ].
  destruct (storable v); inversion H; now exists v.
Qed.
Lemma do_write_in : forall (i : obj) w o, In (Ok o) (do_write i w) -> is_write o /\ In (key_of o) (wkeys i w).
Proof.
  intros i [p k e | p k fld e | p fld] o H; cbn [do_write wkeys] in *.
  - destruct H as [H | []]; apply write_one_ok in H as [v ->]; cbn; tauto.
  - destruct (field i fld); try (destruct H as [H | []]; apply write_one_ok in H as [v' ->]; cbn; tauto); contradiction.
  - destruct (field i fld); try (destruct H as [H | []]; discriminate).
    apply in_map_iff in H as (kv & H & Hi); apply write_one_ok in H as [v ->]; cbn; split; [ exact I |].
    now apply (in_map (fun kv => (p, fst kv))).
Qed.
Lemma until_error_in : forall {B} (l : list (result B)) b, In b (fst (until_error l)) -> In (Ok b) l.
Proof.
  intros B; induction l as [| [x | e] l IH]; intros b H; cbn in H; try contradiction.
  destruct (until_error l) as [bs e]; cbn in *; destruct H as [-> | H]; [ now left | right; now apply IH ].
Qed.
Lemma until_error_app : forall {B} (l1 l2 : list (result B)),
  until_error (l1 ++ l2) =
  match until_error l1 with
  | (bs, Some e) => (bs, Some e)
  | (bs, None) => ((bs ++ fst (until_error l2))%list, snd (until_error l2))
  end.
Proof.
  intros B; induction l1 as [| [x | e] l1 IH]; intros l2; cbn.
  - now destruct (until_error l2).
  - rewrite IH; destruct (until_error l1) as [bs [e |]]; reflexivity.
  - reflexivity.
Qed.
Lemma until_error_none : forall {B} (l : list (result B)) bs, until_error l = (bs, None) -> l = map Ok bs.
Proof.
  intros B; induction l as [| [x | e] l IH]; intros bs H; cbn in H; [ inversion H; reflexivity | | discriminate ].
  destruct (until_error l) as [bs' e]; inversion H; subst; cbn; now rewrite (IH bs').
Qed.
(** The keys that a save writes are, in order, an initial part of the keys of its
    statements. *)
Lemma do_write_keys : forall (i : obj) w ops, fst (until_error (do_write i w)) = ops ->
  exists rest, wkeys i w = (map key_of ops ++ rest)%list.
Proof.
  intros i w ops <-; destruct w as [p k e | p k fld e | p fld]; cbn [do_write wkeys].
  - destruct (write_one p k (e i)) eqn:E; cbn; [ apply write_one_ok in E as [v ->]; now exists [] | now exists [(p, k)] ].
  - destruct (field i fld); try (destruct (write_one p k (e i)) eqn:E; cbn; [ apply write_one_ok in E as [v' ->]; now exists [] | now exists [(p, k)] ]).
    now exists [(p, k)].
  - destruct (field i fld); try (now exists []).
    induction d as [| [k v] d IH]; cbn [map fst snd]; [ now exists [] |].
    cbn [until_error]; destruct (write_one p k (Ok v)) eqn:E; [| now exists ((p, k) :: map (fun kv => (p, fst kv)) d) ].
    apply write_one_ok in E as [v' ->].
    destruct (until_error _) as [bs e'] eqn:E'; cbn [fst map key_of app] in *.
    destruct IH as [rest ->]; now exists rest.
Qed.
Lemma writes_nodup : forall (i : obj) ws, NoDup (flat_map (wkeys i) ws) ->
  NoDup (map key_of (fst (until_error (flat_map (do_write i) ws)))).
Proof.
  intros i; induction ws as [| w ws IH]; intros H; cbn [flat_map] in *; [ constructor |].
  rewrite until_error_app.
  destruct (do_write_keys i w _ eq_refl) as [rest Hw].
  destruct (until_error (do_write i w)) as [bs [e |]] eqn:E; cbn [fst] in *.
  - rewrite Hw in H; rewrite <- app_assoc in H; clear - H.
    induction (map key_of bs) as [| x l IHl]; [ constructor |].
    inversion H; subst; constructor; [| now apply IHl ]; intros Hi; apply H2; apply in_or_app; now left.
  - assert (G : forall l1 l2 l3 : list (part * string), NoDup (l1 ++ l2) -> NoDup l3 -> incl l3 l2 -> NoDup (l1 ++ l3)).
    { induction l1 as [| x l1 IHl]; intros l2 l3 H1 H3 Hi; cbn in *; [ exact H3 |].
      inversion H1 as [| ? ? Hx H1']; subst; constructor; [| now apply (IHl l2) ].
      intros Hx'; apply Hx; apply in_app_or in Hx' as [Hx' | Hx']; apply in_or_app; [ now left | right; now apply Hi ]. }
    rewrite map_app; rewrite Hw, <- app_assoc in H; apply (G _ _ _ H).
    + apply IH; clear - H; induction (map key_of bs) as [| x l IHl]; cbn in H.
      * induction rest as [| x l IHl]; [ exact H |]; inversion H; now apply IHl.
      * inversion H; now apply IHl.
    + intros x Hx; apply in_map_iff in Hx as (o & <- & Ho); apply until_error_in in Ho.
      apply in_flat_map in Ho as (w' & Hw' & Ho); apply do_write_in in Ho as [_ Ho].
      apply in_or_app; right; apply in_flat_map; now exists w'.
Qed.

(** ** Writing *)
Lemma run_app : forall (a b : list op) k, run_ops (a ++ b) k = run_ops b (run_ops a k).
Proof. intros; apply fold_left_app. Qed.
Lemma run_cons : forall (o : op) b k, run_ops (o :: b) k = run_ops b (exec k o).
Proof. reflexivity. Qed.
(** What is found in a file was written or was there before. *)
Lemma run_written : forall (ops : list op) f0 f p a key v, run_ops ops (Hdf5 f0) = Hdf5 f ->
  part_of f p = Some a -> lookup a key = Some v ->
  In (Write p key v) ops \/ exists a0, part_of f0 p = Some a0 /\ lookup a0 key = Some v.
Proof.
  induction ops as [| o ops IH]; intros f0 f p a key v H Hp Hl; [ inversion H; subst; right; now exists a |].
  rewrite run_cons in H; destruct o as [| | k' v' | | q | q k' v']; cbn [exec on_file] in H;
    destruct (IH _ _ _ _ _ _ H Hp Hl) as [Hi | (a0 & H1 & H2)]; try (left; now right).
  - destruct p; discriminate.
  - right; exists a0; destruct p; now split.
  - right; exists a0; destruct p; now split.
  - right; exists a0; destruct p; now split.
  - destruct p, q; cbn in H1; try (inversion H1; subst; discriminate); right; now exists a0.
  - assert (D : p = q \/ p <> q) by (destruct p, q; [ now left | now right | now right | now left ]).
    destruct D as [-> | Hn].
    + assert (E : part_of (set_part f0 q (option_map (fun d => put d k' v') (part_of f0 q))) q = option_map (fun d => put d k' v') (part_of f0 q)) by now destruct q.
      rewrite E in H1; destruct (part_of f0 q) as [d |] eqn:Ed; [| discriminate ].
      cbn in H1; inversion H1; subst a0; rewrite lookup_put in H2.
      destruct (key =? k') eqn:Ek; [ apply String.eqb_eq in Ek; subst; inversion H2; left; now left | right; now exists d ].
    + right; exists a0; split; [| exact H2 ].
      rewrite <- H1; destruct p, q; try reflexivity; now contradiction Hn.
Qed.
Lemma run_hdf5 : forall (ops : list op) f, exists g, run_ops ops (Hdf5 f) = Hdf5 g.
Proof.
  induction ops as [| o ops IH]; intros f; [ now exists f |].
  rewrite run_cons; destruct o; cbn [exec on_file]; apply IH.
Qed.
Lemma interrupted_hdf5 : forall (c : cls) author now i n k, (0 < n)%nat -> exists f, save_interrupted c author now i n k = Hdf5 f.
Proof.
  intros c author now i n k Hn; unfold save_interrupted; destruct (save_ops_truncate c author now i) as [rest ->].
  destruct n; [ lia |]; cbn [firstn]; rewrite run_cons; apply run_hdf5.
Qed.
(** Writes to other keys leave an entry alone. *)
Lemma run_keeps : forall (ops : list op) f g p a key v, Forall is_write ops -> ~ In (p, key) (map key_of ops) ->
  run_ops ops (Hdf5 f) = Hdf5 g -> part_of f p = Some a -> lookup a key = Some v ->
  exists b, part_of g p = Some b /\ lookup b key = Some v.
Proof.
  induction ops as [| o ops IH]; intros f g p a key v Hw Hk H Hp Hl; [ inversion H; subst; now exists a |].
  inversion Hw as [| ? ? Ho Hw']; subst; destruct o as [| | | | | q k' v']; try contradiction.
  rewrite run_cons in H; cbn [exec on_file] in H; cbn in Hk.
  assert (D : p = q \/ p <> q) by (destruct p, q; [ now left | now right | now right | now left ]).
  destruct D as [-> | Hn].
  - assert (E : part_of (set_part f q (option_map (fun d => put d k' v') (part_of f q))) q = Some (put a k' v')) by (rewrite Hp; now destruct q).
    apply (IH _ _ _ _ _ v Hw' (fun h => Hk (or_intror h)) H E).
    rewrite lookup_put; destruct (key =? k') eqn:Ek; [| exact Hl ].
    apply String.eqb_eq in Ek; subst; exfalso; apply Hk; now left.
  - assert (E : part_of (set_part f q (option_map (fun d => put d k' v') (part_of f q))) p = Some a)
      by (rewrite <- Hp; destruct p, q; try reflexivity; now contradiction Hn).
    exact (IH _ _ _ _ _ v Hw' (fun h => Hk (or_intror h)) H E Hl).
Qed.
Lemma run_description : forall (ops : list op) f g, Forall is_write ops -> run_ops ops (Hdf5 f) = Hdf5 g -> description g = description f.
Proof.
  induction ops as [| o ops IH]; intros f g Hw H; [ now inversion H |].
  inversion Hw as [| ? ? Ho Hw']; subst; destruct o as [| | | | | q k' v']; try contradiction.
  rewrite run_cons in H; cbn [exec on_file] in H; rewrite (IH _ _ Hw' H); now destruct q.
Qed.
Lemma until_error_writes : forall (i : obj) ws, Forall is_write (fst (until_error (flat_map (do_write i) ws))).
Proof.
  intros i ws; apply Forall_forall; intros o Ho; apply until_error_in in Ho.
  apply in_flat_map in Ho as (w & _ & Ho); now apply do_write_in in Ho.
Qed.

(** The file after [initialize_weights_file]. *)
Definition started (c : cls) (author now : value A) : @file A :=
  {| description := Some [("cml_version", VVersion cml_version); ("io_version", VVersion io_version); ("author", author);
                          ("model_name", VText (model_name c)); ("saved_time", now)];
     parameters := true; compile_ds := Some []; weights_ds := Some [] |}.
Lemma run_init : forall (c : cls) author now k, run_ops (init_ops (model_name c) author now) k = Hdf5 (started c author now).
Proof. reflexivity. Qed.
Lemma interrupted_late : forall (c : cls) author now i n k, (10 <= n)%nat ->
  save_interrupted c author now i n k =
  run_ops (firstn (n - 10) (fst (until_error (flat_map (do_write i) (writes c))))) (Hdf5 (started c author now)).
Proof.
  intros c author now i n k Hn; unfold save_interrupted, save_ops.
  destruct (until_error (flat_map (do_write i) (writes c))) as [ops e]; cbn [fst].
  replace n with (List.length (init_ops (model_name c) author now) + (n - 10))%nat by (cbn; lia).
  rewrite firstn_app_2, run_app, run_init; do 2 f_equal; cbn; lia.
Qed.
Lemma save_run : forall (c : cls) author now i k,
  save c author now i k =
  (run_ops (fst (until_error (flat_map (do_write i) (writes c)))) (Hdf5 (started c author now)),
   snd (until_error (flat_map (do_write i) (writes c)))).
Proof.
  intros; unfold save, save_ops; destruct (until_error _) as [ops e]; cbn [fst snd].
  now rewrite run_app, run_init.
Qed.

(** What an interrupted save has written is part of what the whole save writes. *)
Lemma interrupted_part : forall (c : cls) author now i n k f g,
  NoDup (flat_map (wkeys i) (writes c)) -> (0 < n)%nat ->
  save_interrupted c author now i n k = Hdf5 f -> fst (save c author now i k) = Hdf5 g -> part_of_file f g.
Proof.
  intros c author now i n k f g Hnd Hn Hf Hg.
  rewrite save_run in Hg; cbn [fst] in Hg.
  pose proof (until_error_writes i (writes c)) as Hw; pose proof (writes_nodup i (writes c) Hnd) as Hk.
  set (ops := fst (until_error (flat_map (do_write i) (writes c)))) in *.
  pose proof (run_description _ _ _ Hw Hg) as Hd.
  destruct (le_lt_dec 10 n) as [H10 | H10].
  - rewrite interrupted_late in Hf by exact H10; fold ops in Hf.
    set (m := (n - 10)%nat) in *.
    rewrite <- (firstn_skipn m ops) in Hw, Hk, Hg.
    apply Forall_app in Hw as [Hw1 Hw2].
    rewrite run_app, Hf in Hg; split.
    + intros a key v Ha Hl; exists a; rewrite (run_description _ _ _ Hw2 Hg); now split.
    + intros p a key v Ha Hl.
      destruct (run_written _ _ _ _ _ _ _ Hf Ha Hl) as [Hi | (a0 & H1 & H2)].
      * apply (run_keeps _ _ _ _ _ _ _ Hw2) with (2 := Hg) (3 := Ha) (4 := Hl).
        rewrite map_app in Hk; intros Hi2; apply (in_map key_of) in Hi; cbn in Hi.
        clear - Hk Hi Hi2; induction (map key_of (firstn m ops)) as [| x l IHl]; [ contradiction |].
        inversion Hk; subst; destruct Hi as [-> | Hi]; [ apply H1; apply in_or_app; now right | now apply IHl ].
      * destruct p; cbn in H1; inversion H1; subst; discriminate.
  - unfold save_interrupted, save_ops in Hf; destruct (until_error (flat_map (do_write i) (writes c))) as [ops' e].
    cbn [fst] in Hf.
    assert (L : forall a key v, description f = Some a -> lookup a key = Some v ->
                 exists b, description g = Some b /\ lookup b key = Some v).
    { intros a key v Ha Hl; rewrite Hd; eexists; split; [ reflexivity |].
      do 10 (destruct n as [| n]; [ try lia; cbn in Hf; inversion Hf; subst f; clear Hf; cbn [description] in Ha;
             try discriminate; inversion Ha; subst a; clear Ha; cbn [lookup] in Hl |- *;
             repeat match type of Hl with (if ?x then _ else _) = _ => destruct x; [ exact Hl |] end; discriminate |]); lia. }
    split; [ exact L |].
    intros p a key v Ha Hl.
    do 10 (destruct n as [| n]; [ try lia; cbn in Hf; inversion Hf; subst f; clear Hf; destruct p; cbn in Ha;
           try discriminate; inversion Ha; subst a; discriminate |]); lia.
Qed.

(** ** Incomplete files are not loaded *)
Lemma reads_need : forall f p key fld conv rs (i j : obj), In (Get p key fld conv) rs -> do_reads f i rs = (j, None) ->
  exists a v, part_of f p = Some a /\ lookup a key = Some v.
Proof.
  intros f p key fld conv; induction rs as [| r rs IH]; intros i j Hi H; [ contradiction |].
  cbn [do_reads] in H; destruct (do_read f i r) as [i' | e] eqn:E; [| discriminate ].
  destruct Hi as [-> | Hi]; [| now apply (IH i' j) ].
  cbn [do_read] in E; unfold get_attr in E; destruct (part_of f p) as [a |]; [| discriminate ].
  destruct (lookup a key) as [v |] eqn:El; [| discriminate ]; now exists a, v.
Qed.
Lemma load_ok : forall (c : cls) k (i j : obj), load c k i = (j, None) ->
  exists f j', k = Hdf5 f /\ do_reads f i (reads c) = (j', None) /\ j = set_loaded j'.
Proof.
  intros c k i j H; unfold load, open_weights in H; destruct k as [| f |]; try discriminate.
  destruct (parse (model_name c) f); cbn [bind] in H; [| discriminate ].
  destruct (parameters f); [| discriminate ].
  destruct (forallb _ (opens c)); [| discriminate ].
  destruct (do_reads f i (reads c)) as [j' [e |]] eqn:E; inversion H; subst; now exists f, j'.
Qed.
Lemma incomplete : forall (c : cls) author now i n k j j' ws p key e fld conv,
  writes c = (ws ++ [Put p key e])%list -> ~ In (p, key) (flat_map (wkeys i) ws) -> In (Get p key fld conv) (reads c) ->
  (0 < n)%nat -> load c (save_interrupted c author now i n k) j = (j', None) ->
  (save_interrupted c author now i n k, None) = save c author now i k.
Proof.
  intros c author now i n k j j' ws p key e fld conv Hc Hni Hr Hn H.
  destruct (interrupted_hdf5 c author now i n k Hn) as [f Hf]; rewrite Hf in H.
  apply load_ok in H as (f' & j'' & Ef & H & _); inversion Ef; subst f'; clear Ef.
  destruct (reads_need _ _ _ _ _ _ _ _ Hr H) as (a & v & Ha & Hl).
  destruct (le_lt_dec 10 n) as [H10 | H10].
  2:{ exfalso; unfold save_interrupted, save_ops in Hf; destruct (until_error (flat_map (do_write i) (writes c))) as [ops' e'].
      cbn [fst] in Hf.
      do 10 (destruct n as [| n]; [ try lia; cbn in Hf; inversion Hf; subst f; clear Hf; destruct p; cbn in Ha;
             try discriminate; inversion Ha; subst a; discriminate |]); lia. }
  pose proof (interrupted_late c author now i n k H10) as Hlate; rewrite Hlate in Hf.
  destruct (run_written _ _ _ _ _ _ _ Hf Ha Hl) as [Hi | (a0 & H1 & H2)].
  2:{ destruct p; cbn in H1; inversion H1; subst; discriminate. }
  rewrite Hlate, save_run; rewrite Hc, flat_map_app in *; cbn [flat_map do_write app] in *.
  assert (Hno : forall w, ~ In (Write p key w) (fst (until_error (flat_map (do_write i) ws)))).
  { intros w Hw; apply until_error_in in Hw; apply in_flat_map in Hw as (x & Hx & Hw).
    apply do_write_in in Hw as [_ Hw]; apply Hni; apply in_flat_map; now exists x. }
  rewrite until_error_app in *; cbn [until_error fst snd] in *.
  destruct (until_error (flat_map (do_write i) ws)) as [bs [er |]]; cbn [fst snd] in *.
  - exfalso; apply (Hno v); clear - Hi; revert Hi; generalize (n - 10)%nat; induction bs as [| b bs IH]; intros [| m] Hi; cbn in *; try contradiction.
    destruct Hi as [-> | Hi]; [ now left | right; now apply (IH m) ].
  - destruct (write_one p key (e i)) as [o | er] eqn:Eo; cbn [fst snd] in *.
    + rewrite firstn_all2; [ reflexivity |].
      destruct (le_lt_dec (List.length (bs ++ [o])) (n - 10)) as [Hle | Hlt]; [ exact Hle |].
      exfalso; apply (Hno v); rewrite app_length in Hlt; cbn in Hlt.
      rewrite firstn_app in Hi; replace (n - 10 - List.length bs)%nat with 0%nat in Hi by lia.
      cbn [firstn] in Hi; rewrite app_nil_r in Hi.
      clear - Hi; revert Hi; generalize (n - 10)%nat; induction bs as [| b bs IH]; intros [| m] Hi; cbn in *; try contradiction.
      destruct Hi as [-> | Hi]; [ now left | right; now apply (IH m) ].
    + exfalso; apply (Hno v); rewrite app_nil_r in Hi.
      clear - Hi; revert Hi; generalize (n - 10)%nat; induction bs as [| b bs IH]; intros [| m] Hi; cbn in *; try contradiction.
      destruct Hi as [-> | Hi]; [ now left | right; now apply (IH m) ].
Qed.

(** ** Dictionaries in files *)
Lemma run_dict : forall (d : attrs) f a, weights_ds f = Some a ->
  run_ops (map (fun kv => Write Weights (fst kv) (snd kv)) d) (Hdf5 f) =
  Hdf5 {| description := description f; parameters := parameters f; compile_ds := compile_ds f;
          weights_ds := Some (fold_left (fun d kv => put d (fst kv) (snd kv)) d a) |}.
Proof.
  induction d as [| [k v] d IH]; intros f a H; cbn [map fold_left].
  - rewrite <- H; destruct f; reflexivity.
  - rewrite run_cons; cbn [exec on_file part_of set_part fst snd]; rewrite H; cbn [option_map].
    rewrite (IH _ (put a k v)); reflexivity.
Qed.
Lemma all_written : forall (d : attrs) ops e,
  until_error (map (fun kv => write_one Weights (fst kv) (Ok (snd kv))) d) = (ops, e) -> e = None ->
  ops = map (fun kv => Write Weights (fst kv) (snd kv)) d.
Proof.
  intros d ops e H ->; apply until_error_none in H; revert ops H.
  induction d as [| [k v] d IH]; intros ops H; destruct ops as [| o ops]; cbn in H; try discriminate; [ reflexivity |].
  inversion H as [[H1 H2]]; apply IH in H2; subst ops.
  unfold write_one in H1; cbn in H1; destruct (storable v); inversion H1; reflexivity.
Qed.
End Crash.
