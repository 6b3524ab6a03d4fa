(** ProofHeap4.v: text to rdata on the heap: values as in ModelFromStr.v, every temporary freed on every path. *)
From Verif Require Import Base Lib ModelName ModelDescr ModelParse Libc ModelFormat ModelTables ModelRRset ModelToStr ModelFromStr
  ModelHeap SpecHeap ProofHeap ProofHeap2 ModelHeap2.
From Coq Require Import Permutation.

(** The ubuf [u] holds [c]; the other live blocks are [L]. *)
Definition ub (u : Z) (c : bytes) (L : list (Z * cell)) (h : heap) : Prop :=
  exists d, owns h ((u, CUbuf d) :: (d, CBytes c) :: L).

Lemma ub_perm : forall u c L M h, ub u c L h -> Permutation L M -> ub u c M h.
Proof. intros u c L M h (d & O) P. exists d. eapply owns_perm; [exact O|]. apply perm_skip, perm_skip, P. Qed.

Lemma ub_new_wp : forall h L (Q : Z -> heap -> Prop), owns h L -> (forall u h', u <> 0 -> ub u [] L h' -> Q u h') -> wp ubuf_new_h h Q.
Proof. intros h L Q O K. eapply ubuf_new_wp; [exact O|]. intros u d h' N _ O'. apply K; [exact N|]. exists d. exact O'. Qed.

Lemma ub_destroy_wp : forall u c h L (Q : unit -> heap -> Prop), u <> 0 -> ub u c L h -> (forall h', owns h' L -> Q tt h') -> wp (ubuf_destroy_h u) h Q.
Proof. intros u c h L Q N (d & O) K. eapply ubuf_destroy_wp; eauto. Qed.

Lemma ub_append_wp : forall u c l h L (Q : unit -> heap -> Prop), ub u c L h -> (forall h', ub u (c ++ l) L h' -> Q tt h') ->
  wp (ubuf_append_h u l) h Q.
Proof.
  intros u c l h L Q (d & O) K. unfold ubuf_append_h.
  apply wp_bind. eapply wp_load_ubuf; [exact O|left; reflexivity|].
  apply wp_bind. eapply wp_load_bytes; [exact O|right; left; reflexivity|].
  apply wp_bind. eapply wp_free; [exact O|apply perm_swap|]. intros h1 O1.
  apply wp_bind. eapply wp_alloc; [exact O1|]. intros d' h2 N O2.
  eapply wp_store; [exact O2|apply perm_swap|]. intros h3 O3. apply K. exists d'. exact O3.
Qed.

Lemma ub_set_wp : forall u c f h L (Q : unit -> heap -> Prop), ub u c L h -> (forall h', ub u (f c) L h' -> Q tt h') ->
  wp (ubuf_set_h u f) h Q.
Proof.
  intros u c f h L Q (d & O) K. unfold ubuf_set_h.
  apply wp_bind. eapply wp_load_ubuf; [exact O|left; reflexivity|].
  apply wp_bind. eapply wp_load_bytes; [exact O|right; left; reflexivity|].
  eapply wp_store; [exact O|apply perm_swap|]. intros h1 O1. apply K. exists d. eapply owns_perm; [exact O1|apply perm_swap].
Qed.

Lemma ub_alloc_wp : forall u c x h L (Q : Z -> heap -> Prop), ub u c L h -> (forall p h', p <> 0 -> ub u c ((p, x) :: L) h' -> Q p h') ->
  wp (alloc x) h Q.
Proof.
  intros u c x h L Q (d & O) K. eapply wp_alloc; [exact O|]. intros p h' N O'. apply K; [exact N|]. exists d.
  eapply owns_perm; [exact O'|]. perm.
Qed.
Lemma ub_free_wp : forall u c p x h L (Q : unit -> heap -> Prop), ub u c ((p, x) :: L) h -> (forall h', ub u c L h' -> Q tt h') ->
  wp (free p) h Q.
Proof.
  intros u c p x h L Q (d & O) K. eapply (wp_free p x h ((u, CUbuf d) :: (d, CBytes c) :: L)); [exact O|perm|].
  intros h' O'. apply K. exists d. exact O'.
Qed.
Lemma ub_store_wp : forall u c p x y h L (Q : unit -> heap -> Prop), ub u c ((p, x) :: L) h -> (forall h', ub u c ((p, y) :: L) h' -> Q tt h') ->
  wp (store p y) h Q.
Proof.
  intros u c p x y h L Q (d & O) K. eapply (wp_store p x y h ((u, CUbuf d) :: (d, CBytes c) :: L)); [exact O|perm|].
  intros h' O'. apply K. exists d. eapply owns_perm; [exact O'|perm].
Qed.
Lemma ub_bytes_wp : forall u c p l h L (Q : bytes -> heap -> Prop), ub u c L h -> In (p, CBytes l) L -> Q l h -> wp (load_bytes p) h Q.
Proof. intros u c p l h L Q (d & O) I K. eapply wp_load_bytes; [exact O|right; right; exact I|exact K]. Qed.
Lemma wp_load_name : forall p n d h M (Q : Z * Z -> heap -> Prop), owns h M -> In (p, CName n d) M -> Q (n, d) h -> wp (load_name p) h Q.
Proof. intros. unfold load_name. wpl. Qed.
Lemma ub_name_wp : forall u c p n e h L (Q : Z * Z -> heap -> Prop), ub u c L h -> In (p, CName n e) L -> Q (n, e) h -> wp (load_name p) h Q.
Proof. intros u c p n e h L Q (d & O) I K. eapply wp_load_name; [exact O|right; right; exact I|exact K]. Qed.

Lemma sim_on_err : forall A B (o : outcome A) (e : hm B) c h Q (E E' : heap -> Prop), sim o e h Q E ->
  (forall h', E h' -> wp c h' (fun _ => E')) -> sim o (on_err e c) h Q E'.
Proof.
  intros A B o e c h Q E E' S K. unfold on_err. destruct o as [a|r|f|]; cbn [sim] in *.
  - destruct S as (b & h' & -> & q). eauto.
  - destruct S as (h' & -> & q). destruct (K h' q) as ([] & h2 & W & q2). exists h2. unfold hbind. rewrite W. auto.
  - rewrite S. reflexivity.
  - rewrite S. reflexivity.
Qed.

(** ** Names *)
Lemma str_to_name_hsim : forall b s after h L, owns h L ->
  sim (str_to_name_gen b s after) (str_to_name_h b s after) h
    (fun a x h' => fst x = snd a /\ snd x <> 0 /\ owns h' ((snd x, CBytes (fst a)) :: L)) (fun h' => owns h' L).
Proof.
  intros b s after h L O. unfold str_to_name_h.
  destruct ((zlen s =? 0) || ((zlen s =? 1) && (nth 0 s 0 =? 46))) eqn:C.
  - assert (EQ : str_to_name_gen b s after = Ok ([0], 1)).
    { unfold str_to_name_gen. destruct s as [|a [|a' s]]; [reflexivity| |].
      - cbn [nth] in C. change (zlen [a]) with 1 in *. cbn [Z.eqb orb andb] in *. rewrite C. reflexivity.
      - exfalso. rewrite !zlen_cons in C. pose proof (zlen_nonneg _ s). destruct (nth 0 (a :: a' :: s) 0 =? 46); lia. }
    rewrite EQ. apply sim_ok. apply wp_bind. eapply wp_alloc; [exact O|]. intros p h1 N O1.
    apply wp_bind. eapply wp_store; [exact O1|reflexivity|]. intros h2 O2. apply wp_ret. cbn [fst snd]. auto.
  - eapply sim_wp; [eapply (wp_alloc _ h L (fun p h' => p <> 0 /\ owns h' ((p, CBytes (repeat (-1) 255)) :: L))); [exact O|auto]|].
    cbv beta. intros p h1 (N & O1).
    assert (S1 : sim (str_to_name_gen b s after) (on_err (lift (str_to_name_gen b s after)) (free p)) h1
      (fun a y h' => y = a /\ h' = h1) (fun h' => owns h' L)).
    { eapply (sim_on_err _ _ _ _ _ _ _ (fun h' => h' = h1)).
      - apply sim_lift. reflexivity.
      - intros h' ->. eapply wp_free; [exact O1|reflexivity|auto]. }
    replace (str_to_name_gen b s after) with (bind (str_to_name_gen b s after) Ok) at 1 by (destruct (str_to_name_gen b s after); reflexivity).
    eapply (sim_bind _ _ _ _ _ _ _ _ _ _ _ _ _ S1); [|auto].
    intros a y h' _ (-> & ->). apply sim_ok. apply wp_bind. eapply wp_store; [exact O1|reflexivity|].
    intros h2 O2. apply wp_ret. cbn [fst snd]. auto.
Qed.

Lemma take_rd_cases : forall m n, (exists l, take_rd m n = Ok l) \/ take_rd m n = UB OobRead.
Proof. intros m n. unfold take_rd. destruct ((n <? 0) || (zlen m <? n)); eauto. Qed.

(** The relation between a field of ModelFromStr.v and its heap version. *)
Definition fsim (u : Z) (c : bytes) (L : list (Z * cell)) (o : outcome (bytes * option bytes)) (e : hm (option bytes)) (h : heap) : Prop :=
  sim o e h (fun a b h' => b = snd a /\ ub u (c ++ fst a) L h') (fun h' => exists c', ub u c' L h').

Lemma name_field_sim : forall u c L s h, ub u c L h -> fsim u c L (parse_text_field rdf_name s) (name_field_h u s) h.
Proof.
  intros u c L s h U. unfold fsim, name_field_h. cbn [parse_text_field]. destruct (token s) as (t, e). unfold dup_h.
  eapply sim_wp; [eapply (ub_alloc_wp u c _ h L (fun p h' => p <> 0 /\ ub u c ((p, CBytes t) :: L) h')); [exact U|auto]|].
  cbv beta. intros sp h1 (N1 & U1).
  eapply sim_wp; [eapply (ub_alloc_wp u c _ h1 _ (fun p h' => p <> 0 /\ ub u c ((p, CName 0 0) :: (sp, CBytes t) :: L) h')); [exact U1|auto]|].
  cbv beta. intros np h2 (N2 & U2).
  eapply sim_wp; [eapply (ub_bytes_wp u c sp t h2 _ (fun l h' => l = t /\ h' = h2)); [exact U2|right; left; reflexivity|auto]|].
  cbv beta. intros t' h' (-> & ->). destruct U2 as (d & O2).
  assert (S : sim (str_to_name_case t []) (on_err (str_to_name_h false t []) (free sp ;;;; free np)) h2
    (fun a x h' => fst x = snd a /\ snd x <> 0 /\ owns h' ((snd x, CBytes (fst a)) :: (u, CUbuf d) :: (d, CBytes c) :: (np, CName 0 0) :: (sp, CBytes t) :: L))
    (fun h' => ub u c L h')).
  { eapply sim_on_err; [apply str_to_name_hsim; exact O2|]. intros h3 O3.
    apply wp_bind. eapply (ub_free_wp u c sp (CBytes t) h3 ((np, CName 0 0) :: L)); [exists d; eapply owns_perm; [exact O3|perm]|]. intros h4 U4.
    eapply ub_free_wp; [exact U4|auto]. }
  eapply (sim_bind _ _ _ _ _ _ _ _ _ _ _ _ _ S).
  - intros (nd, len) (len', p) h3 _ (EQ & NP & O3). cbn [fst snd] in *. subst len'.
    assert (U3 : ub u c ((np, CName 0 0) :: (p, CBytes nd) :: (sp, CBytes t) :: L) h3) by (exists d; eapply owns_perm; [exact O3|perm]).
    eapply sim_wp; [eapply (ub_store_wp u c np _ (CName len p) h3 _ (fun _ h' => ub u c ((np, CName len p) :: (p, CBytes nd) :: (sp, CBytes t) :: L) h')); [exact U3|auto]|].
    cbv beta. clear U3. intros [] h4 U4.
    eapply sim_wp; [eapply (ub_name_wp u c np len p h4 _ (fun x h' => x = (len, p) /\ h' = h4)); [exact U4|left; reflexivity|auto]|].
    cbv beta. intros x h' (-> & ->). cbn [fst snd].
    eapply sim_wp; [eapply (ub_bytes_wp u c p nd h4 _ (fun l h' => l = nd /\ h' = h4)); [exact U4|right; left; reflexivity|auto]|].
    cbv beta. intros l h' (-> & ->).
    destruct (take_rd_cases nd len) as [(l & E)|E]; rewrite E; cbn [bind lift]; [|reflexivity].
    apply sim_ok. apply wp_bind. exists l, h4. split; [reflexivity|].
    apply wp_bind. eapply ub_append_wp; [exact U4|]. intros h5 U5.
    apply wp_bind. eapply (ub_free_wp u (c ++ l) sp (CBytes t) h5 ((np, CName len p) :: (p, CBytes nd) :: L)); [eapply ub_perm; [exact U5|perm]|]. intros h6 U6.
    apply wp_bind. eapply (ub_name_wp u (c ++ l) np len p h6); [exact U6|left; reflexivity|]. cbn [snd].
    replace (negb (p =? 0)) with true by lia.
    apply wp_bind. eapply (ub_free_wp u (c ++ l) p (CBytes nd) h6 ((np, CName len p) :: L)); [eapply ub_perm; [exact U6|perm]|]. intros h7 U7.
    apply wp_bind. eapply ub_free_wp; [exact U7|]. intros h8 U8. apply wp_ret. cbn [fst snd]. auto.
  - intros h3 U3. eauto.
Qed.

(** ** Temporaries *)
Lemma with_dup_wp : forall A u c L t (f : bytes -> A) h (Q : A -> heap -> Prop), ub u c L h -> (forall h', ub u c L h' -> Q (f t) h') ->
  wp (with_dup_h t f) h Q.
Proof.
  intros A u c L t f h Q U K. unfold with_dup_h, dup_h. apply wp_bind. eapply ub_alloc_wp; [exact U|]. intros p h1 N U1.
  apply wp_bind. eapply ub_bytes_wp; [exact U1|left; reflexivity|].
  apply wp_bind. eapply ub_free_wp; [exact U1|]. intros h2 U2. apply wp_ret. auto.
Qed.

(** Computations that return no error code. *)
Definition noerr {A} (o : outcome A) : Prop := forall r, o <> Err r.
Lemma noerr_bind : forall A B (o : outcome A) (k : A -> outcome B), noerr o -> (forall a, o = Ok a -> noerr (k a)) -> noerr (bind o k).
Proof. intros A B [a|r|f|] k N K r'; cbn [bind]; try discriminate; [apply K; reflexivity|exfalso; apply (N r); reflexivity]. Qed.
Lemma noerr_ok : forall A (a : A), noerr (Ok a). Proof. intros A a r; discriminate. Qed.
Lemma noerr_ub : forall A f, noerr (@UB A f). Proof. intros A f r; discriminate. Qed.
Lemma noerr_nf : forall A, noerr (@NoFuel A). Proof. intros A r; discriminate. Qed.
#[global] Hint Resolve noerr_ok noerr_ub noerr_nf : core.
Lemma noerr_push : forall c a b, noerr (push c a b).
Proof. intros. unfold push. destruct (_ <? _); auto. Qed.
Lemma noerr_rd : forall m i, noerr (rd m i).
Proof. intros. unfold rd. destruct (_ <? _); auto. destruct (nth_error _ _); auto. Qed.
Lemma noerr_rds : forall m i n, noerr (rds m i n).
Proof. intros. unfold rds. destruct (_ || _); auto. Qed.
Lemma noerr_take : forall m n, noerr (take_rd m n).
Proof. intros. unfold take_rd. destruct (_ || _); auto. Qed.
Lemma noerr_skip : forall m n, noerr (skip m n).
Proof. intros. unfold skip. destruct (_ <? _); auto. Qed.
Lemma noerr_hd : forall m, noerr (hd_rd m).
Proof. intros [|c m]; cbn; auto. Qed.
#[global] Hint Resolve noerr_push noerr_rd noerr_rds noerr_take noerr_skip noerr_hd : core.

Lemma noerr_b64 : forall s, noerr (base64_str_to_bytes s).
Proof.
  intros s. unfold base64_str_to_bytes. generalize Da, (zlen s + 1), (@nil Z), 0. induction s as [|c s IH]; intros st cap out cur; cbn [b64_decode_block].
  - destruct (_ <? _); auto.
  - apply noerr_bind.
    + unfold base64_decode_value. cbv zeta. destruct (_ || _); auto.
    + intros f _. destruct (f <? 0); [apply IH|]. destruct st; (apply noerr_bind; [auto|intros; apply IH]).
Qed.
Lemma noerr_b32 : forall t n, noerr (base32_decode n t).
Proof.
  intros t n. unfold base32_decode. enough (G : forall t s pad dst, noerr (b32_dloop t n s pad dst)) by apply G. clear t.
  induction t as [|c t IH]; intros s pad dst; cbn [b32_dloop]; auto.
  cbv zeta. destruct (negb (c =? 61) && (base32_map c =? 255)); auto.
  match goal with |- noerr (if ?b then _ else _) => destruct b; auto end.
  match goal with |- noerr (if ?b then _ else _) => destruct b; auto end.
Qed.

Lemma sim_lift_ne : forall A (o : outcome A) h (E : heap -> Prop), noerr o -> sim o (lift o) h (fun a b h' => b = a /\ h' = h) E.
Proof. intros A [a|r|f|] h E N; cbn [sim lift]; eauto. exfalso. apply (N r). reflexivity. Qed.

(** A field whose octets are computed first and then appended. *)
Lemma plain_sim : forall A u c L (o : outcome (bytes * A)) h (E : heap -> Prop), ub u c L h -> (forall h', ub u c L h' -> E h') ->
  sim o (x <-- lift o ;;; ubuf_append_h u (fst x) ;;;; ret (snd x)) h (fun a b h' => b = snd a /\ ub u (c ++ fst a) L h') E.
Proof.
  intros A u c L o h E U K. destruct o as [(l, a)|r|f|]; cbn [sim lift]; [| |reflexivity|reflexivity].
  - unfold hbind at 1. cbn [lift fst snd]. apply wp_bind. eapply ub_append_wp; [exact U|]. intros h' U'. apply wp_ret. auto.
  - exists h. split; [reflexivity|auto].
Qed.
Lemma plain1_sim : forall u c L (o : outcome bytes) h (E : heap -> Prop), ub u c L h -> (forall h', ub u c L h' -> E h') ->
  sim o (x <-- lift o ;;; ubuf_append_h u x) h (fun a _ h' => ub u (c ++ a) L h') E.
Proof.
  intros u c L o h E U K. destruct o as [l|r|f|]; cbn [sim lift]; [| |reflexivity|reflexivity].
  - unfold hbind. cbn [lift]. eapply ub_append_wp; [exact U|]. auto.
  - exists h. split; [reflexivity|auto].
Qed.

Lemma base64_sim : forall u c L s h (E : heap -> Prop), ub u c L h ->
  sim (base64_str_to_bytes s) (base64_h u s) h (fun o n h' => n = zlen o /\ ub u (c ++ o) L h') E.
Proof.
  intros u c L s h E U. unfold base64_h.
  eapply sim_wp; [eapply (ub_alloc_wp u c _ h L (fun p h' => p <> 0 /\ ub u c ((p, CBytes (repeat (-1) (length s + 1))) :: L) h')); [exact U|auto]|].
  cbv beta. intros b h1 (N & U1).
  replace (base64_str_to_bytes s) with (bind (base64_str_to_bytes s) Ok) at 1 by (destruct (base64_str_to_bytes s); reflexivity).
  eapply (sim_bind _ _ _ _ _ _ _ _ _ _ _ _ _ (sim_lift_ne _ _ h1 E (noerr_b64 s))); [|auto].
  intros o o' h' _ (-> & ->). apply sim_ok.
  apply wp_bind. eapply ub_store_wp; [exact U1|]. intros h2 U2.
  apply wp_bind. eapply ub_bytes_wp; [exact U2|left; reflexivity|].
  apply wp_bind. eapply ub_append_wp; [exact U2|]. intros h3 U3.
  apply wp_bind. eapply ub_free_wp; [exact U3|]. intros h4 U4. apply wp_ret. auto.
Qed.

Lemma sim_ub : forall A B f h (Q : A -> B -> heap -> Prop) (E : heap -> Prop), sim (UB f) (hfail (PureFault f)) h Q E.
Proof. reflexivity. Qed.
Lemma fsim_err : forall u c c' L r h, ub u c' L h -> fsim u c L (Err r) (herr r) h.
Proof. intros u c c' L r h U. unfold fsim. apply sim_herr. eauto. Qed.
Lemma fsim_ret : forall u c L l e h, ub u (c ++ l) L h -> fsim u c L (Ok (l, e)) (ret e) h.
Proof. intros u c L l e h U. unfold fsim. apply sim_ok. apply wp_ret. auto. Qed.
Lemma fsim_append : forall u c L l e h, ub u c L h -> fsim u c L (Ok (l, e)) (ubuf_append_h u l ;;;; ret e) h.
Proof. intros u c L l e h U. unfold fsim. apply sim_ok. apply wp_bind. eapply ub_append_wp; [exact U|]. intros h' U'. apply wp_ret. auto. Qed.

Lemma prefix_field_sim : forall u c L s h, ub u c L h -> fsim u c L (prefix_field s) (prefix_field_h u s) h.
Proof.
  intros u c L s h U. unfold prefix_field, prefix_field_h. destruct (token s) as (t, e).
  destruct (negb (forallb is_digit t)); [eapply (fsim_err u c); eassumption|].
  destruct (scan_u s) as [| |v r]; [reflexivity|eapply (fsim_err u c); eassumption|]. cbv zeta.
  set (p := v mod 256). destruct (p >? 128); [eapply (fsim_err u c); eassumption|]. unfold fsim.
  eapply sim_wp; [eapply (ub_append_wp u c [p] h L (fun _ h' => ub u (c ++ [p]) L h')); [exact U|auto]|]. cbv beta. intros [] h1 U1.
  destruct (skip_space e) as [|b s']; [eapply (fsim_err u c); eassumption|]. destruct (token (b :: s')) as (t', e').
  eapply sim_wp; [eapply (with_dup_wp _ u (c ++ [p]) L t' inet_pton6 h1 (fun a h' => a = inet_pton6 t' /\ ub u (c ++ [p]) L h')); [exact U1|auto]|].
  cbv beta. intros a h2 (-> & U2). destruct (inet_pton6 t') as [a|].
  - eapply (sim_bind _ _ _ _ _ _ _ _ _ _ _ _ _ (sim_lift_ne _ _ h2 (fun h' => exists c', ub u c' L h') (noerr_rds a _ _))); [|auto].
    intros o o' h' _ (-> & ->).
    eapply sim_wp; [eapply (ub_append_wp u (c ++ [p]) o h2 L (fun _ h' => ub u (c ++ p :: o) L h')); [exact U2|]|].
    { intros h' U'. rewrite <- app_assoc in U'. exact U'. }
    cbv beta. intros [] h3 U3. destruct (end_or_null e') as [e2|]; [|apply fsim_ret; exact U3].
    destruct (p =? 0); [|apply fsim_ret; exact U3]. destruct (skip_space e2); [apply fsim_ret; exact U3|eapply (fsim_err u c); eassumption].
  - destruct (negb (p =? 128)); [eapply (fsim_err u c); eassumption|apply fsim_ret; exact U2].
Qed.

Lemma hash_field_sim : forall u c L s h, ub u c L h -> fsim u c L (parse_text_field rdf_hash s) (hash_field_h u s) h.
Proof.
  intros u c L s h U. unfold hash_field_h. cbn [parse_text_field]. destruct (token s) as (t, e). unfold fsim.
  destruct (zlen t =? 1).
  - eapply (sim_bind _ _ _ _ _ _ _ _ _ _ _ _ _ (sim_lift_ne _ _ h (fun h' => exists c', ub u c' L h') (noerr_skip s 1))); [|auto].
    intros o o' h' _ (-> & ->). apply (fsim_append u c L [0]). exact U.
  - eapply sim_wp; [eapply (ub_alloc_wp u c _ h L (fun p h' => p <> 0 /\ ub u c ((p, CBytes (repeat (-1) (length t))) :: L) h')); [exact U|auto]|].
    cbv beta. intros b h1 (N & U1).
    eapply (sim_bind _ _ _ _ _ _ _ _ _ _ _ _ _ (sim_lift_ne _ _ h1 (fun h' => exists c', ub u c' L h') (noerr_b32 t (zlen t)))); [|auto].
    intros o o' h' _ (-> & ->). destruct o as [l|].
    + destruct (negb (zlen l mod 256 =? zlen l)).
      * eapply sim_wp; [eapply (ub_free_wp u c b _ h1 L (fun _ h' => ub u c L h')); [exact U1|auto]|]. cbv beta. intros [] h2 U2. eapply (fsim_err u c); eassumption.
      * apply sim_ok. apply wp_bind. eapply ub_store_wp; [exact U1|]. intros h2 U2.
        apply wp_bind. eapply ub_append_wp; [exact U2|]. intros h3 U3.
        apply wp_bind. eapply ub_bytes_wp; [exact U3|left; reflexivity|].
        apply wp_bind. eapply ub_append_wp; [exact U3|]. intros h4 U4.
        apply wp_bind. eapply ub_free_wp; [exact U4|]. intros h5 U5. apply wp_ret. cbn [fst snd]. rewrite <- app_assoc in U5. auto.
    + eapply sim_wp; [eapply (ub_free_wp u c b _ h1 L (fun _ h' => ub u c L h')); [exact U1|auto]|]. cbv beta. intros [] h2 U2. eapply (fsim_err u c); eassumption.
Qed.

(** ** SvcParams *)
Lemma patch_len : forall c o (a b x y v w : Z),
  firstn (length ((c ++ [a; b; x; y]) ++ o) - length o - 2) ((c ++ [a; b; x; y]) ++ o) ++ v :: w ::
    skipn (length ((c ++ [a; b; x; y]) ++ o) - length o) ((c ++ [a; b; x; y]) ++ o) = c ++ a :: b :: v :: w :: o.
Proof.
  intros c o a b x y v w. rewrite !app_length. cbn [length].
  replace (length c + 4 + length o - length o - 2)%nat with (length c + 2)%nat by lia.
  replace (length c + 4 + length o - length o)%nat with (length c + 4)%nat by lia.
  rewrite <- !app_assoc. cbn [app]. rewrite (firstn_app (length c + 2) c), (skipn_app (length c + 4) c).
  rewrite firstn_all2, skipn_all2 by lia.
  replace (length c + 2 - length c)%nat with 2%nat by lia. replace (length c + 4 - length c)%nat with 4%nat by lia.
  cbn [app firstn skipn]. rewrite <- !app_assoc. reflexivity.
Qed.

Lemma svcparam_sim : forall u c L key val h, ub u c L h ->
  sim (str_to_svcparam key val) (str_to_svcparam_h u key val) h (fun a _ h' => ub u (c ++ a) L h') (fun h' => exists c', ub u c' L h').
Proof.
  intros u c L key val h U. unfold str_to_svcparam_h.
  assert (P : sim (str_to_svcparam key val) (o <-- lift (str_to_svcparam key val) ;;; ubuf_append_h u o) h (fun a _ h' => ub u (c ++ a) L h') (fun h' => exists c', ub u c' L h')).
  { apply plain1_sim; eauto. }
  destruct val as [v|]; [|exact P]. destruct (key =? spr_ech) eqn:K; [|exact P]. clear P.
  assert (key = spr_ech) by lia. subst key. unfold str_to_svcparam.
  change (spr_ech =? spr_invalid) with false. change (spr_ech =? spr_nd_alpn) with false. change (spr_ech =? spr_mandatory) with false.
  change (spr_ech =? spr_port) with false. change (spr_ech =? spr_ech) with true. cbv iota zeta.
  destruct (strtok 32 (cstr v)) as [(t, r)|]; [|apply sim_herr; eauto].
  destruct (zlen t >? 255); [apply sim_herr; eauto|].
  set (hd := be16_octets spr_ech ++ [0; 0]).
  eapply sim_wp; [eapply (ub_append_wp u c hd h L (fun _ h' => ub u (c ++ hd) L h')); [exact U|auto]|]. cbv beta. intros [] h1 U1.
  pose proof (base64_sim u (c ++ hd) L t h1 (fun h' => exists c', ub u c' L h') U1) as S.
  destruct (base64_str_to_bytes t) as [o|e|f|]; cbn [bind sim] in *.
  - destruct S as (n & h2 & W & -> & U2). unfold wp. unfold hbind. rewrite W.
    eapply (ub_set_wp u ((c ++ hd) ++ o)); [exact U2|]. intros h3 U3.
    rewrite zlen_to_nat in U3.
    match type of U3 with ub u ?x L h3 => replace x with (c ++ be16_octets spr_ech ++ be16_octets (zlen o mod 65536) ++ o) in U3; [exact U3|] end.
    unfold hd, be16_octets. cbn [app]. symmetry. apply patch_len.
  - destruct S as (h2 & W & E). exists h2. unfold hbind. rewrite W. auto.
  - unfold hbind. rewrite S. reflexivity.
  - unfold hbind. rewrite S. reflexivity.
Qed.

Lemma sim_map : forall A A' B (o : outcome A) (f : A -> A') (e : hm B) h (Q : A -> B -> heap -> Prop) (Q' : A' -> B -> heap -> Prop) E,
  sim o e h Q E -> (forall a b h', Q a b h' -> Q' (f a) b h') -> sim (bind o (fun a => Ok (f a))) e h Q' E.
Proof.
  intros A A' B [a|r|g|] f e h Q Q' E S K; cbn [sim bind] in *; auto. destruct S as (b & h' & W & q). exists b, h'. auto.
Qed.

Lemma svcparams_sim : forall u L fuel s c h, ub u c L h ->
  sim (svcparams_parse fuel s) (svcparams_h fuel u s) h (fun a _ h' => ub u (c ++ a) L h') (fun h' => exists c', ub u c' L h').
Proof.
  intros u L fuel. induction fuel as [|k IH]; intros s c h U; cbn [svcparams_parse svcparams_h]; [reflexivity|].
  destruct s as [|b r]; [apply sim_ok, wp_ret; rewrite app_nil_r; exact U|].
  destruct (b =? 32); [apply IH; exact U|]. destruct (split_at (fun c => (c =? 61) || (c =? 32)) (b :: r)) as (ks, val).
  eapply sim_wp; [eapply (with_dup_wp _ u c L ks str_to_svckey h (fun a h' => a = str_to_svckey ks /\ ub u c L h')); [exact U|auto]|].
  cbv beta. intros key h1 (-> & U1). destruct (str_to_svckey ks =? spr_invalid); [apply sim_herr; eauto|]. cbv zeta.
  set (key := str_to_svckey ks).
  assert (NX : forall val' a h', ub u (c ++ a) L h' ->
    sim (o' <- svcparams_parse k val' ;; Ok (a ++ o')) (svcparams_h k u val') h' (fun a _ h' => ub u (c ++ a) L h') (fun h' => exists c', ub u c' L h')).
  { intros val' a h' U'. eapply sim_map; [apply (IH val' _ _ U')|]. intros a' x h2 U2. cbv beta in U2. rewrite <- app_assoc in U2. exact U2. }
  assert (BARE : forall v, sim (if negb (key =? spr_nd_alpn) then Err res_parse_error
      else o <- str_to_svcparam key None ;; o' <- svcparams_parse k v ;; Ok (o ++ o'))
    (if negb (key =? spr_nd_alpn) then herr res_parse_error else str_to_svcparam_h u key None ;;;; svcparams_h k u v) h1
    (fun a _ h' => ub u (c ++ a) L h') (fun h' => exists c', ub u c' L h')).
  { intros v. destruct (negb (key =? spr_nd_alpn)); [apply sim_herr; eauto|].
    eapply (sim_bind _ _ _ _ _ _ _ _ _ _ _ _ _ (svcparam_sim u c L key None h1 U1)); [|auto]. intros a x h' _ U'. apply NX. exact U'. }
  destruct val as [|q v]; [apply BARE|]. destruct (q =? 61); [|apply BARE].
  destruct (from_str_string v) as [(l, e)|]; [|apply sim_herr; eauto].
  eapply sim_wp; [eapply (ub_alloc_wp u c (CBytes l) h1 L (fun p h' => ub u c ((p, CBytes l) :: L) h')); [exact U1|auto]|].
  cbv beta. intros p h2 U2.
  eapply sim_wp; [eapply (ub_bytes_wp u c p l h2 _ (fun x h' => x = l /\ h' = h2)); [exact U2|left; reflexivity|auto]|].
  cbv beta. intros l' h' (-> & ->).
  assert (S : sim (str_to_svcparam key (Some l)) (on_err (str_to_svcparam_h u key (Some l)) (free p)) h2
    (fun a _ h' => ub u (c ++ a) ((p, CBytes l) :: L) h') (fun h' => exists c', ub u c' L h')).
  { eapply sim_on_err; [apply svcparam_sim; exact U2|]. intros h3 (c' & U3). eapply ub_free_wp; [exact U3|]. eauto. }
  eapply (sim_bind _ _ _ _ _ _ _ _ _ _ _ _ _ S); [|auto]. intros a x h3 _ U3.
  eapply sim_wp; [eapply (ub_free_wp u (c ++ a) p _ h3 L (fun _ h' => ub u (c ++ a) L h')); [exact U3|auto]|].
  cbv beta. intros [] h4 U4. apply NX. exact U4.
Qed.

(** ** Type bit maps *)
(** Two vectors: [w] and the ubuf [u]. *)
Definition ub2 (w : Z) (l : bytes) (u : Z) (c : bytes) (L : list (Z * cell)) (h : heap) : Prop :=
  exists dw du, owns h ((w, CUbuf dw) :: (dw, CBytes l) :: (u, CUbuf du) :: (du, CBytes c) :: L).
Lemma ub2_first : forall w l u c L h, ub2 w l u c L h <-> exists du, ub w l ((u, CUbuf du) :: (du, CBytes c) :: L) h.
Proof. unfold ub2, ub. firstorder. Qed.
Lemma ub2_second : forall w l u c L h, ub2 w l u c L h <-> exists dw, ub u c ((w, CUbuf dw) :: (dw, CBytes l) :: L) h.
Proof.
  unfold ub2, ub. intros w l u c L h. split.
  - intros (dw & du & O). exists dw, du. eapply owns_perm; [exact O|]. perm.
  - intros (dw & du & O). exists dw, du. eapply owns_perm; [exact O|]. perm.
Qed.

Lemma bitmap_sim : forall w u L c fuel s l h, w <> 0 -> ub2 w l u c L h ->
  sim (bitmap_toks fuel s) (bitmap_h fuel w s) h (fun a _ h' => ub2 w (l ++ a) u c L h') (fun h' => ub u c L h').
Proof.
  intros w u L c fuel. induction fuel as [|k IH]; intros s l h NW U; cbn [bitmap_toks bitmap_h]; [reflexivity|].
  destruct s as [|b r]; [apply sim_ok, wp_ret; rewrite app_nil_r; exact U|].
  destruct (isspace b); [apply IH; auto|]. destruct (token (b :: r)) as (t, e). unfold dup_h.
  apply ub2_first in U as (du & U).
  eapply sim_wp; [eapply (ub_alloc_wp w l (CBytes t) h _ (fun p h' => ub w l ((p, CBytes t) :: (u, CUbuf du) :: (du, CBytes c) :: L) h')); [exact U|auto]|].
  cbv beta. intros p h1 U1.
  eapply sim_wp; [eapply (ub_bytes_wp w l p t h1 _ (fun x h' => x = t /\ h' = h1)); [exact U1|left; reflexivity|auto]|].
  cbv beta zeta. intros t' h' (-> & ->).
  destruct ((str_to_rrtype t =? 0) && negb (strcasecmp t (lit "TYPE0") =? 0)).
  - eapply sim_wp; [eapply (ub_free_wp w l p _ h1 _ (fun _ h' => ub w l ((u, CUbuf du) :: (du, CBytes c) :: L) h')); [exact U1|auto]|].
    cbv beta. intros [] h2 U2.
    eapply sim_wp; [eapply (ub_destroy_wp w l h2 _ (fun _ h' => owns h' ((u, CUbuf du) :: (du, CBytes c) :: L))); [exact NW|exact U2|auto]|].
    cbv beta. intros [] h3 O3. apply sim_herr. exists du. exact O3.
  - eapply sim_wp; [eapply (ub_free_wp w l p _ h1 _ (fun _ h' => ub w l ((u, CUbuf du) :: (du, CBytes c) :: L) h')); [exact U1|auto]|].
    cbv beta. intros [] h2 U2.
    eapply sim_wp; [eapply (ub_append_wp w l [str_to_rrtype t] h2 _ (fun _ h' => ub w (l ++ [str_to_rrtype t]) ((u, CUbuf du) :: (du, CBytes c) :: L) h')); [exact U2|auto]|].
    cbv beta. intros [] h3 U3.
    eapply sim_map; [apply IH; [exact NW|apply ub2_first; eauto]|]. intros a x h4 U4. cbv beta in U4. rewrite <- app_assoc in U4. exact U4.
Qed.

Lemma noerr_bitmap : forall ts, noerr (types_to_bitmap ts).
Proof.
  intros ts. unfold types_to_bitmap. enough (G : forall ts last w len bm, noerr (windows_parse ts last w len bm)) by apply G. clear ts.
  assert (F : forall w len bm, noerr (flush_window w len bm)).
  { intros. unfold flush_window. destruct (len >? 0); auto. apply noerr_bind; auto. }
  induction ts as [|t ts IH]; intros lst w len bm; cbn [windows_parse]; [apply F|]. destruct (t =? lst); [apply IH|].
  cbv zeta. apply noerr_bind; [destruct (negb (t / 256 =? w)); auto|]. intros o _.
  apply noerr_bind; [auto|]. intros b _. apply noerr_bind; [unfold set_at, blit; destruct (_ || _); auto|]. intros bm' _.
  apply noerr_bind; auto.
Qed.

Lemma bitmap_field_sim : forall u c L s h, ub u c L h -> fsim u c L (parse_text_field rdf_type_bitmap s) (bitmap_field_h u s) h.
Proof.
  intros u c L s h (du & O). unfold bitmap_field_h, fsim. cbn [parse_text_field].
  eapply sim_wp; [eapply (ub_new_wp h _ (fun w h' => w <> 0 /\ ub w [] ((u, CUbuf du) :: (du, CBytes c) :: L) h')); [exact O|auto]|].
  cbv beta. intros w h1 (NW & U1).
  assert (U2 : ub2 w [] u c L h1) by (apply ub2_first; eauto). clear U1.
  eapply (sim_bind _ _ _ _ _ _ _ _ _ _ _ _ _ (bitmap_sim w u L c (S (length s)) s [] h1 NW U2)); [|eauto].
  intros ts x h2 _ U3. cbn [app] in U3. destruct U3 as (dw & du2 & O3).
  eapply sim_wp; [eapply (wp_load_ubuf w dw h2 _ (fun x h' => x = dw /\ h' = h2)); [exact O3|left; reflexivity|auto]|].
  cbv beta. intros x1 h' (-> & ->).
  eapply sim_wp; [eapply (wp_load_bytes dw ts h2 _ (fun x h' => x = ts /\ h' = h2)); [exact O3|right; left; reflexivity|auto]|].
  cbv beta. intros x1 h' (-> & ->).
  eapply (sim_bind _ _ _ _ _ _ _ _ _ _ _ _ _ (sim_lift_ne _ _ h2 (fun h' => exists c', ub u c' L h') (noerr_bitmap ts))); [|auto].
  intros o o' h' _ (-> & ->). apply sim_ok.
  assert (U4 : ub u c ((w, CUbuf dw) :: (dw, CBytes ts) :: L) h2) by (exists du2; eapply owns_perm; [exact O3|perm]).
  apply wp_bind. eapply ub_append_wp; [exact U4|]. intros h3 (du3 & O4).
  apply wp_bind. eapply (ubuf_destroy_wp w dw (CBytes ts) h3 ((u, CUbuf du3) :: (du3, CBytes (c ++ o)) :: L)); [exact NW|eapply owns_perm; [exact O4|perm]|].
  intros h4 O5. apply wp_ret. cbn [fst snd]. split; [reflexivity|]. exists du3. exact O5.
Qed.

(** ** All fields *)
Lemma text_field_sim : forall u c L t s h, ub u c L h -> fsim u c L (parse_text_field t s) (text_field_h u t s) h.
Proof.
  intros u c L t s h U.
  assert (PL : fsim u c L (parse_text_field t s) (x <-- lift (parse_text_field t s) ;;; ubuf_append_h u (fst x) ;;;; ret (snd x)) h).
  { apply plain_sim; eauto. }
  destruct t; cbn [text_field_h]; try exact PL; clear PL.
  - cbn [parse_text_field]. unfold fsim.
    eapply (sim_bind _ _ _ _ _ _ _ _ _ _ _ _ _ (base64_sim u c L s h (fun h' => exists c', ub u c' L h') U)); [|auto].
    intros o n h1 _ (-> & U1).
    eapply (sim_bind _ _ _ _ _ _ _ _ _ _ _ _ _ (sim_lift_ne _ _ h1 (fun h' => exists c', ub u c' L h') (noerr_skip s (zlen o)))); [|auto].
    intros e e' h' _ (-> & ->). apply (fsim_ret u c L o). exact U1.
  - apply name_field_sim. exact U.
  - apply (name_field_sim u c L s h U).
  - cbn [parse_text_field]. destruct (token s) as (t, e). unfold fsim.
    eapply sim_wp; [eapply (with_dup_wp _ u c L t inet_pton4 h (fun a h' => a = inet_pton4 t /\ ub u c L h')); [exact U|auto]|].
    cbv beta. intros a h1 (-> & U1). destruct (inet_pton4 t); [apply (fsim_append u c L); exact U1|eapply (fsim_err u c); eassumption].
  - cbn [parse_text_field]. destruct (token s) as (t, e). unfold fsim.
    eapply sim_wp; [eapply (with_dup_wp _ u c L t inet_pton6 h (fun a h' => a = inet_pton6 t /\ ub u c L h')); [exact U|auto]|].
    cbv beta. intros a h1 (-> & U1). destruct (inet_pton6 t); [apply (fsim_append u c L); exact U1|eapply (fsim_err u c); eassumption].
  - apply prefix_field_sim. exact U.
  - cbn [parse_text_field]. destruct (token s) as (t, e). unfold fsim.
    eapply sim_wp; [eapply (with_dup_wp _ u c L t str_to_rrtype h (fun a h' => a = str_to_rrtype t /\ ub u c L h')); [exact U|auto]|].
    cbv beta zeta. intros a h1 (-> & U1). destruct (str_to_rrtype t >? 0); [apply (fsim_append u c L); exact U1|eapply (fsim_err u c); eassumption].
  - apply bitmap_field_sim. exact U.
  - apply hash_field_sim. exact U.
  - cbn [parse_text_field]. unfold fsim.
    eapply (sim_bind _ _ _ _ _ _ _ _ _ _ _ _ _ (svcparams_sim u L (S (length s)) s c h U)); [|auto].
    intros o x h1 _ U1. apply (fsim_ret u c L o). exact U1.
Qed.

Lemma text_fields_sim : forall u L ts s c h, ub u c L h ->
  sim (parse_text_fields ts s) (text_fields_h u ts s) h (fun a _ h' => ub u (c ++ a) L h') (fun h' => exists c', ub u c' L h').
Proof.
  intros u L ts. induction ts as [|t ts IH]; intros s c h U; cbn [parse_text_fields text_fields_h].
  - apply sim_ok, wp_ret. rewrite app_nil_r. exact U.
  - destruct s as [s|]; [|apply sim_ok, wp_ret; rewrite app_nil_r; exact U].
    destruct (skip_space s) as [|b r]; [apply sim_ok, wp_ret; rewrite app_nil_r; exact U|].
    eapply (sim_bind _ _ _ _ _ _ _ _ _ _ _ _ _ (text_field_sim u c L t (b :: r) h U)); [|auto].
    intros (o, e) e' h1 _ (-> & U1). cbn [fst snd] in *.
    eapply sim_map; [apply IH; exact U1|]. intros a x h2 U2. cbv beta in U2. rewrite <- app_assoc in U2. exact U2.
Qed.

(** ** _wdns_str_to_rdata_ubuf and wdns_str_to_rdata: on an error the ubuf is as before. *)
Lemma str_to_rdata_hsim : forall s t k h L, owns h L ->
  sim (str_to_rdata s t k) (str_to_rdata_h s t k) h
    (fun a x h' => fst x <> 0 /\ snd x = zlen a /\ owns h' ((fst x, CBytes a) :: L)) (fun h' => owns h' L).
Proof.
  intros s t k h L O. unfold str_to_rdata_h.
  eapply sim_wp; [eapply (ub_new_wp h L (fun u h' => u <> 0 /\ ub u [] L h')); [exact O|auto]|].
  cbv beta. intros u h1 (N & U1).
  assert (S : sim (str_to_rdata s t k) (str_to_rdata_ubuf_h u s t k) h1 (fun a _ h' => ub u a L h') (fun h' => exists c', ub u c' L h')).
  { unfold str_to_rdata_ubuf_h. destruct U1 as (d & O1).
    eapply sim_wp; [eapply (wp_load_ubuf u d h1 _ (fun x h' => x = d /\ h' = h1)); [exact O1|left; reflexivity|auto]|].
    cbv beta. intros x1 h' (-> & ->).
    eapply sim_wp; [eapply (wp_load_bytes d [] h1 _ (fun x h' => x = [] /\ h' = h1)); [exact O1|right; left; reflexivity|auto]|].
    cbv beta zeta. intros x1 h' (-> & ->).
    assert (U1 : ub u [] L h1) by (exists d; exact O1). clear O1.
    eapply (sim_on_err _ _ _ _ _ _ _ (fun h' => exists c', ub u c' L h')).
    - unfold str_to_rdata. destruct (lookup_descr t) as [ds|].
      + destruct (negb ((d_class ds =? class_un) || (d_class ds =? k))); [apply sim_ok, wp_ret; exact U1|].
        apply (text_fields_sim u L (d_types ds) (Some s) [] h1 U1).
      + apply (plain1_sim u [] L); eauto.
    - intros h2 (c' & U2). eapply ub_set_wp; [exact U2|]. eauto. }
  assert (S2 : sim (str_to_rdata s t k) (on_err (str_to_rdata_ubuf_h u s t k) (ubuf_destroy_h u)) h1 (fun a _ h' => ub u a L h') (fun h' => owns h' L)).
  { eapply sim_on_err; [exact S|]. intros h' (c' & U'). eapply ub_destroy_wp; [exact N|exact U'|auto]. }
  clear S. replace (str_to_rdata s t k) with (bind (str_to_rdata s t k) Ok) at 1 by (destruct (str_to_rdata s t k); reflexivity).
  eapply (sim_bind _ _ _ _ _ _ _ _ _ _ _ _ _ S2); [|auto].
  intros a x h2 _ (d & O2). apply sim_ok. unfold ubuf_detach_h.
  apply wp_bind. apply wp_bind. eapply wp_load_ubuf; [exact O2|left; reflexivity|].
  apply wp_bind. eapply wp_load_bytes; [exact O2|right; left; reflexivity|].
  apply wp_bind. eapply wp_alloc; [exact O2|]. intros d' h3 N3 O3.
  apply wp_bind. eapply (wp_store u (CUbuf d) (CUbuf d') h3 ((d', CBytes []) :: (d, CBytes a) :: L)); [exact O3|perm|]. intros h4 O4.
  apply wp_ret. apply wp_bind. eapply ubuf_destroy_wp; [exact N|exact O4|]. intros h5 O5.
  apply wp_ret. cbn [fst snd]. split; [|auto]. apply (owns_ptr h5 _ d (CBytes a)) in O5; [lia|left; reflexivity].
Qed.
