(** ProofRace.v: proofs for ModelRace. *)
From Verif Require Import Base Lib ModelName ModelDescr Libc ModelFormat ModelTables ModelRRset ModelFromStr ModelRace SpecRace.
Local Opaque base32_map.

(** ** The program computes str_to_rdata *)
Fixpoint run (p : prog) : outcome bytes :=
  match p with Ret o => o | Decode size data k => run (k (base32_decode size data)) end.

Lemma run_pmap : forall f p, run (pmap f p) = f (run p).
Proof. induction p as [o|size data k IH]; cbn [pmap run]; [reflexivity|apply IH]. Qed.

Lemma run_fields : forall ts s, run (fields_prog ts s) = parse_text_fields ts s.
Proof.
  induction ts as [|t ts IH]; intros s; cbn [fields_prog parse_text_fields]; [reflexivity|].
  destruct s as [s|]; [|reflexivity]. destruct (skip_space s) as [|c s'] eqn:SK; [reflexivity|].
  set (s1 := c :: s'). assert (G : forall r : outcome (bytes * option bytes),
    run (match r with Ok (o, e) => pmap (after o) (fields_prog ts e) | Err r => Ret (Err r) | UB f => Ret (UB f) | NoFuel => Ret NoFuel end) =
    '(o, e) <- r ;; o' <- parse_text_fields ts e ;; Ok (o ++ o')).
  { intros [[o e]|r|f|]; try reflexivity. rewrite run_pmap, IH. reflexivity. }
  destruct t; try (rewrite G; reflexivity).
  cbn [parse_text_field]. destruct (token s1) as [tk e]. destruct (zlen tk =? 1); cbn [run]; rewrite G; reflexivity.
Qed.

Lemma run_str : forall s ty cl, run (str_to_rdata_prog s ty cl) = str_to_rdata s ty cl.
Proof.
  intros. unfold str_to_rdata_prog, str_to_rdata. destruct (lookup_descr ty) as [d|]; [|reflexivity].
  destruct (negb _); [reflexivity|apply run_fields].
Qed.

(** ** What a thread will return when it sees only the right table *)
Definition expected (t : pc) : outcome bytes :=
  match t with
  | PRun p => run p
  | PInit _ size data k => run (k (base32_decode size data))
  | PDec data s pad dst size k => run (k (b32_dloop data size s pad dst))
  end.

Lemma dec_turn_loop : forall c r size s pad dst,
  b32_dloop (c :: r) size s pad dst =
  match dec_turn (base32_map c) c (ended r) size s pad dst with inl o => o | inr (s, pad, dst) => b32_dloop r size s pad dst end.
Proof.
  intros. cbn [b32_dloop]. unfold dec_turn, ended. destruct (negb (c =? 61) && (base32_map c =? 255)); [reflexivity|].
  destruct (zlen (if c =? 61 then s else s ++ [base32_map c]) >? 8); [reflexivity|].
  match goal with |- context [zlen ?d =? size] => destruct (zlen d =? size) end; reflexivity.
Qed.

(** ** Texts of octets *)
Fixpoint prog_ok (p : prog) : Prop :=
  match p with Ret _ => True | Decode size data k => bytes_ok data /\ forall o, prog_ok (k o) end.
Definition pc_ok (t : pc) : Prop :=
  match t with
  | PRun p => prog_ok p
  | PInit i size data k => 0 <= i /\ bytes_ok data /\ forall o, prog_ok (k o)
  | PDec data s pad dst size k => bytes_ok data /\ forall o, prog_ok (k o)
  end.

Lemma pmap_ok : forall f p, prog_ok p -> prog_ok (pmap f p).
Proof. induction p as [o|size data k IH]; cbn [pmap prog_ok]; [auto|]. intros [A B]. split; [exact A|]. intros o. apply IH, B. Qed.

Lemma skip_space_ok : forall s, bytes_ok s -> bytes_ok (skip_space s).
Proof. induction s as [|c s IH]; intros B; cbn [skip_space]; [exact B|]. destruct (isspace c); [apply IH; eapply Forall_inv_tail; eauto|exact B]. Qed.

(** What a field leaves of the text is the end of it. *)
Definition tail_of (e s : bytes) : Prop := exists p, s = p ++ e.
Lemma tail_ok : forall e s, tail_of e s -> bytes_ok s -> bytes_ok e.
Proof. intros e s (p & ->) B. apply Forall_app in B. apply B. Qed.
Lemma tail_refl : forall s, tail_of s s. Proof. intros s. exists []. reflexivity. Qed.
Lemma tail_nil : forall s, tail_of [] s. Proof. intros s. exists s. symmetry. apply app_nil_r. Qed.
Lemma tail_trans : forall a b c, tail_of a b -> tail_of b c -> tail_of a c.
Proof. intros a b c (p & ->) (q & ->). exists (q ++ p). apply app_assoc. Qed.
Lemma tail_split : forall f s, tail_of (snd (split_at f s)) s.
Proof.
  intros f s. induction s as [|c r IH]; cbn [split_at]; [apply tail_refl|]. destruct (f c); [apply tail_refl|]. destruct (split_at f r) as [a b].
  cbn [snd] in *. destruct IH as (p & ->). exists (c :: p). reflexivity.
Qed.
Lemma tail_split_eq : forall f s a b, split_at f s = (a, b) -> tail_of b s.
Proof. intros f s a b E. pose proof (tail_split f s) as T. rewrite E in T. exact T. Qed.
Lemma tail_adv : forall s n, tail_of (adv s n) s.
Proof. intros. unfold adv. exists (firstn (Z.to_nat n) s). symmetry. apply firstn_skipn. Qed.
Lemma tail_skip : forall s n e, skip s n = Ok e -> tail_of e s.
Proof. intros s n e E. unfold skip in E. destruct (zlen s <? n); [discriminate|]. injection E as <-. apply tail_adv. Qed.
Lemma tail_space : forall s, tail_of (skip_space s) s.
Proof. induction s as [|c r IH]; cbn [skip_space]; [apply tail_refl|]. destruct (isspace c); [|apply tail_refl]. destruct IH as (p & E). exists (c :: p). cbn. f_equal. exact E. Qed.
Lemma tail_fss : forall s q l e, fss q s = Some (l, e) -> tail_of e s.
Proof.
  intros s. induction s as [s IH] using (induction_ltof1 _ (@length Z)). unfold ltof in IH. intros q l e E. destruct s as [|c r]; cbn [fss] in E.
  - destruct q; [discriminate|]. injection E as <- <-. apply tail_refl.
  - assert (CF : forall d x, (length x < length (c :: r))%nat -> tail_of x (c :: r) -> cons_fst d (fss q x) = Some (l, e) -> tail_of e (c :: r)).
    { intros d x L T H. unfold cons_fst in H. destruct (fss q x) as [[l' r']|] eqn:F; [|discriminate]. injection H as _ <-. eapply tail_trans; [eapply IH; eauto|exact T]. }
    assert (T1 : tail_of r (c :: r)) by (exists [c]; reflexivity).
    destruct (q && (c =? 34)); [injection E as _ <-; exact T1|]. destruct (negb q && isspace c); [injection E as _ <-; apply tail_refl|].
    destruct (c =? 92).
    + destruct r as [|d r1]; [discriminate|]. destruct ((d =? 34) || (d =? 92)); [eapply CF; [|exists [c; d]; reflexivity|exact E]; cbn; lia|].
      destruct (is_digit d); [|discriminate]. destruct r1 as [|x [|f r2]]; try discriminate. destruct (is_digit x && is_digit f); [|discriminate].
      destruct (negb _) in E; [discriminate|]. eapply CF; [|exists [c; d; x; f]; reflexivity|exact E]. cbn; lia.
    + destruct ((32 <=? c) && (c <=? 126)); [|discriminate]. eapply CF; [|exact T1|exact E]. cbn; lia.
Qed.
Lemma tail_string : forall s l e, from_str_string s = Some (l, e) -> tail_of e s.
Proof.
  intros [|c r] l e E; cbn [from_str_string] in E; [discriminate|]. destruct (c =? 34).
  - eapply tail_trans; [eapply tail_fss; exact E|exists [c]; reflexivity].
  - destruct (isspace c); [discriminate|]. eapply tail_fss; exact E.
Qed.
Lemma tail_salt : forall n s o e, salt_pairs n s = Ok (o, e) -> tail_of e s.
Proof.
  induction n as [|n IH]; intros s o e E; cbn [salt_pairs] in E; [injection E as _ <-; apply tail_refl|].
  apply bind_ok in E as (c & _ & E). apply bind_ok in E as (s' & S & E). apply bind_ok in E as ([o' e'] & T & E). injection E as _ <-.
  eapply tail_trans; [eapply IH; eauto|eapply tail_skip; eauto].
Qed.
Lemma tail_end : forall r e, end_or_null r = Some e -> r = e.
Proof. intros [|x r] e E; cbn in E; congruence. Qed.

Ltac tl_fin := try discriminate; try congruence;
  first [ apply tail_nil | apply tail_refl | eapply tail_split_eq; eassumption | eapply tail_skip; eassumption
        | eapply tail_string; eassumption | eapply tail_salt; eassumption ].

Lemma tail_int : forall n s o e, int_field n s = Ok (o, Some e) -> tail_of e s.
Proof.
  intros n s o e E. unfold int_field, token in E. destruct (split_at is_blank s) as [t e'] eqn:T. destruct (negb (forallb _ _)); [discriminate|].
  destruct (scan_u s) as [| |v r]; [discriminate| |]; [|destruct (negb _) in E; [discriminate|]]; injection E as _ <-; eapply tail_split_eq; eauto.
Qed.
Lemma tail_eui : forall n s o e, eui_field n s = Ok (o, Some e) -> tail_of e s.
Proof.
  intros n s o e E. unfold eui_field in E. destruct (negb _) in E; [discriminate|]. apply bind_ok in E as (b & _ & E). destruct (negb b); [discriminate|].
  destruct (eui_scan n s); [|discriminate]. injection E as _ <-. apply tail_nil.
Qed.
Lemma tail_prefix : forall s o e, prefix_field s = Ok (o, Some e) -> tail_of e s.
Proof.
  intros s o e E. unfold prefix_field, token in E. destruct (split_at is_blank s) as [t e'] eqn:T. destruct (negb (forallb _ _)); [discriminate|].
  destruct (scan_u s) as [| |v r]; [discriminate|discriminate|]. destruct (_ >? 128); [discriminate|].
  destruct (skip_space e') as [|x y] eqn:SK; [discriminate|]. set (s1 := x :: y) in *.
  assert (T1 : tail_of s1 s) by (eapply tail_trans; [|eapply tail_split_eq; eauto]; rewrite <- SK; apply tail_space).
  destruct (split_at is_blank s1) as [t2 e2] eqn:T2. destruct (inet_pton6 t2) as [a|].
  - apply bind_ok in E as (o1 & _ & E). destruct (end_or_null e2) as [e3|] eqn:EN; [|discriminate]. apply tail_end in EN. subst e3. destruct (_ =? 0).
    + destruct (skip_space e2); discriminate.
    + injection E as _ <-. eapply tail_trans; [eapply tail_split_eq; eauto|exact T1].
  - destruct (negb _) in E; [discriminate|]. injection E as _ <-. exact T1.
Qed.

Lemma tail_field : forall t s o e, parse_text_field t s = Ok (o, Some e) -> tail_of e s.
Proof.
  intros t s o e E. destruct t; cbn [parse_text_field] in E; unfold token in E;
    try (eapply tail_int; exact E); try (eapply tail_eui; exact E); try (eapply tail_prefix; exact E).
  - apply bind_ok in E as (x & _ & E). injection E as _ <-. apply tail_nil.
  - apply bind_ok in E as (x & _ & E). apply bind_ok in E as (y & S & E). injection E as _ <-. eapply tail_skip; eauto.
  - destruct (_ && _); [|discriminate]. destruct (from_str_string s) as [[l r]|]; [|discriminate]. injection E as _ <-. apply tail_nil.
  - destruct (split_at is_blank s) as [a b] eqn:T. apply bind_ok in E as ([d len] & _ & E). apply bind_ok in E as (l & _ & E). injection E as _ E. apply tail_end in E. subst b. eapply tail_split_eq; eauto.
  - destruct (split_at is_blank s) as [a b] eqn:T. apply bind_ok in E as ([d len] & _ & E). apply bind_ok in E as (l & _ & E). injection E as _ E. apply tail_end in E. subst b. eapply tail_split_eq; eauto.
  - destruct (split_at is_blank s) as [a b] eqn:T. destruct (inet_pton4 a); [|discriminate]. injection E as _ <-. eapply tail_split_eq; eauto.
  - destruct (split_at is_blank s) as [a b] eqn:T. destruct (inet_pton6 a); [|discriminate]. injection E as _ E. apply tail_end in E. subst b. eapply tail_split_eq; eauto.
  - apply bind_ok in E as ([x y] & S & E). injection E as _ <-. unfold str_to_cs in S. destruct (from_str_string s) as [[l r]|] eqn:F; [|discriminate]. destruct (negb _) in S; [discriminate|]. injection S as _ <-. eapply tail_string; eauto.
  - apply bind_ok in E as (x & _ & E). injection E as _ <-. apply tail_nil.
  - destruct (split_at is_blank s) as [a b] eqn:T. destruct (_ >? 0); [|discriminate]. injection E as _ E. apply tail_end in E. subst b. eapply tail_split_eq; eauto.
  - apply bind_ok in E as (x & _ & E). apply bind_ok in E as (y & _ & E). discriminate.
  - destruct (split_at is_blank s) as [a b] eqn:T. destruct (_ && _).
    + apply bind_ok in E as (y & S & E). injection E as _ <-. eapply tail_skip; eauto.
    + destruct (_ || _); [discriminate|]. apply bind_ok in E as ([x y] & S & E). injection E as _ <-. eapply tail_salt; eauto.
  - destruct (split_at is_blank s) as [a b] eqn:T. destruct (_ =? 1).
    + apply bind_ok in E as (y & S & E). injection E as _ <-. eapply tail_skip; eauto.
    + apply bind_ok in E as ([l|] & _ & E); [|discriminate]. destruct (negb _) in E; [discriminate|]. injection E as _ <-. eapply tail_split_eq; eauto.
  - apply bind_ok in E as (x & _ & E). injection E as _ <-. apply tail_refl.
  - discriminate.
Qed.

Lemma fields_ok : forall ts s, (forall x, s = Some x -> bytes_ok x) -> prog_ok (fields_prog ts s).
Proof.
  induction ts as [|t ts IH]; intros s B; cbn [fields_prog]; [exact Logic.I|].
  destruct s as [s|]; [|exact Logic.I]. specialize (B s eq_refl). destruct (skip_space s) as [|c s'] eqn:SK; [exact Logic.I|].
  assert (B1 : bytes_ok (c :: s')) by (rewrite <- SK; eapply tail_ok; [apply tail_space|exact B]). set (s1 := c :: s') in *.
  assert (G : forall r : outcome (bytes * option bytes), (forall o e, r = Ok (o, Some e) -> bytes_ok e) ->
    prog_ok (match r with Ok (o, e) => pmap (after o) (fields_prog ts e) | Err r => Ret (Err r) | UB f => Ret (UB f) | NoFuel => Ret NoFuel end)).
  { intros [[o e]|r|f|] H; try exact Logic.I. apply pmap_ok, IH. intros x ->. eapply H; eauto. }
  assert (G1 : forall t, prog_ok (match parse_text_field t s1 with Ok (o, e) => pmap (after o) (fields_prog ts e) | Err r => Ret (Err r) | UB f => Ret (UB f) | NoFuel => Ret NoFuel end)).
  { intros t1. apply G. intros o e E. eapply tail_ok; [eapply tail_field; exact E|exact B1]. }
  destruct t; try apply G1.
  destruct (token s1) as [tk e] eqn:T. unfold token in T. assert (T1 : tail_of e s1) by (eapply tail_split_eq; eauto).
  destruct (zlen tk =? 1).
  - apply G. intros o e' E. apply bind_ok in E as (y & S & E). injection E as _ <-. eapply tail_ok; [eapply tail_skip; exact S|exact B1].
  - cbn [prog_ok]. split.
    + assert (P : forall f s a b, split_at f s = (a, b) -> s = a ++ b).
      { intros f. clear. induction s as [|y r J]; intros a b E; cbn [split_at] in E; [injection E as <- <-; reflexivity|]. destruct (f y); [injection E as <- <-; reflexivity|].
        destruct (split_at f r) as [p q]. injection E as <- <-. cbn. f_equal. apply J. reflexivity. }
      apply P in T. rewrite T in B1. apply Forall_app in B1. apply B1.
    + intros o. apply G. intros o' e' E. apply bind_ok in E as ([l|] & _ & E); [|discriminate]. destruct (negb _) in E; [discriminate|]. injection E as _ <-. eapply tail_ok; eauto.
Qed.

Lemma prog_ok_str : forall s ty cl, bytes_ok s -> prog_ok (str_to_rdata_prog s ty cl).
Proof.
  intros s ty cl B. unfold str_to_rdata_prog. destruct (lookup_descr ty) as [d|]; [|exact Logic.I].
  destruct (negb _); [exact Logic.I|]. apply fields_ok. intros x E. congruence.
Qed.

(** ** The invariant *)
Definition filled (m : bytes) (c : Z) : Prop := nth (Z.to_nat c) m 0 = base32_map c.
Definition good (m : bytes) (t : pc) : Prop :=
  pc_ok t /\
  match t with PRun _ => True | PInit i _ _ _ => forall c, is_byte c -> c < i -> filled m c | PDec _ _ _ _ _ _ => complete m end.
Definition grows (m m' : bytes) : Prop := length m' = length m /\ forall c, is_byte c -> filled m c -> filled m' c.

Lemma grows_refl : forall m, grows m m. Proof. split; auto. Qed.
Lemma grows_complete : forall m m', grows m m' -> complete m -> complete m'.
Proof. intros m m' [L G] [A B]. split; [lia|]. intros c C. apply G; auto. apply B; auto. Qed.
Lemma grows_good : forall m m' t, grows m m' -> good m t -> good m' t.
Proof.
  intros m m' t G [A B]. split; [exact A|]. destruct t as [p|i size data k|data s pad dst size k]; [exact Logic.I| |eapply grows_complete; eauto].
  intros c C D. apply (proj2 G); auto.
Qed.

Lemma write_nth : forall (m : bytes) i v c, 0 <= i -> i < zlen m -> 0 <= c ->
  nth (Z.to_nat c) (firstn (Z.to_nat i) m ++ v :: skipn (Z.to_nat (i + 1)) m) 0 = if c =? i then v else nth (Z.to_nat c) m 0.
Proof.
  intros m i v c I0 L C. unfold zlen in L. assert (LF : length (firstn (Z.to_nat i) m) = Z.to_nat i) by (rewrite firstn_length; lia).
  destruct (c =? i) eqn:E.
  - rewrite app_nth2 by lia. rewrite LF. replace (Z.to_nat c - Z.to_nat i)%nat with 0%nat by lia. reflexivity.
  - destruct (c <? i) eqn:F.
    + rewrite app_nth1 by lia. rewrite <- (firstn_skipn (Z.to_nat i) m) at 2. rewrite app_nth1 by lia. reflexivity.
    + rewrite app_nth2 by lia. rewrite LF. destruct (Z.to_nat c - Z.to_nat i)%nat as [|q] eqn:QE; [lia|]. cbn [nth].
      rewrite <- (firstn_skipn (Z.to_nat (i + 1)) m) at 2. rewrite app_nth2 by (rewrite firstn_length; lia). f_equal. rewrite firstn_length. lia.
Qed.
Lemma write_length : forall (m : bytes) i v, 0 <= i -> i < zlen m -> length (firstn (Z.to_nat i) m ++ v :: skipn (Z.to_nat (i + 1)) m) = length m.
Proof. intros m i v I0 L. unfold zlen in L. rewrite !app_length, firstn_length. cbn [length]. rewrite skipn_length. lia. Qed.

Lemma map0 : base32_map 0 = 255. Proof. reflexivity. Qed.

Lemma tstep_good : forall m t m' t', length m = 256%nat -> good m t -> (checking t -> nth 0 m 0 = 0 \/ complete m) ->
  tstep m t = (m', t') -> grows m m' /\ good m' t' /\ expected t' = expected t.
Proof.
  intros m t m' t' L [PO G] Q E. destruct t as [[o|size data k]|i size data k|data s pad dst size k]; cbn [tstep] in E.
  - injection E as <- <-. split; [apply grows_refl|]. split; [split; [exact PO|exact Logic.I]|reflexivity].
  - specialize (Q Logic.I). destruct (nth 0 m 0 =? 0) eqn:E0; injection E as <- <-; (split; [apply grows_refl|]).
    + split; [|reflexivity]. split; [cbn [pc_ok prog_ok] in *; split; [lia|exact PO]|]. intros c C D. unfold is_byte in C. lia.
    + split; [|reflexivity]. split; [exact PO|]. destruct Q as [Q|Q]; [lia|exact Q].
  - cbn [pc_ok] in PO. destruct (i <? 256) eqn:EI; injection E as <- <-.
    + assert (LZ : i < zlen m) by (unfold zlen; lia). split; [|split; [|reflexivity]].
      * split; [apply write_length; lia|]. intros c C F. unfold filled in *. unfold is_byte in C. rewrite write_nth by lia. destruct (c =? i) eqn:X; [|exact F]. replace i with c by lia. reflexivity.
      * split; [cbn [pc_ok]; split; [lia|apply PO]|]. intros c C D. unfold filled. unfold is_byte in C. rewrite write_nth by lia. destruct (c =? i) eqn:X; [replace i with c by lia; reflexivity|]. apply G; [exact C|lia].
    + split; [apply grows_refl|]. split; [|reflexivity]. split; [cbn [pc_ok]; apply PO|]. split; [exact L|]. intros c C. apply G; [exact C|]. unfold is_byte in C. lia.
  - destruct data as [|c r].
    + injection E as <- <-. split; [apply grows_refl|]. split; [|reflexivity]. split; [cbn [pc_ok]; apply PO|exact Logic.I].
    + destruct PO as [BO KO]. pose proof (Forall_inv BO) as BC. pose proof (Forall_inv_tail BO) as BR. cbv beta in BC. rewrite (proj2 G c BC) in E.
      cbn [expected]. rewrite dec_turn_loop. destruct (dec_turn (base32_map c) c (ended r) size s pad dst) as [o|[[s1 p1] d1]]; injection E as <- <-; (split; [apply grows_refl|]); (split; [|reflexivity]).
      * split; [cbn [pc_ok]; apply KO|exact Logic.I].
      * split; [cbn [pc_ok]; split; [exact BR|exact KO]|exact G].
Qed.

(** ** Processes *)
Definition sound (calls : list (bytes * Z * Z)) (p : proc) : Prop :=
  length (p_map p) = 256%nat /\ Forall (good (p_map p)) (p_threads p) /\
  map expected (p_threads p) = map (fun c => str_to_rdata (fst (fst c)) (snd (fst c)) (snd c)) calls.

Lemma upd_split : forall A (l : list A) i t, nth_error l i = Some t -> l = firstn i l ++ t :: skipn (S i) l.
Proof. intros A l. induction l as [|x l IH]; intros [|i] t E; cbn in *; try discriminate; [congruence|]. f_equal. apply IH, E. Qed.

Lemma step_sound : forall calls p i, sound calls p ->
  (forall t, nth_error (p_threads p) i = Some t -> checking t -> nth 0 (p_map p) 0 = 0 \/ complete (p_map p)) ->
  sound calls (step p i) /\ grows (p_map p) (p_map (step p i)).
Proof.
  intros calls p i (L & F & M) Q. unfold step. destruct (nth_error (p_threads p) i) as [t|] eqn:N; [|split; [split; auto|apply grows_refl]].
  pose proof (upd_split _ _ _ _ N) as U. rewrite U in F, M. apply Forall_app in F as [F1 F2]. pose proof (Forall_inv F2) as FT. pose proof (Forall_inv_tail F2) as F3.
  destruct (tstep (p_map p) t) as [m' t'] eqn:T. destruct (tstep_good _ _ _ _ L FT (Q t eq_refl) T) as (G & GT & E).
  split; [|exact G]. split; [cbn [p_map]; rewrite (proj1 G); exact L|]. cbn [p_map p_threads]. split.
  - apply Forall_app. split; [|constructor; [exact GT|]]; eapply Forall_impl; try (intros a; apply grows_good; exact G); assumption.
  - rewrite <- M, !map_app. cbn [map]. rewrite E. reflexivity.
Qed.

Lemma exec_sound : forall sched calls p, sound calls p -> quiet p sched -> sound calls (exec p sched) /\ grows (p_map p) (p_map (exec p sched)).
Proof.
  induction sched as [|i r IH]; intros calls p S Q; cbn [exec fold_left] in *; [split; [exact S|apply grows_refl]|].
  destruct Q as [Q1 Q2]. destruct (step_sound calls p i S Q1) as [S1 [G1 G2]]. destruct (IH calls _ S1 Q2) as [S2 [G3 G4]].
  split; [exact S2|]. unfold exec in *. split; [congruence|]. intros c C D. apply G4; auto.
Qed.

Lemma start_sound : forall m calls, length m = 256%nat -> calls_ok calls -> sound calls (start m calls).
Proof.
  intros m calls L C. split; [exact L|]. unfold start. cbn [p_map p_threads]. split.
  - apply Forall_map. eapply Forall_impl; [|exact C]. intros [[s ty] cl] B. split; [|exact Logic.I]. cbn [spawn pc_ok]. apply prog_ok_str, B.
  - rewrite map_map. apply map_ext. intros [[s ty] cl]. cbn [spawn expected fst snd]. apply run_str.
Qed.

Lemma sound_returned : forall calls p i r s ty cl, sound calls p -> returned p i r -> nth_error calls i = Some (s, ty, cl) -> r = str_to_rdata s ty cl.
Proof.
  intros calls p i r s ty cl (_ & _ & M) R N. unfold returned in R. apply (f_equal (fun l => nth_error l i)) in M.
  rewrite (map_nth_error expected i (p_threads p) R), (map_nth_error _ i calls N) in M. cbn [expected run fst snd] in M. congruence.
Qed.

Lemma complete_quiet : forall sched calls p, sound calls p -> complete (p_map p) -> quiet p sched.
Proof.
  induction sched as [|i r IH]; intros calls p S C; cbn [quiet]; [exact Logic.I|]. split; [auto|].
  destruct (step_sound calls p i S) as [S1 G]; [auto|]. eapply IH; [exact S1|]. eapply grows_complete; eauto.
Qed.

Lemma quiet_app : forall a p b, quiet p (a ++ b) <-> quiet p a /\ quiet (exec p a) b.
Proof.
  induction a as [|i a IH]; intros p b; cbn [app quiet exec fold_left]; [tauto|]. specialize (IH (step p i) b). unfold exec in IH. tauto.
Qed.

(** One thread alone. *)
Definition idle (p : proc) (i : nat) : Prop :=
  match nth_error (p_threads p) i with
  | Some (PInit _ _ _ _) => True
  | _ => nth 0 (p_map p) 0 = 0 \/ complete (p_map p)
  end.
Lemma nth_upd : forall A (l : list A) i t u, nth_error l i = Some u -> nth_error (firstn i l ++ t :: skipn (S i) l) i = Some t.
Proof. intros A l. induction l as [|x l IH]; intros [|i] t u E; cbn in *; try discriminate; [reflexivity|]. eapply IH, E. Qed.
Lemma solo_step : forall calls p i, sound calls p -> idle p i -> 
  (forall t, nth_error (p_threads p) i = Some t -> checking t -> nth 0 (p_map p) 0 = 0 \/ complete (p_map p)) /\ sound calls (step p i) /\ idle (step p i) i.
Proof.
  intros calls p i S D. assert (Q : forall t, nth_error (p_threads p) i = Some t -> checking t -> nth 0 (p_map p) 0 = 0 \/ complete (p_map p)).
  { intros t N K. unfold idle in D. rewrite N in D. destruct t as [pp|j size data k|data s pad dst size k]; [exact D|destruct K|destruct K]. }
  split; [exact Q|]. destruct (step_sound calls p i S Q) as [S1 G]. split; [exact S1|]. unfold idle.
  destruct (nth_error (p_threads (step p i)) i) as [t'|] eqn:N'.
  - destruct S1 as (_ & F & _). pose proof (proj1 (Forall_forall _ _) F _ (nth_error_In _ _ N')) as [_ G']. destruct t' as [pp|j size data k|data s pad dst size k]; [|exact Logic.I|right; exact G'].
    unfold step in *. unfold idle in D. destruct (nth_error (p_threads p) i) as [t|] eqn:N; [|exact D].
    destruct S as (L & F0 & _). pose proof (proj1 (Forall_forall _ _) F0 _ (nth_error_In _ _ N)) as [_ G0].
    destruct (tstep (p_map p) t) as [m' t'] eqn:T. cbn [p_map p_threads] in *. rewrite (nth_upd _ _ _ _ _ N) in N'. injection N' as ->.
    destruct t as [[o|size data k]|j size data k|[|c r] s pad dst size k]; cbn [tstep] in T.
    + injection T as <- _. exact D.
    + injection T as <- _. exact D.
    + destruct (j <? 256); discriminate.
    + injection T as <- _. right. exact G0.
    + destruct (dec_turn _ _ _ _ _ _ _) as [o|[[? ?] ?]]; [|discriminate]. injection T as <- _. right. exact G0.
  - unfold step in *. unfold idle in D. destruct (nth_error (p_threads p) i) as [t|] eqn:N; [|rewrite N in *; exact D].
    destruct (tstep (p_map p) t) as [m' t']. cbn [p_threads] in N'. rewrite (nth_upd _ _ _ _ _ N) in N'. discriminate.
Qed.
Lemma solo_quiet : forall n calls p i, sound calls p -> idle p i -> quiet p (repeat i n) /\ idle (exec p (repeat i n)) i.
Proof.
  induction n as [|n IH]; intros calls p i S D; cbn [repeat quiet exec fold_left]; [auto|].
  destruct (solo_step calls p i S D) as (Q & S1 & D1). destruct (IH calls _ i S1 D1) as [A B]. unfold exec in B. auto.
Qed.

(** ** Every call returns *)
Definition next (t' t : pc) : Prop := (forall o, t <> PRun (Ret o)) /\ exists m, snd (tstep m t) = t'.

Lemma acc_dec : forall data s pad dst size k, (forall o, Acc next (PRun (k o))) -> Acc next (PDec data s pad dst size k).
Proof.
  induction data as [|c r IH]; intros s pad dst size k K; constructor; intros t' (_ & m & E); cbn [tstep] in E.
  - cbn [snd] in E. subst t'. apply K.
  - destruct (dec_turn _ _ _ _ _ _ _) as [o|[[s1 p1] d1]]; cbn [snd] in E; subst t'; [apply K|apply IH, K].
Qed.
Lemma acc_init : forall n i size data k, (256 - Z.to_nat i <= n)%nat -> 0 <= i -> (forall o, Acc next (PRun (k o))) -> Acc next (PInit i size data k).
Proof.
  induction n as [|n IH]; intros i size data k L I0 K; constructor; intros t' (_ & m & E); cbn [tstep] in E; destruct (i <? 256) eqn:EI; cbn [snd] in E; subst t'; try lia; try (apply acc_dec, K).
  apply IH; [lia|lia|exact K].
Qed.
Lemma acc_run : forall p, Acc next (PRun p).
Proof.
  induction p as [o|size data k IH]; constructor; intros t' (N & m & E); [destruct (N o eq_refl)|]. cbn [tstep snd] in E.
  destruct (nth 0 m 0 =? 0); subst t'; [eapply acc_init; [reflexivity|lia|exact IH]|apply acc_dec, IH].
Qed.
Lemma acc_pc : forall t, (match t with PInit i _ _ _ => 0 <= i | _ => True end) -> Acc next t.
Proof.
  intros [p|i size data k|data s pad dst size k] H; [apply acc_run|eapply acc_init; [reflexivity|exact H|intros; apply acc_run]|apply acc_dec; intros; apply acc_run].
Qed.

Lemma step_other : forall p i j, i <> j -> nth_error (p_threads (step p j)) i = nth_error (p_threads p) i.
Proof.
  intros p i j D. unfold step. destruct (nth_error (p_threads p) j) as [t|] eqn:N; [|reflexivity]. destruct (tstep (p_map p) t) as [m' t']. cbn [p_threads].
  pose proof (upd_split _ _ _ _ N) as U. assert (LJ : (j < length (p_threads p))%nat) by (apply nth_error_Some; congruence).
  rewrite U at 3. assert (LF : length (firstn j (p_threads p)) = j) by (rewrite firstn_length; lia).
  destruct (lt_dec i j) as [H|H].
  - rewrite !nth_error_app1 by lia. reflexivity.
  - rewrite !nth_error_app2 by lia. rewrite LF. destruct (i - j)%nat eqn:X; [lia|]. reflexivity.
Qed.
Lemma step_own : forall p i t, nth_error (p_threads p) i = Some t -> nth_error (p_threads (step p i)) i = Some (snd (tstep (p_map p) t)).
Proof. intros p i t N. unfold step. rewrite N. destruct (tstep (p_map p) t) as [m' t']. cbn [p_threads snd]. eapply nth_upd, N. Qed.

Lemma exec_app : forall p a b, exec p (a ++ b) = exec (exec p a) b.
Proof. intros. apply fold_left_app. Qed.
Lemma returns : forall (f : nat -> nat) i t, Acc next t -> (forall n, exists k, f (n + k)%nat = i) -> forall n p, nth_error (p_threads p) i = Some t ->
  exists k r, returned (exec p (map f (seq n k))) i r.
Proof.
  intros f i t A FAIR. induction A as [t _ IH]. intros n p N.
  destruct (FAIR n) as (k & K). revert n p N K. induction k as [|k IHk]; intros n p N K.
  - rewrite Nat.add_0_r in K. assert (D : (exists o, t = PRun (Ret o)) \/ (forall o, t <> PRun (Ret o))).
    { destruct t as [[o|? ? ?]|? ? ? ?|? ? ? ? ? ?]; [left; eauto|right; discriminate|right; discriminate|right; discriminate]. }
    destruct D as [[o ->]|D]; [exists 0%nat, o; exact N|].
    destruct (IH (snd (tstep (p_map p) t)) (conj D (ex_intro _ (p_map p) eq_refl)) (S n) (step p i) (step_own _ _ _ N)) as (k & r & R).
    exists (S k), r. cbn [seq map exec fold_left]. rewrite K. exact R.
  - destruct (Nat.eq_dec (f n) i) as [X|X].
    + assert (D : (exists o, t = PRun (Ret o)) \/ (forall o, t <> PRun (Ret o))).
      { destruct t as [[o|? ? ?]|? ? ? ?|? ? ? ? ? ?]; [left; eauto|right; discriminate|right; discriminate|right; discriminate]. }
      destruct D as [[o ->]|D]; [exists 0%nat, o; exact N|].
      destruct (IH (snd (tstep (p_map p) t)) (conj D (ex_intro _ (p_map p) eq_refl)) (S n) (step p i) (step_own _ _ _ N)) as (k' & r & R).
      exists (S k'), r. cbn [seq map exec fold_left]. rewrite X. exact R.
    + destruct (IHk (S n) (step p (f n))) as (k' & r & R).
      * rewrite step_other by congruence. exact N.
      * rewrite <- K. f_equal. lia.
      * exists (S k'), r. exact R.
Qed.
