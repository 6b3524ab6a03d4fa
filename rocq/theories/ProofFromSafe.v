(** ProofFromSafe.v: wdns_str_to_rdata finishes without undefined behaviour (C54). *)
From Coq Require Strings.String.
From Verif Require Import Base Lib SpecName SpecMessage SpecFormat SpecTables SpecText Libc ModelName ModelFormat ModelTables ModelDescr ModelRRset ModelFromStr.
From Verif Require Import ProofStrName ProofB64 ProofB32 ProofFormat ProofBitmap ProofField ProofRdataText ProofFromStr ProofSvc ProofTables ProofInet6.

(** The function returned. *)
Definition finished {A} (o : outcome A) : Prop := match o with Ok _ => True | Err _ => True | _ => False end.
Lemma finished_bind : forall A B (o : outcome A) (k : A -> outcome B), finished o -> (forall a, o = Ok a -> finished (k a)) -> finished (bind o k).
Proof. intros A B [a|r|f|] k H K; cbn in *; auto. Qed.
Lemma finished_ok : forall A (a : A), finished (Ok a). Proof. cbn; auto. Qed.
Lemma finished_err : forall A r, finished (@Err A r). Proof. cbn; auto. Qed.
#[global] Hint Resolve finished_ok finished_err : core.

(** ** Suffixes *)
Definition suffix (e s : bytes) : Prop := exists p, s = p ++ e.
Lemma suffix_refl : forall s, suffix s s. Proof. intros s. exists []. auto. Qed.
Lemma suffix_trans : forall a b c, suffix a b -> suffix b c -> suffix a c.
Proof. intros a b c (p & ->) (q & ->). exists (q ++ p). rewrite app_assoc. auto. Qed.
Lemma suffix_cons : forall c a s, suffix a s -> suffix a (c :: s).
Proof. intros c a s (p & ->). exists (c :: p). auto. Qed.
Lemma suffix_tl : forall c r s, suffix (c :: r) s -> suffix r s.
Proof. intros c r s (p & ->). exists (p ++ [c]). rewrite <- app_assoc. auto. Qed.
Lemma suffix_nil : forall s, suffix [] s. Proof. intros s. exists s. rewrite app_nil_r. auto. Qed.
Lemma suffix_adv : forall s n, suffix (adv s n) s.
Proof. intros s n. exists (firstn (Z.to_nat n) s). unfold adv. rewrite firstn_skipn. auto. Qed.
Lemma suffix_In : forall e s x, suffix e s -> In x e -> In x s.
Proof. intros e s x (p & ->) I. apply in_app_iff. auto. Qed.
Lemma suffix_len : forall e s, suffix e s -> (length e <= length s)%nat.
Proof. intros e s (p & ->). rewrite app_length. lia. Qed.
#[global] Hint Resolve suffix_refl suffix_nil suffix_adv : core.

Lemma skip_suffix : forall s, suffix (skip_space s) s.
Proof. induction s as [|c r IH]; cbn [skip_space]; auto. destruct (isspace c); auto using suffix_cons. Qed.
Lemma split_at_eq : forall f s t e, split_at f s = (t, e) -> s = t ++ e /\ (e = [] \/ exists c r, e = c :: r /\ f c = true) /\ Forall (fun c => f c = false) t.
Proof.
  induction s as [|c r IH]; intros t e E; cbn [split_at] in E; [injection E as <- <-; auto|].
  destruct (f c) eqn:F; [injection E as <- <-; split; [auto|split; [right; eauto|auto]]|].
  destruct (split_at f r) as [a b]. injection E as <- <-. destruct (IH a b eq_refl) as (-> & A & B). split; [auto|split; auto].
Qed.
Lemma split_suffix : forall f s t e, split_at f s = (t, e) -> suffix e s.
Proof. intros f s t e E. apply split_at_eq in E as (-> & _). exists t. auto. Qed.

(** ** What the text must satisfy; all are inherited by suffixes *)
Definition no_cut (s : bytes) : Prop := forall a b, s = a ++ 92 :: b -> exists c r, b = c :: r /\ is_blank c = false.
Definition solid_end (s : bytes) : Prop := s = [] \/ isspace (last s 0) = false.
Definition no_esc_brace (s : bytes) : Prop := forall a b, s <> a ++ [92; 49; 50; 51] ++ b.

Lemma no_cut_suffix : forall e s, suffix e s -> no_cut s -> no_cut e.
Proof. intros e s (p & ->) N a b ->. apply (N (p ++ a) b). rewrite <- app_assoc. auto. Qed.
Lemma last_app_ne : forall (a b : bytes), b <> [] -> last (a ++ b) 0 = last b 0.
Proof. intros a b N. destruct (exists_last N) as (x & y & ->). rewrite app_assoc, !last_last. auto. Qed.
Lemma solid_end_suffix : forall e s, suffix e s -> solid_end s -> solid_end e.
Proof.
  intros e s (p & ->) [N|L]; [apply app_eq_nil in N as [_ ->]; left; auto|]. destruct e as [|c r]; [left; auto|right]. rewrite last_app_ne in L; [auto|discriminate].
Qed.
Lemma no_esc_suffix : forall e s, suffix e s -> no_esc_brace s -> no_esc_brace e.
Proof. intros e s (p & ->) N a b ->. apply (N (p ++ a) b). rewrite <- app_assoc. auto. Qed.

Lemma solid_skip : forall s, s <> [] -> solid_end s -> exists c r, skip_space s = c :: r.
Proof.
  induction s as [|c r IH]; intros N L; [congruence|]. cbn [skip_space]. destruct (isspace c) eqn:E; [|eauto].
  destruct r as [|d r]; [destruct L as [L|L]; [discriminate|]; cbn [last] in L; congruence|]. apply IH; [discriminate|]. eapply solid_end_suffix; [|exact L]. exists [c]. auto.
Qed.
Lemma scan_hh_cases : forall c r s, skip_space s = c :: r -> scan_hh s <> ScanEof.
Proof.
  intros c r s E. unfold scan_hh. rewrite E. destruct ((c =? 45) || (c =? 43)).
  - destruct (scan_xdigits 1 r 0 false) as [[v seen] q]. destruct seen; discriminate.
  - destruct ((c =? 48) && _); [discriminate|]. destruct (scan_xdigits 2 (c :: r) 0 false) as [[v seen] q]. destruct seen; discriminate.
Qed.
Lemma scan_octet_fin : forall s, s <> [] -> solid_end s -> finished (scan_octet s).
Proof.
  intros s N L. destruct (solid_skip s N L) as (c & r & E). pose proof (scan_hh_cases c r s E). unfold scan_octet. destruct (scan_hh s); auto; congruence.
Qed.
Lemma scan_octet_head : forall c r, isspace c = false -> finished (scan_octet (c :: r)).
Proof. intros c r I. pose proof (scan_hh_cases c r (c :: r) ltac:(cbn [skip_space]; rewrite I; auto)). unfold scan_octet. destruct (scan_hh (c :: r)); auto; congruence. Qed.
Lemma scan_u_head : forall c r, isspace c = false -> scan_u (c :: r) <> ScanEof.
Proof.
  intros c r I. unfold scan_u. cbn [skip_space]. rewrite I. destruct (scan_sign (c :: r)) as [neg t]. destruct (scan_digits t 0 false) as [[v seen] q]. destruct seen; discriminate.
Qed.

(** ** Fields *)
Lemma hex_pairs_fin : forall f s, (length s < f)%nat -> solid_end s -> finished (hex_pairs f s).
Proof.
  induction f as [|f IH]; intros s L E; [lia|]. cbn [hex_pairs]. destruct s as [|a [|b r]]; auto.
  apply finished_bind; [apply scan_octet_fin; [discriminate|auto]|]. intros v _. apply finished_bind; [|auto]. apply IH; [cbn [length] in L; lia|].
  eapply solid_end_suffix; [|exact E]. exists [a; b]. auto.
Qed.
Lemma salt_pairs_fin : forall n s, 2 * Z.of_nat n <= zlen s -> solid_end s -> finished (salt_pairs n s).
Proof.
  induction n as [|n IH]; intros s L E; cbn [salt_pairs]; auto.
  apply finished_bind; [apply scan_octet_fin; [intros ->; change (zlen (@nil Z)) with 0 in L; lia|auto]|]. intros v _.
  unfold skip. replace (zlen s <? 2) with false by lia. cbn [bind]. apply finished_bind; [|intros [o q] _; auto].
  apply IH; [|eapply solid_end_suffix; [|exact E]; auto]. unfold adv, zlen in *. rewrite skipn_length. lia.
Qed.
Lemma salt_pairs_suffix : forall n s o e, salt_pairs n s = Ok (o, e) -> suffix e s.
Proof.
  induction n as [|n IH]; intros s o e E; cbn [salt_pairs] in E; [injection E as <- <-; auto|].
  apply bind_ok in E as (v & _ & E). apply bind_ok in E as (s' & E1 & E). apply bind_ok in E as ([o' s''] & E2 & E). injection E as <- <-.
  apply IH in E2. unfold skip in E1. destruct (zlen s <? 2); [discriminate|]. injection E1 as <-. eapply suffix_trans; eauto.
Qed.

Lemma token_dangling : forall s t e, no_cut s -> token s = (t, e) -> dangling t = false.
Proof.
  intros s t e N T. unfold token in T. apply split_at_eq in T as (-> & D & _). destruct (dangling t) eqn:E; [|auto]. exfalso.
  assert (X : exists a, t = a ++ [92]).
  { clear - E. revert E. assert (G : forall n x, (length x <= n)%nat -> dangling x = true -> exists a, x = a ++ [92]).
    { induction n as [|n IH]; intros x L E; [destruct x; [discriminate|cbn [length] in L; lia]|]. destruct x as [|c r]; [discriminate|]. cbn [dangling] in E. cbn [length] in L.
      destruct (c =? 92) eqn:C.
      - destruct r as [|d r]; [exists []; cbn; f_equal; lia|]. destruct (IH r) as (a & ->); [cbn [length] in L; lia|auto|]. exists (c :: d :: a). auto.
      - destruct (IH r) as (a & ->); [lia|auto|]. exists (c :: a). auto. }
    intros E. eapply G; eauto. }
  destruct X as (a & ->). rewrite <- app_assoc in N. destruct (N a e eq_refl) as (c & r & -> & B). destruct D as [D|(c' & r' & D & B')]; [discriminate|]. injection D as <- <-. unfold is_blank in *. congruence.
Qed.
Lemma c_string_bytes : forall s, SpecName.c_string s -> bytes_ok s.
Proof. intros s C. eapply Forall_impl; [|exact C]. unfold is_byte. intros a A. cbv beta in *. lia. Qed.
Lemma c_string_suffix : forall e s, suffix e s -> SpecName.c_string s -> SpecName.c_string e.
Proof. intros e s (p & ->) C. apply c_string_app in C. tauto. Qed.

Lemma name_fin : forall s t e, SpecName.c_string s -> no_cut s -> token s = (t, e) -> finished ('(d, len) <- str_to_name_case t [] ;; l <- take_rd d len ;; Ok (l, end_or_null e)).
Proof.
  intros s t e C N T. pose proof (token_dangling s t e N T) as D. unfold token in T. apply split_at_eq in T as (-> & _). apply c_string_app in C as [C _].
  pose proof (str_to_name_gen_sound false t [] C D) as K. unfold str_to_name_case. destruct (str_to_name_gen false t []) as [[w n]|r|f|]; [|exact I|destruct K|destruct K].
  destruct K as (ls & _ & -> & -> & _). cbn [bind]. unfold take_rd. rewrite Z.ltb_irrefl. replace (zlen (wire ls) <? 0) with false by (pose proof (zlen_nonneg _ (wire ls)); lia). cbn [orb bind]. exact I.
Qed.

Lemma decode_le : forall code step cap out cur o, b64_decode_block code step cap out cur = Ok o -> zlen o <= zlen out + zlen code.
Proof.
  induction code as [|c r IH]; intros step cap out cur o E; cbn [b64_decode_block] in E.
  - destruct (zlen out <? cap); [|discriminate]. injection E as <-. change (zlen (@nil Z)) with 0. lia.
  - apply bind_ok in E as (f & _ & E). rewrite zlen_cons. destruct (f <? 0); [apply IH in E; lia|].
    destruct step; apply bind_ok in E as (u & _ & E); apply IH in E; rewrite ?zlen_app in E; lazymatch type of E with context [zlen [?x]] => change (zlen [x]) with 1 in E | _ => idtac end; lia.
Qed.

Lemma int_fin : forall sz c r, isspace c = false -> finished (int_field sz (c :: r)).
Proof.
  intros sz c r I. unfold int_field. destruct (token (c :: r)) as [t e]. destruct (negb _); auto. pose proof (scan_u_head c r I). destruct (scan_u (c :: r)); auto; [congruence|]. destruct (negb _); auto.
Qed.
Lemma int_rest : forall sz s o e, int_field sz s = Ok (o, e) -> exists e', e = Some e' /\ suffix e' s.
Proof.
  intros sz s o e E. unfold int_field in E. destruct (token s) as [t e'] eqn:T. apply split_suffix in T. destruct (negb _); [discriminate|]. destruct (scan_u s); [discriminate| |].
  - injection E as <- <-. eauto.
  - destruct (negb _); [discriminate|]. injection E as <- <-. eauto.
Qed.

Lemma eui_check_fin : forall n s, 3 * Z.of_nat n - 1 <= zlen s -> finished (eui_check n s).
Proof.
  induction n as [|n IH]; intros s L; cbn [eui_check]; auto.
  destruct s as [|a [|b r]]; [change (zlen (@nil Z)) with 0 in L; lia|change (zlen [a]) with 1 in L; lia|]. cbn [hd_rd tl bind]. destruct (_ || _); auto.
  destruct n as [|n]; auto. destruct r as [|c r]; [change (zlen [a; b]) with 2 in L; lia|]. cbn [hd_rd bind]. destruct (negb (c =? 45)); auto.
  apply IH. change (adv (a :: b :: c :: r) 3) with r. rewrite !zlen_cons in L. lia.
Qed.
Lemma eui_fin : forall n s, finished (eui_field n s).
Proof.
  intros n s. unfold eui_field. destruct (negb (zlen s =? _)) eqn:E; auto. apply finished_bind; [apply eui_check_fin; lia|]. intros b _. destruct (negb b); auto. destruct (eui_scan n s); auto.
Qed.

Lemma fss_suffix : forall n q s l r, (length s <= n)%nat -> fss q s = Some (l, r) -> suffix r s /\ (forall x, In x l -> In x s \/ (x < 256 /\ 0 <= x /\ In 92 s)) /\ (In 123 l -> In 123 s \/ exists a b, s = a ++ [92; 49; 50; 51] ++ b).
Proof.
  assert (CF : forall x s t l r, cons_fst x (fss t s) = Some (l, r) -> exists l', l = x :: l' /\ fss t s = Some (l', r)).
  { intros x s t l r E. destruct (fss t s) as [[l' r']|]; [|discriminate]. injection E as <- <-. eauto. }
  induction n as [|n IH]; intros q s l r L E.
  { destruct s; [|cbn [length] in L; lia]. cbn [fss] in E. destruct q; [discriminate|]. injection E as <- <-. split; [auto|]. split; intros; contradiction. }
  destruct s as [|c s]. { cbn [fss] in E. destruct q; [discriminate|]. injection E as <- <-. split; [auto|]. split; intros; contradiction. }
  cbn [fss] in E. cbn [length] in L.
  destruct (q && (c =? 34)); [injection E as <- <-; split; [exists [c]; auto|split; intros; contradiction]|].
  destruct (negb q && isspace c); [injection E as <- <-; split; [auto|split; intros; contradiction]|].
  assert (STEP : forall p x l' s', c :: s = p ++ s' -> (In x (c :: s) \/ (x < 256 /\ 0 <= x /\ In 92 (c :: s))) -> (x = 123 -> In 123 (c :: s) \/ exists a b, c :: s = a ++ [92; 49; 50; 51] ++ b) ->
     l = x :: l' -> fss q s' = Some (l', r) -> (length s' <= n)%nat ->
     suffix r (c :: s) /\ (forall y, In y l -> In y (c :: s) \/ (y < 256 /\ 0 <= y /\ In 92 (c :: s))) /\ (In 123 l -> In 123 (c :: s) \/ exists a b, c :: s = a ++ [92; 49; 50; 51] ++ b)).
  { intros p x l' s' EQ HX HB -> F LE. destruct (IH q s' l' r LE F) as (S1 & S2 & S3). split; [|split].
    - rewrite EQ. eapply suffix_trans; [exact S1|]. exists p. auto.
    - intros y [<-|Y]; [auto|]. rewrite EQ. destruct (S2 y Y) as [Z|(Z1 & Z2 & Z3)]; [left; apply in_app_iff; auto|right; split; [auto|split; [auto|]]; apply in_app_iff; auto].
    - intros [Q|Y]; [apply HB; auto|]. destruct (S3 Y) as [Z|(a & b & Z)]; [left; rewrite EQ; apply in_app_iff; auto|right; exists (p ++ a), b; rewrite EQ, Z, <- app_assoc; auto]. }
  destruct (c =? 92) eqn:C.
  - assert (c = 92) by lia. subst c. destruct s as [|d r1]; [discriminate|]. cbn [length] in L. destruct ((d =? 34) || (d =? 92)) eqn:D.
    + apply CF in E as (l' & -> & E). apply (STEP [92; d] d l' r1); auto; [left; right; left; auto|intros ->; discriminate D|lia].
    + destruct (is_digit d) eqn:DD; [|discriminate]. destruct r1 as [|e [|f r2]]; try discriminate. destruct (is_digit e && is_digit f) eqn:DE; [|discriminate].
      apply andb_prop in DE as [DE DF]. unfold is_digit in *. cbv zeta in E. destruct (negb _) eqn:V; [discriminate|]. apply CF in E as (l' & -> & E). cbn [length] in L.
      apply (STEP [92; d; e; f] ((d - 48) * 100 + (e - 48) * 10 + (f - 48)) l' r2); auto; [right|intros X|lia].
      * pose proof (Z.mod_pos_bound ((d - 48) * 100 + (e - 48) * 10 + (f - 48)) 256 ltac:(lia)). split; [lia|split; [lia|left; auto]].
      * right. exists [], r2. assert (d = 49) by lia. assert (e = 50) by lia. assert (f = 51) by lia. subst. reflexivity.
  - destruct ((32 <=? c) && (c <=? 126)); [|discriminate]. apply CF in E as (l' & -> & E). apply (STEP [c] c l' s); auto; [left; left; auto|intros ->; left; left; auto|lia].
Qed.
Lemma string_suffix : forall s l r, from_str_string s = Some (l, r) -> suffix r s /\ s <> r /\ (bytes_ok s -> bytes_ok l) /\ (~ In 123 s -> no_esc_brace s -> ~ In 123 l).
Proof.
  intros s l r E. assert (G : exists q s', suffix s' s /\ fss q s' = Some (l, r) /\ (s' <> s \/ (q = false /\ exists c t, s = c :: t /\ isspace c = false))).
  { unfold from_str_string in E. destruct s as [|c t]; [discriminate|]. destruct (c =? 34).
    - exists true, t. split; [exists [c]; auto|]. split; [auto|]. left. intros X. apply (f_equal (@length Z)) in X. cbn [length] in X. lia.
    - destruct (isspace c) eqn:I; [discriminate|]. exists false, (c :: t). split; [auto|]. split; [auto|]. right. eauto. }
  destruct G as (q & s' & S & F & D). destruct (fss_suffix (length s') q s' l r (Nat.le_refl _) F) as (S1 & S2 & S3). split; [eapply suffix_trans; eauto|]. split; [|split].
  - intros ->. apply suffix_len in S1 as L1. pose proof (suffix_len _ _ S) as L2. assert (X : s' = r). { destruct S as (p & ->). destruct p; [auto|]. rewrite app_length in L1. cbn [length] in L1. lia. } subst s'.
    destruct D as [D|(-> & c & t & -> & I)]; [congruence|]. cbn [fss] in F. rewrite I in F. cbn [andb negb] in F. destruct S1 as (p & P).
    assert (T : forall s0 l0 r0, fss false s0 = Some (l0, r0) -> (length r0 <= length s0)%nat) by (intros s0 l0 r0 X; apply (fss_suffix (length s0)) in X as (X & _); [apply suffix_len in X; auto|auto]).
    assert (CF : forall x s0 l0 r0, cons_fst x (fss false s0) = Some (l0, r0) -> (length r0 <= length s0)%nat).
    { intros x s0 l0 r0 X. destruct (fss false s0) as [[l1 r1]|] eqn:Y; [|discriminate]. injection X as <- <-. eapply T; eauto. }
    destruct (c =? 92).
    + destruct t as [|d r1]; [discriminate|]. destruct ((d =? 34) || (d =? 92)); [apply CF in F; cbn [length] in F; lia|]. destruct (is_digit d); [|discriminate]. destruct r1 as [|e [|f r2]]; try discriminate.
      destruct (is_digit e && is_digit f); [|discriminate]. cbv zeta in F. destruct (negb _); [discriminate|]. apply CF in F. cbn [length] in F. lia.
    + destruct (_ && _); [|discriminate]. apply CF in F. cbn [length] in F. lia.
  - intros B. apply Forall_forall. intros x X. destruct (S2 x X) as [Y|Y]; [|unfold is_byte; lia]. eapply Forall_forall in B; [exact B|]. eapply suffix_In; eauto.
  - intros N NE I. destruct (S3 I) as [Y|(a & b & ->)]; [apply N; eapply suffix_In; eauto|]. eapply no_esc_suffix in NE; [|exact S]. eapply NE; eauto.
Qed.

Lemma cs_fin : forall s, finished (str_to_cs s).
Proof. intros s. unfold str_to_cs. destruct (from_str_string s) as [[l r]|]; auto. destruct (negb _); auto. Qed.
Lemma cs_rest : forall s o e, str_to_cs s = Ok (o, e) -> suffix e s /\ s <> e.
Proof.
  intros s o e E. unfold str_to_cs in E. destruct (from_str_string s) as [[l r]|] eqn:F; [|discriminate]. destruct (negb _); [discriminate|]. injection E as <- <-. apply string_suffix in F as (A & B & _). auto.
Qed.
Lemma proper_len : forall e s, suffix e s -> s <> e -> (length e < length s)%nat.
Proof. intros e s (p & ->) N. destruct p as [|x p]; [exfalso; apply N; auto|]. rewrite app_length. cbn [length]. lia. Qed.
Lemma strings_fin : forall f s, (length s < f)%nat -> finished (strings_parse f s).
Proof.
  induction f as [|f IH]; intros s L; [lia|]. cbn [strings_parse]. destruct s as [|c r]; auto. destruct (isspace c); [apply IH; cbn [length] in L; lia|].
  apply finished_bind; [apply cs_fin|]. intros [o e] E. apply cs_rest in E as (A & B). apply finished_bind; [|auto]. apply IH. pose proof (proper_len _ _ A B). lia.
Qed.

(** ** SvcParams *)
Lemma skip_delim_suffix : forall d s, suffix (skip_delim d s) s.
Proof. induction s as [|c r IH]; cbn [skip_delim]; auto. destruct (c =? d); auto using suffix_cons. Qed.
Lemma strtok_parts : forall d s t r, strtok d s = Some (t, r) -> (length r < length s)%nat /\ (forall x, In x t -> In x s).
Proof.
  intros d s t r E. unfold strtok in E. pose proof (skip_delim_suffix d s) as SD. destruct (skip_delim d s) as [|c s'] eqn:K; [discriminate|]. destruct (split_at _ (c :: s')) as [a b] eqn:SP. injection E as <- <-.
  apply split_at_eq in SP as (EQ & DB & _). pose proof (suffix_len _ _ SD) as L. split.
  - rewrite EQ, app_length in L. destruct b as [|x b]; [|cbn [length] in L; lia]. apply suffix_len in SD. cbn [length] in *. lia.
  - intros x X. eapply suffix_In; [exact SD|]. rewrite EQ. apply in_app_iff. auto.
Qed.
Lemma mandatory_fin : forall f s, (length s < f)%nat -> finished (mandatory_toks f s).
Proof.
  induction f as [|f IH]; intros s L; [lia|]. cbn [mandatory_toks]. destruct (strtok 44 s) as [[t r]|] eqn:T; auto. apply strtok_parts in T as [T _]. cbv zeta. destruct (_ =? _); auto. apply finished_bind; [apply IH; lia|auto].
Qed.
Lemma hint_fin : forall f v4 s, (length s < f)%nat -> finished (hint_toks f v4 s).
Proof.
  induction f as [|f IH]; intros v4 s L; [lia|]. cbn [hint_toks]. destruct (strtok 44 s) as [[t r]|] eqn:T; auto. apply strtok_parts in T as [T _]. destruct (if v4 then _ else _); auto. apply finished_bind; [apply IH; lia|auto].
Qed.
Lemma alpn_fin : forall n v out cur oc vl, (length v <= n)%nat -> finished (alpn_parse v out cur oc vl).
Proof.
  induction n as [|n IH]; intros v out cur oc vl L; [destruct v; [cbn; destruct (negb _); auto|cbn [length] in L; lia]|].
  destruct v as [|c r]; cbn [alpn_parse]; [destruct (negb _); auto|]. cbn [length] in L. destruct (c =? 92).
  - destruct r as [|d r']; auto. destruct (_ && _); auto. apply IH. cbn [length] in L. lia.
  - destruct (c =? 44); apply IH; lia.
Qed.
Lemma cstr_In : forall v x, In x (cstr v) -> In x v.
Proof. intros v x X. unfold cstr in X. destruct (split_at _ v) as [a b] eqn:E. apply split_at_eq in E as (-> & _). apply in_app_iff. auto. Qed.
Lemma cstr_len : forall v, (length (cstr v) <= length v)%nat.
Proof. intros v. unfold cstr. destruct (split_at _ v) as [a b] eqn:E. apply split_at_eq in E as (-> & _). rewrite app_length. cbn [fst]. lia. Qed.
Lemma svcparam_fin : forall key v, key <> spr_invalid -> bytes_ok v -> ~ In 123 v -> finished (str_to_svcparam key (Some v)).
Proof.
  intros key v K B N. unfold str_to_svcparam. replace (key =? spr_invalid) with false by lia. destruct (key =? spr_nd_alpn); auto. cbv zeta. pose proof (cstr_len v) as CL.
  assert (D : forall r : outcome (bytes * Z), finished r -> finished ('(o, vl) <- r ;; Ok (be16_octets key ++ be16_octets vl ++ o))) by (intros r F; apply finished_bind; [auto|intros [o vl] _; auto]).
  destruct (key =? spr_mandatory). { destruct (strtok 44 (cstr v)); auto. apply D. apply finished_bind; [apply mandatory_fin; lia|auto]. }
  destruct (key =? spr_port). { destruct (strtok 32 (cstr v)) as [[t r]|]; auto. destruct (strtoul t) as [x rest]. destruct (_ || _); auto. }
  destruct (key =? spr_ech).
  { destruct (strtok 32 (cstr v)) as [[t r]|] eqn:T; auto. destruct (zlen t >? 255); auto. apply D. apply finished_bind; [|auto]. apply strtok_parts in T as [_ T].
    destruct (base64_decode_safe t) as (o & ->); [apply Forall_forall; intros x X; eapply Forall_forall in B; [exact B|]; apply cstr_In; auto|intros X; apply N, cstr_In; auto|auto]. }
  destruct (key =? spr_ipv4hint). { destruct (strtok 44 (cstr v)); auto. apply D. apply finished_bind; [apply hint_fin; lia|auto]. }
  destruct (key =? spr_ipv6hint). { destruct (strtok 44 (cstr v)); auto. apply D. apply finished_bind; [apply hint_fin; lia|auto]. }
  destruct (key =? spr_alpn). { apply D. apply (alpn_fin (length v)). auto. }
  apply D. auto.
Qed.
Lemma svcparams_fin : forall f s, (length s < f)%nat -> bytes_ok s -> ~ In 123 s -> no_esc_brace s -> finished (svcparams_parse f s).
Proof.
  induction f as [|f IH]; intros s L B N NE; [lia|]. cbn [svcparams_parse]. destruct s as [|c r]; auto.
  assert (SUF : forall e, suffix e (c :: r) -> (length e < f)%nat -> finished (svcparams_parse f e)).
  { intros e S LE. apply IH; auto; [apply Forall_forall; intros x X; eapply Forall_forall in B; [exact B|]; eapply suffix_In; eauto|intros X; apply N; eapply suffix_In; eauto|eapply no_esc_suffix; eauto]. }
  cbn [length] in L. destruct (c =? 32) eqn:C; [apply SUF; [exists [c]; auto|lia]|]. destruct (split_at _ (c :: r)) as [ks val] eqn:SP.
  cbv zeta. destruct (str_to_svckey ks =? spr_invalid) eqn:KI; auto.
  assert (KN : str_to_svckey ks <> spr_invalid) by lia.
  assert (KE : ks <> []). { intros ->. apply KN. vm_compute. reflexivity. }
  apply split_at_eq in SP as (EQ & _ & _). assert (LV : (length val < f)%nat). { apply (f_equal (@length Z)) in EQ. rewrite app_length in EQ. cbn [length] in EQ. destruct ks; [congruence|]. cbn [length] in EQ. lia. }
  assert (SV : suffix val (c :: r)) by (exists ks; auto).
  assert (BARE : finished (if negb (str_to_svckey ks =? spr_nd_alpn) then Err res_parse_error else o <- str_to_svcparam (str_to_svckey ks) None ;; o' <- svcparams_parse f val ;; Ok (o ++ o'))).
  { destruct (negb _) eqn:Q; auto. unfold str_to_svcparam. rewrite KI. replace (str_to_svckey ks =? spr_nd_alpn) with true by (destruct (str_to_svckey ks =? spr_nd_alpn); auto; discriminate). cbn [bind].
    apply finished_bind; [apply SUF; auto|auto]. }
  destruct val as [|d v]; auto. destruct (d =? 61) eqn:DE; auto. destruct (from_str_string v) as [[l e]|] eqn:FS; auto.
  apply string_suffix in FS as (S1 & _ & S2 & S3). assert (SE : suffix v (c :: r)) by (eapply suffix_tl; eauto).
  apply finished_bind; [apply svcparam_fin; auto|].
  - apply S2. apply Forall_forall; intros x X; eapply Forall_forall in B; [exact B|]; eapply suffix_In; eauto.
  - apply S3; [intros X; apply N; eapply suffix_In; eauto|eapply no_esc_suffix; eauto].
  - intros o _. apply finished_bind; [|auto]. apply SUF; [eapply suffix_trans; eauto|]. apply suffix_len in S1. cbn [length] in LV. lia.
Qed.

(** ** Type bit maps *)
Lemma bitmap_fin : forall f s, (length s < f)%nat -> finished (bitmap_toks f s).
Proof.
  induction f as [|f IH]; intros s L; [lia|]. cbn [bitmap_toks]. destruct s as [|c r]; auto. cbn [length] in L. destruct (isspace c) eqn:I; [apply IH; lia|].
  destruct (token (c :: r)) as [t e] eqn:T. cbv zeta. destruct (_ && _); auto. apply finished_bind; [|auto]. apply IH. unfold token in T. pose proof (split_at_eq _ _ _ _ T) as (EQ & _ & _).
  assert (NB : is_blank c = false). { destruct (is_blank c) eqn:NB; auto. exfalso. unfold is_blank, isspace in *. lia. }
  cbn [split_at] in T. rewrite NB in T. destruct (split_at is_blank r) as [a b]. injection T as <- <-. apply (f_equal (@length Z)) in EQ. cbn [length app] in EQ. rewrite app_length in EQ. lia.
Qed.
Lemma rrtype_range : forall s, 0 <= str_to_rrtype s < 65536.
Proof.
  intros s. unfold str_to_rrtype, str_to_generic. destruct (lookup hdr_types s) as [v|] eqn:E.
  - apply lookup_in in E as (n & I & _). assert (T : forallb (fun e => (0 <=? snd e) && (snd e <? 65536)) (sorted_table hdr_types) = true) by (vm_compute; reflexivity).
    rewrite forallb_forall in T. specialize (T _ I). cbn [snd] in T. lia.
  - unfold convert_generic. destruct (_ <=? _); [lia|]. destruct (negb _); [lia|]. destruct (strtol _) as [v [|c r]]; [|lia]. destruct (_ || _) eqn:Q; lia.
Qed.
Lemma bitmap_toks_range : forall f s ts, bitmap_toks f s = Ok ts -> Forall (fun t => 0 <= t < 65536) ts.
Proof.
  induction f as [|f IH]; intros s ts E; cbn [bitmap_toks] in E; [discriminate|]. destruct s as [|c r]; [injection E as <-; constructor|]. destruct (isspace c); [eauto|].
  destruct (token (c :: r)) as [t e]. cbv zeta in E. destruct (_ && _); [discriminate|]. apply bind_ok in E as (o & E1 & E). injection E as <-. constructor; [apply rrtype_range|eauto].
Qed.

(** ** One field *)
Definition field_ok (t : rdf) (s : bytes) : Prop :=
  match pres_of t with
  | PName => no_cut s
  | PHex | PSalt => solid_end s
  | PBase64 => ~ In 123 s
  | PParams => ~ In 123 s /\ no_esc_brace s
  | _ => True
  end.
Lemma field_ok_suffix : forall t e s, suffix e s -> field_ok t s -> field_ok t e.
Proof.
  intros t e s S. unfold field_ok. destruct (pres_of t); auto.
  - apply no_cut_suffix. auto.
  - apply solid_end_suffix. auto.
  - intros N X. apply N. eapply suffix_In; eauto.
  - apply solid_end_suffix. auto.
  - intros [N NE]. split; [intros X; apply N; eapply suffix_In; eauto|eapply no_esc_suffix; eauto].
Qed.

Lemma pton4_len : forall s done cur a, pton4_loop s done cur = Some a -> zlen a = 4.
Proof.
  induction s as [|c r IH]; intros done cur a E; cbn [pton4_loop] in E.
  - destruct cur as [v|]; [|discriminate]. destruct (zlen done =? 3) eqn:L; [|discriminate]. injection E as <-. rewrite zlen_app. change (zlen [v]) with 1. lia.
  - destruct (is_digit c).
    + destruct cur as [v|]; [destruct (v =? 0); [discriminate|]; destruct (_ >? 255); [discriminate|]; eauto|destruct (_ >=? 4); [discriminate|eauto]].
    + destruct cur as [v|]; [|discriminate]. destruct (c =? 46); [|discriminate]. destruct (_ >=? 3); [discriminate|eauto].
Qed.
Lemma pton6_loop_len : forall s tmp cp ct nx val tmp' cp' nx' val', pton6_loop s tmp cp ct nx val = Some (tmp', cp', nx', val') -> zlen tmp <= 16 ->
  (forall k, cp = Some k -> 0 <= k <= zlen tmp) -> zlen tmp' <= 16 /\ (forall k, cp' = Some k -> 0 <= k <= zlen tmp').
Proof.
  induction s as [|c r IH]; intros tmp cp ct nx val tmp' cp' nx' val' E L K; cbn [pton6_loop] in E; [injection E as <- <- <- <-; auto|].
  destruct (isxdigit c); [destruct (nx =? 4); [discriminate|eauto]|]. destruct (c =? 58).
  - destruct (nx =? 0).
    + destruct cp; [discriminate|]. eapply IH; [exact E|auto|]. intros k X. injection X as <-. pose proof (zlen_nonneg _ tmp). lia.
    + destruct r as [|d r]; [discriminate|]. destruct (zlen tmp + 2 >? 16) eqn:G; [discriminate|]. eapply IH; [exact E|rewrite zlen_app; change (zlen [val / 256; val mod 256]) with 2; lia|].
      intros k X. apply K in X. rewrite zlen_app. change (zlen [val / 256; val mod 256]) with 2. lia.
  - destruct (_ && _) eqn:G; [|discriminate]. destruct (inet_pton4 ct) as [a|] eqn:P; [|discriminate]. injection E as <- <- <- <-. apply pton4_len in P. rewrite zlen_app. split; [lia|]. intros k X. apply K in X. lia.
Qed.
Lemma inet_pton6_len : forall s a, inet_pton6 s = Some a -> zlen a = 16.
Proof.
  intros s a E. unfold inet_pton6 in E. match type of E with match ?x with _ => _ end = _ => destruct x as [s'|]; [|discriminate] end.
  destruct (pton6_loop s' [] None s' 0 0) as [[[[tmp cp] nx] val]|] eqn:P; [|discriminate].
  apply pton6_loop_len in P as (L & K); [|change (zlen (@nil Z)) with 0; lia|discriminate]. destruct (_ && _) eqn:G; [discriminate|]. cbv zeta in E.
  set (t := if nx >? 0 then tmp ++ [val / 256; val mod 256] else tmp) in *.
  assert (LT : zlen t <= 16 /\ forall k, cp = Some k -> 0 <= k <= zlen t).
  { unfold t. destruct (nx >? 0) eqn:N; [|auto]. cbn [andb] in G. rewrite zlen_app. change (zlen [val / 256; val mod 256]) with 2. split; [lia|]. intros k X. apply K in X. lia. }
  clearbody t. destruct cp as [k|].
  - destruct (zlen t =? 16) eqn:E16; [discriminate|]. apply (f_equal (fun o => match o with Some x => x | None => [] end)) in E. rewrite <- E. destruct LT as [LT KT]. specialize (KT k eq_refl). unfold zlen in *. rewrite !app_length, repeat_length, firstn_length, skipn_length. lia.
  - destruct (zlen t =? 16) eqn:E16; [|discriminate]. injection E as <-. lia.
Qed.

Lemma prefix_fin : forall c r, isspace c = false -> finished (prefix_field (c :: r)).
Proof.
  intros c r IS. unfold prefix_field. destruct (token (c :: r)) as [t e]. destruct (negb _); auto. pose proof (scan_u_head c r IS). destruct (scan_u (c :: r)) as [| |v q]; auto; [congruence|].
  cbv zeta. destruct (v mod 256 >? 128) eqn:P; auto. destruct (skip_space e) as [|d s] eqn:SK; auto. destruct (token (d :: s)) as [t2 e2]. destruct (inet_pton6 t2) as [a|] eqn:IP; [|destruct (negb _); auto].
  assert (LA : zlen a = 16).
  { revert IP. apply inet_pton6_len. }
  pose proof (Z.mod_pos_bound v 256 ltac:(lia)).
  assert (OC : 0 <= (128 - v mod 256) / 8 + (if negb (v mod 256 mod 8 =? 0) then 1 else 0) <= 16).
  { clear - H0 P. generalize dependent (v mod 256). intros p H1 H2. destruct (negb (p mod 8 =? 0)) eqn:M; zdm; lia. }
  unfold rds. match goal with |- context [if ?b then UB OobRead else _] => replace b with false by lia end. cbn [bind]. destruct (end_or_null e2) as [e'|]; [|exact I]. destruct (v mod 256 =? 0); [|exact I]. destruct (skip_space e'); exact I.
Qed.

Definition rest_ok (e : option bytes) (s : bytes) : Prop := match e with None => True | Some e => suffix e s end.
Lemma end_or_null_rest : forall e s, suffix e s -> rest_ok (end_or_null e) s.
Proof. intros e s S. destruct e; cbn; auto. Qed.

Lemma field_fin : forall t c r, t <> rdf_edns_opt_rdata -> SpecName.c_string (c :: r) -> isspace c = false -> field_ok t (c :: r) -> finished (parse_text_field t (c :: r)).
Proof.
  intros t c r N C I F. pose proof (c_string_bytes _ C) as B.
  destruct t; unfold field_ok in F; cbn [pres_of] in F; cbn [parse_text_field]; try (apply int_fin; auto); try apply eui_fin; try congruence.
  - apply finished_bind; [apply hex_pairs_fin; auto|auto].
  - destruct (base64_decode_safe _ B F) as (o & E). rewrite E. cbn [bind]. unfold base64_str_to_bytes in E. apply decode_le in E. change (zlen (@nil Z)) with 0 in E. unfold skip. replace (zlen (c :: r) <? zlen o) with false by lia. cbn. auto.
  - destruct (_ && _); auto. destruct (from_str_string (c :: r)) as [[l q]|]; auto.
  - destruct (token (c :: r)) as [t e] eqn:T. eapply name_fin; eauto.
  - destruct (token (c :: r)) as [t e] eqn:T. eapply name_fin; eauto.
  - destruct (token (c :: r)) as [t e]. destruct (inet_pton4 t); auto.
  - destruct (token (c :: r)) as [t e]. destruct (inet_pton6 t); auto.
  - apply prefix_fin. auto.
  - apply finished_bind; [apply cs_fin|intros [o e] _; auto].
  - apply finished_bind; [apply strings_fin; lia|auto].
  - destruct (token (c :: r)) as [t e]. cbv zeta. destruct (_ >? 0); auto.
  - apply finished_bind; [apply bitmap_fin; lia|]. intros ts E. apply bitmap_toks_range in E. apply types_to_bitmap_spec in E as (ws & -> & _). cbn. auto.
  - destruct (token (c :: r)) as [t e] eqn:T. unfold token in T. apply split_at_eq in T as (EQ & _ & _). destruct (_ && _); [unfold skip; rewrite zlen_cons; pose proof (zlen_nonneg _ r); replace (zlen r + 1 <? 1) with false by lia; cbn; auto|].
    destruct (_ || _); auto. apply finished_bind; [|intros [o q] _; auto]. apply salt_pairs_fin; auto. rewrite EQ, zlen_app. pose proof (zlen_nonneg _ e). pose proof (zlen_nonneg _ t). pose proof (Z.div_mod (zlen t) 2 ltac:(lia)). pose proof (Z.mod_pos_bound (zlen t) 2 ltac:(lia)). lia.
  - destruct (token (c :: r)) as [t e]. destruct (zlen t =? 1); [unfold skip; rewrite zlen_cons; pose proof (zlen_nonneg _ r); replace (zlen r + 1 <? 1) with false by lia; cbn; auto|].
    unfold base32_decode. destruct (b32_dloop_safe t (zlen t) [] false [] ltac:(cbn; lia)) as (x & ->). cbn [bind]. destruct x; auto. destruct (negb _); auto.
  - destruct F as [F1 F2]. apply finished_bind; [apply svcparams_fin; auto|auto].
Qed.
Lemma field_rest : forall t s o e, parse_text_field t s = Ok (o, e) -> rest_ok e s.
Proof.
  intros t s o e E. destruct t; cbn [parse_text_field] in E; try (apply int_rest in E as (e' & -> & E); exact E).
  - apply bind_ok in E as (l & _ & E). injection E as <- <-. cbn. auto.
  - apply bind_ok in E as (l & _ & E). apply bind_ok in E as (q & S & E). injection E as <- <-. unfold skip in S. destruct (_ <? _); [discriminate|]. injection S as <-. cbn. auto.
  - destruct (_ && _); [|discriminate]. destruct (from_str_string s) as [[l q]|]; [|discriminate]. injection E as <- <-. cbn. auto.
  - destruct (token s) as [x q] eqn:T. apply split_suffix in T. apply bind_ok in E as ([d n] & _ & E). apply bind_ok in E as (l & _ & E). injection E as <- <-. apply end_or_null_rest. auto.
  - destruct (token s) as [x q] eqn:T. apply split_suffix in T. apply bind_ok in E as ([d n] & _ & E). apply bind_ok in E as (l & _ & E). injection E as <- <-. apply end_or_null_rest. auto.
  - destruct (token s) as [x q] eqn:T. apply split_suffix in T. destruct (inet_pton4 x); [|discriminate]. injection E as <- <-. exact T.
  - destruct (token s) as [x q] eqn:T. apply split_suffix in T. destruct (inet_pton6 x); [|discriminate]. injection E as <- <-. apply end_or_null_rest. auto.
  - unfold prefix_field in E. destruct (token s) as [x q] eqn:T. apply split_suffix in T. destruct (negb _); [discriminate|]. destruct (scan_u s) as [| |v y]; try discriminate. cbv zeta in E. destruct (_ >? 128); [discriminate|].
    pose proof (skip_suffix q) as SQ. destruct (skip_space q) as [|d s2] eqn:SK; [discriminate|]. destruct (token (d :: s2)) as [t2 e2] eqn:T2. apply split_suffix in T2.
    assert (SE : suffix e2 s) by (eapply suffix_trans; [exact T2|]; eapply suffix_trans; eauto).
    destruct (inet_pton6 t2) as [a|].
    + apply bind_ok in E as (o' & _ & E). destruct (end_or_null e2) as [e'|] eqn:EN.
      * assert (e' = e2) by (destruct e2; cbn in EN; congruence). subst e'. destruct (_ =? 0); [destruct (skip_space e2); [|discriminate]; injection E as <- <-; exact I|]. injection E as <- <-. exact SE.
      * injection E as <- <-. exact I.
    + destruct (negb _); [discriminate|]. injection E as <- <-. cbn. eapply suffix_trans; eauto.
  - unfold eui_field in E. destruct (negb _); [discriminate|]. apply bind_ok in E as (b & _ & E). destruct (negb b); [discriminate|]. destruct (eui_scan _ s); [|discriminate]. injection E as <- <-. cbn. auto.
  - unfold eui_field in E. destruct (negb _); [discriminate|]. apply bind_ok in E as (b & _ & E). destruct (negb b); [discriminate|]. destruct (eui_scan _ s); [|discriminate]. injection E as <- <-. cbn. auto.
  - apply bind_ok in E as ([o' e'] & S & E). injection E as <- <-. apply cs_rest in S. cbn. tauto.
  - apply bind_ok in E as (l & _ & E). injection E as <- <-. cbn. auto.
  - destruct (token s) as [x q] eqn:T. apply split_suffix in T. cbv zeta in E. destruct (_ >? 0); [|discriminate]. injection E as <- <-. apply end_or_null_rest. auto.
  - apply bind_ok in E as (l & _ & E). apply bind_ok in E as (l' & _ & E). injection E as <- <-. exact I.
  - destruct (token s) as [x q] eqn:T. destruct (_ && _).
    + apply bind_ok in E as (s' & S & E). injection E as <- <-. unfold skip in S. destruct (_ <? _); [discriminate|]. injection S as <-. apply suffix_adv.
    + destruct (_ || _); [discriminate|]. apply bind_ok in E as ([o' s'] & S & E). injection E as <- <-. apply salt_pairs_suffix in S. exact S.
  - destruct (token s) as [x q] eqn:T. apply split_suffix in T. destruct (_ =? 1).
    + apply bind_ok in E as (s' & S & E). injection E as <- <-. unfold skip in S. destruct (_ <? _); [discriminate|]. injection S as <-. apply suffix_adv.
    + apply bind_ok in E as (o' & S & E). destruct o' as [l|]; [|discriminate]. destruct (negb _); [discriminate|]. injection E as <- <-. exact T.
  - apply bind_ok in E as (l & _ & E). injection E as <- <-. cbn. auto.
  - discriminate.
Qed.

Lemma fields_fin : forall ts s, ~ In rdf_edns_opt_rdata ts -> match s with Some s => SpecName.c_string s /\ Forall (fun t => field_ok t s) ts | None => True end -> finished (parse_text_fields ts s).
Proof.
  induction ts as [|t ts IH]; intros s N H; cbn [parse_text_fields]; auto. destruct s as [s|]; auto. destruct H as [C F]. pose proof (skip_suffix s) as SS.
  destruct (skip_space s) as [|c r] eqn:SK; auto.
  assert (I : isspace c = false). { clear - SK. induction s as [|d s IH]; cbn [skip_space] in SK; [discriminate|]. destruct (isspace d) eqn:E; [auto|]. injection SK as <- <-. auto. }
  apply finished_bind.
  - apply field_fin; [intros ->; apply N; left; auto|eapply c_string_suffix; eauto|auto|]. eapply field_ok_suffix; [exact SS|]. exact (Forall_inv F).
  - intros [o e] E. apply field_rest in E. apply finished_bind; [|auto]. apply IH; [intros X; apply N; right; auto|]. destruct e as [e|]; auto. cbn in E. assert (SE : suffix e s) by (eapply suffix_trans; eauto).
    split; [eapply c_string_suffix; eauto|]. apply Forall_inv_tail in F. eapply Forall_impl; [|exact F]. intros u U. eapply field_ok_suffix; eauto.
Qed.

(** ** Generic text *)
Lemma generic_octets_fin : forall f s, (length s < f)%nat -> finished (generic_octets f s).
Proof.
  induction f as [|f IH]; intros s L; [lia|]. cbn [generic_octets]. destruct s as [|c r]; auto. cbn [length] in L. destruct (isspace c) eqn:I; [apply IH; lia|]. destruct r as [|d r]; auto. cbn [length] in L.
  apply finished_bind; [apply scan_octet_head; auto|]. intros v _. apply finished_bind; [apply IH; lia|auto].
Qed.
Lemma generic_fin : forall s, solid_end s -> finished (str_to_generic_rdata s).
Proof.
  intros s SE. unfold str_to_generic_rdata. destruct (negb (prefix_eq _ _)); [exact I|]. cbv zeta. assert (S2 : suffix (skipn 2 s) s) by (exists (firstn 2 s); rewrite firstn_skipn; auto). pose proof (solid_end_suffix _ _ S2 SE) as SE2.
  destruct (skipn 2 s) as [|c r] eqn:E; [exact I|]. destruct (negb (isspace c)) eqn:IC; [exact I|]. destruct (solid_skip (c :: r) ltac:(discriminate) SE2) as (d & q & SK).
  assert (ID : isspace d = false). { clear - SK. revert SK. generalize (c :: r). intros s SK. induction s as [|x s IH]; cbn [skip_space] in SK; [discriminate|]. destruct (isspace x) eqn:E; [auto|]. injection SK as <- <-. auto. }
  rewrite SK. destruct (split_at isspace (d :: q)) as [t e]. destruct (negb (forallb is_digit t)); [exact I|]. pose proof (scan_u_head d q ID). destruct (scan_u (d :: q)) as [| |v y]; [congruence|exact I|]. cbn [bind].
  apply finished_bind; [apply generic_octets_fin; lia|]. intros o _. destruct (negb (zlen o =? _)); exact I.
Qed.

(** ** The whole text *)
Lemma table_pres : forall t d, lookup_descr t = Some d -> t <> 41 -> presentation_of t = map pres_of (d_types d) /\ ~ In rdf_edns_opt_rdata (d_types d).
Proof.
  assert (G : forallb (fun e => (fst e =? 41) || (forallb (fun r => match r with rdf_edns_opt_rdata => false | _ => true end) (d_types (snd e)))) record_table = true) by (vm_compute; reflexivity).
  assert (H : map (fun e => presentation_of (fst e)) (filter (fun e => negb (fst e =? 41)) record_table) = map (fun e => map pres_of (d_types (snd e))) (filter (fun e => negb (fst e =? 41)) record_table)) by (vm_compute; reflexivity).
  intros t d L N. unfold lookup_descr in L.
  assert (I : In (t, d) record_table). { revert L. generalize record_table. induction l as [|[k x] l IH]; intros L; cbn in L; [discriminate|]. destruct (t =? k) eqn:K; [injection L as <-; left; f_equal; lia|right; auto]. }
  split.
  - assert (I2 : In (t, d) (filter (fun e => negb (fst e =? 41)) record_table)) by (apply filter_In; split; [auto|cbn [fst]; lia]).
    revert I2 H. generalize (filter (fun e : Z * descr => negb (fst e =? 41)) record_table). induction l as [|x l IH]; intros I2 H; [destruct I2|]. cbn [map] in H. injection H as H1 H2. destruct I2 as [->|I2]; auto.
  - rewrite forallb_forall in G. specialize (G _ I). cbn [fst snd] in G. intros X. apply orb_prop in G as [G|G]; [lia|]. rewrite forallb_forall in G. specialize (G _ X). discriminate.
Qed.
Lemma white_isspace : forall c, isspace c = false <-> ~ white c.
Proof. intros c. unfold isspace, white. lia. Qed.
Lemma str_to_rdata_fin : forall s t c, SpecName.c_string s -> text_safe t s -> finished (str_to_rdata s t c).
Proof.
  intros s t c C (T1 & T2 & T3 & T4). unfold str_to_rdata. destruct (lookup_descr t) as [d|] eqn:L.
  - destruct (negb _); [exact I|]. destruct (Z.eq_dec t 41) as [->|N].
    + vm_compute in L. injection L as <-. cbn [d_types parse_text_fields]. destruct (skip_space s); exact I.
    + destruct (table_pres t d L N) as (P & NE). apply fields_fin; [auto|]. split; [auto|]. apply Forall_forall. intros u U. assert (IP : In (pres_of u) (presentation_of t)) by (rewrite P; apply in_map; auto).
      unfold field_ok. destruct (pres_of u); auto.
      * intros a b E. destruct (T1 IP a b E) as (x & r & -> & X). exists x, r. split; [auto|]. unfold is_blank. lia.
      * destruct T2 as [->|T2]; [auto|left; auto|right; apply white_isspace; auto].
      * destruct T2 as [->|T2]; [auto|left; auto|right; apply white_isspace; auto].
  - apply generic_fin. assert (P : presentation_of t = []).
    { clear - L. unfold presentation_of. assert (G : forallb (fun e => match lookup_descr (fst e) with Some _ => true | None => false end) rr_presentation = true) by (vm_compute; reflexivity).
      destruct (find _ rr_presentation) as [[k ps]|] eqn:F; [|auto]. apply find_some in F as (F & K). rewrite forallb_forall in G. specialize (G _ F). cbn [fst] in *. replace k with t in G by lia. rewrite L in G. discriminate. }
    destruct T2 as [->|T2]; [auto|left; auto|right; apply white_isspace; auto].
Qed.
