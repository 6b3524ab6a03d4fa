(** PropArgv.v: argument lists copied, values shown, numbers and words read (libmy/argv.c, C154-C157). *)
From Verif Require Import Base Lib Libc ModelArgv SpecArgv.

(** ** C154: argv_copy_args *)
Lemma firstn_le : forall (l : bytes) n, (length l <= n)%nat -> firstn n l = l.
Proof. intros. apply firstn_all2. assumption. Qed.
Lemma copy_chars_ok : forall size arg out sz, sz = size - zlen out -> 1 <= sz ->
  copy_chars size arg out sz = Ok (out ++ firstn (Z.to_nat (sz - 1)) arg, Z.max 1 (sz - zlen arg)).
Proof.
  intros size. induction arg as [|c arg IH]; intros out sz E L; cbn [copy_chars].
  - rewrite firstn_nil, app_nil_r, zlen_nil. do 2 f_equal. lia.
  - pose proof (zlen_nonneg _ arg). rewrite zlen_cons. destruct (sz >=? 2) eqn:G.
    + unfold push. rewrite zlen_cons, zlen_nil. replace (size <? _) with false by lia. cbn [bind]. rewrite IH; [|rewrite zlen_app, zlen_cons, zlen_nil; lia|lia].
      rewrite <- app_assoc. replace (Z.to_nat (sz - 1)) with (S (Z.to_nat (sz - 1 - 1))) by lia. cbn [firstn app]. do 2 f_equal. lia.
    + replace (Z.to_nat (sz - 1)) with O by lia. cbn [firstn]. rewrite app_nil_r. do 2 f_equal. lia.
Qed.
Lemma firstn_app_l : forall (a b : bytes) n, firstn n (a ++ b) = firstn n a ++ firstn (n - length a) b.
Proof. intros. apply firstn_app. Qed.
(** The text of the arguments behind the first. *)
Definition more (args : list bytes) : bytes := concat (map (fun a => 32 :: a) args).
Lemma with_more : forall a args, with_blanks (a :: args) = a ++ more args.
Proof. intros a args. revert a. induction args as [|b args IH]; intros a; [unfold more; cbn; rewrite app_nil_r; reflexivity|]. change (with_blanks (a :: b :: args)) with (a ++ 32 :: with_blanks (b :: args)). rewrite IH. reflexivity. Qed.
Lemma copy_more : forall size args out sz, sz = size - zlen out -> 1 <= sz -> copy_args size false args out sz = Ok (out ++ firstn (Z.to_nat (sz - 1)) (more args)).
Proof.
  intros size. induction args as [|a args IH]; intros out sz E L; cbn [copy_args].
  - unfold more. cbn [map concat]. rewrite firstn_nil, app_nil_r. reflexivity.
  - destruct (sz <? 2) eqn:G; [replace (Z.to_nat (sz - 1)) with O by lia; cbn [firstn]; rewrite app_nil_r; reflexivity|].
    unfold push. rewrite zlen_cons, zlen_nil. replace (size <? _) with false by lia. cbn [bind].
    assert (Z1 : zlen (out ++ [32]) = zlen out + 1) by (rewrite zlen_app, zlen_cons, zlen_nil; lia).
    rewrite copy_chars_ok by lia. cbn [bind]. pose proof (zlen_nonneg _ a).
    assert (LE : zlen (firstn (Z.to_nat (sz - 1 - 1)) a) = Z.min (sz - 2) (zlen a)) by (unfold zlen; rewrite firstn_length; lia).
    rewrite IH; [|rewrite zlen_app, Z1, LE; lia|lia].
    change (more (a :: args)) with (32 :: a ++ more args). replace (Z.to_nat (sz - 1)) with (S (Z.to_nat (sz - 1 - 1))) by lia. cbn [firstn]. rewrite firstn_app_l, <- !app_assoc. cbn [app].
    do 5 f_equal. unfold zlen. lia.
Qed.
Lemma copy_first : forall size args, 1 <= size -> copy_args size true args [] size = Ok (firstn (Z.to_nat (size - 1)) (with_blanks args)).
Proof.
  intros size [|a args] L; [cbn; rewrite firstn_nil; reflexivity|]. cbn [copy_args]. destruct (size <? 2) eqn:G; [replace (Z.to_nat (size - 1)) with O by lia; reflexivity|].
  cbn [bind]. rewrite copy_chars_ok by (rewrite ?zlen_nil; lia). cbn [bind app]. pose proof (zlen_nonneg _ a).
  assert (LE : zlen (firstn (Z.to_nat (size - 1)) a) = Z.min (size - 1) (zlen a)) by (unfold zlen; rewrite firstn_length; lia).
  rewrite copy_more by lia. rewrite with_more, firstn_app_l. do 3 f_equal. unfold zlen. lia.
Qed.
(** The buffer holds the arguments, a blank between two, cut to size - 1 characters, and a NUL; nothing is written outside it. *)
Theorem C154_copy_args : forall args size, 1 <= size -> argv_copy_args (Some args) size = Ok (firstn (Z.to_nat (size - 1)) (with_blanks args) ++ [0]).
Proof.
  intros args size L. unfold argv_copy_args. replace (size <=? 0) with false by lia. unfold push at 1. rewrite zlen_nil, zlen_cons, zlen_nil. replace (size <? _) with false by lia. cbn [bind app].
  destruct (size =? 1) eqn:G; [replace (Z.to_nat (size - 1)) with O by lia; reflexivity|]. rewrite copy_first by lia. cbn [bind]. unfold push. rewrite zlen_cons, zlen_nil.
  assert (zlen (firstn (Z.to_nat (size - 1)) (with_blanks args)) <= size - 1) by (unfold zlen; rewrite firstn_length; lia). replace (size <? _) with false by lia. reflexivity.
Qed.
Print Assumptions C154_copy_args.
(** No size: nothing is written. No arguments yet: the empty string. *)
Theorem C154_nothing : forall args size, (size <= 0 -> argv_copy_args args size = Ok []) /\ (1 <= size -> argv_copy_args None size = Ok [0]).
Proof.
  intros args size. unfold argv_copy_args. split; intros L; [replace (size <=? 0) with true by lia; reflexivity|]. replace (size <=? 0) with false by lia.
  unfold push. rewrite zlen_nil, zlen_cons, zlen_nil. replace (size <? _) with false by lia. reflexivity.
Qed.
Print Assumptions C154_nothing.
Example C154_ex : argv_copy_args (Some [[45; 118]; []; [102; 111; 111]]) 7 = Ok [45; 118; 32; 32; 102; 111; 0]. Proof. reflexivity. Qed.

(** ** C155: the value of a character or string as text *)
Lemma snp2 : forall a b, snprintf_n 2 [a; b] = [a; 0]. Proof. reflexivity. Qed.
Lemma snp4 : forall c, snprintf_n 4 (92 :: oct3 c) = [92; 48 + c / 64; 48 + c / 8 mod 8; 0]. Proof. reflexivity. Qed.
Lemma expand_within : forall s out size, out = [] \/ zlen out < size -> exists o, expand_buf s out size = Ok o /\ (o = [] \/ zlen o < size).
Proof.
  induction s as [|c s IH]; intros out size L; cbn [expand_buf]; [eauto|]. destruct (special_of c special_chars) as [a|].
  - destruct (zlen out + 2 >=? size) eqn:G; [eauto|]. rewrite snp2. unfold push. rewrite !zlen_cons, zlen_nil. replace (size <? _) with false by lia. cbn [bind]. apply IH. right. rewrite zlen_app, !zlen_cons, zlen_nil. lia.
  - destruct (_ && _).
    + destruct (zlen out + 1 >=? size) eqn:G; [eauto|]. unfold push. rewrite !zlen_cons, zlen_nil. replace (size <? _) with false by lia. cbn [bind]. apply IH. right. rewrite zlen_app, !zlen_cons, zlen_nil. lia.
    + destruct (zlen out + 4 >=? size) eqn:G; [eauto|]. rewrite snp4. unfold push. rewrite !zlen_cons, zlen_nil. replace (size <? _) with false by lia. cbn [bind]. apply IH. right. rewrite zlen_app, !zlen_cons, zlen_nil. lia.
Qed.
(** Nothing is written outside the buffer, and the length returned is less than its size. *)
Theorem C155_within_partial : forall s size, 0 < size -> exists o, value_string s size = Ok (o, zlen o) /\ zlen o < size.
Proof.
  intros s size P. destruct (expand_within s [] size (or_introl eq_refl)) as (o & E & L). exists o. unfold value_string. rewrite E. cbn [bind]. split; [reflexivity|]. destruct L as [->|L]; [rewrite zlen_nil; lia|exact L].
Qed.
Print Assumptions C155_within_partial.
Lemma expand_plain : forall s out size, Forall (fun c => 32 <= c <= 126 /\ ~ In c [34; 39; 92; 94]) s ->
  expand_buf s out size = Ok (out ++ firstn (Z.to_nat (size - 1 - zlen out)) s).
Proof.
  induction s as [|c s IH]; intros out size F; cbn [expand_buf]; [rewrite firstn_nil, app_nil_r; reflexivity|]. inversion F as [|? ? [R N] F']; subst. cbn [In] in N.
  assert (special_of c special_chars = None) as ->.
  { unfold special_chars. cbn [special_of]. repeat match goal with |- context [?a =? c] => replace (a =? c) with false by lia end. reflexivity. }
  unfold isprint. replace (_ && _) with true by lia. destruct (zlen out + 1 >=? size) eqn:G.
  - replace (Z.to_nat (size - 1 - zlen out)) with O by lia. cbn [firstn]. rewrite app_nil_r. reflexivity.
  - unfold push. rewrite zlen_cons, zlen_nil. replace (size <? _) with false by lia. cbn [bind]. rewrite IH by exact F'. rewrite zlen_app, zlen_cons, zlen_nil, <- app_assoc.
    replace (Z.to_nat (size - 1 - zlen out)) with (S (Z.to_nat (size - 1 - (zlen out + (0 + 1))))) by lia. reflexivity.
Qed.
(** Printable characters other than the quotes, the backslash and ^ are shown as they are; no NUL is written behind them. *)
Theorem C155_plain_partial : forall s size, Forall (fun c => 32 <= c <= 126 /\ ~ In c [34; 39; 92; 94]) s ->
  value_string s size = Ok (firstn (Z.to_nat (size - 1)) s, zlen (firstn (Z.to_nat (size - 1)) s)).
Proof. intros s size F. unfold value_string. rewrite expand_plain by exact F. rewrite zlen_nil. replace (size - 1 - 0) with (size - 1) by lia. reflexivity. Qed.
Print Assumptions C155_plain_partial.
(** But every special character is shown as the same backslash and NUL, and of the three octal digits of the others the last is a NUL. *)
Theorem C155_refuted : forall size, 4 < size ->
  (forall c, In c [27; 94; 34; 39; 92; 10; 13; 9; 8; 12; 7] -> value_char c size = Ok ([92; 0], 2)) /\ value_char 1 size = Ok ([92; 48; 48; 0], 4) /\ value_char 2 size = value_char 1 size.
Proof.
  intros size G. unfold value_char. split.
  - intros c H. cbn [In] in H. repeat (destruct H as [<-|H]); [..|contradiction]; cbn [expand_buf special_of special_chars Z.eqb Pos.eqb]; rewrite zlen_nil; replace (0 + 2 >=? size) with false by lia; rewrite snp2; unfold push; rewrite zlen_nil, !zlen_cons, zlen_nil; replace (size <? _) with false by lia; reflexivity.
  - assert (K : forall c, c = 1 \/ c = 2 -> expand_buf [c] [] size = Ok [92; 48; 48; 0]).
    { intros c [->| ->]; cbn [expand_buf special_of special_chars Z.eqb Pos.eqb]; rewrite zlen_nil; replace (0 + 4 >=? size) with false by lia; cbn [andb isprint Z.ltb Z.leb Z.compare Pos.compare Pos.compare_cont]; rewrite snp4; unfold push; rewrite zlen_nil, !zlen_cons, zlen_nil; replace (size <? _) with false by lia; reflexivity. }
    rewrite (K 1), (K 2) by auto. split; reflexivity.
Qed.
Print Assumptions C155_refuted.
Example C155_ex : value_string [97; 10; 98] 100 = Ok ([97; 92; 0; 98], 4) /\ value_string [97; 98; 99; 100] 3 = Ok ([97; 98], 2). Proof. split; reflexivity. Qed.

(** ** C156: binary, octal and hexadecimal numbers *)
Fixpoint gen (b : Z) (f : Z -> option Z) (s : bytes) (ret : Z) : outcome Z :=
  match s with
  | [] => Ok ret
  | c :: s => match f c with Some d => r <- int_of (ret * b) ;; r <- int_of (r + d) ;; gen b f s r | None => Ok ret end
  end.
Definition limit (v : Z) : outcome Z := if v <=? 2147483647 then Ok v else UB IntOverflow.
Lemma number_nonneg : forall b (f : Z -> option Z) text ds, 1 <= b -> (forall c d, f c = Some d -> 0 <= d < b) -> Forall2 (fun c d => f c = Some d) text ds -> 0 <= number b ds.
Proof.
  intros b f text ds B D F. induction F as [|c d text ds H F IH]; cbn [number]; [lia|]. specialize (D _ _ H). assert (0 <= b ^ Z.of_nat (length ds)) by (apply Z.pow_nonneg; lia). nia.
Qed.
Lemma gen_spec : forall b (f : Z -> option Z), 1 <= b -> (forall c d, f c = Some d -> 0 <= d < b) -> forall text ds, Forall2 (fun c d => f c = Some d) text ds ->
  forall rest ret, match rest with [] => True | c :: _ => f c = None end -> 0 <= ret <= 2147483647 ->
  gen b f (text ++ rest) ret = limit (ret * b ^ Z.of_nat (length ds) + number b ds).
Proof.
  intros b f B D text ds F. induction F as [|c d text ds H F IH]; intros rest ret S R.
  - cbn [app length number]. change (Z.of_nat 0) with 0. rewrite Z.pow_0_r. unfold limit. replace (_ <=? _) with true by lia. replace (ret * 1 + 0) with ret by lia. destruct rest as [|c rest]; cbn [gen]; [reflexivity|]. rewrite S. reflexivity.
  - cbn [app gen length number]. rewrite H. pose proof (D _ _ H) as D'. pose proof (number_nonneg _ _ _ _ B D F) as N. assert (P : 1 <= b ^ Z.of_nat (length ds)) by (assert (0 < b ^ Z.of_nat (length ds)) by (apply Z.pow_pos_nonneg; lia); lia).
    rewrite Nat2Z.inj_succ, Z.pow_succ_r by lia. set (q := b ^ Z.of_nat (length ds)) in *.
    replace (ret * (b * q) + (d * q + number b ds)) with ((ret * b + d) * q + number b ds) by ring.
    assert (M : ret * b + d <= (ret * b + d) * q + number b ds) by nia. assert (0 <= ret * b) by nia.
    unfold int_of. destruct (ret * b <=? 2147483647) eqn:E1.
    + replace (-2147483648 <=? ret * b) with true by lia. cbn [andb bind]. destruct (ret * b + d <=? 2147483647) eqn:E2.
      * replace (-2147483648 <=? ret * b + d) with true by lia. cbn [andb bind]. apply IH; [exact S|lia].
      * rewrite andb_false_r. cbn [bind]. unfold limit. replace (_ <=? _) with false by lia. reflexivity.
    + rewrite andb_false_r. cbn [bind]. unfold limit. replace (_ <=? _) with false by lia. reflexivity.
Qed.
Definition fb (c : Z) : option Z := if (c =? 48) || (c =? 49) then Some (c - 48) else None.
Definition fo (c : Z) : option Z := if (48 <=? c) && (c <=? 55) then Some (c - 48) else None.
Definition fh (c : Z) : option Z :=
  if ((48 <=? c) && (c <=? 57)) || ((97 <=? c) && (c <=? 102)) || ((65 <=? c) && (c <=? 70)) then
    Some (if (97 <=? c) && (c <=? 102) then c - 97 + 10 else if (65 <=? c) && (c <=? 70) then c - 65 + 10 else c - 48) else None.
Lemma btoi_gen : forall s r, btoi_loop s r = gen 2 fb s r.
Proof. induction s as [|c s IH]; intros r; cbn [btoi_loop gen]; [reflexivity|]. unfold fb. destruct (_ || _); [|reflexivity]. destruct (int_of (r * 2)); cbn [bind]; try reflexivity. destruct (int_of _); cbn [bind]; auto. Qed.
Lemma otoi_gen : forall s r, otoi_loop s r = gen 8 fo s r.
Proof. induction s as [|c s IH]; intros r; cbn [otoi_loop gen]; [reflexivity|]. unfold fo. destruct (_ && _); [|reflexivity]. destruct (int_of (r * 8)); cbn [bind]; try reflexivity. destruct (int_of _); cbn [bind]; auto. Qed.
Lemma htoi_gen : forall s r, htoi_loop s r = gen 16 fh s r.
Proof. induction s as [|c s IH]; intros r; cbn [htoi_loop gen]; [reflexivity|]. unfold fh. destruct (_ || _); [|reflexivity]. destruct (int_of (r * 16)); cbn [bind]; try reflexivity. destruct (int_of _); cbn [bind]; auto. Qed.
Lemma fb_digit : forall c d, fb c = Some d <-> binary_digit c d.
Proof. intros c d. unfold fb, binary_digit. destruct (_ || _) eqn:E; split; intros H; try discriminate; try lia; [assert (c - 48 = d) by congruence; lia|]. f_equal. lia. Qed.
Lemma fo_digit : forall c d, fo c = Some d <-> octal_digit c d.
Proof. intros c d. unfold fo, octal_digit. destruct (_ && _) eqn:E; split; intros H; try discriminate; try lia; [assert (c - 48 = d) by congruence; lia|]. f_equal. lia. Qed.
Lemma fh_digit : forall c d, fh c = Some d <-> hex_digit c d.
Proof.
  intros c d. unfold fh, hex_digit. destruct (_ || _) eqn:E; [|split; intros H; [discriminate|lia]]. destruct ((97 <=? c) && (c <=? 102)) eqn:E1; [|destruct ((65 <=? c) && (c <=? 70)) eqn:E2]; split; intros H.
  - assert (c - 97 + 10 = d) by congruence. lia.
  - f_equal. lia.
  - assert (c - 65 + 10 = d) by congruence. lia.
  - f_equal. lia.
  - assert (c - 48 = d) by congruence. lia.
  - f_equal. lia.
Qed.
Lemma by_digits : forall b (f : Z -> option Z) digit, 1 <= b -> (forall c d, f c = Some d <-> digit c d) -> (forall c d, digit c d -> 0 <= d < b) -> forall ds s, digits_then digit ds s -> gen b f s 0 = limit (number b ds).
Proof.
  intros b f digit B E D ds s (text & rest & -> & F & S). rewrite gen_spec with (ds := ds); auto.
  - intros c d H. apply (D c). apply E. exact H.
  - clear S. induction F; constructor; [apply E; assumption|assumption].
  - destruct rest as [|c rest]; [exact I|]. destruct (f c) as [d|] eqn:G; [|reflexivity]. exfalso. apply (S d). apply E. exact G.
  - lia.
Qed.
(** The number in front of the first character that is not a digit, if it fits an int; otherwise the arithmetic overflows. *)
Theorem C156_binary : forall blanks s ds, Forall (fun c => isspace c = true) blanks -> digits_then binary_digit ds s -> match s with [] => True | c :: _ => isspace c = false end ->
  btoi (blanks ++ s) = if number 2 ds <=? 2147483647 then Ok (number 2 ds) else UB IntOverflow.
Proof.
  intros blanks s ds F D N. unfold btoi. assert (skip_space (blanks ++ s) = s) as ->.
  { induction F as [|c l H F IH]; cbn [app skip_space]; [destruct s as [|c s]; cbn [skip_space]; [reflexivity|rewrite N; reflexivity]|]. rewrite H. exact IH. }
  rewrite btoi_gen. apply (by_digits 2 fb binary_digit); auto using fb_digit; [lia|unfold binary_digit; intros; lia].
Qed.
Print Assumptions C156_binary.
Theorem C156_octal : forall blanks s ds, Forall (fun c => isspace c = true) blanks -> digits_then octal_digit ds s -> match s with [] => True | c :: _ => isspace c = false end ->
  otoi (blanks ++ s) = if number 8 ds <=? 2147483647 then Ok (number 8 ds) else UB IntOverflow.
Proof.
  intros blanks s ds F D N. unfold otoi. assert (skip_space (blanks ++ s) = s) as ->.
  { induction F as [|c l H F IH]; cbn [app skip_space]; [destruct s as [|c s]; cbn [skip_space]; [reflexivity|rewrite N; reflexivity]|]. rewrite H. exact IH. }
  rewrite otoi_gen. apply (by_digits 8 fo octal_digit); auto using fo_digit; [lia|unfold octal_digit; intros; lia].
Qed.
Print Assumptions C156_octal.
(** With or without 0x. *)
Theorem C156_hexadecimal : forall blanks prefix s ds, Forall (fun c => isspace c = true) blanks -> digits_then hex_digit ds s ->
  In prefix [[48; 120]; [48; 88]] \/ prefix = [] /\ match s with [] => True | c :: r => isspace c = false /\ match r with [] => True | x :: _ => c = 48 -> x <> 120 /\ x <> 88 end end ->
  htoi (blanks ++ prefix ++ s) = if number 16 ds <=? 2147483647 then Ok (number 16 ds) else UB IntOverflow.
Proof.
  intros blanks prefix s ds F D P. unfold htoi. assert (skip_space (blanks ++ prefix ++ s) = prefix ++ s) as ->.
  { induction F as [|c l H F IH]; cbn [app skip_space]; [|rewrite H; exact IH]. destruct P as [[<-|[<-|[]]]|[-> P]]; [reflexivity|reflexivity|]. cbn [app]. destruct s as [|c s]; cbn [skip_space]; [reflexivity|destruct P as [P _]; rewrite P; reflexivity]. }
  cbn zeta. rewrite htoi_gen. transitivity (gen 16 fh s 0); [|apply (by_digits 16 fh hex_digit); auto using fh_digit; [lia|unfold hex_digit; intros; lia]].
  destruct P as [[<-|[<-|[]]]|[-> P]]; [reflexivity|reflexivity|]. cbn [app]. destruct s as [|c [|x s]]; [reflexivity|reflexivity|]. destruct P as [_ P]. destruct ((c =? 48) && _) eqn:E; [lia|reflexivity].
Qed.
Print Assumptions C156_hexadecimal.
Example C156_ex : btoi [32; 49; 48; 49; 50] = Ok 5 /\ otoi [49; 55; 56] = Ok 15 /\ htoi [48; 120; 102; 70; 103] = Ok 255 /\ digits_then hex_digit [15; 15] [102; 70; 103].
Proof. split; [reflexivity|]. split; [reflexivity|]. split; [reflexivity|]. exists [102; 70], [103]. split; [reflexivity|]. split; [repeat constructor; unfold hex_digit; lia|]. unfold hex_digit. intros. lia. Qed.
Example C156_overflow_ex : htoi [102; 102; 102; 102; 102; 102; 102; 102] = UB IntOverflow /\ otoi [50; 48; 48; 48; 48; 48; 48; 48; 48; 48; 48] = UB IntOverflow.
Proof. split; reflexivity. Qed.

(** ** C157: the words of the environment variable *)
Definition sep_in (tok : bytes) (c : Z) : Prop := In c tok.
Lemma is_sep : forall c tok, existsb (Z.eqb c) tok = true <-> In c tok.
Proof. intros c tok. rewrite existsb_exists. split; [intros (x & H & E); replace c with x by lia; exact H|intros H; exists c; split; [exact H|lia]]. Qed.
Lemma strsep_ok : forall tok s t r, strsep tok s = (t, r) -> Forall (fun c => ~ In c tok) t /\
  match r with None => s = t | Some r => (length r < length s)%nat /\ exists c, s = t ++ c :: r /\ In c tok end.
Proof.
  intros tok. induction s as [|c s IH]; intros t r E; cbn [strsep] in E.
  - assert (t = [] /\ r = None) as [-> ->] by (split; congruence). auto.
  - destruct (existsb (Z.eqb c) tok) eqn:X.
    + assert (t = [] /\ r = Some s) as [-> ->] by (split; congruence). split; [constructor|]. split; [cbn [length]; lia|]. exists c. split; [reflexivity|]. apply is_sep. exact X.
    + destruct (strsep tok s) as [t' r'] eqn:K. assert (t = c :: t' /\ r = r') as [-> ->] by (split; congruence). destruct (IH _ _ eq_refl) as [F H]. split.
      * constructor; [|exact F]. intros N. apply is_sep in N. congruence.
      * destruct r' as [r'|]; [|subst; reflexivity]. destruct H as [L (d & -> & N)]. split; [cbn [length]; lia|]. exists d. split; [reflexivity|exact N].
Qed.
Fixpoint toks (fuel : nat) (tok : bytes) (s : option bytes) : list bytes :=
  match s, fuel with
  | Some s, S k => let '(t, r) := strsep tok s in match t with [] => toks k tok r | _ => t :: toks k tok r end
  | _, _ => []
  end.
Definition enough (fuel : nat) (s : option bytes) : Prop := match s with None => True | Some s => (length s < fuel)%nat end.
Lemma count_ok : forall fuel tok s n, enough fuel s -> count_tokens fuel tok s n = Ok (n + zlen (toks fuel tok s)).
Proof.
  induction fuel as [|k IH]; intros tok [s|] n E; cbn [count_tokens toks]; try (rewrite zlen_nil; f_equal; lia); [cbn [enough] in E; lia|]. destruct (strsep tok s) as [t r] eqn:K. apply strsep_ok in K as [_ K].
  assert (enough k r) by (destruct r as [r|]; [|exact I]; cbn [enough] in *; destruct K as [K _]; lia). rewrite IH by assumption. destruct t; [reflexivity|]. rewrite zlen_cons. f_equal. lia.
Qed.
Lemma load_ok : forall fuel tok s v, enough fuel s -> load_tokens fuel tok s (zlen v + zlen (toks fuel tok s)) v = Ok (v ++ toks fuel tok s).
Proof.
  induction fuel as [|k IH]; intros tok [s|] v E; cbn [load_tokens toks]; try (rewrite zlen_nil, app_nil_r; destruct (_ <? _); reflexivity); [cbn [enough] in E; lia|]. destruct (strsep tok s) as [t r] eqn:K. apply strsep_ok in K as [_ K].
  assert (enough k r) by (destruct r as [r|]; [|exact I]; cbn [enough] in *; destruct K as [K _]; lia). destruct t as [|c t].
  - destruct (_ <? _) eqn:G; [apply IH; assumption|]. pose proof (zlen_nonneg _ (toks k tok r)). rewrite (zlen_zero _ (toks k tok r)) by lia. rewrite app_nil_r. reflexivity.
  - rewrite zlen_cons. pose proof (zlen_nonneg _ (toks k tok r)). replace (_ <? _) with true by lia. replace (zlen v + (zlen (toks k tok r) + 1)) with (zlen (v ++ [c :: t]) + zlen (toks k tok r)) by (rewrite zlen_app, zlen_cons, zlen_nil; lia).
    rewrite IH by assumption. rewrite <- app_assoc. reflexivity.
Qed.
Lemma toks_words : forall fuel tok s, (length s < fuel)%nat -> words (sep_in tok) s (toks fuel tok (Some s)).
Proof.
  induction fuel as [|k IH]; intros tok s E; [lia|]. cbn [toks]. destruct (strsep tok s) as [t r] eqn:K. apply strsep_ok in K as [F K]. destruct r as [r|].
  - destruct K as [L (c & -> & N)]. destruct t as [|a t]; [cbn [app]; constructor; [exact N|apply IH; lia]|]. apply words_word; [discriminate|exact F|exact N|apply IH; lia].
  - subst s. assert (toks k tok None = []) as -> by (destruct k; reflexivity). destruct t as [|a t]; [constructor|]. apply words_last; [discriminate|exact F].
Qed.
Theorem C157_words : forall fuel s tok, (length s < fuel)%nat -> exists ws, vectorize fuel s tok = Ok ws /\ words (fun c => In c tok) s ws.
Proof.
  intros fuel s tok E. exists (toks fuel tok (Some s)). split; [|apply toks_words; exact E]. unfold vectorize. rewrite count_ok by exact E. cbn [bind]. pose proof (zlen_nonneg _ (toks fuel tok (Some s))).
  destruct (_ =? 0) eqn:Z0; [rewrite (zlen_zero _ (toks fuel tok (Some s))) by lia; reflexivity|]. apply (load_ok fuel tok (Some s) []). exact E.
Qed.
Print Assumptions C157_words.
Lemma words_app_inv : forall sep w c s w' c' s', Forall (fun c : Z => ~ sep c) w -> Forall (fun c => ~ sep c) w' -> sep c -> sep c' -> w ++ c :: s = w' ++ c' :: s' -> w = w' /\ s = s'.
Proof.
  intros sep. induction w as [|a w IH]; intros c s w' c' s' F F' C C' E; destruct w' as [|a' w']; cbn [app] in E.
  - split; [reflexivity|congruence].
  - inversion F'; subst. assert (c = a') as -> by congruence. contradiction.
  - inversion F; subst. assert (a = c') as -> by congruence. contradiction.
  - inversion F; inversion F'; subst. assert (a = a') as -> by congruence. destruct (IH c s w' c' s') as [-> ->]; auto; congruence.
Qed.
(** There is one list of words. *)
Theorem C157_one : forall sep s ws, words sep s ws -> forall ws', words sep s ws' -> ws = ws'.
Proof.
  intros sep s ws H. induction H as [|c s ws C H IH|w N F|w c s ws N F C H IH]; intros ws' H'.
  - inversion H'; subst; auto; try congruence. destruct w; discriminate.
  - inversion H' as [|c' s' ws2 C' H2|w N F|w c' s' ws2 N F C' H2]; subst; auto.
    + inversion F; subst. contradiction.
    + destruct w as [|a w]; [congruence|]. inversion F; subst. cbn [app] in *. exfalso. match goal with H : ~ sep ?x |- _ => apply H end. congruence.
  - inversion H' as [|c' s' ws2 C' H2|w' N' F'|w' c' s' ws2 N' F' C' H2]; subst; auto; try congruence.
    + inversion F; subst. contradiction.
    + apply Forall_app in F as [_ F]. inversion F; subst. contradiction.
  - inversion H' as [|c' s' ws2 C' H2|w' N' F'|w' c' s' ws2 N' F' C' H2]; subst.
    + destruct w; discriminate.
    + destruct w as [|a w]; [congruence|]. inversion F; subst. cbn [app] in *. exfalso. match goal with H : ~ sep ?x |- _ => apply H end. congruence.
    + apply Forall_app in F' as [_ F']. inversion F'; subst. contradiction.
    + destruct (words_app_inv sep w c s w' c' s') as [-> ->]; auto. f_equal. auto.
Qed.
Print Assumptions C157_one.
Example C157_ex : vectorize 20 [32; 45; 118; 32; 9; 97; 98; 9] [32; 9] = Ok [[45; 118]; [97; 98]]. Proof. reflexivity. Qed.
