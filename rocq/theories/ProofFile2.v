(** ProofFile2.v: wdns_file_load_names on any file. *)
From Verif Require Import Base Lib ModelName SpecName SpecStrName ProofStrName ProofStrName2 ModelFile SpecFile2 ProofFile PropStrName.

(** ** Behind the end of the string *)
Lemma s2n_beyond : forall f down p slen ll buf ocl, slen < 0 -> 0 <= ocl < zlen buf -> zlen buf <= 255 -> 0 <= ll ->
  let x := s2n_loop f down p slen ll (zlen buf) buf ocl in x = Err res_parse_error \/ x = Err res_name_overflow \/ x = UB OobRead \/ x = NoFuel.
Proof.
  induction f as [|f IH]; intros down p slen ll buf ocl SL OC LB L x; subst x; [cbn [s2n_loop]; auto|]. cbn [s2n_loop].
  destruct p as [|c p]; [cbn [hd_rd bind]; auto|]. cbn [hd_rd bind tl]. replace (slen =? 0) with false by lia. unfold MAXLEN_NAME in *.
  destruct (Z.geb_spec (zlen buf) 255) as [G|G]; [auto|].
  assert (PU : forall (b : bytes) v, zlen b = zlen buf -> push 255 b [v] = Ok (b ++ [v])).
  { intros b v E. unfold push. change (zlen [v]) with 1. replace (_ <? _) with false by lia. reflexivity. }
  assert (ZP : forall v : Z, zlen (buf ++ [v]) = zlen buf + 1) by (intros v; rewrite zlen_app; reflexivity).
  assert (PM : (zlen buf + 1) mod 256 = zlen buf + 1) by (apply Z.mod_small; pose proof (zlen_nonneg _ buf); lia).
  destruct ((65 <=? c) && (c <=? 90)).
  { rewrite PU by auto. cbn [bind]. rewrite PM, <- (ZP (if down then Z.lor c 32 else c)). apply IH; rewrite ?ZP; lia. }
  destruct (c =? 92) eqn:C.
  - destruct p as [|d p]; [cbn [hd_rd bind]; auto|]. cbn [hd_rd bind]. destruct (negb (is_digit d)); [replace (slen <=? 0) with true by lia; auto|].
    cbn [andb]. replace (slen >=? 3) with false by lia. auto.
  - cbn [bind andb]. destruct (c =? 46).
    + assert (ST : exists b, set_at buf ocl ((ll + 1 - 1) mod 256) = Ok b /\ zlen b = zlen buf).
      { unfold set_at, blit. change (zlen [(ll + 1 - 1) mod 256]) with 1. replace ((ocl <? 0) || (zlen buf <? ocl + 1)) with false by lia. eexists. split; [reflexivity|].
        unfold zlen in *. rewrite !app_length, firstn_length, skipn_length. cbn [length]. lia. }
      destruct ST as (b & -> & ZB). cbn [bind]. destruct (ll + 1 - 1 =? 0); [auto|]. rewrite PU by auto. cbn [bind].
      replace (slen =? 1) with false by lia.
      assert (ZB2 : zlen (b ++ [0]) = zlen buf + 1) by (rewrite zlen_app; change (zlen [0]) with 1; lia). rewrite PM, <- ZB2. apply IH; lia.
    + destruct (negb (c =? 0)); [|apply IH; lia]. rewrite PU by auto. cbn [bind]. rewrite PM, <- (ZP c). apply IH; rewrite ?ZP; lia.
Qed.
Lemma bind_nofuel : forall A B (x : outcome A) (f : A -> outcome B), x <> NoFuel -> (forall a, f a <> NoFuel) -> bind x f <> NoFuel.
Proof. intros A B [a|e|u|] f H K; cbn [bind]; auto; congruence. Qed.
Lemma s2n_fuel : forall f down p slen ll nlen buf ocl, (length p < f)%nat -> s2n_loop f down p slen ll nlen buf ocl <> NoFuel.
Proof.
  assert (PU : forall c b v, push c b v <> NoFuel) by (intros c b v; unfold push; destruct (_ <? _); discriminate).
  assert (ST : forall b i v, set_at b i v <> NoFuel) by (intros b i v; unfold set_at, blit; destruct (_ || _); discriminate).
  assert (HR : forall p, hd_rd p <> NoFuel) by (intros [|a p]; cbn [hd_rd]; discriminate).
  induction f as [|f IH]; intros down p slen ll nlen buf ocl F; [lia|]. cbn [s2n_loop]. destruct p as [|c p]; [cbn [hd_rd bind]; discriminate|]. cbn [hd_rd bind tl length] in *.
  assert (TL : forall q : bytes, (length q <= length p)%nat -> (length (tl q) <= length p)%nat) by (intros [|a q] H; cbn [tl length] in *; lia).
  assert (R : forall q s l n b o, (length q <= length p)%nat -> s2n_loop f down q s l n b o <> NoFuel) by (intros; apply IH; lia).
  repeat first
    [ discriminate | apply PU | apply ST | apply HR
    | apply R; repeat apply TL; apply le_n
    | apply bind_nofuel; [|intros]
    | match goal with |- (if ?x then _ else _) <> NoFuel => destruct x end ].
Qed.
Lemma s2n_gen_fuel : forall down s after, str_to_name_gen down s after <> NoFuel.
Proof. intros down s after. unfold str_to_name_gen. destruct (_ || _); [discriminate|]. apply s2n_fuel. lia. Qed.
Lemma gen_cut_any : forall down s after, c_string s -> cut_escape (gfun down) s ->
  let x := str_to_name_gen down s after in x = Err res_parse_error \/ x = Err res_name_overflow \/ x = UB OobRead.
Proof.
  intros down s after CS (u & ls & cur & E & B & RM) x. subst x. pose proof (s2n_gen_fuel down s after) as NF. assert (G : goes (gfun down) s [] ls [92] cur) by (apply goes_iff; eauto).
  assert (NR : ~ is_root_text s).
  { intros R. destruct (root_goes down s CS _ _ _ G R) as (Q & -> & ->). destruct R as [R|R]; rewrite R in Q; discriminate. }
  assert (N9 : [92] <> []) by discriminate. assert (RM' : room ls cur <= 255) by lia.
  destruct (gen_goes down s after CS _ _ _ G (or_introl N9) NR RM') as (f & A & A2 & E'). rewrite E' in *. clear E'. cbn [length] in A, A2. destruct f as [|f]; [lia|].
  rewrite s2n_cut in * by (unfold nl, room in *; lia).
  assert (EN : nl (prewire ls) cur + 1 = zlen (prewire ls ++ 0 :: cur ++ [0])) by (unfold nl; rewrite zlen_app, zlen_cons, zlen_app; change (zlen [0]) with 1; lia).
  rewrite EN in *. pose proof (zlen_nonneg _ (prewire ls)). pose proof (zlen_nonneg _ cur).
  destruct (s2n_beyond f down after (-1) (zlen cur + 1) (prewire ls ++ 0 :: cur ++ [0]) (zlen (prewire ls))) as [X|[X|[X|X]]]; auto; try lia.
  - rewrite zlen_app, zlen_cons, zlen_app. change (zlen [0]) with 1. lia.
  - unfold nl, room in *. lia.
  - congruence.
Qed.

(** ** The name of a text, whatever lies behind it *)
Lemma name_written : forall s after ls, c_string s -> written small s ls -> zlen (wire ls) <= 255 -> str_to_name s after = Ok (wire ls, zlen (wire ls)).
Proof. intros s after ls CS W L. apply C89_lowering_exact; auto. exists ls. auto. Qed.
Lemma name_syntax : forall s after, c_string s -> syntax_failure same s -> str_to_name s after = Err res_parse_error.
Proof. intros s after CS K. destruct (C90_lowering_rejections s CS) as (A & _). apply A in K. apply (gen_parse_iff true s CS) in K. apply gen_misplaced; auto. Qed.
Lemma name_size : forall s after, c_string s -> size_failure same s -> str_to_name s after = Err res_name_overflow.
Proof. intros s after CS K. destruct (C90_lowering_rejections s CS) as (_ & A & _). apply A in K. apply (gen_ovf_iff true s CS) in K. apply gen_size; auto. Qed.
Lemma name_cut : forall s after, c_string s -> cut_escape same s ->
  str_to_name s after = Err res_parse_error \/ str_to_name s after = Err res_name_overflow \/ str_to_name s after = UB OobRead.
Proof. intros s after CS K. destruct (C90_lowering_rejections s CS) as (_ & _ & A & _). apply A in K. apply (gen_cut_iff true s CS) in K. apply (gen_cut_any true s after); auto. Qed.
Lemma name_total : forall s, c_string s -> (exists ls, written small s ls /\ zlen (wire ls) <= 255) \/ syntax_failure same s \/ size_failure same s \/ cut_escape same s.
Proof.
  intros s CS. destruct (C90_lowering_rejections s CS) as (A & B & C & [(w & n & D)|[D|[D|D]]]); [left|right; left; apply A; auto|right; right; left; apply B; auto|right; right; right; apply C; auto].
  apply C89_lowering_exact in D as (ls & W & L & _); eauto.
Qed.

(** ** Turns *)
Definition ends_line (c : bytes) : Prop := exists l, ~ In 10 l /\ (c = l \/ c = l ++ [10]).
Lemma turns_step : forall t c cs, turns t (c :: cs) ->
  exists t', fgets_take 1279 t = (c, t') /\ turns t' cs /\ c <> [] /\ zlen c <= 1279 /\ (length t' < length t)%nat /\ ends_line c.
Proof.
  intros t c cs T. inversion T as [|l t' cs' N L T'|l t' cs' N L T'|l NE N L]; subst.
  - exists t'. rewrite fgets_take_line by (auto; unfold zlen in L; lia). split; [auto|]. split; [auto|]. split; [destruct l; discriminate|]. rewrite zlen_app. change (zlen [10]) with 1. split; [lia|].
    split; [rewrite app_length; cbn [length]; lia|]. exists l. auto.
  - exists t'. replace 1279%nat with (length c) by (unfold zlen in L; lia). rewrite fgets_take_full by auto. split; [auto|]. split; [auto|]. split; [intros ->; cbn in L; lia|]. split; [lia|].
    split; [rewrite app_length; unfold zlen in L; lia|]. exists c. auto.
  - exists []. rewrite fgets_take_last by (auto; unfold zlen in L; lia). split; [auto|]. split; [constructor|]. split; [auto|]. split; [lia|]. split; [destruct c; [congruence|cbn; lia]|]. exists c. auto.
Qed.
Lemma turns_exist : forall t, exists cs, turns t cs.
Proof.
  assert (G : forall n t, (length t <= n)%nat -> exists cs, turns t cs).
  { induction n as [|n IH]; intros t L; [destruct t; [exists []; constructor|cbn in L; lia]|].
    destruct t as [|x t]; [exists []; constructor|].
    assert (K : forall k t, (exists l r, t = l ++ 10 :: r /\ ~ In 10 l /\ (length l < k)%nat) \/ (exists l r, t = l ++ r /\ ~ In 10 l /\ length l = k) \/ (~ In 10 t /\ (length t < k)%nat)).
    { clear. induction k as [|k IH]; intros t; [right; left; exists [], t; auto|]. destruct t as [|x t]; [right; right; cbn; split; [auto|lia]|].
      destruct (Z.eq_dec x 10) as [-> |N]; [left; exists [], t; cbn; split; [auto|split; [auto|lia]]|].
      destruct (IH t) as [(l & r & -> & A & B)|[(l & r & -> & A & B)|(A & B)]].
      - left. exists (x :: l), r. cbn [app length In]. split; [auto|]. split; [intros [X|X]; auto|lia].
      - right. left. exists (x :: l), r. cbn [app length In]. split; [auto|]. split; [intros [X|X]; auto|lia].
      - right. right. cbn [length In]. split; [intros [X|X]; auto|lia]. }
    destruct (K 1279%nat (x :: t)) as [(l & r & E & A & B)|[(l & r & E & A & B)|(A & B)]].
    - rewrite E in *. rewrite app_length in L. cbn [length] in L. destruct (IH r ltac:(lia)) as (cs & T). exists ((l ++ [10]) :: cs). apply tn_line; auto. unfold zlen. lia.
    - rewrite E in *. rewrite app_length in L. destruct (IH r ltac:(lia)) as (cs & T). exists (l :: cs). apply tn_full; auto. unfold zlen. lia.
    - exists [x :: t]. apply tn_last; auto; [discriminate|unfold zlen; lia]. }
  intros t. apply (G (length t)). lia.
Qed.
Lemma turns_det : forall t c1, turns t c1 -> forall c2, turns t c2 -> c1 = c2.
Proof.
  assert (G : forall n t c1 c2, (length t <= n)%nat -> turns t c1 -> turns t c2 -> c1 = c2).
  { assert (Z0 : forall cs, turns [] cs -> cs = []). { intros [|c cs] T; auto. apply turns_step in T as (t' & _ & _ & _ & _ & L & _). cbn in L. lia. }
    assert (Z1 : forall t, turns t [] -> t = []) by (intros t T; inversion T; auto).
    induction n as [|n IH]; intros t c1 c2 L T1 T2.
    - destruct t; [|cbn in L; lia]. rewrite (Z0 _ T1), (Z0 _ T2). auto.
    - destruct c1 as [|c1 cs1], c2 as [|c2 cs2]; auto.
      + apply Z1 in T1. subst t. apply Z0 in T2. discriminate.
      + apply Z1 in T2. subst t. apply Z0 in T1. discriminate.
      + apply turns_step in T1 as (t1 & E1 & T1 & _ & _ & L1 & _). apply turns_step in T2 as (t2 & E2 & T2 & _). assert (c1 = c2 /\ t1 = t2) as [-> ->] by (split; congruence). f_equal. apply (IH t2); auto. lia. }
  intros t c1 T1 c2 T2. apply (G (length t) t); auto.
Qed.

(** A turn has a text, unless it is passed over or starts with NUL. *)
Definition passb (c : bytes) : bool := match c with [] => false | x :: _ => (x =? 10) || (x =? 32) || (x =? 35) end.
Lemma passb_iff : forall c, passb c = true <-> passed_over c.
Proof.
  intros [|x r]; cbn [passb]; unfold passed_over; [split; [discriminate|intros (y & r & E & _); discriminate]|]. split.
  - intros H. exists x, r. split; [auto|]. lia.
  - intros (y & r' & E & H). injection E as -> _. lia.
Qed.
Lemma text_exists : forall c, bytes_ok c -> ends_line c -> c <> [] -> ~ passed_over c -> (exists r, c = 0 :: r) \/ exists s, text_of c s.
Proof.
  intros c B (l & N & E) NE NP.
  assert (K : forall l, Forall (fun x => x <> 0) l \/ exists s r, l = s ++ 0 :: r /\ Forall (fun x => x <> 0) s).
  { clear. induction l as [|x l IH]; [left; constructor|]. destruct (Z.eq_dec x 0) as [-> |N]; [right; exists [], l; split; [auto|constructor]|].
    destruct IH as [F|(s & r & -> & F)]; [left; constructor; auto|right; exists (x :: s), r; split; [auto|constructor; auto]]. }
  assert (CSK : forall s, bytes_ok s -> Forall (fun x => x <> 0) s -> c_string s).
  { intros s BS F. unfold c_string. unfold bytes_ok, is_byte in BS. rewrite Forall_forall in *. intros x I. specialize (BS x I). specialize (F x I). cbv beta in *. lia. }
  assert (BL : bytes_ok l) by (destruct E as [-> | ->]; [auto|apply bytes_ok_app in B; tauto]).
  assert (NL : l <> []). { intros ->. destruct E as [E|E]; [congruence|]. apply NP. exists 10, []. auto. }
  destruct (K l) as [F|(s & r & El & F)].
  - right. exists l. split; [auto|]. split; [apply CSK; auto|]. destruct E as [-> | ->]; auto.
  - destruct s as [|x s]; [left; destruct E as [-> | ->]; rewrite El; cbn [app]; eauto|]. right. exists (x :: s). split; [discriminate|]. rewrite El in BL, N. apply bytes_ok_app in BL. split; [apply CSK; tauto|].
    right. right. split; [intros X; apply N; apply in_app_iff; auto|]. destruct E as [-> | ->]; rewrite El; [eauto|]. rewrite <- app_assoc. cbn [app]. eauto.
Qed.
Lemma text_det : forall c s1 s2, text_of c s1 -> text_of c s2 -> s1 = s2.
Proof.
  assert (U : forall (s1 s2 : bytes) x1 x2 r1 r2, ~ In x1 s2 -> ~ In x2 s1 -> s1 ++ x1 :: r1 = s2 ++ x2 :: r2 -> s1 = s2).
  { induction s1 as [|a s1 IH]; intros [|b s2] x1 x2 r1 r2 N1 N2 E; auto; cbn [app] in E; injection E as E1 E2.
    - destruct N1. left. auto.
    - destruct N2. left. auto.
    - subst. f_equal. apply (IH s2 x1 x2 r1 r2); auto; intros X; [apply N1|apply N2]; right; auto. }
  assert (CZ : forall s, c_string s -> ~ In 0 s). { intros s C I. unfold c_string in C. rewrite Forall_forall in C. apply C in I. lia. }
  intros c s1 s2 (_ & C1 & H1) (_ & C2 & H2). apply CZ in C1, C2.
  destruct H1 as [E1|[[N1 E1]|[N1 (r1 & E1)]]], H2 as [E2|[[N2 E2]|[N2 (r2 & E2)]]]; subst c; auto.
  - apply app_inv_tail in E2. auto.
  - exfalso. apply N2. rewrite <- E2. apply in_app_iff. right. left. auto.
  - exfalso. assert (In 0 (s1 ++ [10])) by (rewrite E2; apply in_app_iff; right; left; auto). apply in_app_iff in H as [H|[H|[]]]; [auto|discriminate].
  - exfalso. apply N1. rewrite E2. apply in_app_iff. right. left. auto.
  - exfalso. apply C1. rewrite E2. apply in_app_iff. right. left. auto.
  - exfalso. assert (In 0 (s2 ++ [10])) by (rewrite <- E2; apply in_app_iff; right; left; auto). apply in_app_iff in H as [H|[H|[]]]; [auto|discriminate].
  - exfalso. apply C2. rewrite <- E2. apply in_app_iff. right. left. auto.
  - apply (U s1 s2 0 0 r1 r2); auto.
Qed.

(** ** One turn of the loop *)
Definition after_turn (f : nat) (x : outcome (bytes * Z)) (line t : bytes) : outcome (list (bytes * Z) * res) :=
  match x with
  | Ok nm => '(nms, r) <- load_loop f line t ;; Ok (nm :: nms, r)
  | Err r => Ok ([], r) | UB u => UB u | NoFuel => NoFuel
  end.
Lemma turn_start : forall f line t c t', zlen line = 1280 -> fgets_take 1279 t = (c, t') -> t <> [] -> c <> [] -> zlen c <= 1279 ->
  exists J, zlen (c ++ 0 :: J) = 1280 /\ load_loop (S f) line t =
    (let line := c ++ 0 :: J in if passb c then load_loop f line t' else
      n <- c_strlen line ;; l <- rd line (n - 1) ;; line <- (if l =? 10 then blit line (n - 1) [0] else Ok line) ;;
      n <- c_strlen line ;; after_turn f (str_to_name (firstn (Z.to_nat n) line) (skipn (Z.to_nat (n + 1)) line)) line t').
Proof.
  intros f line t c t' HL FT NT NC LC. cbn [load_loop]. unfold fgets. assert (EL : length line = 1280%nat) by (unfold zlen in HL; lia).
  rewrite EL. change (1280 - 1)%nat with 1279%nat. rewrite FT.
  assert (G : match t with [] => Ok None | _ :: _ => line' <- blit line 0 (c ++ [0]) ;; Ok (Some (line', t')) end = (line' <- blit line 0 (c ++ [0]) ;; Ok (Some (line', t')))) by (destruct t; [congruence|reflexivity]).
  rewrite G. clear G. rewrite blit_start by (rewrite !zlen_app; change (zlen [0]) with 1; lia). cbn [bind].
  exists (skipn (length (c ++ [0])) line).
  assert (EL2 : (c ++ [0]) ++ skipn (length (c ++ [0])) line = c ++ 0 :: skipn (length (c ++ [0])) line) by (rewrite <- !app_assoc; reflexivity).
  assert (SL : zlen (skipn (length (c ++ [0])) line) = 1279 - zlen c). { unfold zlen in *. rewrite skipn_length, !app_length. cbn [length]. lia. }
  rewrite EL2. set (J := skipn _ line) in *. clearbody J. split; [rewrite zlen_app, zlen_cons; lia|]. cbv zeta.
  destruct c as [|x c]; [congruence|]. assert (R0 : rd ((x :: c) ++ 0 :: J) 0 = Ok x) by reflexivity. rewrite R0. cbn [bind passb]. reflexivity.
Qed.
Lemma nz : forall s, c_string s -> Forall (fun x => x <> 0) s.
Proof. intros s C. eapply Forall_impl; [|exact C]. cbv beta. intros; lia. Qed.
Lemma turn_text : forall f line t c t' s, zlen line = 1280 -> fgets_take 1279 t = (c, t') -> t <> [] -> c <> [] -> zlen c <= 1279 -> passb c = false -> text_of c s ->
  exists after line', zlen line' = 1280 /\ load_loop (S f) line t = after_turn f (str_to_name s after) line' t'.
Proof.
  intros f line t c t' s HL FT NT NC LC NP (NE & CS & H). destruct (turn_start f line t c t' HL FT NT NC LC) as (J & ZJ & E). rewrite E. clear E. cbv zeta. rewrite NP. apply nz in CS.
  destruct H as [-> |H].
  - assert (EQ : (s ++ [10]) ++ 0 :: J = s ++ 10 :: 0 :: J) by (rewrite <- app_assoc; reflexivity).
    rewrite c_strlen_app by (apply Forall_app; split; [auto|apply Forall_cons; [lia|constructor]]). cbn [bind]. rewrite zlen_app. change (zlen [10]) with 1. replace (zlen s + 1 - 1) with (zlen s) by lia.
    rewrite EQ in *. rewrite rd_at. cbn [bind]. change (10 =? 10) with true. cbv iota. rewrite blit_one. cbn [bind].
    rewrite c_strlen_app by auto. cbn [bind]. rewrite firstn_zlen_app. eexists _, (s ++ 0 :: 0 :: J). split; [|reflexivity]. rewrite zlen_app, !zlen_cons in *. lia.
  - assert (K : ~ In 10 s /\ exists J', c ++ 0 :: J = s ++ 0 :: J').
    { destruct H as [[N ->]|[N (r & ->)]]; split; eauto. rewrite <- app_assoc. cbn [app]. eauto. }
    destruct K as [N (J' & EQ)]. rewrite EQ in *. rewrite c_strlen_app by auto. cbn [bind].
    destruct (exists_last NE) as (l1 & b & EL).
    assert (Q : rd (s ++ 0 :: J') (zlen s - 1) = Ok b). { rewrite EL, zlen_app, <- app_assoc. change (zlen [b]) with 1. replace (zlen l1 + 1 - 1) with (zlen l1) by lia. apply rd_at. }
    rewrite Q. cbn [bind]. assert (B : b <> 10). { intros ->. apply N. rewrite EL. apply in_or_app. right. left. reflexivity. }
    replace (b =? 10) with false by lia. cbn [bind]. rewrite c_strlen_app by auto. cbn [bind]. rewrite firstn_zlen_app. eexists _, (s ++ 0 :: J'). split; [auto|reflexivity].
Qed.

(** ** All turns *)
Definition end_of (e : fend) (ns : list (bytes * Z)) (x : outcome (list (bytes * Z) * res)) : Prop :=
  match e with
  | Returned r => x = Ok (ns, r)
  | ReadsBefore => x = UB OobRead
  | ReadsOn => x = Ok (ns, res_parse_error) \/ x = Ok (ns, res_name_overflow) \/ x = UB OobRead
  end.
Lemma end_more : forall e nm ns x, end_of e ns x -> end_of e (nm :: ns) ('(nms, r) <- x ;; Ok (nm :: nms, r)).
Proof. intros [r| |] nm ns x H; cbn [end_of] in *; [rewrite H; reflexivity..|]. destruct H as [-> |[-> | ->]]; cbn [bind]; auto. Qed.
Lemma load_delivers : forall cs t f line ns e, turns t cs -> delivers cs ns e -> zlen line = 1280 -> (length t < f)%nat -> end_of e ns (load_loop f line t).
Proof.
  intros cs t f line ns e T D. revert t f line T. induction D as [|c cs ns e P D IH|r cs|c s ls cs ns e P TX W L D IH|c s cs P TX K|c s cs P TX K|c s cs P TX K]; intros t f line T HL F.
  { inversion T; subst. destruct f; [lia|]. reflexivity. }
  all: apply turns_step in T as (t' & FT & T & NC & LC & LT & _); destruct f as [|f]; [lia|]; assert (NT : t <> []) by (intros ->; cbn in LT; lia).
  - destruct (turn_start f line t c t' HL FT NT NC LC) as (J & ZJ & ->). cbv zeta. apply passb_iff in P. rewrite P. apply IH; auto. lia.
  - destruct (turn_start f line t (0 :: r) t' HL FT NT NC LC) as (J & ZJ & ->). reflexivity.
  - assert (NP : passb c = false) by (destruct (passb c) eqn:X; auto; apply passb_iff in X; contradiction).
    destruct (turn_text f line t c t' s HL FT NT NC LC NP TX) as (after & line' & HL' & ->). rewrite (name_written s after ls) by (auto; apply TX). cbn [after_turn]. apply end_more. apply IH; auto. lia.
  - assert (NP : passb c = false) by (destruct (passb c) eqn:X; auto; apply passb_iff in X; contradiction).
    destruct (turn_text f line t c t' s HL FT NT NC LC NP TX) as (after & line' & HL' & ->). rewrite (name_syntax s after) by (auto; apply TX). reflexivity.
  - assert (NP : passb c = false) by (destruct (passb c) eqn:X; auto; apply passb_iff in X; contradiction).
    destruct (turn_text f line t c t' s HL FT NT NC LC NP TX) as (after & line' & HL' & ->). rewrite (name_size s after) by (auto; apply TX). reflexivity.
  - assert (NP : passb c = false) by (destruct (passb c) eqn:X; auto; apply passb_iff in X; contradiction).
    destruct (turn_text f line t c t' s HL FT NT NC LC NP TX) as (after & line' & HL' & ->). destruct (name_cut s after) as [-> |[-> | ->]]; auto; [apply TX|..]; cbn [after_turn end_of]; auto.
Qed.
Lemma delivers_exists : forall t cs, bytes_ok t -> turns t cs -> exists ns e, delivers cs ns e.
Proof.
  intros t cs B T. revert t B T. induction cs as [|c cs IH]; intros t B T; [exists [], (Returned res_success); constructor|].
  assert (S : exists t', turns t' cs /\ c <> [] /\ ends_line c /\ bytes_ok c /\ bytes_ok t').
  { inversion T as [|l t' cs' N L T'|l t' cs' N L T'|l NE N L]; subst.
    - exists t'. apply bytes_ok_app in B as [B1 B2]. apply bytes_ok_cons in B2 as [_ B2]. split; [auto|]. split; [destruct l; discriminate|]. split; [exists l; auto|]. split; [|auto]. apply bytes_ok_app. split; [auto|]. apply Forall_cons; [cbv; intuition discriminate|constructor].
    - exists t'. apply bytes_ok_app in B as [B1 B2]. split; [auto|]. split; [intros ->; cbn in L; lia|]. split; [exists c; auto|]. auto.
    - exists []. split; [constructor|]. split; [auto|]. split; [exists c; auto|]. split; [auto|constructor]. }
  destruct S as (t' & T' & NC & EL & BC & BT). destruct (IH t' BT T') as (ns & e & D).
  destruct (passb c) eqn:P; [apply passb_iff in P; exists ns, e; apply dl_skip; auto|]. assert (NP : ~ passed_over c) by (intros X; apply passb_iff in X; congruence).
  destruct (text_exists c BC EL NC NP) as [(r & ->)|(s & TX)]; [exists [], ReadsBefore; apply dl_nul|].
  assert (CS : c_string s) by (apply TX). destruct (name_total s CS) as [(ls & W & L)|[K|[K|K]]].
  - exists ((wire ls, zlen (wire ls)) :: ns), e. eapply dl_name; eauto.
  - exists [], (Returned res_parse_error). eapply dl_syntax; eauto.
  - exists [], (Returned res_name_overflow). eapply dl_size; eauto.
  - exists [], ReadsOn. eapply dl_cut; eauto.
Qed.

(** At most one delivery. *)
Definition verdict (s : bytes) (x : outcome (bytes * Z)) : Prop := c_string s /\ str_to_name s [] = x.
Lemma delivers_det : forall cs n1 e1, delivers cs n1 e1 -> forall n2 e2, delivers cs n2 e2 -> n1 = n2 /\ e1 = e2.
Proof.
  assert (V1 : forall s ls, c_string s -> written small s ls -> zlen (wire ls) <= 255 -> verdict s (Ok (wire ls, zlen (wire ls)))) by (intros; split; [auto|]; apply name_written; auto).
  assert (V2 : forall s, c_string s -> syntax_failure same s -> verdict s (Err res_parse_error)) by (intros; split; [auto|]; apply name_syntax; auto).
  assert (V3 : forall s, c_string s -> size_failure same s -> verdict s (Err res_name_overflow)) by (intros; split; [auto|]; apply name_size; auto).
  assert (V4 : forall s, c_string s -> cut_escape same s -> verdict s (UB OobRead)).
  { intros s CS K. split; [auto|]. destruct (C90_lowering_rejections s CS) as (_ & _ & A & _). apply A. auto. }
  assert (NT : forall r s, ~ text_of (0 :: r) s).
  { intros r s (NE & CS & H). destruct s as [|x s]; [congruence|]. apply nz in CS. inversion CS; subst. destruct H as [H|[[_ H]|[_ (r' & H)]]]; injection H as H _; congruence. }
  assert (NP : forall r, ~ passed_over (0 :: r)) by (intros r (x & r' & H & Q); injection H as <- _; lia).
  intros cs n1 e1 D1. induction D1 as [|c cs ns e P D IH|r cs|c s ls cs ns e P TX W L D IH|c s cs P TX K|c s cs P TX K|c s cs P TX K]; intros n2 e2 D2.
  1: inversion D2; auto.
  1: inversion D2; subst; auto; try contradiction; exfalso; eapply NP; eauto.
  1: inversion D2; subst; auto; exfalso; [eapply NP; eauto|eapply NT; eauto..].
  all: assert (CS : c_string s) by (apply TX).
  all: inversion D2; subst; try contradiction; try (exfalso; eapply NT; eauto; fail).
  all: match goal with H : text_of ?c ?s1, G : text_of ?c ?s2 |- _ => assert (s2 = s1) by (eapply text_det; eauto); subst end; auto.
  all: repeat match goal with
    | H : written small ?s ?l, G : zlen (wire ?l) <= 255 |- _ => apply (fun a b => V1 _ _ CS a b) in H; [|exact G]; clear G
    | H : syntax_failure same ?s |- _ => apply V2 in H; [|exact CS]
    | H : size_failure same ?s |- _ => apply V3 in H; [|exact CS]
    | H : cut_escape same ?s |- _ => apply V4 in H; [|exact CS] end; unfold verdict in *; repeat match goal with H : _ /\ _ |- _ => destruct H end; try congruence.
  match goal with H : delivers cs _ _ |- _ => apply IH in H as [-> ->] end. split; congruence.
Qed.
