(** ProofStrName.v: str_to_name. *)
From Verif Require Import Base Lib SpecName ModelName ProofUnpack ProofCopy ProofNameOps ProofNameStr.

(** Continuation form of the grammar: [rtext g t cur ls]: after the current label has received the octets [cur], the
    text [t] completes the name to [ls]; plain characters go through [g]. *)
Inductive rtext (g : Z -> Z) : bytes -> label -> lname -> Prop :=
| rt_end : forall cur, cur <> [] -> rtext g [] cur [cur]
| rt_dotend : forall cur, cur <> [] -> rtext g [46] cur [cur]
| rt_dot : forall t cur ls, cur <> [] -> t <> [] -> rtext g t [] ls -> rtext g (46 :: t) cur (cur :: ls)
| rt_plain : forall c t cur ls, c <> 92 -> c <> 46 -> rtext g t (cur ++ [g c]) ls -> rtext g (c :: t) cur ls
| rt_quote : forall c t cur ls, ~ digit c -> rtext g t (cur ++ [c]) ls -> rtext g (92 :: c :: t) cur ls
| rt_ddd : forall a b c t cur ls, digit a -> digit b -> digit c -> (a - 48) * 100 + (b - 48) * 10 + (c - 48) <= 255 ->
    rtext g t (cur ++ [(a - 48) * 100 + (b - 48) * 10 + (c - 48)]) ls -> rtext g (92 :: a :: b :: c :: t) cur ls.

Lemma rtext_pchar : forall x c t cur ls, pchar x c -> rtext id t (cur ++ [c]) ls -> rtext id (x ++ t) cur ls.
Proof. intros x c t cur ls H R. destruct H; cbn [app]; [apply rt_plain|apply rt_quote|apply rt_ddd]; auto. Qed.

Lemma rtext_ptext : forall x l, ptext x l -> forall t cur ls, rtext id t (cur ++ l) ls -> rtext id (x ++ t) cur ls.
Proof.
  intros x l H. induction H as [|x c t' l P H IH]; intros t cur ls R.
  - rewrite app_nil_r in R. auto.
  - rewrite <- app_assoc. eapply rtext_pchar; eauto. apply IH. rewrite <- app_assoc. auto.
Qed.

Lemma ptext_app : forall a la b lb, ptext a la -> ptext b lb -> ptext (a ++ b) (la ++ lb).
Proof. intros a la b lb H. induction H; intros; auto. rewrite <- app_assoc. cbn [app]. constructor; auto. Qed.

Lemma ptext_one : forall x c, pchar x c -> ptext x [c].
Proof. intros. rewrite <- (app_nil_r x). constructor; auto. constructor. Qed.

Lemma pchar_nonempty : forall x c, pchar x c -> x <> [].
Proof. intros x c H. destruct H; discriminate. Qed.
Lemma ptext_nonempty : forall x l, ptext x l -> l <> [] -> x <> [].
Proof. intros x l H N. destruct H; auto. apply pchar_nonempty in H. destruct t; [congruence|discriminate]. Qed.
Lemma dotted_nonempty : forall s ls, dotted s ls -> s <> [].
Proof.
  intros s ls H. destruct H; try (apply ptext_nonempty in H; auto; destruct t; [congruence|discriminate]).
  eapply ptext_nonempty; eauto.
Qed.

Lemma dotted_rtext : forall s ls, dotted s ls -> rtext id s [] ls.
Proof.
  intros s ls H. induction H.
  - rewrite <- (app_nil_r t). eapply rtext_ptext; eauto. apply rt_end; auto.
  - eapply rtext_ptext; eauto. apply rt_dotend; auto.
  - eapply rtext_ptext; eauto. apply rt_dot; auto. eapply dotted_nonempty; eauto.
Qed.

Lemma rtext_dotted : forall t cur ls, rtext id t cur ls -> forall u, ptext u cur -> dotted (u ++ t) ls.
Proof.
  intros t cur ls H. induction H; intros u U.
  - rewrite app_nil_r. apply dt_last; auto.
  - apply dt_last_dot; auto.
  - apply dt_more; auto. apply (IHrtext []). constructor.
  - replace (u ++ c :: t) with ((u ++ [c]) ++ t) by (rewrite <- app_assoc; auto). apply IHrtext. apply ptext_app; auto. apply ptext_one. constructor; auto.
  - replace (u ++ 92 :: c :: t) with ((u ++ [92; c]) ++ t) by (rewrite <- app_assoc; auto). apply IHrtext. apply ptext_app; auto. apply ptext_one. constructor; auto.
  - replace (u ++ 92 :: a :: b :: c :: t) with ((u ++ [92; a; b; c]) ++ t) by (rewrite <- app_assoc; auto). apply IHrtext. apply ptext_app; auto. apply ptext_one. constructor; auto.
Qed.

(** First label extends [cur]. *)
Lemma rtext_first : forall g t cur ls, rtext g t cur ls -> exists l r, ls = (cur ++ l) :: r.
Proof.
  intros g t cur ls H. induction H.
  - exists [], []. rewrite app_nil_r. auto.
  - exists [], []. rewrite app_nil_r. auto.
  - exists [], ls. rewrite app_nil_r. auto.
  - destruct IHrtext as (l & r & ->). exists (g c :: l), r. rewrite <- app_assoc. auto.
  - destruct IHrtext as (l & r & ->). exists (c :: l), r. rewrite <- app_assoc. auto.
  - destruct IHrtext as (l & r & ->). exists (((a - 48) * 100 + (b - 48) * 10 + (c - 48)) :: l), r. rewrite <- app_assoc. auto.
Qed.

Lemma rtext_len : forall g t cur ls, rtext g t cur ls -> zlen cur + 2 <= zlen (wire ls).
Proof.
  intros g t cur ls H. destruct (rtext_first _ _ _ _ H) as (l & r & ->). rewrite wire_cons. zl.
  pose proof (zlen_nonneg _ l). pose proof (zlen_wire r). pose proof (zlen_nonneg _ (prewire r)). lia.
Qed.

Definition gfun (down : bool) : Z -> Z := if down then dc else id.

Lemma upper_g : forall (down : bool) c, (65 <=? c) && (c <=? 90) = true -> (if down then Z.lor c 32 else c) = gfun down c.
Proof. intros [|] c H; unfold gfun, dc; rewrite ?H; auto. Qed.
Lemma nonupper_g : forall (down : bool) c, (65 <=? c) && (c <=? 90) = false -> c = gfun down c.
Proof. intros [|] c H; unfold gfun, dc; rewrite ?H; auto. Qed.

Lemma set_oclen : forall B x cur v, set_at (B ++ x :: cur) (zlen B) v = Ok (B ++ v :: cur).
Proof. intros. unfold set_at. apply (blit_ok B [x] cur [v]); auto. Qed.

Lemma is_digit_spec : forall c, is_digit c = true <-> digit c.
Proof. intros. unfold is_digit, digit. lia. Qed.
Lemma is_digit_false : forall c, is_digit c = false <-> ~ digit c.
Proof. intros. unfold is_digit, digit. lia. Qed.

Lemma c_string_cons : forall c s, c_string (c :: s) <-> 1 <= c < 256 /\ c_string s.
Proof. intros; unfold c_string; split; [intros H; inversion H; auto|intros [? ?]; auto]. Qed.

(** Push at the end of the name buffer. *)
Lemma push_name : forall B x cur v, zlen B + 1 + zlen cur < 255 ->
  push MAXLEN_NAME (B ++ x :: cur) [v] = Ok (B ++ x :: (cur ++ [v])).
Proof. intros. rewrite push_ok by (unfold MAXLEN_NAME; zlia). rewrite <- app_assoc. reflexivity. Qed.

Definition nl (B cur : bytes) : Z := zlen B + 1 + zlen cur.

Section Steps.
Context (down : bool) (after B cur : bytes).
Notation loop f t := (s2n_loop f down (t ++ 0 :: after) (zlen t) (zlen cur) (nl B cur) (B ++ 0 :: cur) (zlen B)).
Notation loop' f t cur' := (s2n_loop f down (t ++ 0 :: after) (zlen t) (zlen cur') (nl B cur'%list) (B ++ 0 :: cur'%list) (zlen B)).

Lemma s2n_ovf : forall f t, 255 <= nl B cur -> nl B cur <= 255 -> loop (S f) t = Err res_name_overflow.
Proof.
  intros f t H1 H2. cbn [s2n_loop]. destruct (t ++ 0 :: after) as [|c p] eqn:E; [destruct t; discriminate|]. cbn [hd_rd bind tl].
  destruct (zlen t =? 0).
  - unfold MAXLEN_NAME. replace (nl B cur =? 255) with true by lia. reflexivity.
  - unfold MAXLEN_NAME. replace (nl B cur >=? 255) with true by lia. reflexivity.
Qed.

Lemma s2n_end : forall f, nl B cur < 255 -> cur <> [] ->
  loop (S f) (@nil Z) = Ok (B ++ wire [cur], zlen (B ++ wire [cur])).
Proof.
  intros f H NE. cbn [s2n_loop app hd_rd bind tl]. rewrite zlen_nil. cbn [Z.eqb]. pose proof (zlen_nonneg _ B). pose proof (zlen_nonneg _ cur).
  unfold nl in *. unfold MAXLEN_NAME. replace (_ =? 255) with false by lia.
  rewrite set_oclen. cbn [bind]. rewrite Z.mod_small by lia. replace (zlen cur + 1 - 1) with (zlen cur) by lia.
  rewrite push_ok by zlia. cbn [bind]. rewrite wire_cons. change (wire []) with [0]. f_equal. f_equal.
  - rewrite <- app_assoc. reflexivity.
  - rewrite Z.mod_small by zlia. zlia.
Qed.

Lemma s2n_plain : forall f c t, nl B cur < 255 -> 1 <= c -> c <> 92 -> c <> 46 ->
  loop (S f) (c :: t) = loop' f t (cur ++ [gfun down c]).
Proof.
  intros f c t H C1 C2 C3. cbn [s2n_loop app hd_rd bind tl]. rewrite zlen_cons. pose proof (zlen_nonneg _ t).
  pose proof (zlen_nonneg _ B). pose proof (zlen_nonneg _ cur). unfold nl in *.
  replace (zlen t + 1 =? 0) with false by lia. unfold MAXLEN_NAME in *. replace (_ >=? 255) with false by lia.
  replace (zlen t + 1 - 1) with (zlen t) by lia.
  replace (zlen B + 1 + zlen (cur ++ [gfun down c])) with ((zlen B + 1 + zlen cur + 1) mod 256) by (rewrite Z.mod_small; zlia).
  replace (zlen (cur ++ [gfun down c])) with (zlen cur + 1) by zlia.
  destruct ((65 <=? c) && (c <=? 90)) eqn:U.
  - rewrite upper_g by auto. rewrite push_name by zlia. cbn [bind]. reflexivity.
  - replace (c =? 92) with false by lia. replace (c =? 46) with false by lia. replace (c =? 0) with false by lia. cbn [bind andb negb].
    rewrite <- (nonupper_g down c U). rewrite push_name by zlia. reflexivity.
Qed.

Lemma s2n_quote : forall f c t, nl B cur < 255 -> ~ digit c ->
  loop (S f) (92 :: c :: t) = loop' f t (cur ++ [c]).
Proof.
  intros f c t H C. cbn [s2n_loop app hd_rd bind tl]. rewrite !zlen_cons. pose proof (zlen_nonneg _ t).
  pose proof (zlen_nonneg _ B). pose proof (zlen_nonneg _ cur). unfold nl in *.
  replace (zlen t + 1 + 1 =? 0) with false by lia. unfold MAXLEN_NAME in *. replace (_ >=? 255) with false by lia.
  replace ((65 <=? 92) && (92 <=? 90)) with false by lia. replace (92 =? 92) with true by lia. cbn [bind].
  rewrite (proj2 (is_digit_false c) C). cbn [negb]. replace (_ <=? 0) with false by lia.
  replace (zlen t + 1 + 1 - 1 - 1) with (zlen t) by lia. rewrite push_name by zlia. cbn [bind].
  replace (zlen B + 1 + zlen (cur ++ [c])) with ((zlen B + 1 + zlen cur + 1) mod 256) by (rewrite Z.mod_small; zlia).
  replace (zlen (cur ++ [c])) with (zlen cur + 1) by zlia. reflexivity.
Qed.

Lemma s2n_ddd : forall f a b c t, nl B cur < 255 -> digit a -> digit b -> digit c ->
  loop (S f) (92 :: a :: b :: c :: t) =
   (let v := (a - 48) * 100 + (b - 48) * 10 + (c - 48) in
    if v <=? 255 then loop' f t (cur ++ [v]) else Err res_parse_error).
Proof.
  intros f a b c t H Da Db Dc. cbn [s2n_loop app hd_rd bind tl]. rewrite !zlen_cons. pose proof (zlen_nonneg _ t).
  pose proof (zlen_nonneg _ B). pose proof (zlen_nonneg _ cur). unfold nl in *.
  replace (zlen t + 1 + 1 + 1 + 1 =? 0) with false by lia. unfold MAXLEN_NAME in *. replace (_ >=? 255) with false by lia.
  replace ((65 <=? 92) && (92 <=? 90)) with false by lia. replace (92 =? 92) with true by lia. cbn [bind].
  rewrite (proj2 (is_digit_spec a) Da), (proj2 (is_digit_spec b) Db), (proj2 (is_digit_spec c) Dc). cbn [negb andb orb].
  replace (_ >=? 3) with true by lia. cbn zeta. set (v := (a - 48) * 100 + (b - 48) * 10 + (c - 48)).
  destruct (v <=? 255); auto. rewrite push_name by zlia. cbn [bind].
  replace (zlen t + 1 + 1 + 1 + 1 - 3 - 1) with (zlen t) by lia.
  replace (zlen B + 1 + zlen (cur ++ [v])) with ((zlen B + 1 + zlen cur + 1) mod 256) by (rewrite Z.mod_small; zlia).
  replace (zlen (cur ++ [v])) with (zlen cur + 1) by zlia. reflexivity.
Qed.

Lemma s2n_dot_empty : forall f t, nl B cur < 255 -> cur = [] -> loop (S f) (46 :: t) = Err res_parse_error.
Proof.
  intros f t H ->. cbn [s2n_loop app hd_rd bind tl]. rewrite zlen_cons. pose proof (zlen_nonneg _ t). unfold nl, MAXLEN_NAME in *.
  replace (zlen t + 1 =? 0) with false by lia. replace (_ >=? 255) with false by lia. 
  replace ((65 <=? 46) && (46 <=? 90)) with false by lia. replace (46 =? 92) with false by lia. cbn [bind andb negb].
  replace (46 =? 46) with true by lia. rewrite set_oclen. reflexivity.
Qed.

Lemma s2n_dot_last : forall f, nl B cur < 255 -> cur <> [] ->
  loop (S f) [46] = Ok (B ++ wire [cur], zlen (B ++ wire [cur])).
Proof.
  intros f H NE. cbn [s2n_loop app hd_rd bind tl]. rewrite zlen_cons, zlen_nil. pose proof (zlen_nonneg _ B). pose proof (zlen_nonneg _ cur).
  unfold nl, MAXLEN_NAME in *.
  replace (0 + 1 =? 0) with false by lia. replace (_ >=? 255) with false by lia. 
  replace ((65 <=? 46) && (46 <=? 90)) with false by lia. replace (46 =? 92) with false by lia. cbn [bind andb negb].
  replace (46 =? 46) with true by lia. rewrite set_oclen. cbn [bind]. replace (zlen cur + 1 - 1) with (zlen cur) by lia.
  destruct (zlen cur =? 0) eqn:E; [exfalso; apply NE, zlen_zero; lia|].
  rewrite (Z.mod_small (zlen cur)) by lia. rewrite push_ok by zlia. cbn [bind]. replace (0 + 1 =? 1) with true by lia.
  rewrite set_oclen. cbn [bind]. rewrite wire_cons. change (wire []) with [0]. f_equal. f_equal.
  - rewrite <- app_assoc. reflexivity.
  - rewrite Z.mod_small by zlia. zlia.
Qed.

Lemma s2n_dot_more : forall f t, nl B cur < 255 -> cur <> [] -> t <> [] ->
  loop (S f) (46 :: t) =
  s2n_loop f down (t ++ 0 :: after) (zlen t) 0 (nl (B ++ zlen cur :: cur) []) ((B ++ zlen cur :: cur) ++ [0]) (zlen (B ++ zlen cur :: cur)).
Proof.
  intros f t H NE NT. cbn [s2n_loop app hd_rd bind tl]. rewrite zlen_cons. pose proof (zlen_nonneg _ B). pose proof (zlen_nonneg _ cur).
  assert (1 <= zlen t) by (destruct t; [congruence|zl; pose proof (zlen_nonneg _ t); lia]).
  unfold nl, MAXLEN_NAME in *.
  replace (zlen t + 1 =? 0) with false by lia. replace (_ >=? 255) with false by lia. 
  replace ((65 <=? 46) && (46 <=? 90)) with false by lia. replace (46 =? 92) with false by lia. cbn [bind andb negb].
  replace (46 =? 46) with true by lia. rewrite set_oclen. cbn [bind]. replace (zlen cur + 1 - 1) with (zlen cur) by lia.
  destruct (zlen cur =? 0) eqn:E; [exfalso; apply NE, zlen_zero; lia|].
  rewrite (Z.mod_small (zlen cur)) by lia. rewrite push_ok by zlia. cbn [bind]. replace (zlen t + 1 =? 1) with false by lia.
  replace (zlen t + 1 - 1) with (zlen t) by lia. f_equal. rewrite Z.mod_small; zlia.
Qed.
End Steps.

(** Grammatical texts: accepted iff short enough. *)
Lemma s2n_grammatical : forall down after t cur ls, rtext (gfun down) t cur ls -> c_string t -> forall f B,
  (length t < f)%nat -> nl B cur <= 255 ->
  s2n_loop f down (t ++ 0 :: after) (zlen t) (zlen cur) (nl B cur) (B ++ 0 :: cur) (zlen B) =
  if zlen (B ++ wire ls) <=? 255 then Ok (B ++ wire ls, zlen (B ++ wire ls)) else Err res_name_overflow.
Proof.
  intros down after t cur ls H. induction H; intros CS f B F N; (destruct f as [|f]; [simpl in F; lia|]);
  match goal with |- s2n_loop _ _ (?t ++ _) _ _ _ _ _ = if _ then Ok (_ ++ wire ?x, _) else _ =>
    assert (R : rtext (gfun down) t cur x) by
     (first [apply rt_end; solve [auto]|apply rt_dotend; solve [auto]|apply rt_dot; solve [auto]
            |apply rt_quote; solve [auto]|apply rt_ddd; solve [auto]|apply rt_plain; solve [auto]]) end;
  (destruct (Z_lt_ge_dec (nl B cur) 255) as [L|L];
   [|rewrite s2n_ovf by lia; apply rtext_len in R; unfold nl in *; rewrite zlen_app; replace (_ <=? 255) with false by lia; reflexivity]).
  - rewrite s2n_end by auto. unfold nl in *.
    assert (W : zlen (B ++ wire [cur]) <= 255) by (rewrite wire_cons; change (wire []) with [0]; rewrite !zlen_app, zlen_cons, zlen_app, zlen_cons, zlen_nil; lia).
    replace (_ <=? 255) with true by lia. reflexivity.
  - rewrite s2n_dot_last by auto. unfold nl in *.
    assert (W : zlen (B ++ wire [cur]) <= 255) by (rewrite wire_cons; change (wire []) with [0]; rewrite !zlen_app, zlen_cons, zlen_app, zlen_cons, zlen_nil; lia).
    replace (_ <=? 255) with true by lia. reflexivity.
  - rewrite s2n_dot_more by auto. apply c_string_cons in CS as [_ CS].
    specialize (IHrtext CS f (B ++ zlen cur :: cur) ltac:(simpl in F; lia)). unfold nl in *. rewrite zlen_nil in *.
    rewrite IHrtext by zlia. rewrite wire_cons, <- app_assoc. reflexivity.
  - apply c_string_cons in CS as [Hc CS]. rewrite s2n_plain by (auto; lia). apply IHrtext; auto; [simpl in F; lia|unfold nl in *; zlia].
  - apply c_string_cons in CS as [_ CS]. apply c_string_cons in CS as [Hc CS].
    rewrite s2n_quote by auto. apply IHrtext; auto; [simpl in F; lia|unfold nl in *; zlia].
  - apply c_string_cons in CS as [_ CS]. apply c_string_cons in CS as [_ CS]. apply c_string_cons in CS as [_ CS]. apply c_string_cons in CS as [_ CS].
    rewrite s2n_ddd by auto. cbn zeta. replace (_ <=? 255) with true by lia. apply IHrtext; auto; [simpl in F; lia|unfold nl in *; zlia].
Qed.

(** Any text without dangling backslash. *)
Lemma s2n_sound : forall f down after t cur B, c_string t -> dangling t = false -> (length t < f)%nat -> nl B cur <= 255 ->
  (t = [] -> cur <> []) ->
  match s2n_loop f down (t ++ 0 :: after) (zlen t) (zlen cur) (nl B cur) (B ++ 0 :: cur) (zlen B) with
  | Ok (w, n) => exists ls, rtext (gfun down) t cur ls /\ w = B ++ wire ls /\ n = zlen w /\ n <= 255
  | Err e => e = res_parse_error \/ e = res_name_overflow
  | _ => False
  end.
Proof.
  induction f as [|f IH]; intros down after t cur B CS D F N NE; [lia|].
  destruct (Z_lt_ge_dec (nl B cur) 255) as [L|L]; [|rewrite s2n_ovf by lia; auto].
  destruct t as [|c t].
  { rewrite s2n_end by auto. exists [cur]. repeat split; auto; [apply rt_end; auto|].
    unfold nl in *. rewrite wire_cons. change (wire []) with [0]. zlia. }
  assert (ST : forall v x r cur', cur' = cur ++ [v] -> c_string x -> dangling x = false -> (length x < f)%nat ->
     r = s2n_loop f down (x ++ 0 :: after) (zlen x) (zlen cur') (nl B cur') (B ++ 0 :: cur') (zlen B) ->
     (forall ls, rtext (gfun down) x cur' ls -> rtext (gfun down) (c :: t) cur ls) ->
     match r with
     | Ok (w, n) => exists ls, rtext (gfun down) (c :: t) cur ls /\ w = B ++ wire ls /\ n = zlen w /\ n <= 255
     | Err e => e = res_parse_error \/ e = res_name_overflow
     | _ => False
     end).
  { intros v x r cur' -> Cx Dx Fx -> K.
    specialize (IH down after x (cur ++ [v]) B Cx Dx Fx ltac:(unfold nl in *; zlia) ltac:(intros _; destruct cur; discriminate)).
    destruct (s2n_loop f down _ _ _ _ _ _) as [[w n]|e| |]; auto. destruct IH as (ls & R & X). exists ls. split; auto. }
  apply c_string_cons in CS as [Hc CS]. simpl in F.
  destruct (Z.eq_dec c 92) as [->|N92].
  - destruct t as [|d t]; [simpl in D; discriminate|]. apply c_string_cons in CS as [Hd CS]. simpl in D.
    destruct (is_digit d) eqn:Ed.
    + apply is_digit_spec in Ed.
      destruct t as [|d1 t].
      { (* backslash digit end *) cbn [s2n_loop app hd_rd bind tl]. zl. unfold nl, MAXLEN_NAME in *.
        replace (0 + 1 + 1 =? 0) with false by lia. replace (_ >=? 255) with false by lia.
        replace ((65 <=? 92) && (92 <=? 90)) with false by lia. replace (92 =? 92) with true by lia. cbn [bind].
        rewrite (proj2 (is_digit_spec d) Ed). cbn [negb andb]. replace (0 + 1 + 1 >=? 3) with false by lia. auto. }
      apply c_string_cons in CS as [Hd1 CS]. 
      assert (T3 : exists d2 r3, (t ++ 0 :: after) = d2 :: r3 /\ (is_digit d2 = true -> exists t', t = d2 :: t')).
      { destruct t as [|d2 t']; [exists 0, after; split; auto; discriminate|]. exists d2, (t' ++ 0 :: after). split; eauto. }
      destruct T3 as (d2 & r3 & E3 & K3).
      destruct (is_digit d1 && is_digit d2) eqn:E12.
      * apply andb_prop in E12 as [E1 E2]. destruct (K3 E2) as [t' ->]. apply is_digit_spec in E1. apply is_digit_spec in E2.
        apply c_string_cons in CS as [Hd2 CS]. rewrite s2n_ddd by auto. cbn zeta. simpl in F.
        destruct (_ <=? 255) eqn:V; auto. eapply (ST _ t'); [reflexivity|auto| |lia|reflexivity|].
        -- unfold digit in *. simpl in D. replace (d1 =? 92) with false in D by lia. replace (d2 =? 92) with false in D by lia. auto.
        -- intros ls R. apply rt_ddd; auto. lia.
      * cbn [s2n_loop app hd_rd bind tl]. rewrite !zlen_cons. pose proof (zlen_nonneg _ t). unfold nl, MAXLEN_NAME in *.
        replace (zlen t + 1 + 1 + 1 =? 0) with false by lia. replace (_ >=? 255) with false by lia.
        replace ((65 <=? 92) && (92 <=? 90)) with false by lia. replace (92 =? 92) with true by lia. cbn [bind].
        rewrite (proj2 (is_digit_spec d) Ed). cbn [negb andb]. replace (_ >=? 3) with true by lia.
        rewrite E3. cbn [hd_rd bind tl]. destruct (is_digit d1), (is_digit d2); cbn [negb orb andb] in *; try discriminate; auto.
    + apply is_digit_false in Ed. rewrite s2n_quote by auto. simpl in F.
      eapply (ST d t); [reflexivity|auto|auto|lia|reflexivity|]. intros ls R. apply rt_quote; auto.
  - simpl in D. replace (c =? 92) with false in D by lia.
    destruct (Z.eq_dec c 46) as [->|N46].
    + destruct (list_eq_dec Z.eq_dec cur []) as [E|NC]; [rewrite s2n_dot_empty by auto; auto|].
      destruct t as [|d t].
      * rewrite s2n_dot_last by auto. exists [cur]. repeat split; auto; [apply rt_dotend; auto|].
        unfold nl in *. rewrite wire_cons. change (wire []) with [0]. zlia.
      * rewrite s2n_dot_more by (auto; discriminate).
        specialize (IH down after (d :: t) [] (B ++ zlen cur :: cur) CS D ltac:(simpl in *; lia)). unfold nl in *. rewrite zlen_nil in *.
        specialize (IH ltac:(zlia) ltac:(discriminate)).
        destruct (s2n_loop f down _ _ _ _ _ _) as [[w n]|e| |]; auto. destruct IH as (ls & R & -> & X & Y). exists (cur :: ls).
        repeat split; auto; [apply rt_dot; auto; discriminate|]. rewrite wire_cons, <- app_assoc. reflexivity.
    + rewrite s2n_plain by (auto; lia). eapply (ST (gfun down c) t); [reflexivity|auto|auto|lia|reflexivity|]. intros ls R. apply rt_plain; auto.
Qed.

(** ** Derived facts *)
Definition is_root_text (s : bytes) : Prop := s = [] \/ s = [46].

Lemma str_to_name_gen_root : forall down s after, is_root_text s -> str_to_name_gen down s after = Ok ([0], 1).
Proof. intros down s after [->| ->]; reflexivity. Qed.

Lemma str_to_name_gen_loop : forall down s after, ~ is_root_text s ->
  str_to_name_gen down s after = s2n_loop (S (S (length (s ++ 0 :: after)))) down (s ++ 0 :: after) (zlen s) 0 1 [0] 0.
Proof.
  intros down s after H. unfold str_to_name_gen. pose proof (zlen_nonneg _ s).
  replace ((zlen s =? 0) || _) with false; auto. symmetry.
  destruct s as [|c s]; [exfalso; apply H; left; auto|]. zl. pose proof (zlen_nonneg _ s).
  destruct (Z.eq_dec c 46) as [->|]; [|lia]. destruct s as [|d s]; [exfalso; apply H; right; auto|]. zl. pose proof (zlen_nonneg _ s). lia.
Qed.

(** The language of str_to_name with the plain-character map [g]. *)
Inductive stext (g : Z -> Z) : bytes -> lname -> Prop :=
| st_root : forall s, is_root_text s -> stext g s []
| st_labels : forall s ls, ~ is_root_text s -> rtext g s [] ls -> stext g s ls.

Lemma rtext_not_root : forall g s ls, rtext g s [] ls -> ~ is_root_text s.
Proof. intros g s ls H [->| ->]; inversion H; congruence. Qed.

Lemma stext_name_text : forall s ls, stext id s ls <-> name_text s ls.
Proof.
  intros s ls. split.
  - intros [? [->| ->]|? ? NR R]; [constructor|constructor|]. apply nt_labels. apply (rtext_dotted _ _ _ R []). constructor.
  - intros [| |? ? D]; [apply st_root; left; auto|apply st_root; right; auto|]. apply dotted_rtext in D.
    apply st_labels; auto. eapply rtext_not_root; eauto.
Qed.

Lemma is_root_dec : forall s, is_root_text s \/ ~ is_root_text s.
Proof. intros [|c [|d s]]; unfold is_root_text; [auto| |right; intros [?|?]; discriminate]. destruct (Z.eq_dec c 46) as [->|N]; auto. right. intros [?|[= ?]]; [discriminate|congruence]. Qed.

Lemma str_to_name_gen_grammatical : forall down s after ls, c_string s -> stext (gfun down) s ls ->
  str_to_name_gen down s after = if zlen (wire ls) <=? 255 then Ok (wire ls, zlen (wire ls)) else Err res_name_overflow.
Proof.
  intros down s after ls CS ST. destruct ST as [s H|s ls NR R].
  - rewrite str_to_name_gen_root by auto. reflexivity.
  - rewrite str_to_name_gen_loop by auto.
    exact (s2n_grammatical down after s [] ls R CS (S (S (length (s ++ 0 :: after)))) [] ltac:(rewrite app_length; lia) ltac:(unfold nl; zlia)).
Qed.

Lemma str_to_name_gen_sound : forall down s after, c_string s -> dangling s = false ->
  match str_to_name_gen down s after with
  | Ok (w, n) => exists ls, stext (gfun down) s ls /\ w = wire ls /\ n = zlen w /\ n <= 255
  | Err e => e = res_parse_error \/ e = res_name_overflow
  | _ => False
  end.
Proof.
  intros down s after CS D. destruct (is_root_dec s) as [R|NR].
  - rewrite str_to_name_gen_root by auto. exists []. repeat split; auto; [constructor; auto|lia].
  - rewrite str_to_name_gen_loop by auto.
    pose proof (s2n_sound (S (S (length (s ++ 0 :: after)))) down after s [] [] CS D ltac:(rewrite app_length; lia) ltac:(unfold nl; zlia)) as K.
    specialize (K ltac:(intros ->; exfalso; apply NR; left; auto)).
    change (zlen []) with 0 in K. change (nl [] []) with 1 in K. change ([] ++ [0]) with [0] in K.
    destruct (s2n_loop _ down _ _ _ _ _ _) as [[w n]|e| |]; auto. destruct K as (ls & X & Y). exists ls. split; auto. apply st_labels; auto.
Qed.

Lemma str_to_name_gen_iff : forall down s after w n, c_string s -> dangling s = false ->
  (str_to_name_gen down s after = Ok (w, n) <->
   exists ls, stext (gfun down) s ls /\ zlen (wire ls) <= 255 /\ w = wire ls /\ n = zlen (wire ls)).
Proof.
  intros down s after w n CS D. split.
  - intros E. pose proof (str_to_name_gen_sound down s after CS D) as K. rewrite E in K. destruct K as (ls & X & -> & -> & Y). eauto.
  - intros (ls & X & L & -> & ->). rewrite (str_to_name_gen_grammatical down s after ls) by auto. replace (_ <=? 255) with true by lia. reflexivity.
Qed.

(** Presentation text is grammatical. *)
Lemma esc_digits : forall b, 0 <= b < 256 -> digit (48 + b / 100) /\ digit (48 + b / 10 mod 10) /\ digit (48 + b mod 10) /\
  (48 + b / 100 - 48) * 100 + (48 + b / 10 mod 10 - 48) * 10 + (48 + b mod 10 - 48) = b.
Proof.
  intros b H. unfold digit.
  pose proof (Z.div_mod b 10 ltac:(lia)). pose proof (Z.mod_pos_bound b 10 ltac:(lia)).
  pose proof (Z.div_mod (b / 10) 10 ltac:(lia)). pose proof (Z.mod_pos_bound (b / 10) 10 ltac:(lia)).
  rewrite Z.div_div in * by lia. change (10 * 10) with 100 in *.
  assert (0 <= b / 100 <= 2) by (split; [apply Z.div_pos; lia|]; pose proof (Z.div_le_mono b 299 100 ltac:(lia) ltac:(lia)) as K; exact K).
  lia.
Qed.

Lemma rtext_pres_octet : forall down b t cur ls, 0 <= b < 256 ->
  rtext (gfun down) t (cur ++ [gfun down b]) ls -> rtext (gfun down) (pres_octet b ++ t) cur ls.
Proof.
  intros down b t cur ls Hb R. unfold pres_octet. destruct ((b =? 46) || (b =? 92)) eqn:E1.
  - cbn [app]. apply rt_quote; [unfold digit; lia|]. replace (gfun down b) with b in R; auto.
    unfold gfun. destruct down; auto. rewrite dc_other; auto; lia.
  - destruct ((33 <=? b) && (b <=? 126)) eqn:E2.
    + cbn [app]. apply rt_plain; auto; lia.
    + cbn [app]. destruct (esc_digits b Hb) as (D1 & D2 & D3 & E). apply rt_ddd; auto; [lia|]. rewrite E.
      replace (gfun down b) with b in R; auto. unfold gfun. destruct down; auto. rewrite dc_other; auto; lia.
Qed.

Lemma rtext_pres_label : forall down l t cur ls, bytes_ok l ->
  rtext (gfun down) t (cur ++ map (gfun down) l) ls -> rtext (gfun down) (pres_label l ++ t) cur ls.
Proof.
  intros down l. induction l as [|b l IH]; intros t cur ls H R.
  - cbn [map] in R. rewrite app_nil_r in R. exact R.
  - apply bytes_ok_cons in H as [Hb H]. rewrite pres_label_cons, <- app_assoc. apply rtext_pres_octet; auto. apply IH; auto.
    rewrite <- app_assoc. exact R.
Qed.

Lemma pres_dots_nonempty : forall ls, ls <> [] -> pres_dots ls <> [].
Proof. intros [|l ls] H; [congruence|]. cbn [pres_dots]. destruct (pres_label l); discriminate. Qed.

Lemma rtext_pres_dots : forall down ls, valid_labels ls -> ls <> [] ->
  rtext (gfun down) (pres_dots ls) [] (map (map (gfun down)) ls).
Proof.
  intros down ls V. induction V as [|l ls [H HB] V IH]; intros NE; [congruence|].
  cbn [pres_dots map]. apply rtext_pres_label; auto. cbn [app].
  assert (NM : map (gfun down) l <> []) by (destruct l; [rewrite zlen_nil in H; lia|discriminate]).
  destruct ls as [|l2 ls].
  - apply rt_dotend; auto.
  - apply rt_dot; auto; [apply pres_dots_nonempty; discriminate|]. apply IH. discriminate.
Qed.

Lemma c_string_app : forall a b, c_string (a ++ b) <-> c_string a /\ c_string b.
Proof. intros; apply Forall_app. Qed.

Lemma pres_octet_cstring : forall b, 0 <= b < 256 -> c_string (pres_octet b).
Proof.
  intros b Hb. unfold pres_octet. destruct (esc_digits b Hb) as (D1 & D2 & D3 & E). unfold digit in *.
  destruct (_ || _) eqn:E1; [repeat constructor; lia|]. destruct (_ && _) eqn:E2; repeat constructor; lia.
Qed.

Lemma pres_name_cstring : forall ls, valid_labels ls -> c_string (pres_name ls).
Proof.
  intros ls V. destruct ls as [|l ls]; [repeat constructor; lia|]. rewrite pres_dots_spec by discriminate.
  induction V as [|l' ls' [H HB] V IH]; [constructor|]. cbn [pres_dots]. apply c_string_app. split.
  - clear -HB. induction HB as [|b l Hb HB IH]; [constructor|]. rewrite pres_label_cons. apply c_string_app. split; auto. apply pres_octet_cstring; auto.
  - apply c_string_cons. split; [lia|auto].
Qed.

Lemma stext_pres : forall down ls, valid_labels ls -> stext (gfun down) (pres_name ls) (map (map (gfun down)) ls).
Proof.
  intros down ls V. destruct ls as [|l ls].
  - apply st_root. right. reflexivity.
  - pose proof (rtext_pres_dots down (l :: ls) V ltac:(discriminate)) as R. rewrite pres_dots_spec by discriminate.
    apply st_labels; auto. eapply rtext_not_root; eauto.
Qed.

Lemma map_map_id : forall ls : lname, map (map id) ls = ls.
Proof. intros. rewrite <- (map_id ls) at 2. apply map_ext. apply map_id. Qed.
Lemma map_map_dc : forall ls, valid_labels ls -> map (map dc) ls = lower_name ls.
Proof. intros ls V. unfold lower_name. induction V as [|l ls [H HB] V IH]; auto. cbn [map]. rewrite map_dc_lower by auto. f_equal. exact IH. Qed.

(** Round trips. *)
Lemma roundtrip_case : forall ls after, valid_name ls -> str_to_name_case (pres_name ls) after = Ok (wire ls, zlen (wire ls)).
Proof.
  intros ls after [V L]. unfold str_to_name_case. pose proof (stext_pres false ls V) as S. cbn [gfun] in S. rewrite map_map_id in S.
  rewrite (str_to_name_gen_grammatical false _ after ls) by (auto using pres_name_cstring). replace (_ <=? 255) with true by lia. reflexivity.
Qed.
Lemma roundtrip_down : forall ls after, valid_name ls ->
  str_to_name (pres_name ls) after = Ok (wire (lower_name ls), zlen (wire (lower_name ls))).
Proof.
  intros ls after [V L]. unfold str_to_name. pose proof (stext_pres true ls V) as S. cbn [gfun] in S. rewrite map_map_dc in S by auto.
  rewrite (str_to_name_gen_grammatical true _ after (lower_name ls)) by (auto using pres_name_cstring).
  replace (_ <=? 255) with true; auto. rewrite <- map_dc_wire by auto. zl. lia.
Qed.

(** Lower-casing without escapes. *)
Lemma rtext_dc : forall t cur ls, rtext id t cur ls -> ~ In 92 t -> rtext dc t (map dc cur) (map (map dc) ls).
Proof.
  intros t cur ls H. induction H; intros NI; cbn [map].
  - apply rt_end. destruct cur; [congruence|discriminate].
  - apply rt_dotend. destruct cur; [congruence|discriminate].
  - apply rt_dot; auto; [destruct cur; [congruence|discriminate]|]. apply IHrtext. intros I. apply NI. right; auto.
  - apply rt_plain; auto. rewrite map_app in IHrtext. apply IHrtext. intros I. apply NI. right; auto.
  - exfalso. apply NI. left; auto.
  - exfalso. apply NI. left; auto.
Qed.

Lemma rtext_dc_inv : forall t cur' ls', rtext dc t cur' ls' -> ~ In 92 t -> forall cur, cur' = map dc cur ->
  exists ls, rtext id t cur ls /\ ls' = map (map dc) ls.
Proof.
  intros t cur' ls' H. induction H; intros NI cur0 ->.
  - exists [cur0]. split; auto. apply rt_end. destruct cur0; [exfalso; apply H; reflexivity|discriminate].
  - exists [cur0]. split; auto. apply rt_dotend. destruct cur0; [exfalso; apply H; reflexivity|discriminate].
  - destruct (IHrtext ltac:(intros I; apply NI; right; auto) [] eq_refl) as (l & R & ->). exists (cur0 :: l). split; auto.
    apply rt_dot; auto. destruct cur0; [exfalso; apply H; reflexivity|discriminate].
  - destruct (IHrtext ltac:(intros I; apply NI; right; auto) (cur0 ++ [c])) as (l & R & ->); [rewrite map_app; auto|].
    exists l. split; auto. apply rt_plain; auto.
  - exfalso. apply NI. left; auto.
  - exfalso. apply NI. left; auto.
Qed.

Lemma dangling_no_bs : forall s, ~ In 92 s -> dangling s = false.
Proof.
  induction s as [|c s IH]; intros H; auto. simpl. destruct (Z.eqb_spec c 92) as [->|]; [exfalso; apply H; left; auto|].
  apply IH. intros I. apply H. right; auto.
Qed.

(** Lockstep of the two variants: same control flow for every string. *)
Definition fold_rel (a b : Z) : Prop := b = a \/ (65 <= a <= 90 /\ b = a + 32).

Definition sim (x y : outcome (bytes * Z)) : Prop :=
  match x, y with
  | Ok (w, n), Ok (w', n') => n = n' /\ Forall2 fold_rel w w'
  | Err e, Err e' => e = e'
  | UB u, UB u' => u = u'
  | NoFuel, NoFuel => True
  | _, _ => False
  end.

Lemma fold_rel_refl : forall a, fold_rel a a.
Proof. intros; left; auto. Qed.
Lemma Forall2_length_z : forall (a b : bytes), Forall2 fold_rel a b -> zlen a = zlen b.
Proof. intros a b H. induction H; zl; auto. lia. Qed.

Definition simb (x y : outcome bytes) : Prop :=
  match x, y with
  | Ok w, Ok w' => Forall2 fold_rel w w'
  | UB u, UB u' => u = u'
  | _, _ => False
  end.

Lemma push_sim : forall cap a b x y, Forall2 fold_rel a b -> Forall2 fold_rel x y -> simb (push cap a x) (push cap b y).
Proof.
  intros cap a b x y H H2. unfold push. rewrite (Forall2_length_z _ _ H), (Forall2_length_z _ _ H2). destruct (_ <? _); simpl; auto.
  apply Forall2_app; auto.
Qed.

Lemma Forall2_firstn : forall n (a b : bytes), Forall2 fold_rel a b -> Forall2 fold_rel (firstn n a) (firstn n b).
Proof. induction n; intros a b H; [constructor|]. destruct H; constructor; auto. Qed.
Lemma Forall2_skipn : forall n (a b : bytes), Forall2 fold_rel a b -> Forall2 fold_rel (skipn n a) (skipn n b).
Proof. induction n; intros a b H; auto. destruct H; [constructor|]. apply IHn; auto. Qed.

Lemma set_sim : forall a b i v, Forall2 fold_rel a b -> simb (set_at a i v) (set_at b i v).
Proof.
  intros a b i v H. unfold set_at, blit. rewrite (Forall2_length_z _ _ H). destruct (_ || _); simpl; auto.
  apply Forall2_app; [apply Forall2_firstn; auto|]. constructor; [apply fold_rel_refl|]. apply Forall2_skipn; auto.
Qed.

Lemma sim_bind : forall (x y : outcome bytes) k k', simb x y -> (forall a b, Forall2 fold_rel a b -> sim (k a) (k' b)) -> sim (bind x k) (bind y k').
Proof. intros [a|e|u|] [b|e'|u'|] k k' H K; simpl in *; try tauto. apply K; auto. Qed.

Lemma sim_bind_same : forall A (x : outcome A) k k', (forall a, sim (k a) (k' a)) -> sim (bind x k) (bind x k').
Proof. intros A [a|e|u|] k k' K; simpl; auto. Qed.

Lemma F2_one : forall a b, fold_rel a b -> Forall2 fold_rel [a] [b].
Proof. intros; apply Forall2_cons; auto; apply Forall2_nil. Qed.

Lemma s2n_sim : forall f p slen ll nlen buf buf' ocl, Forall2 fold_rel buf buf' ->
  sim (s2n_loop f false p slen ll nlen buf ocl) (s2n_loop f true p slen ll nlen buf' ocl).
Proof.
  induction f as [|f IH]; intros p slen ll nlen buf buf' ocl H; [exact I|]. cbn [s2n_loop].
  apply sim_bind_same; intros c. destruct (slen =? 0).
  { destruct (nlen =? MAXLEN_NAME); [simpl; auto|]. apply sim_bind; [apply set_sim; auto|]. intros a b Hab.
    apply sim_bind; [apply push_sim; auto; apply F2_one, fold_rel_refl|]. intros; simpl; auto. }
  destruct (nlen >=? MAXLEN_NAME); [simpl; auto|].
  destruct ((65 <=? c) && (c <=? 90)) eqn:U.
  { apply sim_bind; [apply push_sim; auto; apply F2_one|auto]. right. split; [lia|]. rewrite <- (dc_upper c) by lia. unfold dc. rewrite U. auto. }
  apply sim_bind_same; intros nd. destruct nd.
  { destruct (slen <=? 0); [simpl; auto|]. apply sim_bind_same; intros d. apply sim_bind; [apply push_sim; auto; apply F2_one, fold_rel_refl|auto]. }
  destruct ((c =? 92) && (slen >=? 3)).
  { do 3 (apply sim_bind_same; intros ?). destruct (_ || _); [simpl; auto|]. destruct (_ <=? 255); [|simpl; auto].
    apply sim_bind; [apply push_sim; auto; apply F2_one, fold_rel_refl|auto]. }
  destruct (c =? 92); [simpl; auto|].
  destruct (c =? 46).
  { apply sim_bind; [apply set_sim; auto|]. intros a b Hab. destruct (_ =? 0); [simpl; auto|].
    apply sim_bind. { apply push_sim; auto; apply F2_one, fold_rel_refl. }
    intros a2 b2 Hab2. rewrite (Forall2_length_z _ _ Hab). destruct (slen =? 1); [|auto].
    apply sim_bind; [apply set_sim; auto|]. intros; simpl; auto. }
  destruct (negb (c =? 0)); [|auto]. apply sim_bind; [apply push_sim; auto; apply F2_one, fold_rel_refl|auto].
Qed.

Lemma str_to_name_sim : forall s after, sim (str_to_name_case s after) (str_to_name s after).
Proof.
  intros s after. unfold str_to_name_case, str_to_name, str_to_name_gen. destruct (_ || _).
  - simpl. split; auto. apply F2_one, fold_rel_refl.
  - apply s2n_sim. apply F2_one, fold_rel_refl.
Qed.

(** A name longer than 255 octets or with an empty label is never produced, for any string at all. *)
Lemma s2n_len : forall f down p slen ll nlen buf ocl w n, s2n_loop f down p slen ll nlen buf ocl = Ok (w, n) -> zlen w <= 255.
Proof.
  induction f as [|f IH]; intros down p slen ll nlen buf ocl w n; [discriminate|]. cbn [s2n_loop].
  assert (PL : forall b x r, push MAXLEN_NAME b x = Ok r -> zlen r <= 255).
  { intros b x r E. apply push_inv in E as [-> L]. unfold MAXLEN_NAME in L. zlia. }
  assert (SL : forall b i v r, set_at b i v = Ok r -> zlen r = zlen b).
  { intros b i v r E. unfold set_at, blit in E. destruct (_ || _) eqn:G; [discriminate|]. injection E as <-. rewrite zlen_cons, zlen_nil in *.
    rewrite !zlen_app, zlen_cons, ?zlen_nil, zlen_firstn, zlen_skipn by lia. lia. }
  intros E. apply bind_ok in E as (c & _ & E). destruct (slen =? 0).
  { destruct (_ =? _); [discriminate|]. apply bind_ok in E as (b1 & _ & E). apply bind_ok in E as (b2 & E2 & E). injection E as <- <-. eauto. }
  destruct (_ >=? _); [discriminate|].
  destruct (_ && _). { apply bind_ok in E as (b1 & _ & E). eauto. }
  apply bind_ok in E as (nd & _ & E). destruct nd.
  { destruct (_ <=? _); [discriminate|]. apply bind_ok in E as (d & _ & E). apply bind_ok in E as (b1 & _ & E). eauto. }
  destruct (_ && _).
  { apply bind_ok in E as (? & _ & E). apply bind_ok in E as (? & _ & E). apply bind_ok in E as (? & _ & E). destruct (_ || _); [discriminate|].
    destruct (_ <=? _); [|discriminate]. apply bind_ok in E as (b1 & _ & E). eauto. }
  destruct (c =? 92); [discriminate|]. destruct (c =? 46).
  { apply bind_ok in E as (b1 & _ & E). destruct (_ =? 0); [discriminate|]. apply bind_ok in E as (b2 & E2 & E). destruct (slen =? 1).
    - apply bind_ok in E as (b3 & E3 & E). injection E as <- <-. apply SL in E3. apply PL in E2. lia.
    - eauto. }
  destruct (negb _); [apply bind_ok in E as (b1 & _ & E); eauto|eauto].
Qed.
