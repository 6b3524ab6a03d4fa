(** ProofStrName2.v: exact success and failure conditions of the text-to-name functions. *)
From Verif Require Import Base Lib SpecName ModelName ProofUnpack ProofCopy ProofNameOps ProofNameStr ProofStrName SpecStrName.

(** ** Continuation form of [begun]. *)
Inductive goes (g : Z -> Z) : bytes -> label -> lname -> bytes -> label -> Prop :=
| go_here : forall t cur, goes g t cur [] t cur
| go_dot : forall t cur ls r cur', cur <> [] -> goes g t [] ls r cur' -> goes g (46 :: t) cur (cur :: ls) r cur'
| go_plain : forall c t cur ls r cur', c <> 92 -> c <> 46 -> goes g t (cur ++ [g c]) ls r cur' -> goes g (c :: t) cur ls r cur'
| go_quote : forall c t cur ls r cur', ~ digit c -> goes g t (cur ++ [c]) ls r cur' -> goes g (92 :: c :: t) cur ls r cur'
| go_ddd : forall a b c t cur ls r cur', digit a -> digit b -> digit c -> (a - 48) * 100 + (b - 48) * 10 + (c - 48) <= 255 ->
    goes g t (cur ++ [(a - 48) * 100 + (b - 48) * 10 + (c - 48)]) ls r cur' -> goes g (92 :: a :: b :: c :: t) cur ls r cur'.

Lemma wlabel_app : forall g a la b lb, wlabel g a la -> wlabel g b lb -> wlabel g (a ++ b) (la ++ lb).
Proof. intros g a la b lb H. induction H; intros; auto. rewrite <- app_assoc. cbn [app]. constructor; auto. Qed.
Lemma wlabel_one : forall g x c, wchar g x c -> wlabel g x [c].
Proof. intros. rewrite <- (app_nil_r x). constructor; auto. constructor. Qed.

Lemma goes_begun : forall g t cur ls r cur', goes g t cur ls r cur' -> forall v, wlabel g v cur ->
  exists s' t', v ++ t = (s' ++ t') ++ r /\ wlabels g s' ls /\ wlabel g t' cur'.
Proof.
  intros g t cur ls r cur' H. induction H; intros v V.
  - exists [], v. repeat split; auto. constructor.
  - destruct (IHgoes [] (wl_nil g)) as (s' & t' & E & A & B). cbn [app] in E. exists (v ++ 46 :: s'), t'. repeat split; auto.
    + rewrite E, <- !app_assoc. reflexivity.
    + constructor; auto.
  - destruct (IHgoes (v ++ [c])) as (s' & t' & E & A & B); [apply wlabel_app; auto; apply wlabel_one; constructor; auto|].
    exists s', t'. rewrite <- app_assoc in E. auto.
  - destruct (IHgoes (v ++ [92; c])) as (s' & t' & E & A & B); [apply wlabel_app; auto; apply wlabel_one; constructor; auto|].
    exists s', t'. rewrite <- app_assoc in E. auto.
  - destruct (IHgoes (v ++ [92; a; b; c])) as (s' & t' & E & A & B); [apply wlabel_app; auto; apply wlabel_one; constructor; auto|].
    exists s', t'. rewrite <- app_assoc in E. auto.
Qed.

Lemma goes_label : forall g t l, wlabel g t l -> forall x cur ls r cur', goes g x (cur ++ l) ls r cur' -> goes g (t ++ x) cur ls r cur'.
Proof.
  intros g t l H. induction H as [|t c t' l W H IH]; intros x cur ls r cur' G.
  - rewrite app_nil_r in G. auto.
  - rewrite <- app_assoc. assert (G' : goes g (t' ++ x) (cur ++ [c]) ls r cur') by (apply IH; rewrite <- app_assoc; auto).
    destruct W; cbn [app]; [apply go_plain|apply go_quote|apply go_ddd]; auto.
Qed.

Lemma goes_labels : forall g s ls, wlabels g s ls -> forall x ls' r cur', goes g x [] ls' r cur' -> goes g (s ++ x) [] (ls ++ ls') r cur'.
Proof.
  intros g s ls H. induction H; intros x ls' r cur' G; auto. cbn [app]. rewrite <- app_assoc. cbn [app].
  eapply goes_label; eauto. apply go_dot; auto.
Qed.

Lemma goes_iff : forall g s ls r cur, goes g s [] ls r cur <-> exists u, s = u ++ r /\ begun g u ls cur.
Proof.
  intros g s ls r cur. split.
  - intros H. destruct (goes_begun _ _ _ _ _ _ H [] (wl_nil g)) as (s' & t' & E & A & B). exists (s' ++ t'). split; auto. exists s', t'. auto.
  - intros (u & -> & s' & t' & -> & A & B). rewrite <- app_assoc. rewrite <- (app_nil_r ls). eapply goes_labels; eauto.
    eapply goes_label; eauto. constructor.
Qed.

(** ** [stext] is [written]. *)
Lemma goes_empty : forall g t cur ls r cur', goes g t cur ls r cur' -> ls = [] -> r = [] -> cur' = [] -> cur = [] /\ t = [].
Proof.
  intros g t cur ls r cur' H. induction H; intros E1 E2 E3; subst; auto; try discriminate;
  destruct (IHgoes eq_refl eq_refl eq_refl) as [Q _]; destruct cur; discriminate.
Qed.

Lemma goes_rtext : forall g t cur ls r cur', goes g t cur ls r cur' -> 
  (r = [] -> cur' <> [] -> rtext g t cur (ls ++ [cur'])) /\ (r = [] -> cur' = [] -> ls <> [] -> rtext g t cur ls).
Proof.
  intros g t cur ls r cur' H. induction H.
  - split; [intros -> N; constructor; auto|congruence].
  - destruct IHgoes as [I1 I2]. split.
    + intros R N. cbn [app]. specialize (I1 R N). apply rt_dot; auto. intros ->. inversion H0; subst. congruence.
    + intros R E _. destruct ls as [|l ls].
      * subst. apply goes_empty in H0 as [_ ->]; auto. apply rt_dotend; auto.
      * apply rt_dot; auto; [|apply I2; auto; discriminate]. intros ->. inversion H0.
  - destruct IHgoes as [I1 I2]. split; intros; apply rt_plain; auto.
  - destruct IHgoes as [I1 I2]. split; intros; apply rt_quote; auto.
  - destruct IHgoes as [I1 I2]. split; intros; apply rt_ddd; auto.
Qed.

Lemma rtext_goes : forall g t cur ls, rtext g t cur ls ->
  goes g t cur ls [] [] \/ exists l ls', ls = ls' ++ [l] /\ l <> [] /\ goes g t cur ls' [] l.
Proof.
  intros g t cur ls H. induction H.
  - right. exists cur, []. repeat split; auto. constructor.
  - left. apply go_dot; auto. constructor.
  - destruct IHrtext as [I|(l & ls' & -> & N & I)]; [left; apply go_dot; auto|right]. exists l, (cur :: ls'). repeat split; auto. apply go_dot; auto.
  - destruct IHrtext as [I|(l & ls' & -> & N & I)]; [left; apply go_plain; auto|right]. exists l, ls'. repeat split; auto. apply go_plain; auto.
  - destruct IHrtext as [I|(l & ls' & -> & N & I)]; [left; apply go_quote; auto|right]. exists l, ls'. repeat split; auto. apply go_quote; auto.
  - destruct IHrtext as [I|(l & ls' & -> & N & I)]; [left; apply go_ddd; auto|right]. exists l, ls'. repeat split; auto. apply go_ddd; auto.
Qed.

Lemma rtext_some : forall g t cur ls, rtext g t cur ls -> ls <> [].
Proof. intros g t cur ls H. destruct (rtext_first _ _ _ _ H) as (l & r & ->). discriminate. Qed.

Lemma stext_written : forall g s ls, stext g s ls <-> written g s ls.
Proof.
  intros g s ls. split.
  - intros [? [->| ->]|? ? NR R]; [constructor|constructor|]. pose proof (rtext_some _ _ _ _ R) as NE.
    destruct (rtext_goes _ _ _ _ R) as [G|(l & ls' & -> & N & G)]; apply goes_iff in G as (u & E & s' & t' & -> & A & B); rewrite app_nil_r in E; subst.
    + inversion B; subst. rewrite app_nil_r. apply wr_dotted; auto.
    + apply wr_undotted; auto.
  - intros [| |? ? A NE|? ? t l A B N]; [apply st_root; left; auto|apply st_root; right; auto| |].
    + assert (G : goes g s0 [] ls0 [] []) by (apply goes_iff; exists s0; split; [rewrite app_nil_r; auto|]; exists s0, []; rewrite app_nil_r; repeat split; auto; constructor).
      pose proof (proj2 (goes_rtext _ _ _ _ _ _ G) eq_refl eq_refl NE) as R. apply st_labels; auto. eapply rtext_not_root; eauto.
    + assert (G : goes g (s0 ++ t) [] ls0 [] l) by (apply goes_iff; exists (s0 ++ t); split; [rewrite app_nil_r; auto|]; exists s0, t; auto).
      pose proof (proj1 (goes_rtext _ _ _ _ _ _ G) eq_refl N) as R. apply st_labels; auto. eapply rtext_not_root; eauto.
Qed.

(** ** Running the loop along [goes]. *)
Lemma prewire_cons : forall l ls, prewire (l :: ls) = (zlen l :: l) ++ prewire ls.
Proof. reflexivity. Qed.

Lemma goes_c_string : forall g t cur ls r cur', goes g t cur ls r cur' -> c_string t -> c_string r.
Proof. intros g t cur ls r cur' H. induction H; intros C; auto; repeat (apply c_string_cons in C as [_ C]); auto. Qed.

Lemma goes_length : forall g t cur ls r cur', goes g t cur ls r cur' -> (length r <= length t)%nat.
Proof. intros g t cur ls r cur' H. induction H; cbn [length]; lia. Qed.

Lemma goes_room : forall g t cur ls r cur', goes g t cur ls r cur' -> zlen cur + 1 <= room ls cur'.
Proof.
  intros g t cur ls r cur' H. induction H.
  - unfold room. change (prewire []) with (@nil Z). zlia.
  - unfold room in *. rewrite prewire_cons. pose proof (zlen_nonneg _ (prewire ls)). pose proof (zlen_nonneg _ cur'). zlia.
  - rewrite zlen_app in IHgoes. zlia.
  - rewrite zlen_app in IHgoes. zlia.
  - rewrite zlen_app in IHgoes. zlia.
Qed.

Lemma goes_run : forall down after t cur ls r cur', goes (gfun down) t cur ls r cur' -> c_string t -> (r <> [] \/ cur' <> []) ->
  forall f B, (length t < f)%nat -> zlen B + room ls cur' <= 255 ->
  exists f', (length r < f')%nat /\ (f - f' <= length t - length r)%nat /\ (f' <= f)%nat /\
  s2n_loop f down (t ++ 0 :: after) (zlen t) (zlen cur) (nl B cur) (B ++ 0 :: cur) (zlen B) =
  s2n_loop f' down (r ++ 0 :: after) (zlen r) (zlen cur') (nl (B ++ prewire ls) cur') ((B ++ prewire ls) ++ 0 :: cur') (zlen (B ++ prewire ls)).
Proof.
  intros down after t cur ls r cur' H.
  induction H as [t cur|t cur ls r cur' NE G IH|c t cur ls r cur' N1 N2 G IH|c t cur ls r cur' ND G IH|a b c t cur ls r cur' D1 D2 D3 V G IH];
    intros CS NX f B F N.
  - exists f. change (prewire []) with (@nil Z). rewrite app_nil_r. repeat split; auto; lia.
  - apply c_string_cons in CS as [Hc CS]. destruct f as [|f]; [simpl in F; lia|]. simpl in F.
    pose proof (goes_room _ _ _ _ _ _ G) as GR. rewrite zlen_nil in GR. pose proof (goes_length _ _ _ _ _ _ G) as GL.
    assert (RM : room (cur :: ls) cur' = 1 + zlen cur + room ls cur') by (unfold room; rewrite prewire_cons; zlia).
    rewrite RM in N.
    assert (NT : t <> []). { intros ->. inversion G; subst. destruct NX; congruence. }
    rewrite s2n_dot_more by (auto; unfold nl; zlia).
    destruct (IH CS NX f (B ++ zlen cur :: cur) ltac:(lia) ltac:(zlia)) as (f' & A1 & A2 & A3 & E). exists f'. cbn [length]. repeat split; try lia.
    etransitivity; [exact E|]. rewrite prewire_cons. rewrite !app_assoc. reflexivity.
  - apply c_string_cons in CS as [Hc CS]. destruct f as [|f]; [simpl in F; lia|]. simpl in F.
    pose proof (goes_room _ _ _ _ _ _ G) as GR. rewrite zlen_app in GR. change (zlen [_]) with 1 in GR. pose proof (goes_length _ _ _ _ _ _ G) as GL.
    rewrite s2n_plain by (auto; unfold nl; lia). destruct (IH CS NX f B ltac:(lia) N) as (f' & A1 & A2 & A3 & E). exists f'. cbn [length]. repeat split; try lia. exact E.
  - apply c_string_cons in CS as [_ CS]. apply c_string_cons in CS as [Hc CS]. destruct f as [|f]; [simpl in F; lia|]. simpl in F.
    pose proof (goes_room _ _ _ _ _ _ G) as GR. rewrite zlen_app in GR. change (zlen [_]) with 1 in GR. pose proof (goes_length _ _ _ _ _ _ G) as GL.
    rewrite s2n_quote by (auto; unfold nl; lia). destruct (IH CS NX f B ltac:(lia) N) as (f' & A1 & A2 & A3 & E). exists f'. cbn [length]. repeat split; try lia. exact E.
  - do 4 apply c_string_cons in CS as [_ CS]. destruct f as [|f]; [simpl in F; lia|]. simpl in F.
    pose proof (goes_room _ _ _ _ _ _ G) as GR. rewrite zlen_app in GR. change (zlen [_]) with 1 in GR. pose proof (goes_length _ _ _ _ _ _ G) as GL.
    rewrite s2n_ddd by (auto; unfold nl; lia). cbn zeta. replace (_ <=? 255) with true by lia.
    destruct (IH CS NX f B ltac:(lia) N) as (f' & A1 & A2 & A3 & E). exists f'. cbn [length]. repeat split; try lia. exact E.
Qed.

(** What happens at the places of failure. *)
Lemma s2n_misplaced : forall f down after r cur B, c_string r -> nl B cur < 255 -> misplaced cur r ->
  s2n_loop (S f) down (r ++ 0 :: after) (zlen r) (zlen cur) (nl B cur) (B ++ 0 :: cur) (zlen B) = Err res_parse_error.
Proof.
  intros f down after r cur B CS L [[E (r' & ->)]|(d & t & -> & Ed & NB)]; [apply s2n_dot_empty; auto|].
  destruct t as [|d1 t].
  { cbn [s2n_loop app hd_rd bind tl]. zl. unfold nl, MAXLEN_NAME in *.
    replace (0 + 1 + 1 =? 0) with false by lia. replace (_ >=? 255) with false by lia.
    replace ((65 <=? 92) && (92 <=? 90)) with false by lia. replace (92 =? 92) with true by lia. cbn [bind].
    rewrite (proj2 (is_digit_spec d) Ed). cbn [negb andb]. replace (0 + 1 + 1 >=? 3) with false by lia. auto. }
  assert (T3 : exists d2 r3, (t ++ 0 :: after) = d2 :: r3 /\ (is_digit d2 = true -> exists t', t = d2 :: t')).
  { destruct t as [|d2 t']; [exists 0, after; split; auto; discriminate|]. exists d2, (t' ++ 0 :: after). split; eauto. }
  destruct T3 as (d2 & r3 & E3 & K3).
  destruct (is_digit d1 && is_digit d2) eqn:E12.
  * apply andb_prop in E12 as [E1 E2]. destruct (K3 E2) as [t' ->]. apply is_digit_spec in E1. apply is_digit_spec in E2.
    rewrite s2n_ddd by auto. cbn zeta. destruct (_ <=? 255) eqn:V; auto. exfalso. apply NB. exists d, d1, d2, t'. repeat split; auto; try apply Ed; try apply E1; try apply E2. lia.
  * cbn [s2n_loop app hd_rd bind tl]. rewrite !zlen_cons. pose proof (zlen_nonneg _ t). unfold nl, MAXLEN_NAME in *.
    replace (zlen t + 1 + 1 + 1 =? 0) with false by lia. replace (_ >=? 255) with false by lia.
    replace ((65 <=? 92) && (92 <=? 90)) with false by lia. replace (92 =? 92) with true by lia. cbn [bind].
    rewrite (proj2 (is_digit_spec d) Ed). cbn [negb andb]. replace (_ >=? 3) with true by lia.
    rewrite E3. cbn [hd_rd bind tl]. destruct (is_digit d1), (is_digit d2); cbn [negb orb andb] in *; try discriminate; auto.
Qed.

Lemma s2n_cut : forall f down after cur B, nl B cur < 255 ->
  s2n_loop (S f) down ([92] ++ 0 :: after) (zlen [92]) (zlen cur) (nl B cur) (B ++ 0 :: cur) (zlen B) =
  s2n_loop f down after (-1) (zlen cur + 1) (nl B cur + 1) (B ++ 0 :: cur ++ [0]) (zlen B).
Proof.
  intros f down after cur B H. cbn [s2n_loop app hd_rd bind tl]. change (zlen [92]) with 1. 
  pose proof (zlen_nonneg _ B). pose proof (zlen_nonneg _ cur). unfold nl in *.
  replace (1 =? 0) with false by lia. unfold MAXLEN_NAME in *. replace (_ >=? 255) with false by lia.
  replace ((65 <=? 92) && (92 <=? 90)) with false by lia. replace (92 =? 92) with true by lia. cbn [bind].
  replace (is_digit 0) with false by reflexivity. cbn [negb]. replace (1 <=? 0) with false by lia.
  replace (1 - 1 - 1) with (-1) by lia. rewrite push_name by zlia. cbn [bind]. rewrite Z.mod_small by lia. reflexivity.
Qed.

(** Once past the end the loop never succeeds. *)
Lemma s2n_past : forall f down p slen ll n buf ocl w, slen < 0 -> s2n_loop f down p slen ll n buf ocl <> Ok w.
Proof.
  induction f as [|f IH]; intros down p slen ll n buf ocl w H; [discriminate|]. cbn [s2n_loop].
  destruct (hd_rd p) as [c| | |]; cbn [bind]; try discriminate. replace (slen =? 0) with false by lia.
  destruct (n >=? MAXLEN_NAME); [discriminate|].
  assert (B : forall (o : outcome bytes) k, (forall b : bytes, k b <> Ok w) -> bind o k <> Ok w) by (intros [b| | |] k K; cbn [bind]; try discriminate; auto).
  destruct ((65 <=? c) && (c <=? 90)); [apply B; intros b; apply IH; lia|].
  destruct (if c =? 92 then _ else _) as [nd| | |]; cbn [bind]; try discriminate. destruct nd.
  { replace (slen <=? 0) with true by lia. discriminate. }
  destruct ((c =? 92) && (slen >=? 3)) eqn:E3; [lia|]. destruct (c =? 92); [discriminate|]. destruct (c =? 46).
  { apply B; intros b. destruct (_ =? 0); [discriminate|]. apply B; intros b2. replace (slen =? 1) with false by lia. apply IH; lia. }
  destruct (negb (c =? 0)); [apply B; intros b; apply IH; lia|apply IH; lia].
Qed.

(** ** Every text either is written or goes to a place of failure. *)
Lemma text_cases : forall g n t cur k, (length t < n)%nat -> k + 1 + zlen cur <= 255 -> (t = [] -> cur <> []) ->
  (exists ls, rtext g t cur ls /\ k + zlen (wire ls) <= 255) \/
  (exists ls r cur', goes g t cur ls r cur' /\
     ((k + room ls cur' = 255 /\ (r <> [] \/ cur' <> [])) \/ (k + room ls cur' < 255 /\ (misplaced cur' r \/ r = [92])))).
Proof.
  intros g. induction n as [|n IH]; intros t cur k F L NE; [lia|].
  destruct (Z.eq_dec (k + 1 + zlen cur) 255) as [E|NL].
  { right. exists [], t, cur. split; [constructor|]. left. unfold room. change (prewire []) with (@nil Z). split; [zlia|].
    destruct t; [right; auto|left; discriminate]. }
  assert (L' : k + 1 + zlen cur < 255) by lia. clear NL.
  assert (ST : forall v x, (length x < n)%nat ->
     (forall ls, rtext g x (cur ++ [v]) ls -> rtext g t cur ls) ->
     (forall ls r cur', goes g x (cur ++ [v]) ls r cur' -> goes g t cur ls r cur') ->
     (exists ls, rtext g t cur ls /\ k + zlen (wire ls) <= 255) \/
     (exists ls r cur', goes g t cur ls r cur' /\
     ((k + room ls cur' = 255 /\ (r <> [] \/ cur' <> [])) \/ (k + room ls cur' < 255 /\ (misplaced cur' r \/ r = [92]))))).
  { intros v x Fx K1 K2. destruct (IH x (cur ++ [v]) k Fx ltac:(zlia) ltac:(intros _; destruct cur; discriminate)) as [(ls & R & Q)|(ls & r & c' & G & Q)].
    - left. exists ls. auto.
    - right. exists ls, r, c'. auto. }
  assert (STOP : (misplaced cur t \/ t = [92]) -> exists ls r cur', goes g t cur ls r cur' /\
     ((k + room ls cur' = 255 /\ (r <> [] \/ cur' <> [])) \/ (k + room ls cur' < 255 /\ (misplaced cur' r \/ r = [92])))).
  { intros M. exists [], t, cur. split; [constructor|]. right. split; auto. unfold room. change (prewire []) with (@nil Z). zlia. }
  destruct t as [|c t].
  { left. exists [cur]. split; [constructor; auto|]. rewrite wire_cons. change (wire []) with [0]. zlia. }
  simpl in F. destruct (Z.eq_dec c 92) as [->|N92].
  - destruct t as [|d t]; [right; apply STOP; auto|].
    destruct (is_digit d) eqn:Ed.
    + apply is_digit_spec in Ed.
      assert (DD : ddd_escape (d :: t) \/ ~ ddd_escape (d :: t)).
      { destruct t as [|d1 [|d2 t']]; try (right; intros (? & ? & ? & ? & Q & _); discriminate).
        destruct (is_digit d1) eqn:E1; [|right; intros (? & ? & ? & ? & [= -> -> -> ->] & _ & Q & _); apply is_digit_false in E1; auto].
        destruct (is_digit d2) eqn:E2; [|right; intros (? & ? & ? & ? & [= -> -> -> ->] & _ & _ & Q & _); apply is_digit_false in E2; auto].
        apply is_digit_spec in E1. apply is_digit_spec in E2.
        destruct (Z_le_gt_dec ((d - 48) * 100 + (d1 - 48) * 10 + (d2 - 48)) 255) as [V|V].
        - left. exists d, d1, d2, t'. repeat split; auto; unfold digit in *; lia.
        - right. intros (? & ? & ? & ? & [= -> -> -> ->] & _ & _ & _ & Q). lia. }
      destruct DD as [(a & b & c & r' & [= -> ->] & Da & Db & Dc & V)|ND].
      * eapply (ST _ r'); [simpl in F; lia|intros ls R; apply rt_ddd; eauto|intros ls r0 c0 R; apply go_ddd; eauto].
      * right. apply STOP. left. right. exists d, t. auto.
    + apply is_digit_false in Ed. eapply (ST d t); [simpl in F; lia|intros ls R; apply rt_quote; auto|intros ls r0 c0 R; apply go_quote; auto].
  - destruct (Z.eq_dec c 46) as [->|N46].
    + destruct (list_eq_dec Z.eq_dec cur []) as [E|NC]; [right; apply STOP; left; left; eauto|].
      destruct t as [|d t].
      * left. exists [cur]. split; [apply rt_dotend; auto|]. rewrite wire_cons. change (wire []) with [0]. zlia.
      * destruct (IH (d :: t) [] (k + 1 + zlen cur) ltac:(simpl in *; lia) ltac:(zlia) ltac:(discriminate)) as [(ls & R & Q)|(ls & r & c' & G & Q)].
        -- left. exists (cur :: ls). split; [apply rt_dot; auto; discriminate|]. rewrite wire_cons. zlia.
        -- right. exists (cur :: ls), r, c'. split; [apply go_dot; auto|].
           assert (RM : k + room (cur :: ls) c' = k + 1 + zlen cur + room ls c') by (unfold room; rewrite prewire_cons; zlia). rewrite RM. auto.
    + eapply (ST (g c) t); [lia|intros ls R; apply rt_plain; auto|intros ls r0 c0 R; apply go_plain; auto].
Qed.

(** ** The functions. *)
Section Function.
Context (down : bool) (s after : bytes) (CS : c_string s).
Notation g := (gfun down).

Lemma gen_goes : forall ls r cur, goes g s [] ls r cur -> (r <> [] \/ cur <> []) -> ~ is_root_text s -> room ls cur <= 255 ->
  exists f, (length r < f)%nat /\ (2 <= f - length r)%nat /\
  str_to_name_gen down s after = s2n_loop f down (r ++ 0 :: after) (zlen r) (zlen cur) (nl (prewire ls) cur) (prewire ls ++ 0 :: cur) (zlen (prewire ls)).
Proof.
  intros ls r cur G NX NR RM. rewrite str_to_name_gen_loop by auto.
  destruct (goes_run down after s [] ls r cur G CS NX (S (S (length (s ++ 0 :: after)))) [] ltac:(rewrite app_length; lia) ltac:(zlia)) as (f' & A1 & A2 & A3 & E).
  exists f'. split; auto. split; [rewrite app_length in A2; cbn [length] in A2; pose proof (goes_length _ _ _ _ _ _ G); lia|]. exact E.
Qed.

Lemma root_goes : forall ls r cur, goes g s [] ls r cur -> is_root_text s -> (r = s /\ ls = [] /\ cur = []).
Proof. intros ls r cur G [E|E]; rewrite E in *; inversion G; subst; auto; congruence. Qed.

Lemma gen_misplaced : syntax_failure g s -> str_to_name_gen down s after = Err res_parse_error.
Proof.
  intros (N46 & u & r & ls & cur & E & B & RM & M). assert (G : goes g s [] ls r cur) by (apply goes_iff; eauto).
  assert (NR : ~ is_root_text s).
  { intros R. destruct (root_goes _ _ _ G R) as (-> & -> & ->). destruct R as [R|R]; [|congruence].
    rewrite R in M. destruct M as [[_ (? & Q)]|(? & ? & Q & _)]; discriminate. }
  assert (NX : r <> []) by (intros ->; destruct M as [[_ (? & Q)]|(? & ? & Q & _)]; discriminate).
  destruct (gen_goes _ _ _ G (or_introl NX) NR ltac:(lia)) as (f & A & A2 & ->). destruct f as [|f]; [lia|].
  apply s2n_misplaced; auto. eapply goes_c_string; eauto.
Qed.

Lemma gen_size : size_failure g s -> str_to_name_gen down s after = Err res_name_overflow.
Proof.
  intros (u & r & ls & cur & E & B & RM & NX). assert (G : goes g s [] ls r cur) by (apply goes_iff; eauto).
  assert (NR : ~ is_root_text s).
  { intros R. destruct (root_goes _ _ _ G R) as (-> & -> & ->). unfold room in RM. change (zlen (prewire [])) with 0 in RM. change (zlen []) with 0 in RM. lia. }
  destruct (gen_goes _ _ _ G NX NR ltac:(lia)) as (f & A & A2 & ->). destruct f as [|f]; [lia|].
  apply s2n_ovf; unfold nl, room in *; lia.
Qed.

Lemma gen_cut : cut_escape g s -> (forall w, str_to_name_gen down s after <> Ok w) /\ (after = [] -> str_to_name_gen down s after = UB OobRead).
Proof.
  intros (u & ls & cur & E & B & RM). assert (G : goes g s [] ls [92] cur) by (apply goes_iff; eauto).
  assert (NR : ~ is_root_text s).
  { intros R. destruct (root_goes _ _ _ G R) as (Q & -> & ->). destruct R as [R|R]; rewrite R in Q; discriminate. }
  assert (N9 : [92] <> []) by discriminate. assert (RM' : room ls cur <= 255) by lia.
  destruct (gen_goes _ _ _ G (or_introl N9) NR RM') as (f & A & A2 & E'). rewrite E'. clear E'. cbn [length] in A, A2. destruct f as [|f]; [lia|].
  rewrite s2n_cut by (unfold nl, room in *; lia). split.
  - intros w. apply s2n_past. lia.
  - intros ->. destruct f as [|f]; [lia|]. reflexivity.
Qed.

Lemma gen_cases : 
  (exists ls, written g s ls /\ zlen (wire ls) <= 255) \/ syntax_failure g s \/ size_failure g s \/ cut_escape g s.
Proof.
  destruct (is_root_dec s) as [R|NR].
  { left. exists []. split; [apply stext_written; constructor; auto|]. change (zlen (wire [])) with 1. lia. }
  destruct (text_cases g (S (length s)) s [] 0 ltac:(lia) ltac:(zlia) ltac:(intros Q; exfalso; apply NR; left; auto)) as [(ls & R & L)|(ls & r & cur & G & K)].
  - left. exists ls. split; [|lia]. apply stext_written. apply st_labels; auto.
  - right. apply goes_iff in G as (u & E & B). destruct K as [[K N]|[K [M| ->]]].
    + right. left. exists u, r, ls, cur. auto.
    + left. split; [intros ->; apply NR; right; auto|]. exists u, r, ls, cur. auto.
    + right. right. exists u, ls, cur. auto.
Qed.

Lemma gen_written : forall ls, written g s ls -> zlen (wire ls) <= 255 -> str_to_name_gen down s after = Ok (wire ls, zlen (wire ls)).
Proof.
  intros ls W L. apply stext_written in W. rewrite (str_to_name_gen_grammatical down s after ls) by auto. replace (_ <=? 255) with true by lia. reflexivity.
Qed.

Lemma gen_ok_iff : forall w n, str_to_name_gen down s after = Ok (w, n) <->
  exists ls, written g s ls /\ zlen (wire ls) <= 255 /\ w = wire ls /\ n = zlen (wire ls).
Proof.
  intros w n. split.
  - intros E. destruct gen_cases as [(ls & W & L)|[K|[K|K]]].
    + rewrite (gen_written _ W L) in E. injection E as <- <-. eauto.
    + rewrite (gen_misplaced K) in E. discriminate.
    + rewrite (gen_size K) in E. discriminate.
    + exfalso. eapply (proj1 (gen_cut K)); eauto.
  - intros (ls & W & L & -> & ->). apply gen_written; auto.
Qed.
End Function.

Section Fail.
Context (down : bool) (s : bytes) (CS : c_string s).
Notation g := (gfun down).

Lemma gen_total : 
  (exists ls, written g s ls /\ zlen (wire ls) <= 255 /\ str_to_name_gen down s [] = Ok (wire ls, zlen (wire ls))) \/
  (syntax_failure g s /\ str_to_name_gen down s [] = Err res_parse_error) \/
  (size_failure g s /\ str_to_name_gen down s [] = Err res_name_overflow) \/
  (cut_escape g s /\ str_to_name_gen down s [] = UB OobRead).
Proof.
  destruct (gen_cases down s CS) as [(ls & W & L)|[K|[K|K]]].
  - left. exists ls. repeat split; auto. apply gen_written; auto.
  - right. left. split; auto. apply gen_misplaced; auto.
  - right. right. left. split; auto. apply gen_size; auto.
  - right. right. right. split; auto. apply (gen_cut down s [] CS K); reflexivity.
Qed.

Lemma gen_parse_iff : str_to_name_gen down s [] = Err res_parse_error <-> syntax_failure g s.
Proof.
  split; [|apply gen_misplaced; auto]. intros E. destruct gen_total as [(ls & _ & _ & K)|[[K _]|[[_ K]|[_ K]]]]; auto; rewrite K in E; discriminate.
Qed.
Lemma gen_ovf_iff : str_to_name_gen down s [] = Err res_name_overflow <-> size_failure g s.
Proof.
  split; [|apply gen_size; auto]. intros E. destruct gen_total as [(ls & _ & _ & K)|[[_ K]|[[K _]|[_ K]]]]; auto; rewrite K in E; discriminate.
Qed.
Lemma gen_cut_iff : str_to_name_gen down s [] = UB OobRead <-> cut_escape g s.
Proof.
  split; [|intros K; apply (gen_cut down s [] CS K); reflexivity]. intros E. destruct gen_total as [(ls & _ & _ & K)|[[_ K]|[[_ K]|[K _]]]]; auto; rewrite K in E; discriminate.
Qed.
End Fail.

(** The failure conditions and the grammar do not depend on lower-casing. *)
Lemma dc_small : forall c, dc c = small c.
Proof.
  intros c. unfold dc, small. destruct ((65 <=? c) && (c <=? 90)) eqn:E; auto.
  assert (K : forall n, (n < 26)%nat -> Z.lor (65 + Z.of_nat n) 32 = 65 + Z.of_nat n + 32).
  { intros n H. do 26 (destruct n as [|n]; [reflexivity|]). lia. }
  specialize (K (Z.to_nat (c - 65)) ltac:(lia)). replace (65 + Z.of_nat (Z.to_nat (c - 65))) with c in K by lia. exact K.
Qed.
