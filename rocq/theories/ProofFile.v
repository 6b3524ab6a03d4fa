(** ProofFile.v: wdns_file_load_names. *)
From Verif Require Import Base Lib ModelName SpecName ProofStrName ModelFile SpecFile.

(** ** wdns_str_to_name does not depend on what follows the string *)
Lemma s2n_after : forall m s down a1 a2 f1 f2 ll nlen buf ocl, (length s <= m)%nat -> dangling s = false ->
  (length s < f1)%nat -> (length s < f2)%nat ->
  s2n_loop f1 down (s ++ 0 :: a1) (zlen s) ll nlen buf ocl = s2n_loop f2 down (s ++ 0 :: a2) (zlen s) ll nlen buf ocl.
Proof.
  induction m as [|m IH]; intros s down a1 a2 f1 f2 ll nlen buf ocl L D F1 F2;
    (destruct f1 as [|f1]; [lia|]); (destruct f2 as [|f2]; [lia|]).
  - destruct s; [|cbn in L; lia]. reflexivity.
  - destruct s as [|c s].
    { reflexivity. }
    cbn [length] in L, F1, F2. cbn [s2n_loop app hd_rd bind tl]. rewrite zlen_cons.
    pose proof (zlen_nonneg _ s). replace (zlen s + 1 =? 0) with false by lia.
    destruct (nlen >=? MAXLEN_NAME); auto.
    replace (zlen s + 1 - 1) with (zlen s) by lia.
    destruct (c =? 92) eqn:C.
    + replace ((65 <=? c) && (c <=? 90)) with false by lia.
      assert (c = 92) by lia. subst c. cbn [dangling] in D. change (92 =? 92) with true in D. cbv iota in D.
      destruct s as [|d s]; [discriminate|]. cbn [app hd_rd bind tl].
      destruct (is_digit d) eqn:DD; cbn [negb].
      * rewrite zlen_cons. pose proof (zlen_nonneg _ s).
        destruct (zlen s + 1 + 1 >=? 3) eqn:G; cbn [andb]; auto.
        destruct s as [|d1 s]; [change (zlen (@nil Z)) with 0 in G; lia|]. cbn [app hd_rd bind tl].
        destruct s as [|d2 s]; cbn [app hd_rd bind tl].
        { cbn [orb]. destruct (is_digit d1); cbn [negb orb]; auto. }
        destruct (is_digit d1) eqn:D1; cbn [negb orb]; auto. destruct (is_digit d2) eqn:D2; cbn [negb orb]; auto.
        destruct (_ <=? 255); auto. destruct (push _ _ _); cbn [bind]; auto.
        rewrite !zlen_cons. replace (zlen s + 1 + 1 + 1 + 1 - 3 - 1) with (zlen s) by lia.
        cbn [length] in L, F1, F2. apply IH; try lia.
        cbn [dangling] in D. unfold is_digit in D1, D2. replace (d1 =? 92) with false in D by lia.
        replace (d2 =? 92) with false in D by lia. exact D.
      * rewrite zlen_cons. pose proof (zlen_nonneg _ s). replace (zlen s + 1 + 1 <=? 0) with false by lia.
        destruct (push _ _ _); cbn [bind]; auto. replace (zlen s + 1 - 1) with (zlen s) by lia.
        cbn [length] in L, F1, F2. apply IH; auto; lia.
    + assert (D' : dangling s = false). { cbn [dangling] in D. rewrite C in D. exact D. }
      cbn [bind andb].
      destruct ((65 <=? c) && (c <=? 90)).
      { destruct (push _ _ _); cbn [bind]; auto. apply IH; auto; lia. }
      destruct (c =? 46).
      { destruct (set_at _ _ _); cbn [bind]; auto. destruct (_ =? 0); auto. destruct (push _ _ _); cbn [bind]; auto.
        destruct (zlen s + 1 =? 1); auto. apply IH; auto; lia. }
      destruct (negb (c =? 0)).
      { destruct (push _ _ _); cbn [bind]; auto. apply IH; auto; lia. }
      apply IH; auto; lia.
Qed.

Lemma str_to_name_after : forall s after, dangling s = false -> str_to_name s after = str_to_name s [].
Proof.
  intros s after D. unfold str_to_name, str_to_name_gen. destruct (_ || _); auto.
  apply (s2n_after (length s)); auto; rewrite app_length; cbn [length]; lia.
Qed.

(** ** fgets *)
Lemma fgets_take_line : forall l t k, ~ In 10 l -> (length l < k)%nat -> fgets_take k (l ++ 10 :: t) = (l ++ [10], t).
Proof.
  induction l as [|c l IH]; intros t k N K; (destruct k as [|k]; [cbn in K; lia|]); cbn [app fgets_take].
  - reflexivity.
  - destruct (c =? 10) eqn:C. { exfalso. apply N. left. lia. }
    rewrite IH; auto. { intros X. apply N. right. auto. } cbn in K. lia.
Qed.

Lemma fgets_take_full : forall l t, ~ In 10 l -> fgets_take (length l) (l ++ t) = (l, t).
Proof.
  induction l as [|c l IH]; intros t N; cbn [app length fgets_take]; [destruct t; reflexivity|].
  destruct (c =? 10) eqn:C. { exfalso. apply N. left. lia. }
  rewrite IH; auto. intros X. apply N. right. auto.
Qed.

Lemma fgets_take_last : forall l k, ~ In 10 l -> (length l <= k)%nat -> fgets_take k l = (l, []).
Proof.
  induction l as [|c l IH]; intros k N K; destruct k as [|k]; cbn [fgets_take]; auto.
  - cbn in K. lia.
  - destruct (c =? 10) eqn:C. { exfalso. apply N. left. lia. }
    rewrite IH; auto. { intros X. apply N. right. auto. } cbn in K. lia.
Qed.

Lemma blit_start : forall line a, zlen a <= zlen line ->
  blit line 0 a = Ok (a ++ skipn (length a) line).
Proof.
  intros line a H. unfold blit. pose proof (zlen_nonneg _ a).
  replace ((0 <? 0) || (zlen line <? 0 + zlen a)) with false by lia. cbn [firstn app Z.to_nat].
  replace (Z.to_nat (0 + zlen a)) with (length a) by (unfold zlen; lia). reflexivity.
Qed.

Lemma c_strlen_app : forall l r, Forall (fun c => c <> 0) l -> c_strlen (l ++ 0 :: r) = Ok (zlen l).
Proof.
  induction l as [|c l IH]; intros r F; cbn [app c_strlen]; [reflexivity|].
  inversion F; subst. replace (c =? 0) with false by lia. rewrite IH by auto. cbn [bind]. rewrite zlen_cons. reflexivity.
Qed.

Lemma rd_at : forall a (b : Z) r, rd (a ++ b :: r) (zlen a) = Ok b.
Proof.
  intros. unfold rd. pose proof (zlen_nonneg _ a). replace (zlen a <? 0) with false by lia.
  rewrite zlen_to_nat, nth_error_app2, Nat.sub_diag by lia. reflexivity.
Qed.

Lemma blit_one : forall a (b c : Z) r, blit (a ++ b :: r) (zlen a) [c] = Ok (a ++ c :: r).
Proof.
  intros. unfold blit. pose proof (zlen_nonneg _ a). pose proof (zlen_nonneg _ r). rewrite zlen_app, zlen_cons. change (zlen [c]) with 1.
  replace ((zlen a <? 0) || (zlen a + (zlen r + 1) <? zlen a + 1)) with false by lia.
  rewrite firstn_zlen_app. replace (a ++ b :: r) with ((a ++ [b]) ++ r) by (rewrite <- app_assoc; reflexivity).
  rewrite skipn_app_exact; auto. rewrite zlen_app. reflexivity.
Qed.

Definition skipb (l : bytes) : bool := match l with [] => true | c :: _ => (c =? 32) || (c =? 35) end.
Lemma skipb_iff : forall l, skipb l = true <-> skipped l.
Proof.
  intros [|c r]; cbn [skipb]; unfold skipped.
  - split; auto.
  - split.
    + intros H. right. destruct (c =? 32) eqn:C; [left|right]; exists r; f_equal; lia.
    + intros [H|[(x & H)|(x & H)]]; [discriminate| |]; injection H as -> _; reflexivity.
Qed.

Definition turn (f : nat) (l : bytes) (line t : bytes) : outcome (list (bytes * Z) * res) :=
  match str_to_name l [] with
  | Ok nm => '(nms, r) <- load_loop f line t ;; Ok (nm :: nms, r)
  | Err r => Ok ([], r) | UB x => UB x | NoFuel => NoFuel
  end.

(** One turn on a line that fits with its newline. *)
Lemma turn_line : forall f line l t, zlen line = 1280 -> zlen l <= 1278 -> ~ In 10 l -> Forall (fun c => c <> 0) l ->
  (skipped l \/ dangling l = false) ->
  exists line', zlen line' = 1280 /\
    load_loop (S f) line (l ++ 10 :: t) = if skipb l then load_loop f line' t else turn f l line' t.
Proof.
  intros f line l t HL LL N NZ D. cbn [load_loop]. unfold fgets.
  assert (EL : length line = 1280%nat) by (unfold zlen in HL; lia).
  rewrite (fgets_take_line l t) by (auto; unfold zlen in LL; lia).
  assert (G : match l ++ 10 :: t with
    | [] => Ok None
    | _ :: _ => line' <- blit line 0 ((l ++ [10]) ++ [0]) ;; Ok (Some (line', t)) end
    = (line' <- blit line 0 ((l ++ [10]) ++ [0]) ;; Ok (Some (line', t)))) by (destruct l; reflexivity).
  rewrite G. clear G. rewrite blit_start by (rewrite !zlen_app; change (zlen [10]) with 1; change (zlen [0]) with 1; lia).
  cbn [bind].
  assert (EL2 : ((l ++ [10]) ++ [0]) ++ skipn (length ((l ++ [10]) ++ [0])) line =
    l ++ 10 :: 0 :: skipn (length ((l ++ [10]) ++ [0])) line).
  { rewrite <- !app_assoc. reflexivity. }
  assert (SL : zlen (skipn (length ((l ++ [10]) ++ [0])) line) = 1278 - zlen l).
  { unfold zlen in *. rewrite skipn_length, !app_length. cbn [length]. lia. }
  rewrite EL2. set (J := skipn _ line) in *. clearbody J. clear EL2.
  destruct (skipb l) eqn:SB.
  - exists (l ++ 10 :: 0 :: J). split; [rewrite zlen_app, !zlen_cons; lia|].
    destruct l as [|c l]; cbn [app].
    + reflexivity.
    + cbn [rd Z.ltb Z.compare Z.to_nat nth_error bind]. cbn [skipb] in SB.
      replace ((c =? 10) || (c =? 32) || (c =? 35)) with true by lia. reflexivity.
  - exists (l ++ 0 :: 0 :: J). split; [rewrite zlen_app, !zlen_cons; lia|].
    destruct l as [|c0 l0]; [discriminate|]. set (l := c0 :: l0) in *.
    assert (R0 : rd (l ++ 10 :: 0 :: J) 0 = Ok c0) by reflexivity. rewrite R0. cbn [bind].
    assert (C0 : c0 <> 10) by (intros ->; apply N; left; reflexivity).
    cbn [skipb] in SB. subst l. cbn [skipb] in SB.
    replace ((c0 =? 10) || (c0 =? 32) || (c0 =? 35)) with false by lia.
    set (l := c0 :: l0) in *.
    assert (E1 : c_strlen (l ++ 10 :: 0 :: J) = Ok (zlen l + 1)).
    { replace (l ++ 10 :: 0 :: J) with ((l ++ [10]) ++ 0 :: J) by (rewrite <- app_assoc; reflexivity).
      rewrite c_strlen_app. { rewrite zlen_app. reflexivity. } apply Forall_app. split; [auto|apply Forall_cons; [lia|constructor]]. }
    rewrite E1. cbn [bind]. replace (zlen l + 1 - 1) with (zlen l) by lia.
    rewrite rd_at. cbn [bind]. change (10 =? 10) with true. cbv iota. rewrite blit_one. cbn [bind].
    rewrite c_strlen_app by auto. cbn [bind]. rewrite firstn_zlen_app.
    rewrite str_to_name_after; [reflexivity|].
    destruct D as [D|D]; auto. apply skipb_iff in D. unfold l in D. cbn [skipb] in D. lia.
Qed.

(** One turn on a text without newline, or on the first 1279 octets of a line. *)
Lemma turn_chunk : forall f line l t, zlen line = 1280 -> zlen l <= 1279 -> l <> [] -> ~ In 10 l -> Forall (fun c => c <> 0) l ->
  (skipped l \/ dangling l = false) -> (t = [] \/ zlen l = 1279) ->
  exists line', zlen line' = 1280 /\
    load_loop (S f) line (l ++ t) = if skipb l then load_loop f line' t else turn f l line' t.
Proof.
  intros f line l t HL LL NE N NZ D T. cbn [load_loop]. unfold fgets.
  assert (EL : length line = 1280%nat) by (unfold zlen in HL; lia).
  assert (FT : fgets_take (length line - 1) (l ++ t) = (l, t)).
  { destruct T as [->|T].
    - rewrite app_nil_r. apply fgets_take_last; auto. unfold zlen in LL. lia.
    - replace (length line - 1)%nat with (length l) by (unfold zlen in T; lia). apply fgets_take_full. auto. }
  rewrite FT.
  assert (G : match l ++ t with
    | [] => Ok None
    | _ :: _ => line' <- blit line 0 (l ++ [0]) ;; Ok (Some (line', t)) end
    = (line' <- blit line 0 (l ++ [0]) ;; Ok (Some (line', t)))) by (destruct l; [congruence|reflexivity]).
  rewrite G. clear G. rewrite blit_start by (rewrite !zlen_app; change (zlen [0]) with 1; lia).
  cbn [bind].
  assert (EL2 : (l ++ [0]) ++ skipn (length (l ++ [0])) line = l ++ 0 :: skipn (length (l ++ [0])) line).
  { rewrite <- !app_assoc. reflexivity. }
  assert (SL : zlen (skipn (length (l ++ [0])) line) = 1279 - zlen l).
  { unfold zlen in *. rewrite skipn_length, !app_length. cbn [length]. lia. }
  rewrite EL2. set (J := skipn _ line) in *. clearbody J. clear EL2.
  exists (l ++ 0 :: J). split; [rewrite zlen_app, !zlen_cons; lia|].
  destruct l as [|c0 l0]; [congruence|]. set (l := c0 :: l0) in *.
  assert (R0 : rd (l ++ 0 :: J) 0 = Ok c0) by reflexivity. rewrite R0. cbn [bind].
  assert (C0 : c0 <> 10) by (intros ->; apply N; left; reflexivity).
  destruct (skipb l) eqn:SB.
  - unfold l in SB. cbn [skipb] in SB. replace ((c0 =? 10) || (c0 =? 32) || (c0 =? 35)) with true by lia. reflexivity.
  - assert (SB' := SB). unfold l in SB'. cbn [skipb] in SB'.
    replace ((c0 =? 10) || (c0 =? 32) || (c0 =? 35)) with false by lia.
    rewrite c_strlen_app by auto. cbn [bind].
    assert (LAST : exists l1 b, l = l1 ++ [b]). { destruct (exists_last NE) as (l1 & b & E). exists l1, b. exact E. }
    destruct LAST as (l1 & b & E).
    assert (Q : rd (l ++ 0 :: J) (zlen l - 1) = Ok b).
    { rewrite E, zlen_app, <- app_assoc. change (zlen [b]) with 1. replace (zlen l1 + 1 - 1) with (zlen l1) by lia. apply rd_at. }
    rewrite Q. cbn [bind].
    assert (B : b <> 10). { intros ->. apply N. rewrite E. apply in_or_app. right. left. reflexivity. }
    replace (b =? 10) with false by lia. cbn [bind]. rewrite c_strlen_app by auto. cbn [bind].
    rewrite firstn_zlen_app. rewrite str_to_name_after; [reflexivity|].
    destruct D as [D|D]; auto. apply skipb_iff in D. congruence.
Qed.

Lemma name_cases : forall l, SpecName.c_string l -> dangling l = false ->
  (exists nm, str_to_name l [] = Ok nm) \/ (exists e, str_to_name l [] = Err e).
Proof.
  intros l C D. pose proof (str_to_name_gen_sound true l [] C D) as K. unfold str_to_name.
  destruct (str_to_name_gen true l []) as [nm|r|u|]; eauto; contradiction.
Qed.

Lemma load_lines : forall t ls, lines_of t ls -> Forall (fun l => SpecName.c_string l /\ zlen l <= 1279 /\ (skipped l \/ dangling l = false)) ls ->
  forall f line, zlen line = 1280 -> (length t < f)%nat ->
  exists ns r, load_loop f line t = Ok (ns, r) /\ loads ls ns r.
Proof.
  intros t ls LO. induction LO as [|t NE N|l t ls N LO IH]; intros FA f line HL F.
  - destruct f as [|f]; [lia|]. exists [], res_success. split; [reflexivity|constructor].
  - destruct f as [|f]; [lia|]. inversion FA as [|x y (C & LL & D) FA2]; subst.
    assert (NZ : Forall (fun c => c <> 0) t). { eapply Forall_impl; [|exact C]. intros. cbv beta in *. lia. }
    destruct (turn_chunk f line t [] HL LL NE N NZ D (or_introl eq_refl)) as (line' & HL' & E). rewrite app_nil_r in E. rewrite E.
    assert (F' : (1 <= f)%nat). { destruct t; [congruence|]. cbn [length] in F. lia. }
    assert (EE : load_loop f line' [] = Ok ([], res_success)). { destruct f; [lia|reflexivity]. }
    destruct (skipb t) eqn:SB.
    + exists [], res_success. split; auto. apply ld_skip; [apply skipb_iff; auto|constructor].
    + assert (NS : ~ skipped t) by (intros X; apply skipb_iff in X; congruence).
      destruct D as [D|D]; [contradiction|]. unfold turn.
      destruct (name_cases t C D) as [(nm & Q)|(e & Q)]; rewrite Q.
      * rewrite EE. cbn [bind]. exists [nm], res_success. split; auto. apply ld_name; auto. constructor.
      * exists [], e. split; auto. apply ld_bad; auto.
  - rewrite app_length in F. cbn [length] in F. inversion FA as [|x y (C & LL & D) FA2]; subst.
    assert (NZ : Forall (fun c => c <> 0) l). { eapply Forall_impl; [|exact C]. intros. cbv beta in *. lia. }
    destruct f as [|f]; [lia|].
    assert (STEP : exists f' line', (length t < f')%nat /\ zlen line' = 1280 /\
      (load_loop (S f) line (l ++ 10 :: t) = if skipb l then load_loop f' line' t else turn f' l line' t)).
    { destruct (Z_le_gt_dec (zlen l) 1278) as [G|G].
      - destruct (turn_line f line l t HL G N NZ D) as (line' & HL' & E). exists f, line'. split; [lia|auto].
      - assert (Q : zlen l = 1279) by lia.
        assert (NE : l <> []) by (intros ->; change (zlen (@nil Z)) with 0 in Q; lia).
        destruct (turn_chunk f line l (10 :: t) HL LL NE N NZ D (or_intror Q)) as (line' & HL' & E).
        assert (1 < length l)%nat by (unfold zlen in Q; lia). destruct f as [|f]; [lia|].
        destruct (turn_line f line' [] t HL') as (line2 & HL2 & E2);
          [change (zlen (@nil Z)) with 0; lia|auto|constructor|left; left; reflexivity|].
        cbn [app skipb] in E2.
        exists f, line2. split; [lia|]. split; [auto|]. rewrite E. unfold turn. rewrite E2. reflexivity. }
    destruct STEP as (f' & line' & F' & HL' & E). rewrite E. clear E.
    destruct (skipb l) eqn:SB.
    + destruct (IH FA2 f' line' HL' F') as (ns & r & E & LD). exists ns, r. split; auto. apply ld_skip; auto. apply skipb_iff. auto.
    + assert (NS : ~ skipped l) by (intros X; apply skipb_iff in X; congruence).
      destruct D as [D|D]; [contradiction|]. unfold turn.
      destruct (name_cases l C D) as [(nm & Q)|(e & Q)]; rewrite Q.
      * destruct (IH FA2 f' line' HL' F') as (ns & r & E & LD). rewrite E. cbn [bind].
        exists (nm :: ns), r. split; auto. apply ld_name; auto.
      * exists [], e. split; auto. apply ld_bad; auto.
Qed.

Lemma lines_exist : forall t, exists ls, lines_of t ls.
Proof.
  assert (G : forall n t, (length t <= n)%nat -> exists ls, lines_of t ls).
  { induction n as [|n IH]; intros t L.
    - destruct t; [|cbn in L; lia]. exists []. constructor.
    - destruct t as [|c t]; [exists []; constructor|].
      destruct (in_dec Z.eq_dec 10 (c :: t)) as [I|I].
      + assert (S : exists l r, c :: t = l ++ 10 :: r /\ ~ In 10 l).
        { clear L IH. revert I. generalize (c :: t). clear. induction l as [|a l IH]; intros I; [destruct I|].
          destruct (Z.eq_dec a 10) as [->|A].
          - exists [], l. split; auto.
          - destruct I as [I|I]; [congruence|]. destruct (IH I) as (x & y & E & F). exists (a :: x), y. split.
            + cbn [app]. congruence.
            + intros [X|X]; auto. }
        destruct S as (l & r & E & F). assert (length r <= n)%nat.
        { assert (X : length (c :: t) = length (l ++ 10 :: r)) by congruence. rewrite app_length in X. cbn [length] in X, L. lia. }
        destruct (IH r H) as (ls & LO). exists (l :: ls). rewrite E. constructor; auto.
      + exists [c :: t]. constructor; auto. discriminate. }
  intros t. apply (G (length t)). lia.
Qed.

Lemma lines_det : forall t l1, lines_of t l1 -> forall l2, lines_of t l2 -> l1 = l2.
Proof.
  assert (SPLIT : forall (a b : bytes) x y, ~ In 10 a -> ~ In 10 b -> a ++ 10 :: x = b ++ 10 :: y -> a = b /\ x = y).
  { induction a as [|c a IH]; intros [|d b] x y A B E; cbn [app] in E.
    - injection E. auto.
    - injection E as <- _. exfalso. apply B. left. auto.
    - injection E as -> _. exfalso. apply A. left. auto.
    - injection E as -> E. destruct (IH b x y) as (-> & ->); auto.
      + intros X. apply A. right. auto.
      + intros X. apply B. right. auto. }
  intros t l1 L1. induction L1 as [|t NE N|l t ls N LO IH]; intros l2 L2.
  - inversion L2; subst; auto; try congruence. destruct l; discriminate.
  - inversion L2; subst; auto; try congruence. exfalso. apply N. apply in_or_app. right. left. reflexivity.
  - inversion L2 as [E|? ? N2|l' t' ls' N2 LO2 E]; subst.
    + destruct l; discriminate.
    + exfalso. apply N2. apply in_or_app. right. left. reflexivity.
    + apply SPLIT in E as (-> & ->); auto. f_equal. apply IH. auto.
Qed.

Lemma loads_det : forall ls n1 r1, loads ls n1 r1 -> forall n2 r2, loads ls n2 r2 -> n1 = n2 /\ r1 = r2.
Proof.
  intros ls n1 r1 L. induction L; intros n2 r2 L2; inversion L2; subst; auto; try contradiction; try congruence.
  - match goal with H : loads ls _ _ |- _ => apply IHL in H as (-> & ->) end. split; congruence.
  - split; congruence.
Qed.
