(** PropArgvXor.v: options of which one must be used (libmy/argv.c, C164). *)
From Verif Require Import Base Lib SpecArgvOr SpecArgvXor ModelArgvXor.

Definition starts (s : list entry) : Prop := match s with [] => False | e :: _ => is_xor e = false end.
Lemma not_xor : forall e, e_kind e <> EXor -> is_xor e = false.
Proof. intros e H. unfold is_xor. destruct (e_kind e) eqn:E; congruence. Qed.
Lemma joined_cons : forall e g, g <> [] -> joined (e :: g) = e :: xor_entry :: joined g.
Proof. intros e [|f g] N; [congruence|reflexivity]. Qed.
Lemma run_ok : forall g ok p t, g <> [] -> Forall (fun e => e_kind e <> EXor /\ e_kind e <> ELast) g -> starts t ->
  xor_loop (Some ok) p (joined g ++ t) = if ok || existsb e_used g then xor_loop None (Some (last g xor_entry)) t else Ok true.
Proof.
  induction g as [|e g IH]; intros ok p t N F S; [congruence|]. inversion F as [|? ? [K1 K2] F']; subst. destruct g as [|f g].
  - cbn [joined app existsb last xor_loop]. destruct t as [|n t]; [contradiction|]. cbn [starts] in S. rewrite S, orb_false_r. reflexivity.
  - assert (G : f :: g <> []) by discriminate. rewrite joined_cons by exact G. cbn [app]. change (xor_loop (Some ok) p (e :: xor_entry :: joined (f :: g) ++ t)) with (xor_loop (Some (ok || e_used e)) (Some xor_entry) (joined (f :: g) ++ t)).
    rewrite IH by assumption. change (last (e :: f :: g) xor_entry) with (last (f :: g) xor_entry). cbn [existsb]. rewrite !orb_assoc. reflexivity.
Qed.
Definition bad (g : list entry) : bool := (2 <=? length g)%nat && negb (existsb e_used g).
Lemma group_ok : forall g p t, good_group g -> starts t -> exists q, xor_loop None p (joined g ++ t) = if bad g then Ok true else xor_loop None q t.
Proof.
  intros g p t [N F] S. destruct g as [|e g]; [congruence|]. inversion F as [|? ? [K1 K2] F']; subst.
  assert (OUT : forall p r, xor_loop None p (e :: r) = xor_loop None (Some e) r) by (intros; cbn [xor_loop]; destruct (e_kind e); congruence).
  destruct g as [|f g].
  - exists (Some e). cbn [joined app]. rewrite OUT. reflexivity.
  - assert (G : f :: g <> []) by discriminate. rewrite joined_cons by exact G. cbn [app]. rewrite OUT. change (xor_loop None (Some e) (xor_entry :: joined (f :: g) ++ t)) with (xor_loop (Some (e_used e)) (Some xor_entry) (joined (f :: g) ++ t)).
    rewrite run_ok by assumption. exists (Some (last (f :: g) xor_entry)). unfold bad. change ((2 <=? length (e :: f :: g))%nat) with true. cbn [andb existsb]. destruct (e_used e || (e_used f || existsb e_used g)); reflexivity.
Qed.
Lemma table_starts : forall gs, Forall good_group gs -> starts (table gs).
Proof.
  intros [|[|e g] gs] F; [reflexivity|inversion F as [|? ? [N _] _]; congruence|]. inversion F as [|? ? [_ G] _]; subst. inversion G as [|? ? [K _] _]; subst. unfold table. destruct g; cbn [map joined concat app starts]; apply not_xor; exact K.
Qed.
Lemma loop_ok : forall gs p, Forall good_group gs -> xor_loop None p (table gs) = Ok (existsb bad gs).
Proof.
  induction gs as [|g gs IH]; intros p F; [reflexivity|]. inversion F as [|? ? G F']; subst. unfold table. cbn [map concat]. rewrite <- app_assoc. destruct (group_ok g p (table gs) G (table_starts gs F')) as (q & E). unfold table in E at 1. rewrite E. cbn [existsb].
  destruct (bad g); [reflexivity|]. rewrite IH by exact F'. reflexivity.
Qed.
Lemma bad_iff : forall g, bad g = true <-> unused_group g.
Proof.
  intros g. unfold bad, unused_group. rewrite andb_true_iff, Nat.leb_le, negb_true_iff. assert (existsb e_used g = false <-> Forall (fun e => e_used e = false) g) as ->; [|reflexivity].
  induction g as [|e g IH]; cbn [existsb]; [split; auto|]. rewrite orb_false_iff, IH. split; [intros [A B]; constructor; assumption|intros H; inversion H; auto].
Qed.
(** ** C164: check_xor reports an error exactly if a group of two or more options joined by ARGV_XOR has none that is used *)
Theorem C164_groups : forall gs, Forall good_group gs -> exists b, check_xor (table gs) = Ok b /\ (b = true <-> exists g, In g gs /\ unused_group g).
Proof.
  intros gs F. exists (existsb bad gs). split; [apply loop_ok; exact F|]. rewrite existsb_exists. split; intros (g & I & H); exists g; (split; [exact I|]); apply bad_iff; exact H.
Qed.
Print Assumptions C164_groups.
Example C164_ex :
  let opt u := {| e_kind := EOpt; e_used := u |} in
  check_xor (table [[opt false]; [opt false; opt true; opt false]; [opt true]]) = Ok false /\ check_xor (table [[opt true]; [opt false; opt false]]) = Ok true.
Proof. split; reflexivity. Qed.
