(** Proofs about bytecode: every accepted body keeps within the operand stack. *)
From Verif Require Import Base VmModel VmSpec.
Definition K31 := 2147483648.

Lemma exec_eff : forall op w k j th ws rest o h pk, effect op = Some (w, k, j, th) -> length ws = w -> (w <= 2)%nat -> k <= h ->
  exec (op :: ws ++ rest) o h pk = (if th && (choice o =? 1) then Ok (Thrown, h - k, pk) else exec rest (tl o) (h - k + j) (if pk <? h - k + j then h - k + j else pk)).
Proof.
  intros op w k j th ws rest o h pk E L Hw Hk. cbn [exec]. rewrite E. unfold popush. destruct (Z.ltb_spec h k); [lia|]. cbn [bind].
  destruct (th && (choice o =? 1)); [reflexivity|].
  destruct ws as [|a [|b [|c ws]]]; cbn [length] in L; subst w; cbn [app]; try reflexivity. lia.
Qed.

Definition good (r : res (outcome * Z * Z)) (bound : Z) : Prop :=
  exists out left peak, r = Ok (out, left, peak) /\ 0 <= left /\ (out = Returned -> left = 0) /\ peak <= bound.

Lemma good_mono : forall r b b', good r b -> b <= b' -> good r b'.
Proof. intros r b b' (o & l & p & E & H1 & H2 & H3) H. exists o, l, p. repeat split; auto; lia. Qed.

Lemma good_eff : forall op w k j th ws rest o h pk bound, effect op = Some (w, k, j, th) -> length ws = w -> (w <= 2)%nat -> k <= h -> pk <= bound ->
  good (exec rest (tl o) (h - k + j) (if pk <? h - k + j then h - k + j else pk)) bound ->
  good (exec (op :: ws ++ rest) o h pk) bound.
Proof.
  intros op w k j th ws rest o h pk bound E L Hw Hk Hp G. rewrite (exec_eff op w k j th) by assumption.
  destruct (th && (choice o =? 1)); [|exact G]. exists Thrown, (h - k), pk. repeat split; try lia. discriminate.
Qed.

(* the prologue *)
Lemma good_prologue : forall used i vam rest o pk bound, 2 <= bound -> 0 <= pk <= bound ->
  (forall o' pk', 0 <= pk' <= bound -> good (exec rest o' 0 pk') bound) ->
  good (exec (prologue used i vam ++ rest) o 0 pk) bound.
Proof.
  induction used as [|b t IH]; intros i vam rest o pk bound Hb Hp G.
  - cbn [prologue app]. apply G. exact Hp.
  - cbn [prologue]. rewrite <- app_assoc. destruct b.
    2: { cbn [app]. apply IH; assumption. }
    change ([VARO; 0; i; VARM; 0; vam + i; SETN; POPS] ++ prologue t (i + 1) vam ++ rest)
      with (VARO :: [0; i] ++ (VARM :: [0; vam + i] ++ (SETN :: [] ++ (POPS :: [] ++ (prologue t (i + 1) vam ++ rest))))).
    eapply good_eff; [reflexivity|reflexivity|lia|lia|lia|].
    eapply good_eff; [reflexivity|reflexivity|lia|lia|destruct (Z.ltb_spec pk (0 - 0 + 1)); lia|].
    eapply good_eff; [reflexivity|reflexivity|lia|lia| |].
    { destruct (Z.ltb_spec pk (0 - 0 + 1)); [destruct (Z.ltb_spec (0 - 0 + 1) (0 - 0 + 1 - 0 + 1)); lia|destruct (Z.ltb_spec pk (0 - 0 + 1 - 0 + 1)); lia]. }
    change (0 - 0 + 1 - 0 + 1 - 2 + 1) with 1. change (0 - 0 + 1 - 0 + 1) with 2. change (0 - 0 + 1) with 1.
    match goal with |- good (exec _ _ _ ?q) _ => assert (Hq : 0 <= q <= bound) by
      (repeat match goal with |- context [if ?a <? ?b then _ else _] => destruct (Z.ltb_spec a b) end; lia) end.
    eapply good_eff; [reflexivity|reflexivity|lia|lia|lia|].
    change (1 - 1 + 0) with 0. apply IH; auto.
    match goal with |- 0 <= (if ?a <? ?b then _ else _) <= _ => destruct (Z.ltb_spec a b) end; lia.
Qed.

(* lists *)
Lemma good_list : forall op sz rest o h pk bound, is_list op = true -> effect op = None -> 0 <= h -> sz <= h -> pk <= bound ->
  good (exec rest (tl o) (h - sz + 1) (if pk <? h - sz + 1 then h - sz + 1 else pk)) bound ->
  good (exec (op :: sz :: rest) o h pk) bound.
Proof.
  intros op sz rest o h pk bound Hl He H0 Hk Hp G. cbn [exec]. rewrite He, Hl. destruct (choice o =? 1).
  - exists Thrown, h, pk. repeat split; try lia. discriminate.
  - unfold popush. destruct (Z.ltb_spec h sz); [lia|]. exact G.
Qed.

Ltac inv1 H := match type of H with
  | (do _ <- ?a; _) = Ok _ => let E := fresh "E" in let r := fresh "r0" in destruct a as [r| |] eqn:E; cbn [bind] in H; try discriminate H
  end.

Lemma rd_some : forall (l : list Z) i v, nth_error l i = Some v -> rd l i = Ok v.
Proof. intros l i v H. unfold rd. rewrite H. reflexivity. Qed.
Lemma rd_nth : forall (l : list Z) i, (i < length l)%nat -> rd l i = Ok (nth i l 0).
Proof. intros l i H. unfold rd. rewrite (nth_error_nth' l 0 H). reflexivity. Qed.

Lemma firstn_skipn1 : forall (l : list Z) c x, nth_error l c = Some x -> firstn 1 (skipn c l) = [x].
Proof. induction l as [|y l IH]; intros [|c] x H; cbn in *; try discriminate; [injection H as ->; reflexivity|]. apply IH. exact H. Qed.
Lemma firstn_skipn2 : forall (l : list Z) c x, nth_error l c = Some x -> (c + 1 < length l)%nat -> firstn 2 (skipn c l) = [x; nth (c + 1) l 0].
Proof.
  induction l as [|y l IH]; intros [|c] x H L; cbn [nth_error length skipn] in *; try discriminate.
  - injection H as ->. destruct l; cbn in *; [lia|reflexivity].
  - rewrite (IH c x H) by lia. reflexivity.
Qed.


Ltac comp_in H t := let r := eval vm_compute in t in match r with true => change t with true in H | false => change t with false in H end.
Ltac simpb H := repeat (match type of H with
  | context [?a =? ?b] => comp_in H (a =? b)
  | context [isin ?a ?b] => comp_in H (isin a b)
  | context [is_list ?a] => comp_in H (is_list a)
  end; cbn [andb orb negb] in H; cbv iota in H).

Lemma nextBC_doc : forall bc p op l, nth_error bc p = Some op -> documented (op, l) -> nextBC bc p = Ok (p + 1 + operands op)%nat.
Proof.
  intros bc p op l H [D _]. unfold nextBC. rewrite (rd_some bc p op H). cbn [bind fst] in *. cbn [In] in D.
  repeat match type of D with _ \/ _ => destruct D as [D|D] end; try contradiction; subst op;
    match goal with |- (if ?c then _ else _) = _ => let r := eval vm_compute in c in change c with r end; cbv iota;
    f_equal; rewrite <- Nat.add_assoc; f_equal.
Qed.

Definition consumed (op a : Z) : Z := if is_list op then a else sC_m op.
Definition change_ (op a : Z) : Z := if is_list op then 1 - a else sD_m op.

Lemma stack_doc : forall bc p op a, nth_error bc p = Some op -> documented (op, a) -> (p + operands op < length bc)%nat ->
  a = (if (operands op =? 0)%nat then 0 else nth (p + 1) bc 0) ->
  stackConsumed bc p = Ok (consumed op a) /\ stackDiff bc p = Ok (change_ op a).
Proof.
  intros bc p op a H [D B] L Ea. unfold stackConsumed, stackDiff, consumed, change_. rewrite (rd_some bc p op H). cbn [bind fst snd] in *.
  destruct (is_list op) eqn:El; [|auto].
  assert (I : In op [LSTO; LSTM; ARMO; ARMM]).
  { unfold is_list, isin in El. apply existsb_exists in El. destruct El as (x & Hx & Ex). apply Z.eqb_eq in Ex. subst x. exact Hx. }
  specialize (B I). assert (Eo : operands op = 1%nat) by (cbn [In] in I; repeat match type of I with _ \/ _ => destruct I as [I|I] end; try contradiction; subst op; reflexivity).
  rewrite Eo in L, Ea. cbn [Nat.eqb] in Ea. rewrite rd_nth by lia. rewrite <- Ea. cbn [bind]. unfold to_i32.
  change (2 ^ 31) with 2147483648 in *. change (2 ^ 32) with 4294967296. split; f_equal; lia.
Qed.

(** The words emitted for an instruction that does not end the body run like the instruction. *)
Definition runs_like (op a h : Z) (ws : list Z) : Prop :=
  forall rest o pk bound, pk <= bound -> h + change_ op a <= bound -> (forall o' pk', 0 <= pk' <= bound -> good (exec rest o' (h + change_ op a) pk') bound) -> 0 <= pk ->
  good (exec (ws ++ rest) o h pk) bound.

Lemma runs_eff : forall op o1 a h w k j th ws, effect o1 = Some (w, k, j, th) -> length ws = w -> (w <= 2)%nat ->
  k <= h -> change_ op a = j - k -> runs_like op a h (o1 :: ws).
Proof.
  intros op o1 a h w k j th ws E L Hw Hk Hc rest o pk bound Hp Hb G H0. cbn [app]. eapply good_eff; eauto.
  replace (h - k + j) with (h + change_ op a) by lia. apply G. destruct (Z.ltb_spec pk (h + change_ op a)); lia.
Qed.
Lemma runs_list : forall op a h, is_list op = true -> effect op = None -> 0 <= h -> a <= h -> runs_like op a h [op; a].
Proof.
  intros op a h E E' H Ha rest o pk bound Hp Hb G H0. cbn [app]. apply good_list; auto.
  assert (Ec : change_ op a = 1 - a) by (unfold change_; rewrite E; reflexivity). rewrite Ec in *.
  replace (h - a + 1) with (h + (1 - a)) by lia. apply G. destruct (Z.ltb_spec pk (h + (1 - a))); lia.
Qed.
Lemma runs_jump : forall op o1 a h k ws, (o1 = SETH1 \/ o1 = PRED1) /\ length ws = 2%nat \/ (o1 = SETH2 \/ o1 = PRED2) /\ length ws = 4%nat ->
  k = (if isin o1 [SETH1; SETH2] then 2 else 1) -> k <= h -> change_ op a = - k -> runs_like op a h (o1 :: ws).
Proof.
  intros op o1 a h k ws Hws Ek Hk Hc rest o pk bound Hp Hb G H0. cbn [app exec].
  assert (Ee : effect o1 = None) by (destruct Hws as [[[-> | ->] _]|[[-> | ->] _]]; reflexivity). rewrite Ee.
  assert (El : is_list o1 = false) by (destruct Hws as [[[-> | ->] _]|[[-> | ->] _]]; reflexivity). rewrite El.
  assert (Ej : isin o1 [SETH1; SETH2; PRED1; PRED2] = true) by (destruct Hws as [[[-> | ->] _]|[[-> | ->] _]]; reflexivity). rewrite Ej.
  rewrite <- Ek. unfold popush. destruct (Z.ltb_spec h k); [lia|]. cbn [bind]. replace (h - k + 0) with (h + change_ op a) by lia.
  destruct (choice o =? 1). { exists Thrown, (h + change_ op a), pk. repeat split; try lia. discriminate. }
  destruct Hws as [[Ho L]|[Ho L]].
  - destruct ws as [|x [|y [|]]]; cbn [length] in L; try lia. cbn [app].
    assert (E1 : isin o1 [SETH1; PRED1] = true) by (destruct Ho as [-> | ->]; reflexivity). rewrite E1.
    destruct (choice o =? 2); [exists NextBody, (h + change_ op a), pk; repeat split; try lia; discriminate|]. apply G. lia.
  - destruct ws as [|x [|y [|z [|w [|]]]]]; cbn [length] in L; try lia. cbn [app].
    assert (E1 : isin o1 [SETH1; PRED1] = false) by (destruct Ho as [-> | ->]; reflexivity). rewrite E1.
    destruct (choice o =? 2); [exists NextBody, (h + change_ op a), pk; repeat split; try lia; discriminate|]. apply G. lia.
Qed.
Lemma runs_chkv : forall a h, 1 <= h -> runs_like CHKV a h [CHKV].
Proof.
  intros a h H rest o pk bound Hp Hb G H0. change (change_ CHKV a) with 0 in *. rewrite Z.add_0_r in *. cbn [app exec].
  match goal with |- context [effect CHKV] => change (effect CHKV) with (@None (nat * Z * Z * bool)) end. cbv iota.
  change (is_list CHKV) with false. change (isin CHKV [SETH1; SETH2; PRED1; PRED2]) with false. change (CHKV =? CHKV) with true. cbv iota.
  destruct (Z.ltb_spec h 1); [lia|]. destruct (choice o =? 1). { exists Thrown, h, pk. repeat split; try lia. discriminate. }
  apply G. lia.
Qed.

Lemma comp_var_ins : forall e remap ins d p i d' p', comp_var e remap ins d p = Ok (i, d', p') -> In i [ins; EXTO; EXTM].
Proof.
  intros e remap ins d p i d' p' H. unfold comp_var in H. cbn [In]. inv1 H. destruct r0 as [i0 c0]. injection H as H1 H2 H3. subst i.
  destruct (scope e) as [scs|]; [|injection E as E1 E2; auto]. destruct (depth e <=? d); [|injection E as E1 E2; auto].
  destruct (nth_error scs (Z.to_nat (d - depth e))); [|discriminate]. destruct (z <=? p); injection E as E1 E2; [|auto]. rewrite <- E1.
  destruct (ins =? VARO); [auto|]. destruct (ins =? VARM); auto.
Qed.

Lemma trans_doc : forall e remap bc p op a h ws ret, nth_error bc p = Some op -> documented (op, a) -> op <> RETN -> op <> RETD ->
  (p + operands op < length bc)%nat -> a = (if (operands op =? 0)%nat then 0 else nth (p + 1) bc 0) ->
  trans e remap bc p (p + 1 + operands op) h = Ok (ws, ret) -> 0 <= h - consumed op a -> 0 <= h -> (op = CHKV -> 1 <= h) ->
  ret = false /\ runs_like op a h ws.
Proof.
  intros e remap bc p op a h ws ret H D N1 N2 L Ea T Hk H0 Hc. unfold trans in T. rewrite (rd_some bc p op H) in T. cbn [bind] in T.
  pose proof D as D'. destruct D as [D B]. cbn [fst In] in D.
  repeat match type of D with _ \/ _ => destruct D as [D|D] end; try contradiction; subst op; try (contradiction N1; reflexivity); try (contradiction N2; reflexivity);
    simpb T;
    match type of L with context [operands ?o] => let r := eval vm_compute in (operands o) in change (operands o) with r in * end; cbn [Nat.eqb] in Ea;
    try (rewrite (rd_nth bc (p + 1)) in T by lia; rewrite <- Ea in T; cbn [bind] in T);
    try (match type of T with (if ?x <? ?y then UB else _) = _ => destruct (Z.ltb_spec x y); [lia|] end;
         match type of T with context [firstn ?n _] => first [replace n with 1%nat in T by lia; rewrite (firstn_skipn1 _ _ _ H) in T | replace n with 2%nat in T by lia; rewrite (firstn_skipn2 _ _ _ H) in T by lia; rewrite <- Ea in T] end;
         injection T as T1 T2; subst ws ret; split; [reflexivity|];
         first [ apply runs_list; [reflexivity|reflexivity|exact H0|cbv [consumed] in Hk; match type of Hk with context [is_list ?o] => change (is_list o) with true in Hk end; lia]
               | apply runs_chkv; apply Hc; reflexivity
               | match type of Hk with context [consumed ?o ?b] => let r := eval vm_compute in (sC_m o) in change (consumed o b) with r in Hk end;
                 eapply runs_eff; [reflexivity|reflexivity|lia|lia|reflexivity] ]; fail).
  - inv1 T. destruct r0 as [[v lo] hi]. injection T as T1 T2. subst ws ret. split; [reflexivity|]. destruct v; (eapply runs_eff; [reflexivity|reflexivity|lia|lia|reflexivity]).
  - inv1 T. destruct r0 as [[t lo] hi]. injection T as T1 T2. subst ws ret. split; [reflexivity|].
    destruct (t =? 0); [|destruct (t =? 1)]; (eapply runs_eff; [reflexivity|reflexivity|lia|lia|reflexivity]).
  - injection T as T1 T2. subst ws ret. split; [reflexivity|]. destruct (Z.eqb_spec a 0) as [Ez|Ez].
    + rewrite Ez. eapply runs_eff; [reflexivity|reflexivity|lia|lia|reflexivity].
    + apply runs_list; [reflexivity|reflexivity|exact H0|]. change (consumed ARMM a) with a in Hk. lia.
  - inv1 T. injection T as T1 T2. subst ws ret. split; [reflexivity|]. change (consumed FLDO a) with 1 in Hk. eapply runs_eff; [reflexivity|reflexivity|lia|lia|reflexivity].
  - inv1 T. injection T as T1 T2. subst ws ret. split; [reflexivity|]. change (consumed ALIM a) with 1 in Hk. eapply runs_eff; [reflexivity|reflexivity|lia|lia|reflexivity].
  - rewrite rd_nth in T by lia. cbn [bind] in T. inv1 T. destruct r0 as [[i d] q]. injection T as T1 T2. subst ws ret. split; [reflexivity|].
    apply comp_var_ins in E. cbn [In] in E. destruct E as [<-|[<-|[<-|[]]]]; (eapply runs_eff; [reflexivity|reflexivity|lia|lia|reflexivity]).
  - rewrite rd_nth in T by lia. cbn [bind] in T. inv1 T. destruct r0 as [[i d] q]. injection T as T1 T2. subst ws ret. split; [reflexivity|].
    apply comp_var_ins in E. cbn [In] in E. destruct E as [<-|[<-|[<-|[]]]]; (eapply runs_eff; [reflexivity|reflexivity|lia|lia|reflexivity]).
  - rewrite rd_nth in T by lia. cbn [bind] in T. inv1 T. destruct r0 as [[i d] q]. injection T as T1 T2. subst ws ret. split; [reflexivity|].
    apply comp_var_ins in E. cbn [In] in E. destruct E as [<-|[<-|[<-|[]]]]; (eapply runs_eff; [reflexivity|reflexivity|lia|lia|reflexivity]).
  - change (consumed PRED a) with 1 in Hk. destruct (h =? 1); [|discriminate]. cbn [negb] in T. injection T as T1 T2. subst ws ret. split; [reflexivity|].
    eapply (runs_jump _ _ _ _ 1); [destruct (imm e); [left|right]; (split; [right; reflexivity|reflexivity])|destruct (imm e); reflexivity|lia|reflexivity].
  - injection T as T1 T2. subst ws ret. split; [reflexivity|]. eapply runs_eff; [reflexivity|reflexivity|lia|lia|reflexivity].
  - change (consumed SETH a) with 2 in Hk. injection T as T1 T2. subst ws ret. split; [reflexivity|].
    eapply (runs_jump _ _ _ _ 2); [destruct (imm e); [left|right]; (split; [left; reflexivity|reflexivity])|destruct (imm e); reflexivity|lia|reflexivity].
  all: change (consumed SETM a) with 3 in Hk; idtac.
Qed.

Lemma exec_retn : forall rest o pk bound, pk <= bound -> good (exec (RETN :: rest) o 1 pk) bound.
Proof.
  intros. exists Returned, 0, pk. repeat split; try lia. 
Qed.
Lemma exec_retd : forall rest o pk bound, 1 <= bound -> pk <= bound -> good (exec (RETD :: rest) o 0 pk) bound.
Proof.
  intros rest o pk bound Hb Hp. exists Returned, 0, (if pk <? 1 then 1 else pk). repeat split; try lia. destruct (Z.ltb_spec pk 1); lia.
Qed.

Lemma change_lower : forall op a, documented (op, a) -> 0 <= consumed op a + change_ op a.
Proof.
  intros op a [D B]. cbn [fst snd In] in *.
  repeat match type of D with _ \/ _ => destruct D as [D|D] end; try contradiction; subst op;
    try (match goal with |- context [is_list ?o] => idtac | |- 0 <= ?x => let r := eval vm_compute in (sC_m PUSH) in idtac end);
    unfold consumed, change_; match goal with |- context [is_list ?o] => let r := eval vm_compute in (is_list o) in change (is_list o) with r end; cbv iota; try lia;
    match goal with |- 0 <= sC_m ?o + sD_m ?o => let r := eval vm_compute in (sC_m o + sD_m o) in change (sC_m o + sD_m o) with r end; lia.
Qed.
(* an instruction after which a check is allowed leaves something *)
Lemma leaves_one : forall op a, documented (op, a) -> leaves_none op = false -> op <> RETN -> op <> RETD -> op <> CHKV -> 1 <= consumed op a + change_ op a.
Proof.
  intros op a [D B] Hl N1 N2 N3. cbn [fst snd In] in *.
  repeat match type of D with _ \/ _ => destruct D as [D|D] end; try contradiction; subst op; try (contradiction N1; reflexivity); try (contradiction N2; reflexivity); try (contradiction N3; reflexivity);
    try (vm_compute in Hl; discriminate Hl);
    unfold consumed, change_; match goal with |- context [is_list ?o] => let r := eval vm_compute in (is_list o) in change (is_list o) with r end; cbv iota; try lia;
    match goal with |- 1 <= sC_m ?o + sD_m ?o => let r := eval vm_compute in (sC_m o + sD_m o) in change (sC_m o + sD_m o) with r end; lia.
Qed.

Lemma loop_good : forall bc p l, body_of bc p l -> forall fuel e remap h hM0 code hM prev, comp_loop fuel e remap bc p h hM0 = Ok (code, hM) ->
  Forall documented l -> checks_ok prev l -> (prev = true -> 1 <= h) -> 0 <= h -> h <= hM0 ->
  hM0 <= hM /\ forall bound, hM <= bound -> 1 <= bound -> forall rest o pk, 0 <= pk <= bound -> good (exec (code ++ rest) o h pk) bound.
Proof.
  intros bc p l Hb. induction Hb as [p op H Hr|p op a l H N1 N2 L Ea Hb IH]; intros fuel e remap h hM0 code hM prev C D K Hp H0 HM;
    destruct fuel as [|fuel]; try discriminate C; cbn [comp_loop] in C.
  - assert (Dop : documented (op, 0)) by (inversion D; assumption).
    rewrite (nextBC_doc bc p op 0 H Dop) in C. cbn [bind] in C. unfold trans in C. rewrite (rd_some bc p op H) in C. cbn [bind] in C.
    unfold stackConsumed, stackDiff in C. rewrite (rd_some bc p op H) in C. cbn [bind] in C.
    destruct Hr as [-> | ->]; simpb C.
    + destruct (Z.eqb_spec h 1) as [->|]; [|discriminate]. cbn [negb bind] in C. change (sC_m RETN) with 1 in C. change (sD_m RETN) with (-1) in C. simpb C.
      cbn -[Z.ltb Z.leb] in C. destruct (Z.ltb_spec hM0 0); [lia|]. injection C as <- <-. split; [lia|]. intros bound B1 B2 rest o pk Hpk. cbn [app]. apply exec_retn. lia.
    + change (sC_m RETD) with 0 in C. change (sD_m RETD) with 0 in C.
      destruct (negb (h =? 1) && negb (h =? 0)) eqn:Eh; [discriminate|]. cbn [bind] in C.
      assert (Hh : h = 1 \/ h = 0) by (destruct (Z.eqb_spec h 1); [auto|]; destruct (Z.eqb_spec h 0); [auto|discriminate]).
      destruct (negb (nsResult e =? 0) && (depth e =? 0)).
      * destruct (nsResult e =? -1); [discriminate|]. destruct (Z.eqb_spec h 0); [discriminate|]. destruct Hh as [->|]; [|contradiction].
        cbn [bind] in C. change (1 - 0 <? 0) with false in C. cbv iota in C. change (1 + 0) with 1 in C.
        change ((1 <? - 2 ^ 31) || (2 ^ 31 <=? 1)) with false in C. cbv iota in C. injection C as <- <-.
        split; [destruct (Z.ltb_spec hM0 1); lia|]. intros bound B1 B2 rest o pk Hpk. cbn [app]. apply exec_retn. lia.
      * destruct Hh as [-> | ->].
        -- change (1 - 0 <? 0) with false in C. cbv iota in C. cbn [bind] in C. change (1 + 0) with 1 in C.
           change ((1 <? - 2 ^ 31) || (2 ^ 31 <=? 1)) with false in C. cbv iota in C. injection C as <- <-.
           split; [destruct (Z.ltb_spec hM0 1); lia|]. intros bound B1 B2 rest o pk Hpk. change (1 =? 1) with true. cbv iota.
           change (([POPS] ++ [RETD]) ++ rest) with (POPS :: [] ++ (RETD :: rest)). eapply (good_eff POPS 0 1 0 false [] (RETD :: rest)); [reflexivity|reflexivity|lia|lia|lia|].
           change (1 - 1 + 0) with 0. apply exec_retd; [lia|]. destruct (Z.ltb_spec pk 0); lia.
        -- change (0 - 0 <? 0) with false in C. cbv iota in C. cbn [bind] in C. change (0 + 0) with 0 in C.
           change ((0 <? - 2 ^ 31) || (2 ^ 31 <=? 0)) with false in C. cbv iota in C. injection C as <- <-.
           split; [destruct (Z.ltb_spec hM0 0); lia|]. intros bound B1 B2 rest o pk Hpk. apply exec_retd; lia.
  - assert (Dop : documented (op, a)) by (inversion D; assumption). assert (Dl : Forall documented l) by (inversion D; assumption).
    destruct K as [K1 K2].
    rewrite (nextBC_doc bc p op a H Dop) in C. cbn [bind] in C. inv1 C. destruct r0 as [ws ret].
    destruct (stack_doc bc p op a H Dop L Ea) as [Es Ed]. rewrite Es in C. cbn [bind] in C.
    destruct (Z.ltb_spec (h - consumed op a) 0) as [|Hk]; [discriminate|]. rewrite Ed in C. cbn [bind] in C.
    assert (Hc : op = CHKV -> 1 <= h) by (intro Q; apply Hp, K1, Q).
    destruct (trans_doc e remap bc p op a h ws ret H Dop N1 N2 L Ea E Hk H0 Hc) as [-> R].
    destruct ((h + change_ op a <? - 2 ^ 31) || (2 ^ 31 <=? h + change_ op a)); [discriminate|]. inv1 C. destruct r0 as [rest' hM']. injection C as <- <-.
    set (h' := h + change_ op a) in *. set (m := if hM0 <? h' then h' else hM0) in *.
    assert (Hm : hM0 <= m /\ h' <= m) by (unfold m; destruct (Z.ltb_spec hM0 h'); lia).
    pose proof (change_lower op a Dop) as CL.
    assert (Hp' : negb (leaves_none op) = true -> 1 <= h').
    { intro Q. apply negb_true_iff in Q. destruct (Z.eq_dec op CHKV) as [Ec|Nc].
      - specialize (Hc Ec). unfold h'. rewrite Ec. change (change_ CHKV a) with 0. lia.
      - pose proof (leaves_one op a Dop Q N1 N2 Nc). unfold h'. lia. }
    assert (Q0 : 0 <= h') by (unfold h'; lia).
    destruct (IH fuel e remap h' m rest' hM' (negb (leaves_none op)) E0 Dl K2 Hp' Q0 ltac:(lia)) as [Q1 Q2].
    split; [lia|]. intros bound B1 B2 rest o pk Hpk. rewrite <- app_assoc. apply R; [lia|fold h'; lia| |lia].
    intros o' pk' Hpk'. fold h'. apply Q2; lia.
Qed.

Lemma scan_pred_spec : forall bc p l, body_of bc p l -> Forall documented l -> forall fuel r, scan_pred fuel bc p = Ok r -> r = has_pred l.
Proof.
  intros bc p l Hb. induction Hb as [p op H Hr|p op a l H N1 N2 L Ea Hb IH]; intros D fuel r C; destruct fuel as [|fuel]; try discriminate C; cbn [scan_pred] in C;
    rewrite (rd_some bc p op H) in C; cbn [bind] in C.
  - destruct Hr as [-> | ->]; simpb C; injection C as <-; reflexivity.
  - destruct (Z.eqb_spec op RETN); [contradiction|]. destruct (Z.eqb_spec op RETD); [contradiction|]. cbn [orb] in C. unfold has_pred. cbn [existsb fst].
    destruct (op =? PRED); [injection C as <-; reflexivity|]. cbn [orb].
    assert (Dop : documented (op, a)) by (inversion D; assumption). rewrite (nextBC_doc bc p op a H Dop) in C. cbn [bind] in C.
    match type of C with (if ?c then _ else _) = _ => destruct c end; [discriminate|]. eapply IH; [inversion D; assumption|exact C].
Qed.

(* anything but a lone RETD puts something on the stack *)
Lemma loop_pushes : forall bc p l, body_of bc p l -> forall fuel e remap code hM, comp_loop fuel e remap bc p 0 0 = Ok (code, hM) ->
  Forall documented l -> checks_ok false l -> (2 <= length l)%nat -> 1 <= hM.
Proof.
  intros bc p l Hb fuel e remap code hM C D K Hl. destruct Hb as [p op H Hr|p op a l H N1 N2 L Ea Hb]; cbn [length] in Hl; [lia|].
  destruct fuel as [|fuel]; [discriminate|]. cbn [comp_loop] in C.
  assert (Dop : documented (op, a)) by (inversion D; assumption). assert (Dl : Forall documented l) by (inversion D; assumption). destruct K as [K1 K2].
  rewrite (nextBC_doc bc p op a H Dop) in C. cbn [bind] in C. inv1 C. destruct r0 as [ws ret].
  destruct (stack_doc bc p op a H Dop L Ea) as [Es Ed]. rewrite Es in C. cbn [bind] in C.
  destruct (Z.ltb_spec (0 - consumed op a) 0) as [|Hk]; [discriminate|]. rewrite Ed in C. cbn [bind] in C.
  assert (Nc : op <> CHKV) by (intro Q; specialize (K1 Q); discriminate).
  destruct (trans_doc e remap bc p op a 0 ws ret H Dop N1 N2 L Ea E Hk ltac:(lia) ltac:(intro; contradiction)) as [-> R].
  assert (Lz : leaves_none op = false).
  { unfold leaves_none, isin. cbn [existsb]. destruct (Z.eqb_spec op POPS) as [->|]; [change (consumed POPS a) with 1 in Hk; lia|].
    destruct (Z.eqb_spec op SETH) as [->|]; [change (consumed SETH a) with 2 in Hk; lia|]. destruct (Z.eqb_spec op PRED) as [->|]; [change (consumed PRED a) with 1 in Hk; lia|]. reflexivity. }
  pose proof (leaves_one op a Dop Lz N1 N2 Nc) as L1.
  assert (Q : 1 <= 0 + change_ op a) by lia. set (h' := 0 + change_ op a) in *.
  destruct ((h' <? - 2 ^ 31) || (2 ^ 31 <=? h')); [discriminate|]. inv1 C. destruct r0 as [rest' hM']. injection C as <- <-.
  rewrite Lz in K2. cbn [negb] in K2.
  set (m := if 0 <? h' then h' else 0) in *. assert (Hm : h' <= m) by (unfold m; destruct (Z.ltb_spec 0 h'); lia).
  destruct (loop_good bc _ l Hb fuel e remap h' m rest' hM' true E0 Dl K2) as [Q1 Q2]; try lia.
Qed.
