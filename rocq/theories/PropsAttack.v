(** Properties of two endpoints whose encrypted connection is in the hands of an attacker: C76. *)
From Coq Require Import Strings.String.
From Verif Require Import Base BaseFacts Reader Codec Spec Ids Payload Builder Emit Crypt SpecCrypt CryptWriteFacts CryptReadFacts CryptFacts CryptAttackFacts CryptClaims Wire Ipc SpecIpc IpcFlow IpcChanFacts Pair SpecPair PairFacts BytePair SpecBytes SpecOrder OrderFacts
  Link SpecLink LinkFacts LinkSim Attack SpecAttack AttackFacts PropsDispatch PropsPair PropsBytes PropsCrypt PropsLink.

Lemma firstn_all {A} (P : A -> Prop) l n : Forall P l -> Forall P (firstn n l).
Proof. intros H. rewrite <- (firstn_skipn n l) in H. apply Forall_app in H. apply H. Qed.
Lemma session_streams enc dec pub dh st : connected enc dec pub dh st ->
  good_cipher enc dec /\ (forall sd, exists s, content s = ([], EndIdle) /\ fresh_read (session_key st) s (fst (st sd))) /\ forall sd, exists sk, fresh_write (session_key st) sk (snd (st sd)).
Proof.
  intros CN. destruct (connected_streams _ _ _ _ _ CN) as (GC & key & FR & FW). assert (K : session_key st = key) by (destruct (FR SideA) as (s & _ & Q); unfold session_key; rewrite Q; reflexivity). rewrite K. auto.
Qed.
Lemma read_facts enc dec pub dh st from cf ps ctr ls t tr sd : connected enc dec pub dh st -> attacked enc dec cf ps ctr st ls t tr -> unforgeable enc dec cf from (session_key st) t tr -> all_fit cf from t tr ->
  (over tr sd \/ r_ok cf (session_key st) sd t tr) /\ accepted dec cf (session_key st) sd t tr /\ genuine_events from (made t tr) sd tr.
Proof.
  intros CN H U F. destruct (session_streams _ _ _ _ _ CN) as (GC & FR & FW). apply (reads enc dec GC cf (session_key st) from (made t tr) F sd ps ctr st ls t tr FR H).
  intros cs tail i c. apply U.
Qed.
(** ** C76 *)
(** Whatever the attacker gives the two ends, if he cannot forge packages: the j-th event an end reads is the j-th event one of the
    two ends sent (or is sending). *)
Theorem C76_nothing_invented : forall enc dec pub dh st cf ps ctr ls t tr, connected enc dec pub dh st -> attacked enc dec cf ps ctr st ls t tr ->
  unforgeable enc dec cf either (session_key st) t tr -> all_fit cf either t tr ->
  forall sd j e, nth_error (events_read 0 (at_side sd tr)) j = Some e -> exists s e0, nth_error (made t tr s) j = Some e0 /\ e = drop_empty_ns e0.
Proof.
  intros enc dec pub dh st cf ps ctr ls t tr CN H U F sd j e Q. destruct (read_facts _ _ _ _ _ _ _ _ _ _ _ _ sd CN H U F) as (_ & _ & G). destruct (G j e Q) as (s & e0 & _ & A & B). eauto.
Qed.
Print Assumptions C76_nothing_invented.
(** If he moreover does not give an end its own packages back, what it reads is the beginning of what the other end sent: nothing
    is left out, repeated, or out of order. *)
Theorem C76_without_reflection : forall enc dec pub dh st cf ps ctr ls t tr, connected enc dec pub dh st -> attacked enc dec cf ps ctr st ls t tr ->
  unforgeable enc dec cf opposite (session_key st) t tr -> all_fit cf opposite t tr ->
  forall sd, exists later, map drop_empty_ns (made t tr (other sd)) = events_read 0 (at_side sd tr) ++ later.
Proof.
  intros enc dec pub dh st cf ps ctr ls t tr CN H U F sd. destruct (read_facts _ _ _ _ _ _ _ _ _ _ _ _ sd CN H U F) as (_ & _ & G). apply list_prefix. intros j e Q.
  destruct (G j e Q) as (s & e0 & [<-|[]] & A & B). rewrite nth_error_map, A, B. reflexivity.
Qed.
Print Assumptions C76_without_reflection.
(** If he gives an end the beginning of what the other end wrote, this needs no assumption about forging. *)
Theorem C76_cut_connection : forall enc dec pub dh st cf ps ctr ls t tr sd y, connected enc dec pub dh st -> attacked enc dec cf ps ctr st ls t tr -> all_fit cf opposite t tr ->
  written_by st t (other sd) (t_in t sd ++ y) -> exists later, map drop_empty_ns (made t tr (other sd)) = events_read 0 (at_side sd tr) ++ later.
Proof.
  intros enc dec pub dh st cf ps ctr ls t tr sd y CN H F W. destruct (session_streams _ _ _ _ _ CN) as (GC & FR & FW).
  destruct (reads enc dec GC cf (session_key st) opposite (made t tr) F sd ps ctr st ls t tr FR H (passed_genuine enc dec cf GC _ st sd ps ctr ls t tr y FW H F W)) as (_ & _ & G).
  apply list_prefix. intros j e Q. destruct (G j e Q) as (s & e0 & [<-|[]] & A & B). rewrite nth_error_map, A, B. reflexivity.
Qed.
Print Assumptions C76_cut_connection.
(** handlers are called only for events read, each at most once and in the same order *)
Theorem C76_handlers : forall enc dec cf ps ctr st ls t tr sd, attacked enc dec cf ps ctr st ls t tr -> subseq (handled 0 (at_side sd tr)) (events_read 0 (at_side sd tr)).
Proof.
  intros enc dec cf ps ctr st ls t tr sd H. destruct (side_runs enc dec cf sd _ _ _ _ _ _ H) as (ls' & R). destruct (in_order _ _ _ _ _ _ _ _ R 0%nat) as (held & A & _). rewrite A. apply subseq_more, handled_processed.
Qed.
Print Assumptions C76_handlers.
(** A package the cipher refuses: no event from it or from what follows it is ever read, *)
Theorem C76_refused_package_last : forall enc dec pub dh st from cf ps ctr ls t tr sd cs tail i c, connected enc dec pub dh st -> attacked enc dec cf ps ctr st ls t tr ->
  unforgeable enc dec cf from (session_key st) t tr -> all_fit cf from t tr ->
  t_in t sd = boxes cs ++ tail -> Forall (receivable (cf_env (cf sd))) cs -> nth_error cs i = Some c -> dec (session_key st) (nonce_from_number (N.of_nat i mod 2 ^ 64)) c = None ->
  (List.length (events_read 0 (at_side sd tr)) <= i)%nat.
Proof.
  intros enc dec pub dh st from cf ps ctr ls t tr sd cs tail i c CN H U F TI RC NC D. destruct (read_facts _ _ _ _ _ _ _ _ _ _ _ _ sd CN H U F) as (_ & (cs0 & l & A1 & A2 & A3 & A4) & _).
  destruct (Nat.le_gt_cases (List.length (events_read 0 (at_side sd tr))) i) as [L|L]; [exact L|exfalso]. rewrite <- A3 in L.
  assert (LC : (i < List.length cs)%nat) by (apply nth_error_Some; congruence).
  assert (Q : firstn (S i) cs0 = firstn (S i) cs).
  { apply (boxes_same (cf_env (cf sd)) _ _ (boxes (skipn (S i) cs0) ++ l) (boxes (skipn (S i) cs) ++ tail)).
    - rewrite !app_assoc, <- !boxes_app, !firstn_skipn, <- A1. exact TI.
    - apply firstn_all; exact A2.
    - apply firstn_all; exact RC.
    - rewrite !firstn_length. lia. }
  assert (N0 : nth_error cs0 i = Some c).
  { rewrite <- (firstn_skipn (S i) cs0), Q, nth_error_app1 by (rewrite firstn_length; lia). rewrite <- (firstn_skipn (S i) cs), nth_error_app1 in NC by (rewrite firstn_length; lia). exact NC. }
  exact (A4 i c N0 D).
Qed.
Print Assumptions C76_refused_package_last.
(** and as soon as it has arrived and all before it was read, the connection ends; then nothing more is read. *)
Theorem C76_refused_package_ends : forall enc dec pub dh st from cf ps ctr ls t tr sd b t' os cs tail i c, connected enc dec pub dh st -> attacked enc dec cf ps ctr st ls t tr ->
  unforgeable enc dec cf from (session_key st) t tr -> all_fit cf from t tr ->
  List.length (events_read 0 (at_side sd tr)) = i -> attack_step enc dec cf t (TGive sd b) = Some (t', os) ->
  t_in t' sd = boxes cs ++ tail -> Forall (receivable (cf_env (cf sd))) cs -> nth_error cs i = Some c -> dec (session_key st) (nonce_from_number (N.of_nat i mod 2 ^ 64)) c = None ->
  In (sd, OClosed 0) os /\ forall b', attack_step enc dec cf t' (TGive sd b') = None.
Proof.
  intros enc dec pub dh st from cf ps ctr ls t tr sd b t' os cs tail i c CN H U F LE S TI RC NC D. destruct (session_streams _ _ _ _ _ CN) as (GC & FR & FW).
  destruct (read_facts _ _ _ _ _ _ _ _ _ _ _ _ sd CN H U F) as (R & _ & _).
  destruct (give_view enc dec cf _ _ _ _ _ S) as (RD & GV). destruct R as [R|R]; [rewrite (over_silent enc dec cf sd _ _ _ _ _ _ H R) in RD; discriminate RD|].
  destruct R as (cs1 & l & r & A1 & A2 & A3 & A4 & A5). assert (TI' : t_in t' sd = t_in t sd ++ b) by (destruct GV; assumption).
  apply nth_error_split in NC. destruct NC as (c1 & c2 & -> & LC).
  apply Forall_app in RC. destruct RC as (RC1 & RC2). inversion RC2 as [|x y RC0 RC3]; subst x y.
  assert (Q : cs1 = c1 /\ l ++ b = boxes (c :: c2) ++ tail).
  { apply (parsed_long (cf_env (cf sd)) c1 c c2 tail RC0 RC1); [rewrite app_assoc, <- A3, <- TI'; exact TI|exact A4|congruence]. }
  destruct Q as (-> & LB). assert (A2' := more_at _ _ _ _ _ b A2). rewrite LB in A2'. assert (B4 := boxes_run (cf_env (cf sd)) c c2 tail RC0).
  rewrite LC in A2'. change (2 ^ 64)%N with U64 in D. destruct (refused_package dec _ _ _ _ _ _ _ A2' B4 D) as (e & r1 & X).
  assert (RN : read_now dec cf sd b t = XOut (Err e) r1) by (unfold read_now; rewrite A1; exact X).
  destruct GV as [p' g' r' [X'|X'] _ _ _ _|e' r' X' _ _ _|r' S1 _]; [congruence..|].
  destruct (closed_over cf sd tr os _ _ S1) as (_ & _).
  assert (IN : In (OClosed 0) (at_side sd os)). { cbn [step] in S1. destruct (nth_error (e_conns (t_ep t sd)) 0) as [cn|]; [|discriminate S1]. destruct (cn_loop cn); try discriminate S1. injection S1 as _ S1. rewrite <- S1. left. reflexivity. }
  split.
  - unfold at_side in IN. apply in_flat_map in IN. destruct IN as ((s0 & o) & I1 & I2). cbn in I2. destruct (side_eqb s0 sd) eqn:SS; [|destruct I2]. destruct I2 as [->|[]]. destruct s0, sd; try discriminate SS; exact I1.
  - intros b'. assert (H' : attacked enc dec cf ps ctr st (ls ++ [TGive sd b]) t' (tr ++ os)) by (unfold attacked in *; rewrite (trun_app enc dec cf), H; cbn [attack_run]; rewrite S, app_nil_r; reflexivity).
    assert (O : over (tr ++ os) sd) by (left; rewrite at_side_app; apply in_or_app; right; exact IN). cbn [attack_step]. rewrite (over_silent enc dec cf sd _ _ _ _ _ _ H' O). reflexivity.
Qed.
Print Assumptions C76_refused_package_ends.
(** Without any assumption on the attacker: what an end writes are the packages of the events it sends, numbered in the order sent,
    and the beginning of the package being sent. *)
Theorem C76_what_is_written : forall enc dec pub dh st cf ps ctr ls t tr sd, connected enc dec pub dh st -> attacked enc dec cf ps ctr st ls t tr ->
  (forall e, In e (made t tr sd) -> exists E l, sendable E e l) ->
  exists part rest, written_by st t sd (packages enc (session_key st) (sent_events (at_side sd tr)) ++ part)
    /\ packages enc (session_key st) (sent_events (at_side sd tr)) ++ part ++ rest = packages enc (session_key st) (made t tr sd) /\ (rest = [] -> in_flight t sd = []).
Proof.
  intros enc dec pub dh st cf ps ctr ls t tr sd CN H F. destruct (session_streams _ _ _ _ _ CN) as (GC & FR & FW).
  destruct (written_all enc dec cf (session_key st) st sd ps ctr ls t tr FW H F) as (part & rest & A & B & C). exists part, rest. split; [exact A|]. split; [|exact C].
  rewrite B. unfold packages, made. rewrite map_app, ciphertexts_app, boxes_app, map_length. reflexivity.
Qed.
Print Assumptions C76_what_is_written.
(** An end cannot tell its own packages from the peer's: while it was given only its own, giving it the next one makes it read its
    own event. *)
Theorem C76_own_events_accepted_refuted : forall enc dec pub dh st cf ps ctr ls t tr sd e, connected enc dec pub dh st -> attacked enc dec cf ps ctr st ls t tr ->
  unforgeable enc dec cf either (session_key st) t tr -> all_fit cf either t tr -> reading (t_ep t sd) = true ->
  t_in t sd = packages enc (session_key st) (firstn (List.length (events_read 0 (at_side sd tr))) (made t tr sd)) -> nth_error (made t tr sd) (List.length (events_read 0 (at_side sd tr))) = Some e ->
  exists t' os, attack_step enc dec cf t (TGive sd (boxed (pack enc (session_key st) (List.length (events_read 0 (at_side sd tr))) e))) = Some (t', os) /\ In (sd, OReceived 0 (drop_empty_ns e)) os.
Proof.
  intros enc dec pub dh st cf ps ctr ls t tr sd e CN H U F RD TI NE. destruct (session_streams _ _ _ _ _ CN) as (GC & FR & FW).
  destruct (read_facts _ _ _ _ _ _ _ _ _ _ _ _ sd CN H U F) as (R & _ & _). destruct R as [R|R]; [rewrite (over_silent enc dec cf sd _ _ _ _ _ _ H R) in RD; discriminate RD|].
  set (key := session_key st) in *. set (j := List.length (events_read 0 (at_side sd tr))) in *.
  assert (IS : In sd (either sd)) by (destruct sd; cbn; auto). assert (FE : forall x, In x (made t tr sd) -> exists l, sendable (cf_env (cf sd)) x l) by (intros x Q; exact (F sd sd x IS Q)).
  assert (JL : (j < List.length (made t tr sd))%nat) by (apply nth_error_Some; congruence). destruct (FE e (nth_error_In _ _ NE)) as (l0 & SE).
  set (cs0 := ciphertexts enc key 0 (map wire_bytes (firstn j (made t tr sd)))). assert (L0 : List.length cs0 = j) by (unfold cs0; rewrite ciphertexts_length, map_length, firstn_length; lia).
  rewrite <- L0. apply (next_read enc dec cf GC key sd t tr cs0 e l0 R TI); [|exact L0|exact RD|exact SE].
  apply (receivable_all enc dec); [exact GC|]. intros x Q. apply FE. rewrite <- (firstn_skipn j (made t tr sd)). apply in_or_app. left. exact Q.
Qed.
Print Assumptions C76_own_events_accepted_refuted.

(** ** checking the hypotheses on an example *)
Fixpoint parse (E : env) (n : nat) (l : bytes) : list bytes * bytes :=
  match n with
  | O => ([], l)
  | S n' => match run_bytes E read_package l with POut (Ok c) x => let '(cs, t) := parse E n' x in (c :: cs, t) | _ => ([], l) end
  end.
Lemma parse_is E n : forall l, l = boxes (fst (parse E n l)) ++ snd (parse E n l) /\ Forall (receivable E) (fst (parse E n l)).
Proof.
  induction n as [|n IH]; intros l; cbn [parse]; [split; [reflexivity|constructor]|]. destruct (read_package_cases E l) as [(ct & x & B1 & B2 & B3 & B4)|[(m & x & _ & _ & _ & B4)|(B4 & _)]]; rewrite B4; try (split; [reflexivity|constructor]).
  destruct (IH x) as (A & B). destruct (parse E n x) as [cs t]. cbn [fst snd] in *. split; [|constructor; [split; assumption|exact B]]. rewrite B1, A. cbn [boxes map concat]. rewrite <- app_assoc. reflexivity.
Qed.
Fixpoint checked enc (dec : bytes -> bytes -> bytes -> option bytes) (key : bytes) (made : list (list event)) (i : nat) (cs : list bytes) : bool :=
  match cs with
  | [] => true
  | c :: cs' => (match dec key (nonce_from_number (N.of_nat i mod 2 ^ 64)) c with None => true | Some _ => false end || existsb (fun m => match nth_error m i with Some e => bytes_eqb c (pack enc key i e) | None => false end) made)
      && checked enc dec key made (S i) cs'
  end.
Lemma checked_is enc dec key made cs : forall k, checked enc dec key made k cs = true -> forall i c, nth_error cs i = Some c -> dec key (nonce_from_number (N.of_nat (k + i) mod 2 ^ 64)) c <> None ->
  exists m e, In m made /\ nth_error m (k + i)%nat = Some e /\ c = pack enc key (k + i) e.
Proof.
  induction cs as [|c0 cs IH]; intros k H i c Q D; [destruct i; discriminate Q|]. cbn [checked] in H. apply andb_true_iff in H. destruct H as (H1 & H2). destruct i as [|i].
  - cbn in Q. injection Q as ->. rewrite Nat.add_0_r in *. destruct (dec key (nonce_from_number (N.of_nat k mod 2 ^ 64)) c); [|congruence]. cbn [orb] in H1. apply existsb_exists in H1. destruct H1 as (m & A & B). destruct (nth_error m k) as [e|] eqn:En; [|discriminate B]. apply bytes_eqb_spec in B. eauto.
  - cbn in Q. replace (k + S i)%nat with (S k + i)%nat in * by lia. exact (IH (S k) H2 i c Q D).
Qed.
Definition tight enc dec (cf : side -> config) (from : side -> list side) (key : bytes) (t : tapped) (tr : list (side * obs)) (sd : side) : bool :=
  let E := cf_env (cf sd) in let '(cs, tail) := parse E 20 (t_in t sd) in
  (match run_bytes E read_package tail with PMore => true | _ => false end) && checked enc dec key (map (made t tr) (from sd)) 0 cs.
Lemma unforgeable_yes enc dec cf from key t tr : (forall sd, tight enc dec cf from key t tr sd = true) -> unforgeable enc dec cf from key t tr.
Proof.
  intros H sd cs tail i c A B C D. specialize (H sd). unfold tight in H. destruct (parse_is (cf_env (cf sd)) 20 (t_in t sd)) as (P1 & P2). cbn zeta in H. destruct (parse (cf_env (cf sd)) 20 (t_in t sd)) as [cs0 tail0]. cbn [fst snd] in P1, P2.
  apply andb_true_iff in H. destruct H as (H1 & H2). destruct (run_bytes (cf_env (cf sd)) read_package tail0) as [|] eqn:PM; try discriminate H1.
  destruct (parsed (cf_env (cf sd)) cs0 tail0 P2 PM cs tail) as (more & ->); [rewrite <- A; exact P1|exact B|].
  assert (C' : nth_error (cs ++ more) i = Some c) by (rewrite nth_error_app1; [exact C|apply nth_error_Some; congruence]).
  destruct (checked_is _ _ _ _ _ 0 H2 i c C' D) as (m & e & M1 & M2 & M3). apply in_map_iff in M1. destruct M1 as (s & <- & M1). exists s, e. auto.
Qed.
Lemma all_fit_yes cf from t tr : (forall sd, cf_env (cf sd) = env67) -> (forall sd, forallb sendable_b (made t tr sd) = true) -> all_fit cf from t tr.
Proof. intros C H sd s e _ Q. rewrite C. apply sendable_yes. specialize (H s). rewrite forallb_forall in H. exact (H _ Q). Qed.
Definition tstep1 := attack_step toy_enc toy_dec cf67.
Definition out1 (t : tapped) (sd : side) : bytes := skipn (List.length (ws_out (ew_sock (snd (st71 sd))))) (ws_out (ew_sock (t_wr t sd))).
(** the attacker gives each end, in portions of 23 bytes, what [src] wrote *)
Definition ttries (src : side -> option side) (t : tapped) : list tlabel :=
  flat_map (fun sd => match src sd with Some s => match skipn (List.length (t_in t sd)) (out1 t s) with [] => [] | b => [TGive sd (firstn 23 b)] end | None => [] end
    ++ TDo sd (LPlace 0) :: map (fun i => TDo sd (LTask i go)) (seq 0 5) ++ map (fun i => TWrite sd i 29) (seq 0 5)) [SideA; SideB].
Fixpoint tagerly (src : side -> option side) (n : nat) (t : tapped) : list tlabel :=
  match n with
  | O => []
  | S n' => match find (fun l => match tstep1 t l with Some _ => true | None => false end) (ttries src t) with
            | Some l => match tstep1 t l with Some (t', _) => l :: tagerly src n' t' | None => [] end
            | None => []
            end
  end.
Definition tap1 : tapped := tapped_new cf67 (ps67 [asks (str "ping")]) ctr2 st71.
Definition tended (ls : list tlabel) : tapped * list (side * obs) := end_of tap1 (attack_run toy_enc toy_dec cf67 tap1 ls).
Lemma tended_runs ls tr : match attack_run toy_enc toy_dec cf67 tap1 ls with Some _ => true | None => false end = true -> snd (tended ls) = tr -> attacked toy_enc toy_dec cf67 (ps67 [asks (str "ping")]) ctr2 st71 ls (fst (tended ls)) tr.
Proof. intros H <-. exact (reaches _ _ H). Qed.
(** everything is passed on *)
Definition run76 : list tlabel := Eval vm_compute in tagerly (fun sd => Some (other sd)) 3000 tap1.
Definition tr76 : list (side * obs) := Eval vm_compute in snd (tended run76).
(** both ends' requests are answered *)
Example C76_case : exists t tr, connected toy_enc toy_dec toy_pub toy_dh st71 /\ attacked toy_enc toy_dec cf67 (ps67 [asks (str "ping")]) ctr2 st71 run76 t tr
  /\ unforgeable toy_enc toy_dec cf67 opposite (session_key st71) t tr /\ unforgeable toy_enc toy_dec cf67 either (session_key st71) t tr /\ all_fit cf67 opposite t tr /\ all_fit cf67 either t tr
  /\ written_by st71 t SideA (t_in t SideB ++ []) /\ (3 < List.length (events_read 0 (at_side SideB tr)))%nat /\ (1 < List.length (handled 0 (at_side SideB tr)))%nat
  /\ flat_map (fun o => match o with (sd, OReply i x r) => [(sd, i)] | _ => [] end) tr = [(SideB, 0%nat); (SideA, 0%nat)].
Proof.
  exists (fst (tended run76)), tr76. split; [exact st71_connected|]. split; [apply tended_runs; vm_compute; reflexivity|]. split; [apply unforgeable_yes; intros [|]; vm_compute; reflexivity|]. split; [apply unforgeable_yes; intros [|]; vm_compute; reflexivity|].
  split; [apply all_fit_yes; [intros [|]; reflexivity|intros [|]; vm_compute; reflexivity]|]. split; [apply all_fit_yes; [intros [|]; reflexivity|intros [|]; vm_compute; reflexivity]|].
  split; [vm_compute; reflexivity|]. split; [vm_compute; lia|]. split; [vm_compute; lia|]. vm_compute; reflexivity.
Qed.
(** [SideA] is given nothing but its own packages: its request "ping" is answered by its own handler, and the peer never reads anything *)
Definition run76r : list tlabel := Eval vm_compute in tagerly (fun sd => match sd with SideA => Some SideA | SideB => None end) 3000 tap1.
Definition tr76r : list (side * obs) := Eval vm_compute in snd (tended run76r).
Theorem C76_own_answer_refuted : exists enc dec pub dh st cf ps ctr ls t tr x e, connected enc dec pub dh st /\ attacked enc dec cf ps ctr st ls t tr
  /\ unforgeable enc dec cf either (session_key st) t tr /\ all_fit cf either t tr /\ ps SideA = [asks (str "ping"); asks (str "boom")]
  /\ t_in t SideB = [] /\ events_read 0 (at_side SideB tr) = [] /\ In (SideA, OReply 0 x (Some (Ok e))) tr.
Proof.
  exists toy_enc, toy_dec, toy_pub, toy_dh, st71, cf67, (ps67 [asks (str "ping")]), ctr2, run76r, (fst (tended run76r)), tr76r. eexists _, _.
  split; [exact st71_connected|]. split; [apply tended_runs; vm_compute; reflexivity|]. split; [apply unforgeable_yes; intros [|]; vm_compute; reflexivity|].
  split; [apply all_fit_yes; [intros [|]; reflexivity|intros [|]; vm_compute; reflexivity]|]. split; [reflexivity|]. split; [vm_compute; reflexivity|]. split; [reflexivity|].
  unfold tr76r. repeat first [left; reflexivity|right].
Qed.
Print Assumptions C76_own_answer_refuted.
(** the second package [SideA] sends is changed in one byte, and then the rest is passed on *)
Definition run76s : list tlabel := Eval vm_compute in tagerly (fun _ => None) 3000 tap1.
Definition changed : bytes := Eval vm_compute in let b := out1 (fst (tended run76s)) SideA in removelast b ++ [match last b x00 with x00 => x01 | _ => x00 end].
Definition run76t : list tlabel := run76s ++ [TGive SideB changed].
Definition tr76t : list (side * obs) := Eval vm_compute in snd (tended run76t).
Example C76_refused_case : exists t tr t' os cs c, attacked toy_enc toy_dec cf67 (ps67 [asks (str "ping")]) ctr2 st71 run76t t tr
  /\ unforgeable toy_enc toy_dec cf67 opposite (session_key st71) t tr /\ all_fit cf67 opposite t tr /\ List.length (events_read 0 (at_side SideB tr)) = 1%nat
  /\ attack_step toy_enc toy_dec cf67 t (TGive SideB []) = Some (t', os) /\ t_in t' SideB = boxes cs ++ [] /\ Forall (receivable (cf_env (cf67 SideB))) cs /\ nth_error cs 1 = Some c
  /\ toy_dec (session_key st71) (nonce_from_number (N.of_nat 1 mod 2 ^ 64)) c = None /\ t_in t SideB = t_in t' SideB.
Proof.
  exists (fst (tended run76t)), tr76t. set (r := attack_step toy_enc toy_dec cf67 (fst (tended run76t)) (TGive SideB [])). exists (fst (end_of tap1 r)), (snd (end_of tap1 r)), (fst (parse env67 20 changed)), (nth 1 (fst (parse env67 20 changed)) []).
  split; [apply tended_runs; vm_compute; reflexivity|]. split; [apply unforgeable_yes; intros [|]; vm_compute; reflexivity|]. split; [apply all_fit_yes; [intros [|]; reflexivity|intros [|]; vm_compute; reflexivity]|]. split; [reflexivity|].
  split; [change (r = Some (fst (end_of tap1 r), snd (end_of tap1 r))); apply reaches; vm_compute; reflexivity|]. split; [vm_compute; reflexivity|]. split; [apply (parse_is env67 20 changed)|]. split; [vm_compute; reflexivity|]. split; vm_compute; reflexivity.
Qed.
(** [SideA] before it is given the first of its packages *)
Example C76_own_events_case : exists t tr e, attacked toy_enc toy_dec cf67 (ps67 [asks (str "ping")]) ctr2 st71 run76s t tr
  /\ unforgeable toy_enc toy_dec cf67 either (session_key st71) t tr /\ all_fit cf67 either t tr /\ reading (t_ep t SideA) = true
  /\ t_in t SideA = packages toy_enc (session_key st71) (firstn (List.length (events_read 0 (at_side SideA tr))) (made t tr SideA)) /\ nth_error (made t tr SideA) (List.length (events_read 0 (at_side SideA tr))) = Some e
  /\ (forall x, In x (made t tr SideA) -> exists E l, sendable E x l).
Proof.
  exists (fst (tended run76s)), (snd (tended run76s)), (hd (mk_event (mk_header 0 Initiator None None []) []) (made (fst (tended run76s)) (snd (tended run76s)) SideA)). split; [apply tended_runs; vm_compute; reflexivity|]. split; [apply unforgeable_yes; intros [|]; vm_compute; reflexivity|]. split; [apply all_fit_yes; [intros [|]; reflexivity|intros [|]; vm_compute; reflexivity]|].
  split; [vm_compute; reflexivity|]. split; [vm_compute; reflexivity|]. split; [vm_compute; reflexivity|].
  intros x Q. assert (H : all_fit cf67 either (fst (tended run76s)) (snd (tended run76s))) by (apply all_fit_yes; [intros [|]; reflexivity|intros [|]; vm_compute; reflexivity]). destruct (H SideA SideA x (or_introl eq_refl) Q) as (l & S). exists (cf_env (cf67 SideA)), l. exact S.
Qed.
