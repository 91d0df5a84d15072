(** Properties of the key exchange with an attacker between the ends: C77. *)
From Coq Require Import Strings.String.
From Verif Require Import Base BaseFacts Reader Codec Spec Ids Payload Builder Emit DecodeFacts EventProofs Crypt SpecCrypt CryptWriteFacts CryptReadFacts CryptFacts CryptExchangeFacts CryptAttackFacts CryptClaims Wire Ipc SpecIpc IpcFlow IpcChanFacts Pair SpecPair PairFacts BytePair SpecBytes SpecOrder OrderFacts
  Link SpecLink LinkFacts LinkSim Attack SpecAttack AttackFacts SpecMiddle PropsDispatch PropsEvent PropsPair PropsBytes PropsCrypt PropsLink PropsAttack.

Lemma boxed_skip pk (c r : bytes) : blen pk = 32 -> firstn 32 (pk ++ r) = pk /\ skipn 36 (pk ++ boxed c) = c.
Proof.
  intros H. unfold blen in H. assert (L : List.length pk = 32%nat) by lia. split; [rewrite firstn_app, L, firstn_all2 by lia; cbn; rewrite app_nil_r; reflexivity|].
  unfold boxed. rewrite app_assoc, skipn_app, skipn_all2 by (rewrite app_length, be_length; lia). rewrite app_length, be_length, L. cbn. reflexivity.
Qed.
(** what such an exchange leaves *)
Lemma intercepted_streams enc dec pub dh m ks kc key st : intercepted enc dec pub dh m ks kc key st ->
  good_cipher enc dec /\ accepts_peer ks (pub m) /\ accepts_peer kc (pub m) /\ (forall sd, exists s, content s = ([], EndIdle) /\ fresh_read key s (fst (st sd))) /\ forall sd, exists sk, fresh_write key sk (snd (st sd)).
Proof.
  intros (G & (D1 & D2) & E & secret & ss & sks & sks' & sc & skc & skc' & x & y & HS & HM & SV & CS & OX & CL & _ & MI & CC). split; [exact G|].
  destruct (st SideB) as [ers ews] eqn:EB. destruct (st SideA) as [erc ewc] eqn:EA.
  destruct (server_done enc dec pub dh _ _ _ _ _ _ _ _ HS SV) as (pk & rest & en & s' & B1 & B2 & B3 & B4 & B5 & B6 & B7).
  rewrite CS, <- (app_nil_r (pub m)) in B1. destruct (pk_unique enc dec pub dh _ _ _ _ _ _ (D2 m) B2 B1) as (<- & <- & <-).
  rewrite OX in B4. apply app_inv_head in B4. unfold server_hello in B4.
  unfold middle in MI. destruct (boxed_skip (pub (k_secret ks)) (enc (dh (k_secret ks) (pub m)) (nonce_from_number 0) secret) (boxed (enc (dh (k_secret ks) (pub m)) (nonce_from_number 0) secret)) (D2 _)) as (F1 & F2).
  rewrite B4, F1, F2 in MI. rewrite D1 in MI. destruct (G (dh (k_secret ks) (pub m)) (nonce_from_number 0) secret) as (G1 & _). rewrite G1 in MI. injection MI as <- <-.
  rewrite <- (app_nil_r (boxed _)) in CC. destruct (G (dh m (pub (k_secret kc))) (nonce_from_number 0) secret) as (G2 & G3). rewrite D1 in G2.
  rewrite D1 in CC, G3. destruct (client_done_given enc dec pub dh _ _ _ _ _ _ _ _ _ _ _ secret CL CC (D2 m)) as (C1 & C2 & C3 & s1 & C4 & C5 & C6).
  { split; rewrite G3, HS; [reflexivity|exact HM]. }
  { exact G2. }
  assert (L : List.length secret = 32%nat) by (unfold blen in HS; lia). rewrite firstn_all2 in C5, C6 by lia. rewrite skipn_all2 in C5 by lia.
  split; [exact B3|]. split; [exact C1|]. split; intros [|]; rewrite ?EA, ?EB; cbn [fst snd]; eauto.
Qed.
(** ** C77 *)
(** If each end accepts the attacker's key he can take part in the exchange unnoticed: both ends complete it. *)
Theorem C77_exchange_interceptable_refuted : forall enc dec pub dh m ks kc E secret ss sks, good_cipher enc dec -> good_dh pub dh -> accepts_peer ks (pub m) -> accepts_peer kc (pub m) ->
  blen secret = 32 -> 48 <= mem E -> content ss = (pub m, EndIdle) -> ample 85 (ws_script sks) ->
  exists sb sks' x key y, server_exchange enc pub dh E ks secret ss sks = KxDone (Ok sb) sks' /\ ws_out sks' = ws_out sks ++ x /\ middle enc dec pub dh m (pub (k_secret kc)) x = Some (key, y)
    /\ forall sc skc, content sc = (y, EndIdle) -> ample 32 (ws_script skc) ->
       exists sa skc', client_exchange dec pub dh E kc sc skc = KxDone (Ok sa) skc' /\ ws_out skc' = ws_out skc ++ pub (k_secret kc)
         /\ intercepted enc dec pub dh m ks kc key (fun sd => match sd with SideA => sa | SideB => sb end).
Proof.
  intros enc dec pub dh m ks kc E secret ss sks G D As Ac HS HM CS AM. assert (D' := D). destruct D' as (D1 & D2).
  assert (CS' : content ss = (pub m ++ [], EndIdle)) by (rewrite app_nil_r; exact CS).
  destruct (server_completes enc dec pub dh E ks secret ss sks (pub m) [] EndIdle (fun k n p => proj2 (G k n p)) D2 HS (D2 _) CS' As AM) as (ers & ews & sks' & SV).
  destruct (server_done enc dec pub dh _ _ _ _ _ _ _ _ HS SV) as (pk & rest & en & s' & B1 & B2 & _ & B4 & _).
  rewrite CS' in B1. destruct (pk_unique enc dec pub dh _ _ _ _ _ _ (D2 m) B2 B1) as (<- & <- & <-). unfold server_hello in B4.
  set (ct := enc (dh (k_secret ks) (pub m)) (nonce_from_number 0) secret) in *. destruct (boxed_skip (pub (k_secret ks)) ct (boxed ct) (D2 _)) as (F1 & F2).
  destruct (G (dh (k_secret ks) (pub m)) (nonce_from_number 0) secret) as (G1 & _).
  assert (MI : middle enc dec pub dh m (pub (k_secret kc)) (pub (k_secret ks) ++ boxed ct) = Some (secret, pub m ++ boxed (enc (dh m (pub (k_secret kc))) (nonce_from_number 0) secret))) by (unfold middle; rewrite F1, F2, D1; unfold ct; rewrite G1; reflexivity).
  exists (ers, ews), sks', (pub (k_secret ks) ++ boxed ct), secret. eexists. split; [exact SV|]. split; [exact B4|]. split; [exact MI|]. intros sc skc CC AC.
  destruct (G (dh m (pub (k_secret kc))) (nonce_from_number 0) secret) as (G2 & G3).
  destruct (client_completes enc dec pub dh E kc sc skc (pub m) (enc (dh m (pub (k_secret kc))) (nonce_from_number 0) secret) secret [] [] EndIdle D2 (D2 _) Ac) as (erc & ewc & skc' & sc' & X1 & X2 & _).
  - split; rewrite G3, HS; [reflexivity|exact HM].
  - rewrite app_nil_r, (D1 (k_secret kc) m). exact G2.
  - exact HS.
  - rewrite app_nil_r. exact CC.
  - exact AC.
  - exists (erc, ewc), skc'. split; [exact X1|]. split; [exact X2|]. split; [exact G|]. split; [exact D|]. exists E, secret, ss, sks, sks', sc, skc, skc', (pub (k_secret ks) ++ boxed ct). eexists. split; [exact HS|]. split; [exact HM|]. split; [exact SV|]. split; [exact CS|]. split; [exact B4|]. split; [exact X1|]. split; [exact X2|]. split; [exact MI|exact CC].
Qed.
Print Assumptions C77_exchange_interceptable_refuted.
(** only then: an end that does not accept his key does not complete it; and both ends use the key he knows *)
Theorem C77_only_with_an_accepted_key : forall enc dec pub dh m ks kc key st, intercepted enc dec pub dh m ks kc key st -> accepts_peer ks (pub m) /\ accepts_peer kc (pub m).
Proof. intros enc dec pub dh m ks kc key st H. destruct (intercepted_streams _ _ _ _ _ _ _ _ _ H) as (_ & A & B & _). auto. Qed.
Print Assumptions C77_only_with_an_accepted_key.
Theorem C77_the_key_is_known : forall enc dec pub dh m ks kc key st, intercepted enc dec pub dh m ks kc key st -> forall sd, er_key (fst (st sd)) = key /\ ew_key (snd (st sd)) = key.
Proof.
  intros enc dec pub dh m ks kc key st H sd. destruct (intercepted_streams _ _ _ _ _ _ _ _ _ H) as (_ & _ & _ & A & B). destruct (A sd) as (s & _ & ->), (B sd) as (sk & ->). auto.
Qed.
Print Assumptions C77_the_key_is_known.
(** ** From then on he reads every event, *)
Lemma spied_all enc dec E key : good_cipher enc dec -> forall es part rest fuel i, (forall e, In e es -> exists l, sendable E e l) -> (List.length es <= fuel)%nat ->
  (rest = [] -> part = []) -> (exists e l, sendable E e l /\ part ++ rest = boxed (enc key (nonce_from_number ((i + N.of_nat (List.length es)) mod U64)) (wire_bytes e))) \/ part = [] ->
  spied dec E key fuel i (boxes (ciphertexts enc key i (map wire_bytes es)) ++ part) = map drop_empty_ns es.
Proof.
  intros GC es. induction es as [|e es IH]; intros part rest fuel i FT FL NE PR; cbn [map ciphertexts].
  - cbn [boxes map concat app]. destruct fuel as [|fuel]; [reflexivity|]. cbn [spied]. destruct PR as [(e & l & S & P)| ->]; [|reflexivity].
    destruct rest as [|b rest]; [rewrite (NE eq_refl); reflexivity|]. assert (RC := receivable_ct enc dec key E e l (nonce_from_number ((i + N.of_nat (@List.length event [])) mod U64)) GC S).
    assert (Q := boxes_run E _ [] [] RC). cbn [boxes map concat] in Q. rewrite !app_nil_r, <- P in Q.
    destruct (read_package_cases E part) as [(c & x & B1 & B2 & B3 & B4)|[(n & x & B1 & B2 & B3 & B4)|(B4 & _)]]; rewrite B4; try reflexivity. exfalso.
    assert (Q2 := boxes_run E c [] (x ++ b :: rest) (conj B2 B3)). cbn [boxes map concat app] in Q2. rewrite app_nil_r in Q2. rewrite app_assoc, <- B1, Q in Q2. injection Q2 as _ Q2. destruct x; discriminate Q2.
  - cbn [boxes map concat]. rewrite <- app_assoc. destruct fuel as [|fuel]; [cbn in FL; lia|]. cbn [spied].
    destruct (FT e (or_introl eq_refl)) as (l & S). assert (RC := receivable_ct enc dec key E e l (nonce_from_number (i mod U64)) GC S).
    assert (Q := boxes_run E _ (ciphertexts enc key (i + 1) (map wire_bytes es)) part RC). cbn [boxes map concat] in Q. rewrite <- app_assoc in Q. change (concat (map boxed ?c)) with (boxes c) in *. rewrite Q.
    change (2 ^ 64)%N with U64. destruct (GC key (nonce_from_number (i mod U64)) (wire_bytes e)) as (G1 & _). rewrite G1. apply sendable_wire in S. destruct S as (_ & _ & (S1 & S2 & S3 & S4 & _)).
    destruct (decode_encoded E e [] S1 S3 S2) as (l' & D1 & D2). rewrite S4 in D1. injection D1 as <-. rewrite app_nil_r in D2. apply decode_run in D2. rewrite D2. f_equal.
    apply (IH part rest); [intros x Q'; apply FT; right; exact Q'|cbn in FL; lia|exact NE|]. destruct PR as [(e0 & l0 & P1 & P2)|P]; [left|right; exact P]. exists e0, l0. split; [exact P1|]. rewrite P2. cbn [List.length]. do 4 f_equal. lia.
Qed.
Theorem C77_reads_everything_refuted : forall enc dec pub dh m ks kc key st cf ps ctr ls t tr E sd l, intercepted enc dec pub dh m ks kc key st -> attacked enc dec cf ps ctr st ls t tr ->
  (forall e, In e (made t tr sd) -> exists l, sendable E e l) -> written_by st t sd l ->
  spied dec E key (List.length (sent_events (at_side sd tr))) 0 l = map drop_empty_ns (sent_events (at_side sd tr)).
Proof.
  intros enc dec pub dh m ks kc key st cf ps ctr ls t tr E sd l IN H F W. destruct (intercepted_streams _ _ _ _ _ _ _ _ _ IN) as (GC & _ & _ & FR & FW).
  destruct (written_all enc dec cf key st sd ps ctr ls t tr FW H) as (part & rest & A & B & C); [intros e Q; destruct (F e Q) as (l0 & S); eauto|].
  unfold written_by in *. rewrite W in A. apply app_inv_head in A. rewrite A. unfold packages. apply (spied_all enc dec E key GC _ part rest).
  - intros e Q. apply F. unfold made. apply in_or_app. left. exact Q.
  - lia.
  - intros ->. rewrite (C eq_refl) in B. cbn in B. rewrite app_nil_r in B. exact B.
  - unfold made in F. destruct (in_flight t sd) as [|e [|e' r]] eqn:EF; [right| |].
    + cbn in B. apply app_eq_nil in B. apply B.
    + left. destruct (F e) as (l0 & S); [apply in_or_app; right; left; reflexivity|]. exists e, l0. split; [exact S|]. rewrite B. unfold boxes. cbn [map ciphertexts concat]. rewrite app_nil_r, N.add_0_l. reflexivity.
    + exfalso. unfold in_flight in EF. destruct (t_hold t sd) as [[i f]|]; [|discriminate EF]. destruct (nth_error (e_tasks (t_ep t sd)) i) as [tk|]; [|discriminate EF]. destruct (tk_st tk); discriminate EF.
Qed.
Print Assumptions C77_reads_everything_refuted.
(** and makes each end read any events he likes, in place of the peer's. *)
Theorem C77_supplies_any_events_refuted : forall enc dec pub dh m ks kc key st cf ps ctr ls t tr sd f e l0, intercepted enc dec pub dh m ks kc key st -> attacked enc dec cf ps ctr st ls t tr ->
  (forall x, In x f -> exists l, sendable (cf_env (cf sd)) x l) -> sendable (cf_env (cf sd)) e l0 ->
  t_in t sd = packages enc key f -> reading (t_ep t sd) = true -> List.length (events_read 0 (at_side sd tr)) = List.length f ->
  events_read 0 (at_side sd tr) = map drop_empty_ns f
  /\ exists t' os, attack_step enc dec cf t (TGive sd (boxed (pack enc key (List.length f) e))) = Some (t', os) /\ In (sd, OReceived 0 (drop_empty_ns e)) os.
Proof.
  intros enc dec pub dh m ks kc key st cf ps ctr ls t tr sd f e l0 IN H F SE TI RD LE. destruct (intercepted_streams _ _ _ _ _ _ _ _ _ IN) as (GC & _ & _ & FR & FW).
  set (from := fun s => if side_eqb s sd then [sd] else @nil side). assert (FS : forall s s0 x, In s0 (from s) -> In x f -> exists l, sendable (cf_env (cf s)) x l).
  { intros s s0 x Q1 Q2. unfold from in Q1. destruct s, sd; cbn in Q1; try contradiction; apply F; exact Q2. }
  assert (RA := receivable_all enc dec key (cf_env (cf sd)) f GC F 0).
  assert (GI : genuine_in enc dec cf key from (fun _ => f) sd (t_in t sd)).
  { intros cs tail i c A B C _. rewrite TI in A. unfold packages in A. destruct (parsed (cf_env (cf sd)) _ [] RA (no_package _) cs tail) as (more & D); [rewrite app_nil_r; symmetry; exact A|exact B|].
    exists sd. assert (N1 : nth_error (ciphertexts enc key 0 (map wire_bytes f)) i = Some c) by (rewrite D, nth_error_app1; [exact C|apply nth_error_Some; congruence]).
    rewrite ciphertexts_nth, nth_error_map in N1. destruct (nth_error f i) as [x|]; [|discriminate N1]. cbn in N1. injection N1 as <-. exists x. split; [unfold from; rewrite side_eqb_refl; left; reflexivity|]. split; reflexivity. }
  destruct (reads enc dec GC cf key from (fun _ => f) FS sd ps ctr st ls t tr FR H GI) as (R & _ & GE). destruct R as [R|R]; [rewrite (over_silent enc dec cf sd _ _ _ _ _ _ H R) in RD; discriminate RD|]. split.
  - destruct (list_prefix (events_read 0 (at_side sd tr)) (map drop_empty_ns f)) as (more & P); [intros j x Q; destruct (GE j x Q) as (s & x0 & _ & A & ->); rewrite nth_error_map, A; reflexivity|].
    assert (L := f_equal (@List.length event) P). rewrite map_length, app_length, LE in L. destruct more; [rewrite app_nil_r in P; symmetry; exact P|cbn in L; lia].
  - assert (LC : List.length (ciphertexts enc key 0 (map wire_bytes f)) = List.length f) by (rewrite ciphertexts_length, map_length; reflexivity). rewrite <- LC. eapply next_read; [exact GC|exact R|exact TI|exact RA|congruence|exact RD|exact SE].
Qed.
Print Assumptions C77_supplies_any_events_refuted.

(** both ends accept unknown peers *)
Definition skey77 : keys := mk_keys (repeat x07 32) [] true.
Definition ckey77 : keys := mk_keys (repeat x09 32) [] true.
Definition mkey : bytes := repeat x05 32.
Definition srv77 := server_exchange toy_enc toy_pub toy_dh sample_env skey77 secret1 (feed (toy_pub mkey)) (mk_wsock (takes 300) []).
Definition x77 : bytes := Eval vm_compute in match srv77 with KxDone _ sk => ws_out sk | _ => [] end.
Definition y77 : bytes := Eval vm_compute in match middle toy_enc toy_dec toy_pub toy_dh mkey (toy_pub (k_secret ckey77)) x77 with Some (_, y) => y | None => [] end.
Definition cli77 := client_exchange toy_dec toy_pub toy_dh sample_env ckey77 (feed y77) (mk_wsock (takes 300) []).
Definition st77 : side -> Crypt.stream := Eval vm_compute in
  match srv77, cli77 with
  | KxDone (Ok s) _, KxDone (Ok c) _ => fun sd => match sd with SideA => c | SideB => s end
  | _, _ => fun _ => (eread_new [] [], ewrite_new (mk_wsock [] []) [])
  end.
Example C77_case : accepts_peer skey77 (toy_pub mkey) /\ accepts_peer ckey77 (toy_pub mkey) /\ intercepted toy_enc toy_dec toy_pub toy_dh mkey skey77 ckey77 secret1 st77.
Proof.
  split; [left; reflexivity|]. split; [left; reflexivity|]. split; [exact toy_good|]. split; [exact toy_good_dh|].
  exists sample_env, secret1, (feed (toy_pub mkey)), (mk_wsock (takes 300) []), (match srv77 with KxDone _ sk => sk | _ => mk_wsock [] [] end), (feed y77), (mk_wsock (takes 300) []), (match cli77 with KxDone _ sk => sk | _ => mk_wsock [] [] end), x77, y77.
  split; [reflexivity|]. split; [vm_compute; discriminate|]. split; [vm_compute; reflexivity|]. split; [apply content_feed|]. split; [vm_compute; reflexivity|]. split; [vm_compute; reflexivity|]. split; [vm_compute; reflexivity|]. split; [vm_compute; reflexivity|apply content_feed].
Qed.
(** [SideA] has sent two requests; the attacker answers them himself *)
Definition tap77 : tapped := tapped_new cf67 (ps67 [asks (str "ping")]) ctr2 st77.
Definition run77 : list tlabel := Eval vm_compute in tagerly (fun _ => None) 3000 tap77.
Definition tended77 (ls : list tlabel) : tapped * list (side * obs) := end_of tap77 (attack_run toy_enc toy_dec cf67 tap77 ls).
Lemma tended77_runs ls tr : match attack_run toy_enc toy_dec cf67 tap77 ls with Some _ => true | None => false end = true -> snd (tended77 ls) = tr -> attacked toy_enc toy_dec cf67 (ps67 [asks (str "ping")]) ctr2 st77 ls (fst (tended77 ls)) tr.
Proof. intros H <-. exact (reaches _ _ H). Qed.
Definition lie (i : nat) : event := event_new 5 None (str "pong") [xff] (Some (nth_id at1 (N.of_nat i))) Response.
Definition run77b : list tlabel := Eval vm_compute in run77 ++ [TGive SideA (boxed (pack toy_enc secret1 0 (lie 0))); TDo SideA (LPlace 0); TDo SideA (LTask 0 go); TDo SideA (LTask 0 go)].
Definition tr77 : list (side * obs) := Eval vm_compute in snd (tended77 run77b).
Example C77_run_case : exists t tr l, attacked toy_enc toy_dec cf67 (ps67 [asks (str "ping")]) ctr2 st77 run77b t tr
  /\ (forall e, In e (made t tr SideA) -> exists l, sendable env67 e l) /\ written_by st77 t SideA l /\ List.length (sent_events (at_side SideA tr)) = 2%nat
  /\ (forall x, In x [lie 0] -> exists l, sendable (cf_env (cf67 SideA)) x l) /\ (exists l, sendable (cf_env (cf67 SideA)) (lie 1) l)
  /\ t_in t SideA = packages toy_enc secret1 [lie 0] /\ reading (t_ep t SideA) = true /\ List.length (events_read 0 (at_side SideA tr)) = 1%nat
  (* its first request has been answered by the attacker; the peer knows nothing of it *)
  /\ (exists x, In (SideA, OReply 0 x (Some (Ok (drop_empty_ns (lie 0))))) tr) /\ events_read 0 (at_side SideB tr) = [].
Proof.
  exists (fst (tended77 run77b)), tr77, (skipn (List.length (ws_out (ew_sock (snd (st77 SideA))))) (ws_out (ew_sock (t_wr (fst (tended77 run77b)) SideA)))).
  split; [apply tended77_runs; vm_compute; reflexivity|].
  split. { intros e Q. apply sendable_yes. assert (H : forallb sendable_b (made (fst (tended77 run77b)) tr77 SideA) = true) by (vm_compute; reflexivity). rewrite forallb_forall in H. exact (H _ Q). }
  split; [vm_compute; reflexivity|]. split; [vm_compute; reflexivity|].
  split; [intros x [<-|[]]; apply sendable_yes; vm_compute; reflexivity|]. split; [apply sendable_yes; vm_compute; reflexivity|]. split; [vm_compute; reflexivity|]. split; [vm_compute; reflexivity|]. split; [vm_compute; reflexivity|].
  split; [|vm_compute; reflexivity]. eexists. unfold tr77. repeat first [left; reflexivity|right].
Qed.
