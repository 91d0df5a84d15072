(** Emits on actual connections and what the peer reads: C64. *)
From Coq Require Import Strings.String.
From Verif Require Import Base BaseFacts Utf8 Utf8Facts Reader Codec CodecFacts Spec Ids Emit SpecEmit EmitFacts Crypt SpecCrypt CryptClaims Wire SpecWire WireFacts WireClaims
  PropsEvent PropsCrypt PropsEmit.

(** ** Concrete material for the examples *)
Definition order_big : order := mk_order (mk_context 0 None) None (str "big") (Ok (repeat x42 2000)) None Initiator.
Lemma order_acceptable E o data : o_payload o = Ok data -> utf8_valid (o_name o) = true -> (forall s, o_ns o = Some s -> utf8_valid s = true) ->
  (forall r, o_ref o = Some r -> r < U64) ->
  blen (o_name o) + match o_ns o with Some s => blen s | None => 0 end <= 60000 -> blen data <= 100000 -> 1000000 <= mem E ->
  acceptable E o /\ acceptable_encrypted E o.
Proof.
  intros Hp Hn Hs Hr Hl Hd Hm.
  assert (A : acceptable E o).
  { intros e (E1 & E2 & E3 & E4 & E5) Hi. destruct e as [[i ty rf ns nm] d]. cbn in *. subst. assert (d = data) as -> by congruence. split; [split; [split; [|split; [|split]]|]|split].
    - exact Hi.
    - exact Hr.
    - intros s H. apply utf8_valid_iff. auto.
    - apply utf8_valid_iff. exact Hn.
    - cbn. unfold ISIZE_MAX. lia.
    - unfold fits, header_size. cbn. destruct (o_ref o), (o_ns o); lia.
    - split; cbn; lia. }
  split; [exact A|]. intros e He Hi. destruct (A e He Hi) as (A1 & A2 & A3). destruct (into_bytes e) as [l| |] eqn:Hb; try discriminate Hb.
  exists l. assert (L : blen l <= 70000 + blen data).
  { assert (l = match into_bytes e with Ok b => b | _ => [] end) as -> by (rewrite Hb; reflexivity). unfold into_bytes. cbv zeta. rewrite !blen_app, !blen_be, blen_header. unfold fits in A2. destruct He as (_ & _ & He & _). assert (ev_data e = data) as -> by congruence. lia. }
  split; [exact A1|]. split; [exact A2|]. split; [exact A3|]. split; [exact Hb|]. split; lia.
Qed.
Example orders_acceptable : Forall (fun o => acceptable sample_env o /\ acceptable_encrypted sample_env o) [order_a; order_b; order_big].
Proof.
  assert (A : forall o, In o [order_a; order_b; order_big] -> acceptable sample_env o /\ acceptable_encrypted sample_env o); [|apply Forall_forall; exact A].
  intros o [<-|[<-|[<-|[]]]]; (eapply order_acceptable; [reflexivity|vm_compute; reflexivity|intros s H; try discriminate H; injection H as <-; vm_compute; reflexivity
    |intros r H; try discriminate H; injection H as <-; vm_compute; reflexivity| | |]; vm_compute; discriminate).
Qed.
Definition socket_a : wsock := mk_wsock [WAcc 30; WPend; WAcc 5; WPend; WAcc 100; WAcc 3; WPend; WAcc 1000] [x07].
Definition polls_a : list glabel := [GPoll 0 now; GPoll 1 now; GPoll 0 now; GPoll 2 now; GDrop 2; GPoll 0 now; GPoll 1 now; GPoll 1 now].

(** ** C64 *)
(** Any number of emits on one TCP or unix connection, polled in any order, dropped while waiting for the writer, with any
    partial acceptance by the socket: the peer's receive loop reads exactly the events of the calls that have written theirs,
    one per call, and those include all calls that answered Ok. *)
Theorem C64_emits_arrive : forall E os w items out0 lbs s rs x sc en, w_lock w = None -> forallb healthy items = true -> Forall (acceptable E) os ->
  uncut plain_write plain_flush (g_start w (mk_wsock items out0) os) lbs ->
  g_run plain_write plain_flush (g_start w (mk_wsock items out0) os) lbs = Some (s, rs) ->
  ws_out (g_sock s) = out0 ++ x -> content sc = (x, en) ->
  exists ord r, from_calls os rs ord /\ hears E sc (map drop_empty_ns (map snd ord)) r /\ ends_with en r.
Proof. exact plain_arrives. Qed.
Print Assumptions C64_emits_arrive.

(** The same through an encrypted stream. *)
Theorem C64_encrypted_emits_arrive : forall enc dec E os w items out0 key lbs s rs x sc en, good_cipher enc dec -> Forall (acceptable_encrypted E) os ->
  w_lock w = None -> forallb healthy items = true ->
  uncut (crypt_write enc) (crypt_flush enc) (g_start w (ewrite_new (mk_wsock items out0) key) os) lbs ->
  g_run (crypt_write enc) (crypt_flush enc) (g_start w (ewrite_new (mk_wsock items out0) key) os) lbs = Some (s, rs) ->
  ws_out (ew_sock (g_sock s)) = out0 ++ x -> content sc = (x, en) ->
  exists ord r, from_calls os rs ord /\ receives dec E (eread_new sc key) (map drop_empty_ns (map snd ord)) r /\ ends_with en r.
Proof. intros enc dec E os w items out0 key lbs s rs x sc en G A. exact (encrypted_arrives enc dec E os G A w items out0 key lbs s rs x sc en). Qed.
Print Assumptions C64_encrypted_emits_arrive.

(** Without the proviso about dropping it is false: when call [i] is dropped while it holds the encrypted writer, the next call
    [j] that gets the writer and answers Ok has not been sent: the event of the cancelled call [i] arrives, that of [j] does not. *)
Theorem C64_cancelled_encrypted_emit_refuted : forall enc dec E os w items out0 key lbs s1 rs1 i j ts s2 rs2 id x sc en,
  good_cipher enc dec -> Forall (acceptable_encrypted E) os ->
  w_lock w = None -> forallb healthy items = true ->
  uncut (crypt_write enc) (crypt_flush enc) (g_start w (ewrite_new (mk_wsock items out0) key) os) lbs ->
  g_run (crypt_write enc) (crypt_flush enc) (g_start w (ewrite_new (mk_wsock items out0) key) os) lbs = Some (s1, rs1) ->
  w_lock (g_world s1) = Some i -> j <> i ->
  g_run (crypt_write enc) (crypt_flush enc) s1 (GDrop i :: map (GPoll j) ts) = Some (s2, rs2) -> In (j, Ready (Ok id)) rs2 ->
  ws_out (ew_sock (g_sock s2)) = out0 ++ x -> content sc = (x, en) ->
  exists ord r, receives dec E (eread_new sc key) (map drop_empty_ns (map snd ord)) r /\ ends_with en r
    /\ NoDup (map fst ord) /\ (forall k e, In (k, e) ord -> exists o, nth_error os k = Some o /\ event_of o e)
    /\ In i (map fst ord) /\ ~ In j (map fst ord).
Proof. intros enc dec E os w items out0 key lbs s1 rs1 i j ts s2 rs2 id x sc en G A. exact (cancelled_emit enc dec E os G A w items out0 key lbs s1 rs1 i j ts s2 rs2 id x sc en). Qed.
Print Assumptions C64_cancelled_encrypted_emit_refuted.

Definition started {W} (sk : W) := g_start (mk_world 5 [] 0 [] None) sk [order_a; order_b; order_big].
Definition results {W} (q : option (gsys (W := W) * list (nat * polled N))) := match q with Some (_, rs) => rs | None => [] end.
Definition final {W} (sk : W) (q : option (gsys (W := W) * list (nat * polled N))) := match q with Some (s, _) => s | None => started sk end.
Example C64_case : let q := g_run plain_write plain_flush (started socket_a) polls_a in
  uncut plain_write plain_flush (started socket_a) polls_a
  /\ results q = [(0%nat, Waiting); (1%nat, Waiting); (0%nat, Waiting); (2%nat, Waiting); (0%nat, Ready (Ok (nth_id now 5))); (1%nat, Waiting); (1%nat, Ready (Ok (nth_id now 6)))]
  /\ match hear sample_env (feed (skipn 1 (ws_out (g_sock (final socket_a q))))) with
     | XOut (Ok e) sc => e = event_new (nth_id now 5) None (str "alpha") (repeat xaa 20) None Initiator
       /\ match hear sample_env sc with XOut (Ok e2) sc2 => e2 = event_new (nth_id now 6) (Some (str "ns")) (str "b") [x01; x02] (Some 9) Response /\ sc2 = [] | _ => False end
     | _ => False
     end.
Proof.
  split; [|vm_compute; repeat split; reflexivity].
  repeat (apply conj; [first [split; vm_compute; reflexivity | vm_compute; discriminate]|]; match goal with |- match ?x with _ => _ end => let y := eval vm_compute in x in change x with y; cbv iota beta end).
  exact I.
Qed.

Definition crypt_a (items : list witem) : ewrite := ewrite_new (mk_wsock items [x07]) key1.
Notation toy_run := (g_run (crypt_write toy_enc) (crypt_flush toy_enc)).
(** the events read until reading stops *)
Fixpoint read_all (fuel : nat) (st : eread) : list event :=
  match fuel with
  | O => []
  | S f => match read_event toy_dec sample_env st with XOut (Ok e) st' => e :: read_all f st' | _ => [] end
  end.
Definition arrived (s : @gsys ewrite) : list event := read_all 9 (eread_new (feed (skipn 1 (ws_out (ew_sock (g_sock s))))) key1).
Definition event_a n := event_new (nth_id now n) None (str "alpha") (repeat xaa 20) None Initiator.
Definition event_b n := event_new (nth_id now n) (Some (str "ns")) (str "b") [x01; x02] (Some 9) Response.
Definition event_big n := event_new (nth_id now n) None (str "big") (repeat x42 2000) None Initiator.

Example C64_encrypted_case : let st := crypt_a [WAcc 30; WPend; WAcc 300; WAcc 1000; WPend; WAcc 5000; WAcc 5000] in
  let ls := [GPoll 0 now; GPoll 2 now; GPoll 1 now; GPoll 0 now; GPoll 2 now; GPoll 1 now; GPoll 2 now; GPoll 1 now] in
  let q := toy_run (started st) ls in
  results q = [(0%nat, Waiting); (2%nat, Waiting); (1%nat, Waiting); (0%nat, Ready (Ok (nth_id now 5))); (2%nat, Waiting); (1%nat, Waiting);
               (2%nat, Ready (Ok (nth_id now 6))); (1%nat, Ready (Ok (nth_id now 7)))]
  /\ arrived (final st q) = [event_a 5; event_big 6; event_b 7].
Proof. vm_compute. split; reflexivity. Qed.

(** the big event is cancelled while being written: it arrives, the event of the call that answers Ok is lost *)
Example C64_cancelled_case : let st := crypt_a [WAcc 30; WPend; WAcc 5000; WAcc 5000] in
  let q1 := toy_run (started st) [GPoll 2 now] in
  let q2 := toy_run (final st q1) (GDrop 2 :: map (GPoll 0%nat) [now]) in
  w_lock (g_world (final st q1)) = Some 2%nat /\ results q2 = [(0%nat, Ready (Ok (nth_id now 6)))]
  /\ arrived (final st q2) = [event_big 5].
Proof. vm_compute. repeat split; reflexivity. Qed.
(** a small event is cancelled while being flushed: the one reported Ok stays in the buffer *)
Example C64_cancelled_case_flush : let st := crypt_a [WAcc 30; WPend; WAcc 5000; WAcc 5000] in
  let q1 := toy_run (started st) [GPoll 1 now] in
  let q2 := toy_run (final st q1) (GDrop 1 :: map (GPoll 0%nat) [now]) in
  w_lock (g_world (final st q1)) = Some 1%nat /\ results q2 = [(0%nat, Ready (Ok (nth_id now 6)))]
  /\ arrived (final st q2) = [event_b 5].
Proof. vm_compute. repeat split; reflexivity. Qed.

(** An emit that has answered - also with an error - or was dropped does not keep the others from writing, whatever the writer does: who has the writer
    is a call that was polled and is still under way. *)
From Verif Require Import WireLock.
Theorem C64_writer_is_not_kept : forall W pw pf os w (sk : W) lbs s rs i, w_lock w = None -> g_run pw pf (g_start w sk os) lbs = Some (s, rs) ->
  w_lock (g_world s) = Some i -> (exists em, nth_error (g_futs s) i = Some (Some em)) /\ forall r, ~ In (i, Ready r) rs.
Proof. intros W pw pf os w sk lbs s rs i. apply writer_not_kept. Qed.
Print Assumptions C64_writer_is_not_kept.
(** ... and a poll that does not finish has the writer itself or finds another call at it *)
Theorem C64_waiting_is_for_the_writer : forall W pw pf os w (sk : W) lbs s rs i t s', w_lock w = None -> g_run pw pf (g_start w sk os) lbs = Some (s, rs) ->
  g_step pw pf s (GPoll i t) = Some (s', Some (i, Waiting)) ->
  w_lock (g_world s') = Some i \/ exists j, j <> i /\ w_lock (g_world s) = Some j /\ w_lock (g_world s') = Some j.
Proof. intros W pw pf os w sk lbs s rs i t s'. apply waits_for_writer. Qed.
Print Assumptions C64_waiting_is_for_the_writer.
(** a write fails while another call waits; a third is dropped while it writes; both times the next one goes on *)
Example C64_not_kept_case : let st := mk_wsock [WAcc 30; WPend; WFail (OtherIo 7); WAcc 3; WPend; WAcc 2000; WPend] [] in
  results (g_run plain_write plain_flush (started st) [GPoll 0 now; GPoll 1 now; GPoll 0 now; GPoll 1 now; GDrop 1; GPoll 2 now])
    = [(0%nat, Waiting); (1%nat, Waiting); (0%nat, Ready (Err (IoError (OtherIo 7)))); (1%nat, Waiting); (2%nat, Waiting)]
  /\ w_lock (g_world (final st (g_run plain_write plain_flush (started st) [GPoll 0 now; GPoll 1 now; GPoll 0 now; GPoll 1 now; GDrop 1; GPoll 2 now]))) = Some 2%nat.
Proof. vm_compute. split; reflexivity. Qed.
