(** Properties of registration, building and pools: C35, C49, C50. *)
From Coq Require Import Strings.String.
From Verif Require Import Base Builder SpecBuilder BuilderFacts Pool SpecPool PoolFacts.

(** ** C35: callbacks, addresses, options are of any type. *)
Section C35.
  Context {CB Addr LO SO Val : Type} (derr : CB) (first : format) (lo : LO) (so : SO).
  Let built (l : list (call CB Addr LO SO Val)) := do_calls (builder_new derr first lo so) l.

  Theorem C35_global_last_registration_wins : forall l name cb, last_given (global_regs l) name cb -> global_callback (built l) name = Some cb.
  Proof. exact (global_last derr first lo so). Qed.

  Theorem C35_only_error_is_predefined : forall l name, never_given (global_regs l) name ->
    (name = str "error" -> global_callback (built l) name = Some derr) /\ (name <> str "error" -> global_callback (built l) name = None).
  Proof. exact (global_never derr first lo so). Qed.

  Theorem C35_last_namespace_replaces : forall l ns r, last_given (added_namespaces l) ns (inl r) ->
    has_namespace (built l) ns
    /\ (forall name cb, last_given r name cb -> namespace_callback (built l) ns name = Some cb)
    /\ (forall name, never_given r name -> namespace_callback (built l) ns name = None).
  Proof. exact (ns_last_regs derr first lo so). Qed.

  Theorem C35_last_namespace_object_replaces : forall l ns n, last_given (added_namespaces l) ns (inr n) ->
    has_namespace (built l) ns /\ (forall name, namespace_callback (built l) ns name = eh_get (ns_handler n) name).
  Proof. exact (ns_last_obj derr first lo so). Qed.

  Theorem C35_no_other_namespaces : forall l ns, never_given (added_namespaces l) ns ->
    ~ has_namespace (built l) ns /\ (forall name, namespace_callback (built l) ns name = None).
  Proof. exact (ns_never derr first lo so). Qed.
End C35.
Theorem C35_provider_last_wins : forall CB name (l : list (bytes * CB)) ev,
  (forall cb, last_given l ev cb ->
     eh_get (ns_handler (from_provider name (fun h => fold_left (fun h p => eh_on h (fst p) (snd p)) l h))) ev = Some cb)
  /\ (never_given l ev ->
     eh_get (ns_handler (from_provider name (fun h => fold_left (fun h p => eh_on h (fst p) (snd p)) l h))) ev = None).
Proof. intros CB name l ev. split; [exact (fun cb => provider_last name l ev cb)|exact (provider_never name l ev)]. Qed.
Print Assumptions C35_global_last_registration_wins.
Print Assumptions C35_only_error_is_predefined.
Print Assumptions C35_last_namespace_replaces.
Print Assumptions C35_last_namespace_object_replaces.
Print Assumptions C35_no_other_namespaces.
Print Assumptions C35_provider_last_wins.

(** callbacks are numbers here; "ping" is registered twice globally, namespace "ns" is added twice *)
Definition sample_calls : list (call nat nat unit unit unit) :=
  [COn (str "ping") 1; CNamespace (str "ns") [(str "a", 2); (str "ping", 3)]; CAddress 7; COn (str "ping") 4;
   CNamespace (str "ns") [(str "ping", 5); (str "ping", 6)]; COn (str "pong") 8]%nat.
Example C35_case :
  last_given (global_regs sample_calls) (str "ping") 4%nat /\ never_given (global_regs sample_calls) (str "error")
  /\ last_given (added_namespaces sample_calls) (str "ns") (inl [(str "ping", 5%nat); (str "ping", 6%nat)])
  /\ global_callback (do_calls (builder_new 0%nat Json tt tt) sample_calls) (str "ping") = Some 4%nat
  /\ namespace_callback (do_calls (builder_new 0%nat Json tt tt) sample_calls) (str "ns") (str "ping") = Some 6%nat
  /\ namespace_callback (do_calls (builder_new 0%nat Json tt tt) sample_calls) (str "ns") (str "a") = None.
Proof.
  repeat split.
  - exists [(str "ping", 1%nat)], [(str "pong", 8%nat)]. split; [reflexivity|]. intros v [H|[]]. discriminate.
  - intros v [H|[H|[H|[]]]]; discriminate.
  - exists [(str "ns", inl [(str "a", 2%nat); (str "ping", 3%nat)])], []. split; [reflexivity|]. intros v [].
Qed.

(** ** C49: any number of threads, interleaved at the granularity of single counter operations. *)
Theorem C49_count_is_live_guards_minus_one : forall n ls s os c, pool_run (pool_new n) ls = Some (s, os) -> (c < n)%nat ->
  0 < live_guards s c <= 2 ^ 64 -> exists v, nth_error (p_counts s) c = Some v /\ v + 1 = live_guards s c.
Proof. exact count_of_live. Qed.
Print Assumptions C49_count_is_live_guards_minus_one.

Theorem C49_acquire_takes_the_first_least_used : forall n ls s os p b, (0 < n)%nat -> pool_run (pool_new n) ls = Some (s, os) ->
  nth_error (p_pools s) p = Some (PWhole b) ->
  exists c s' os', first_least (p_counts s) c /\ pool_run s (acquire_alone s p) = Some (s', os') /\ In (Got c) os'
  /\ p_users s' = p_users s ++ [c] /\ (forall c', live_guards s' c' = live_guards s c' + (if Nat.eqb c c' then 1 else 0)).
Proof.
  intros n ls s os p b Hn Hr Hp. destruct (pinv_run _ _ _ _ (pinv_new n) Hr) as [Hi Hns].
  destruct (acquire_alone_run s p b Hi Hp) as (c & Hf & R); [rewrite Hns; exact Hn|].
  exists c. eexists. eexists. split; [exact Hf|]. split; [exact R|]. split; [right; apply in_or_app; right; left; reflexivity|].
  split; [reflexivity|]. intros c'. rewrite !live_def. cbn [p_pools p_users p_n]. rewrite count_occ_snoc.
  destruct (Nat.eqb c c'); cbn [b2nat]; lia.
Qed.
Print Assumptions C49_acquire_takes_the_first_least_used.

Theorem C49_balanced_without_releases : forall n s, only_acquires (pool_new n) s -> (forall c, live_guards s c <= 2 ^ 64) -> balanced (p_counts s).
Proof. exact acquires_balanced. Qed.
Print Assumptions C49_balanced_without_releases.

(** balance needs the acquires not to overlap: [k] overlapping ones can all take connection 0 *)
Theorem C49_overlapping_acquires_refuted : forall n k, (0 < n)%nat -> N.of_nat k < 2 ^ 64 ->
  exists ls s os, pool_run (pool_new n) ls = Some (s, os)
  /\ (forall c, In (Got c) os -> c = 0%nat) /\ length (filter (fun o => match o with Got _ => true | _ => false end) os) = k
  /\ p_counts s = N.of_nat k :: repeat 0 (pred n).
Proof. intros n k Hn Hk. exists (overlapping n k). exact (overlapping_unbalanced n k Hn Hk). Qed.
Print Assumptions C49_overlapping_acquires_refuted.

(** two threads: one clones the pool while the other acquires twice and drops a guard *)
Example C49_case : exists s os,
  pool_run (pool_new 2)
    [AcqStart 0; AcqStep 0; ClonePool 0; AcqStep 0; CloneStep 1; AcqStep 0; AcqStart 0; AcqStep 1; CloneStep 1; AcqStep 1; CloneStep 1; AcqStep 1;
     CloneGuard 0; DropGuard 1; DropPool 0; DropStep 0]%nat = Some (s, os)
  /\ p_counts s = [2; 1] /\ p_users s = [0; 0]%nat /\ live_guards s 0 = 3 /\ live_guards s 1 = 2.
Proof. eexists. eexists. split; [vm_compute; reflexivity|]. repeat split. Qed.

(** ** C50 *)
Theorem C50_address_required : forall CB Addr LO SO Val (derr : CB) first (lo : LO) (so : SO) (l : list (call CB Addr LO SO Val)) net bind serve n,
  never_given (addresses l) tt -> (0 < n)%nat ->
  let b := do_calls (builder_new derr first lo so) l in
  build_client net b = ([], Err (BuildError (str "Missing Address")))
  /\ build_server bind serve b = ([], Err (BuildError (str "Missing Address")))
  /\ build_pooled_client net b n = ([], Err (BuildError (str "Missing Address"))).
Proof.
  intros CB Addr LO SO Val derr first lo so l net bind serve n H Hn b.
  destruct (no_address b net bind serve n (address_never derr first lo so l H)) as (A & B & C). auto.
Qed.
Print Assumptions C50_address_required.

Theorem C50_pool_size_zero : forall CB Addr LO SO Val (b : builder CB Addr LO SO Val) net,
  build_pooled_client net b 0 = ([], Err (BuildError (str "Pool size must be greater than 0"))).
Proof. exact (fun CB Addr LO SO Val => @pool_zero CB Addr LO SO Val). Qed.
Print Assumptions C50_pool_size_zero.

Theorem C50_last_address_is_used : forall CB Addr LO SO Val (derr : CB) first (lo : LO) (so : SO) (l : list (call CB Addr LO SO Val)) net a,
  last_given (addresses l) tt a ->
  let b := do_calls (builder_new derr first lo so) l in
  match net 0 with
  | Ok c => exists ctx, build_client net b = ([FConnect a (b_sopts b); FLoop c], Ok ctx) /\ cc_conn ctx = c
  | Err e => build_client net b = ([FConnect a (b_sopts b)], Err e)
  | Crash c => build_client net b = ([FConnect a (b_sopts b)], Crash c)
  end.
Proof.
  intros CB Addr LO SO Val derr first lo so l net a H b. rewrite (client_spec net b a (address_last derr first lo so l a H)).
  destruct (net 0); [eexists; split; reflexivity|reflexivity|reflexivity].
Qed.
Print Assumptions C50_last_address_is_used.

(** A server binds the last address; it fails with the error of the bind, else it ends as its accept loop does. *)
Theorem C50_server_result : forall CB Addr LO SO Val (derr : CB) first (lo : LO) (so : SO) (l : list (call CB Addr LO SO Val)) bind serve a,
  last_given (addresses l) tt a ->
  let b := do_calls (builder_new derr first lo so) l in
  exists p, build_server bind serve b = ([FBind a p], match bind with Err e => Err e | Crash c => Crash c | Ok _ => serve end).
Proof.
  intros CB Addr LO SO Val derr first lo so l bind serve a H b. exists (b_lopts b). unfold build_server, validate. subst b. rewrite (address_last derr first lo so l a H). destruct bind as [[]| |]; reflexivity.
Qed.
Print Assumptions C50_server_result.

(** Either all attempts succeed and the pool has exactly [n] contexts (sharing one reply table), or the first failure is
    returned; then the connections made before it stay open with their receive loops running. *)
Theorem C50_pooled_client : forall CB Addr LO SO Val (net : N -> outcome N) (b : builder CB Addr LO SO Val) a n fs r,
  b_address b = Some a -> (0 < n)%nat -> build_pooled_client net b n = (fs, r) ->
  (exists cs, r = Ok cs /\ length cs = n /\ connects fs = n /\ loops fs = map cc_conn cs
     /\ (forall j, (j < n)%nat -> exists c, nth_error cs j = Some c /\ net (N.of_nat j) = Ok (cc_conn c)
           /\ cc_listeners c = 0 /\ cc_data c = 0 /\ cc_timeout c = b_timeout b /\ cc_serializer c = b_serializer b /\ cc_stoppable c = true))
  \/ (exists j, (j < n)%nat /\ connects fs = S j /\ length (loops fs) = j
        /\ (forall j', (j' < j)%nat -> exists c, net (N.of_nat j') = Ok c /\ nth_error (loops fs) j' = Some c)
        /\ ((exists e, net (N.of_nat j) = Err e /\ r = Err e) \/ (exists c, net (N.of_nat j) = Crash c /\ r = Crash c))).
Proof. exact (fun CB Addr LO SO Val => @pooled_spec CB Addr LO SO Val). Qed.
Print Assumptions C50_pooled_client.

Theorem C50_acquire_never_panics : forall n ls s os, (0 < n)%nat -> pool_run (pool_new n) ls = Some (s, os) ->
  ~ In Panics os /\ forall c, In (Got c) os -> (c < n)%nat.
Proof. intros n ls s os Hn H. split; [exact (no_panic n ls s os Hn H)|exact (fun c => got_in_range n ls s os c H)]. Qed.
Print Assumptions C50_acquire_never_panics.

Example C50_case : exists fs,
  build_pooled_client (fun i => if i =? 2 then Err (IoError (OtherIo 111)) else Ok (100 + i)) (do_calls (builder_new 0%nat Json tt tt) sample_calls) 4
  = (fs, Err (IoError (OtherIo 111))) /\ connects fs = 3%nat /\ loops fs = [100; 101].
Proof. eexists. split; [vm_compute; reflexivity|]. split; reflexivity. Qed.
Example C50_case_ok : exists fs cs,
  build_pooled_client (fun i => Ok (100 + i)) (do_calls (builder_new 0%nat Json tt tt) sample_calls) 4 = (fs, Ok cs) /\ length cs = 4%nat.
Proof. eexists. eexists. split; [vm_compute; reflexivity|]. reflexivity. Qed.
