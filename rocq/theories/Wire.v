(** Emit futures on an actual connection: the futures of [Emit.v] (src/ipc/stream_emitter/emit_metadata.rs) with the write half of a
    socket or of an encrypted stream behind the mutex, instead of arbitrary answers. *)
From Verif Require Import Base Reader Codec Ids Payload Crypt Emit.

Section Writer.
  (** A write half: one poll of tokio's WriteAll with these bytes still to be written (new state, what is left, result), and
      poll_flush. *)
  Context {W : Type} (pw : W -> bytes -> W * bytes * wstat) (pf : W -> W * wstat).

  (** The async block of EmitMetadata::poll (emit_metadata.rs:89-98): waiting for the lock, writing, flushing, finished. *)
  Inductive gfut := GLock (id : N) (b : bytes) | GWrite (id : N) (rest : bytes) | GFlush (id : N) | GDone.
  (** EmitMetadata (emit_metadata.rs:20-24) *)
  Record gemit := mk_ge { ge_meta : option event_metadata; ge_stream : bool; ge_fut : option gfut }.

  (** [stream.flush().await?; Ok(event_id)] (emit_metadata.rs:94-97). The guard is dropped when the block ends, also by a panic. *)
  Definition g_flush (w : world) (s : W) (id : N) : world * W * gfut * polled N :=
    match pf s with
    | (s', WReady) => (unlock w, s', GDone, Ready (Ok id))
    | (s', WErr k) => (unlock w, s', GDone, Ready (Err (IoError k)))
    | (s', WPanic c) => (unlock w, s', GDone, Ready (Crash c))
    | (s', _) => (w, s', GFlush id, Waiting)
    end.
  (** [stream.write_all(&event_bytes).await?] (emit_metadata.rs:93) *)
  Definition g_write (w : world) (s : W) (id : N) (rest : bytes) : world * W * gfut * polled N :=
    match rest with
    | [] => g_flush w s id
    | _ =>
      match pw s rest with
      | (s', _, WReady) => g_flush w s' id
      | (s', _, WErr k) => (unlock w, s', GDone, Ready (Err (IoError k)))
      | (s', _, WPanic c) => (unlock w, s', GDone, Ready (Crash c))
      | (s', rest', _) => (w, s', GWrite id rest', Waiting)
      end
    end.
  (** [stream.lock().await] (emit_metadata.rs:92) *)
  Definition g_lock (i : nat) (w : world) (s : W) (id : N) (b : bytes) : world * W * gfut * polled N :=
    match w_lock w with
    | Some _ => (w, s, GLock id b, Waiting)
    | None => g_write (lock i w) s id b
    end.
  (** one poll of the async block from where it stands *)
  Definition g_fut (i : nat) (w : world) (s : W) (f : gfut) : world * W * gfut * polled N :=
    match f with
    | GLock id b => g_lock i w s id b
    | GWrite id rest => g_write w s id rest
    | GFlush id => g_flush w s id
    | GDone => (w, s, GDone, Ready (Crash PanicResumed))
    end.
  (** EmitMetadata::poll (emit_metadata.rs:76-101) *)
  Definition g_poll (i : nat) (t : instant) (w : world) (s : W) (em : gemit) : world * W * gemit * polled N :=
    match ge_fut em with
    | Some f => let '(w', s', f', r) := g_fut i w s f in (w', s', mk_ge (ge_meta em) (ge_stream em) (Some f'), r)
    | None =>
      match ge_meta em with
      | None => (w, s, em, Ready (Err InvalidState))
      | Some m =>
        if ge_stream em then
          match take_event t w m with
          | (w', Err e) => (w', s, mk_ge None false None, Ready (Err e))
          | (w', Crash c) => (w', s, mk_ge None false None, Ready (Crash c))
          | (w', Ok None) => (w', s, mk_ge None false None, Ready (Crash PanicNone))
          | (w', Ok (Some e)) =>
            match into_bytes e with                                                    (* emit_metadata.rs:91 *)
            | Ok b => let '(w2, s2, f', r) := g_lock i w' s (ev_id e) b in (w2, s2, mk_ge None false (Some f'), r)
            | Err er => (w', s, mk_ge None false (Some GDone), Ready (Err er))
            | Crash c => (w', s, mk_ge None false (Some GDone), Ready (Crash c))
            end
          end
        else (w, s, mk_ge None false None, Ready (Err InvalidState))
      end
    end.
  (** EmitMetadata::new (emit_metadata.rs:28-50) *)
  Definition g_new (ctx : context) (name : bytes) (ns : option bytes) (payload : outcome bytes) (res : option N) (ty : etype) : gemit :=
    mk_ge (Some (mk_meta None (Some ctx) (Some ns) (Some name) (Some res) (Some ty) (Some payload))) true None.

  (** Any number of emit futures, polled and dropped in any order *)
  Record gsys := mk_g { g_world : world; g_sock : W; g_futs : list (option gemit) }.
  Inductive glabel := GPoll (i : nat) (t : instant) | GDrop (i : nat).
  Definition g_step (s : gsys) (lb : glabel) : option (gsys * option (nat * polled N)) :=
    match lb with
    | GPoll i t =>
      match nth_error (g_futs s) i with
      | Some (Some em) => let '(w', s', em', r) := g_poll i t (g_world s) (g_sock s) em in Some (mk_g w' s' (put i (Some em') (g_futs s)), Some (i, r))
      | _ => None
      end
    | GDrop i =>
      match nth_error (g_futs s) i with
      | Some (Some _) => Some (mk_g (drop_emit i (g_world s)) (g_sock s) (put i None (g_futs s)), None)
      | _ => None
      end
    end.
  Fixpoint g_run (s : gsys) (ls : list glabel) : option (gsys * list (nat * polled N)) :=
    match ls with
    | [] => Some (s, [])
    | lb :: ls' =>
      match g_step s lb with
      | Some (s1, o) =>
        match g_run s1 ls' with
        | Some (s2, os) => Some (s2, match o with Some x => x :: os | None => os end)
        | None => None
        end
      | None => None
      end
    end.
End Writer.
Arguments mk_g {W}. Arguments g_world {W}. Arguments g_sock {W}. Arguments g_futs {W}.

(** TCP and unix sockets (src/protocol/tcp.rs, unix_socket.rs: OwnedWriteHalf): WriteAll over poll_write; flush does nothing *)
Definition plain_write (sk : wsock) (rest : bytes) : wsock * bytes * wstat :=
  let '(rest', sk', r) := write_all rest (ws_script sk) (ws_out sk) in (sk', rest', r).
Definition plain_flush (sk : wsock) : wsock * wstat := (sk, WReady).
(** EncryptedWriteStream (encrypted/io_impl.rs:102-174): a Ready poll_write reports the whole length, so WriteAll is finished *)
Definition crypt_write (enc : bytes -> bytes -> bytes -> bytes) (ew : ewrite) (rest : bytes) : ewrite * bytes * wstat :=
  match ew_poll_write enc ew rest with (ew', WReady) => (ew', [], WReady) | (ew', r) => (ew', rest, r) end.
Definition crypt_flush (enc : bytes -> bytes -> bytes -> bytes) (ew : ewrite) : ewrite * wstat := ew_poll_flush enc ew.
