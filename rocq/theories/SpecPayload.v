(** Specifications for the payload properties. *)
From Verif Require Import Base Spec Payload.

(** [n] bytes cannot be allocated *)
Definition too_big (E : env) (n : N) : Prop := mem E < n \/ ISIZE_MAX < n.
(** a value survives being sent: it encodes, the encoding is small enough to be allocated, and decodes to the value *)
Definition survives {A} (E : env) (p : payload A) (a : A) : Prop :=
  exists l, p_enc p a = Ok l /\ ~ too_big E (blen l) /\ p_dec p l = Ok a.

(** nesting *)
Fixpoint nest_type (n : nat) (A : Type) : Type := match n with O => A | S n' => (A * nest_type n' A)%type end.
Fixpoint nest {A} (E : env) (n : nat) (p : payload A) : payload (nest_type n A) :=
  match n with O => p | S n' => tandem E p (nest E n' p) end.
Fixpoint nest_all {A} (P : A -> Prop) (n : nat) : nest_type n A -> Prop :=
  match n with O => P | S n' => fun v => P (fst v) /\ nest_all P n' (snd v) end.
Fixpoint nest_size {A} (p : payload A) (n : nat) : nest_type n A -> N :=
  match n with
  | O => fun a => match p_enc p a with Ok l => blen l | _ => 0 end
  | S n' => fun v => 16 + match p_enc p (fst v) with Ok l => blen l | _ => 0 end + nest_size p n' (snd v)
  end.
(** why decoding a tandem crashes *)
Definition tandem_crash {A B} (E : env) (p : payload A) (q : payload B) (l : bytes) : Prop :=
  (exists n r, l = be 8 n ++ r /\ n < U64 /\ too_big E n)
  \/ (exists x n r, l = be 8 (blen x) ++ x ++ be 8 n ++ r /\ ~ too_big E (blen x) /\ n < U64 /\ too_big E n)
  \/ (exists x y extra, l = be 8 (blen x) ++ x ++ be 8 (blen y) ++ y ++ extra
      /\ ~ too_big E (blen x) /\ ~ too_big E (blen y)
      /\ ((exists c, p_dec p x = Crash c) \/ (exists a c, p_dec p x = Ok a /\ p_dec q y = Crash c))).

(** what the Rust type [ErrorEventData] guarantees: u16 code, UTF-8 message *)
Definition rust_err (d : err_data) : Prop := ed_code d < U16 /\ is_text (ed_message d).

