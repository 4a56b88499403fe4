(** What the SSL modes promise, on the attempts that were made. *)
From Verif Require Import PyStr Tls.
Open Scope list_scope.

Definition encrypted (t : transport) : Prop := t <> Plain.
(** the server's certificate *)
Record server : Type := Server { sv_trusted : bool; sv_name : bool }.
(** A TLS library never establishes a connection that its context forbids. *)
Definition permits (s : server) (t : transport) : Prop :=
  match t with
  | Plain => True
  | Tls c => (verify_mode c = CertRequired -> sv_trusted s = true) /\ (check_hostname c = true -> sv_name s = true)
  end.
Definition honest (s : server) (env : environment) : Prop := forall n t, env n t = Established -> permits s t.

(** the promise of a mode about the attempts *)
Definition policy (m : option ssl_mode) (l : list attempt) : Prop :=
  match m with
  | None | Some Disable => forall t o, In (t, o) l -> t = Plain
  | Some Prefer => exists t o r, l = (t, o) :: r /\ encrypted t /\ (r <> [] -> o <> Established)
  | Some Allow => exists o r, l = (Plain, o) :: r /\ (forall t p, In (t, p) r -> encrypted t) /\ (r <> [] -> o <> Established)
  | Some Require => forall t o, In (t, o) l -> encrypted t
  | Some VerifyCA => forall t o, In (t, o) l -> exists c, t = Tls c /\ verify_mode c = CertRequired /\ check_hostname c = false
  | Some VerifyFull => forall t o, In (t, o) l -> exists c, t = Tls c /\ verify_mode c = CertRequired /\ check_hostname c = true
  end.
(** the transport of the connection that was handed to the caller *)
Definition connected (l : list attempt) (o : outcome) (t : transport) : Prop :=
  o = Established /\ exists r, l = r ++ [(t, Established)].
