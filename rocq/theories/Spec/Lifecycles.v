(** Parts of a server that need each other, and what it is to be open. *)
From Verif.Model Require Import Base Server.

(** To work, this part needs that one: labels, sample numbers and samples are kept in the database; the service translates, numbers,
    stores and indexes; the gRPC server listens on its address and hands requests to the service; so does the server's own telemetry. *)
Inductive needs : part -> part -> Prop :=
| labels_in_database : needs Translator Database
| numbers_in_database : needs SampleSequence Database
| samples_in_database : needs Api Database
| service_translates : needs Api Translator
| service_numbers : needs Api SampleSequence
| service_indexes : needs Api Index
| server_listens : needs RpcServer Listener
| requests_served : needs RpcServer Api
| telemetry_served : needs Telemetry Api.

(** After the events [l] the part is open. *)
Definition is_open (l : list event) (p : part) : Prop := In (Opened p) l /\ ~ In (Closed p) l.
(** The order in which the parts are opened, and those whose opening can fail. *)
Definition order : list part := [Database; Translator; Index; SampleSequence; Api; Listener; RpcServer; Telemetry].
Definition can_fail (p : part) : Prop := p <> Index /\ p <> RpcServer.
