(** A query from the command line to the store and back: internal/js/rq.go Scan with the scan function that
    internal/commands/query/query.go:70-72 installs, which calls internal/service/api.go:12-14 over gRPC.
    Simplifications: gRPC delivers the answer unchanged, except that a nil answer arrives as an empty message
    (protobuf encodes both as no bytes), and that answers above 4 MiB fail (Model/MessageSize.v, C110); a panic of the server ends the server, the client sees an error. *)
From Verif.Model Require Import Base Store Otlp Visit.
From Verif.Model Require Import View.
From Verif.Spec Require Import Translator.

(** internal/js/rq.go:78-99: what a script gets from a scan. *)
Inductive answer := AError | ACrash | AData (d : data).
(** External, gRPC (internal/commands/query/query.go:70-72): what arrives of the server's answer. *)
Definition over_grpc (o : option data) : data := match o with Some d => d | None => DNone end.
Section Query.
Context (I : tr_impl) (h h0 : string -> N) (kvb : key_value -> string).
(** internal/js/rq.go:78-99 Scan. [e] is what the server meets (its clock, failing reads), [client] the clock of the
    client. [ACrash] is a panic of the script's process. *)
Definition query (st : store I) (e : env) (client : Z) (sc : scan) (order : nset -> list (N * list N)) : answer :=
  match do_scan I h kvb st e sc order with
  | SErr | SPanic => AError
  | SData o => match js_scan h h0 client sc (Some (over_grpc o)) with
               | None => ACrash
               | Some None => AData DNone
               | Some (Some d) => AData d
               end
  end.
End Query.
