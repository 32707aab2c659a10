(** How large a message between the server and its clients may be (cmd/rq/main.go:125 and internal/commands/home.go:58-62 set no limits, so
    gRPC's defaults hold). *)
From Verif.Model Require Import Base Store Otlp Visit Query.
From Verif.Spec Require Import Translator.

(** External, grpc-go: defaultServerMaxReceiveMessageSize and defaultClientMaxReceiveMessageSize, for the server made at cmd/rq/main.go:125 and
    the client connected at internal/commands/home.go:58-62: 4 MiB. *)
Definition max_message : N := 4194304.
Section MessageSize.
(** The encoded size of a payload (protobuf, external). *)
Context (size : data -> N).
(** External, grpc-go, for the Export methods (internal/service/service.go:130-192) served by cmd/rq/main.go:125: a request larger than the limit is refused. *)
Definition receivable (d : data) : bool := size d <=? max_message.
Context (I : tr_impl) (h h0 : string -> N) (kvb : key_value -> string).
(** internal/js/rq.go:78-99 Scan over the connection of internal/commands/home.go:58-62, as [query] in Query.v but with the limit: what the
    server's Scan found is sent as one message (internal/service/api.go:12-14), before the client trims it. *)
Definition query_sized (st : store I) (e : env) (client : Z) (sc : scan) (order : nset -> list (N * list N)) : answer :=
  match do_scan I h kvb st e sc order with
  | SData o => if receivable (over_grpc o) then query I h h0 kvb st e client sc order else AError
  | _ => query I h h0 kvb st e client sc order
  end.
End MessageSize.
