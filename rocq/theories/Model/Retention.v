(** The retention period (cmd/rq/main.go:53-57 and 112, internal/service/service.go:43-75). *)
From Verif.Model Require Import Base Store.
From Verif.Spec Require Import Translator.

(** cmd/rq/main.go:53-57: the default, one week in nanoseconds. *)
Definition default_retention : Z := (7 * 24 * 3600 * 1000000000)%Z.
(** internal/service/service.go:43-75, NewService as called at cmd/rq/main.go:112, as far as the stored data goes: nothing in it, nor in
    any other function of the repository, looks at the parameter [retention]. *)
Definition new_service {I : tr_impl} (retention : Z) (st : store I) : store I := st.
