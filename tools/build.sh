#!/bin/bash
# regenerate the file list in rocq/_CoqProject and build
cd "$(dirname "$0")/../rocq" || exit 1
{ echo "-Q theories Verif"; echo; find theories -name '*.v' | sort; } > _CoqProject
coq_makefile -f _CoqProject -o Makefile >/dev/null && timeout ${T:-300} make -j4 2>&1 | grep -v '^COQDEP\|^COQC\|Closed under' | tail -${L:-40}
