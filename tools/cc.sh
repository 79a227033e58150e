#!/bin/sh
# compile the given modules (paths relative to rocq/theories, without .v)
cd "${ROCQ_DIR:-/verif/rocq}" || exit 1
for f in "$@"; do echo "== $f"; timeout ${T:-600} coqc -Q theories Verif theories/$f.v || exit 1; done
