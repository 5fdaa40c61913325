#!/bin/sh
# Evaluate the repository's costly test vectors on the model (needs a built rocq/).
set -e
here=$(cd "$(dirname "$0")" && pwd)
tmp=$(mktemp -d)
for f in "$here"/vectors/*.txt; do
  n=$(basename "$f" .txt)
  cp "$f" "$tmp/$n.v"
  coqc -Q "$here/../rocq/theories" Verif "$tmp/$n.v"
  echo "$n: ok"
done
rm -rf "$tmp"
