#!/bin/bash
# build, regenerate the manifest, commit, vcheck:  tools/commit.sh MESSAGE [NEWFILE...]
cd /verif
msg="$1"; shift
for n in "$@"; do grep -q "theories/$n.v" rocq/_CoqProject || echo "theories/$n.v" >> rocq/_CoqProject; done
(cd rocq && coq_makefile -f _CoqProject -o Makefile && timeout 2400 make -j3 2>&1 | grep -A12 -E "^File|Error" | head -40)
python3 tools/gen_manifest.py && git add -A && git commit -qm "$msg" && vcheck 2>&1 | tail -1 | grep -oE '"(manifest_status|gate|why|wall|manifest_missing)": [^]}]*[]}]?'
