#!/bin/sh
# Rebuilds the part of seeded/LOG.jsonl that comes from tools/automut.py; the hand-made lines (M…) stay.
# relog.sh prefix=results[:retry] …
cd "$(dirname "$0")/.." || exit 1
grep '"id": "M' seeded/LOG.jsonl > /tmp/relog.$$
for a in "$@"; do
  p=${a%%=*}; f=${a#*=}; r=${f#*:}; f=${f%%:*}
  if [ "$r" = "$f" ]; then r=/dev/null; fi
  python3 tools/autolog.py "$p" "$f" "$r" seeded/notes.json >> /tmp/relog.$$
done
mv /tmp/relog.$$ seeded/LOG.jsonl
wc -l seeded/LOG.jsonl
