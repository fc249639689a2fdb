*.vo
*.vos
*.vok
*.glob
*.aux
.*.aux
.lia.cache
.nia.cache
.coqdeps.d
*.crashcoqide
rocq/Makefile
rocq/Makefile.conf
rocq/.Makefile.d
