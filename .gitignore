.lia.cache
.nia.cache
*.vo
*.vos
*.vok
*.glob
*.aux
rocq/Makefile
rocq/Makefile.conf
rocq/.Makefile.d
.coqdeps.d
.nra.cache
