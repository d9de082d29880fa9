.lia.cache
.nia.cache
.nra.cache
.lra.cache
*.vo
*.vok
*.vos
*.glob
*.aux
rocq/Makefile
rocq/Makefile.conf
rocq/.Makefile.d
